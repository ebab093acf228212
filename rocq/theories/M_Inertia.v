(** Model of the inertial analysis: utilities.py:150-242
    (assess_inertial_properties) and vehicle.py:424-480 (Vehicle.analyse).

    numpy-stl's get_mass_properties_with_density and areas are parameters of
    the model: any functions of the mesh (and the density).  numpy arrays of
    length 3 are vectors and 3x3 arrays are three rows.  A zero total mass of a
    non-empty vehicle is a numpy scalar, so the division at utilities.py:209
    does not raise; with no components it is the Python integer 0 and raises.
    The dictionaries masses, cgs, ... filled in the first loop and read in the
    same order in the later ones are modelled by the list of their rows. *)
From Coq Require Import ZArith Bool String List.
From Verif Require Import Num Py M_Vector M_Path M_Surface M_Geometry M_Mesh M_Component M_Vehicle.
Import ListNotations.

(** 3x3 arrays, by rows *)
Record mat (T : Type) := M3 { row0 : vec T; row1 : vec T; row2 : vec T }.
Arguments M3 {T}.
Arguments row0 {T} m.
Arguments row1 {T} m.
Arguments row2 {T} m.

Section Inertia.
  Context {T : Type} {N : Num T}.
  Notation mesh := (list (tri T)).

  Record measures := mkMeasures { m_volume : T; m_mass : T; m_cog : vec T; m_inertia : mat T; m_area : T }.
  Record properties := mkProperties { p_mass : T; p_volume : T; p_area : T; p_cog : vec T; p_moi : mat T }.

  (* 0 followed by += *)
  Definition accumulate {A} (f : A -> T) (l : list A) : T := fold_left (fun acc a => nadd acc (f a)) l n0.
  (* m * array *)
  Definition times (m : T) (v : vec T) : vec T := V3 (nmul m (vx v)) (nmul m (vy v)) (nmul m (vz v)).
  Definition vzero : vec T := V3 n0 n0 n0.
  Definition madd (a b : mat T) : mat T := M3 (vadd (row0 a) (row0 b)) (vadd (row1 a) (row1 b)) (vadd (row2 a) (row2 b)).
  Definition mzero : mat T := M3 vzero vzero vzero.
  (* 3x3 array + array of length 3: numpy adds the vector to every row *)
  Definition broadcast (a : mat T) (v : vec T) : mat T := M3 (vadd (row0 a) v) (vadd (row1 a) v) (vadd (row2 a) v).
  (* r**2 *)
  Definition vsquare (v : vec T) : vec T := V3 (nsq (vx v)) (nsq (vy v)) (nsq (vz v)).

  (* utilities.py:202-209 -- composite_cog *)
  Definition composite_cog (l : list measures) : vec T :=
    times (ndiv n1 (accumulate m_mass l)) (fold_left (fun acc c => vadd acc (times (m_mass c) (m_cog c))) l vzero).
  (* utilities.py:216-217 -- I_adj *)
  Definition shifted (cog : vec T) (c : measures) : mat T :=
    broadcast (m_inertia c) (times (m_mass c) (vsquare (vsub (m_cog c) cog))).
  (* utilities.py:211-220 *)
  Definition composite_inertia (l : list measures) : mat T :=
    fold_left (fun acc c => madd acc (shifted (composite_cog l) c)) l mzero.

  (* utilities.py:202-229; 1 / total_mass raises if there is no component *)
  Definition composite_properties (l : list measures) : res properties :=
    match l with
    | [] => Raise ZeroDivisionError
    | _ => Ok (mkProperties (accumulate m_mass l) (accumulate m_volume l) (accumulate m_area l)
                 (composite_cog l) (composite_inertia l))
    end.

  Section Parameters.
    (* numpy-stl: volume, mass, centre of gravity and inertia of a mesh *)
    Variable mass_properties : mesh -> T -> T * T * vec T * mat T.
    Variable areas : mesh -> list T.

    (* utilities.py:187-192: the mesh is read before the density is looked up *)
    Definition measure (densities : dict T) (nc : string * nat) : M (T := T) measures :=
      bindM (comp_mesh (snd nc)) (fun m =>
      match dget densities (fst nc) with
      | None => throw KeyError
      | Some rho =>
          let '(volume, vmass, cog, inertia) := mass_properties m rho in
          bindM (comp_mesh (snd nc)) (fun m =>
          ret (mkMeasures volume vmass cog inertia (accumulate (fun x => x) (areas m))))
      end).
    Fixpoint measure_all (densities : dict T) (l : dict nat) : M (T := T) (dict measures) :=
      match l with
      | [] => ret []
      | nc :: l' => bindM (measure densities nc) (fun c =>
                    bindM (measure_all densities l') (fun cs => ret ((fst nc, c) :: cs)))
      end.

    (* utilities.py:150-242 -- vehicle_properties and component_properties *)
    Definition assess (v : vehicle T) (densities : dict T) (h : heap T) : heap T * vehicle T * res (properties * dict measures) :=
      let '(h, v, r) := if v_generated v then (h, v, Ok tt) else generate v h in
      match r with
      | Raise e => (h, v, Raise e)
      | Ok _ =>
          match measure_all densities (v_named v) h with
          | (h, Raise e) => (h, v, Raise e)
          | (h, Ok cs) => (h, v, let! p := composite_properties (map snd cs) in Ok (p, cs))
          end
      end.

    (* vehicle.py:424-480 -- analyse returns (volume, mass, cog, moi); the
       attributes it stores are those of [properties].  The pandas summary
       table is in M_Output. *)
    Definition analyse (v : vehicle T) (densities : dict T) (h : heap T) : heap T * vehicle T * res (T * T * vec T * mat T) :=
      let '(h, v, r) := assess v densities h in
      (h, v, let! ps := r in Ok (p_volume (fst ps), p_mass (fst ps), p_cog (fst ps), p_moi (fst ps))).

    (* vehicle.py:229-241 -- generate when analysis on generation is enabled;
       analysis_results holds volume, mass, cog and moi *)
    Definition generate_analysed (v : vehicle T) (densities : dict T) (h : heap T) :=
      match generate v h with
      | (h, v, Raise e) => (h, v, Raise e)
      | (h, v, Ok _) => analyse v densities h
      end.
  End Parameters.

  (* vehicle.py:488-495 -- get_non_ghost_components *)
  Definition non_ghost (v : vehicle T) (h : heap T) : dict nat :=
    fold_left (fun acc nc => match nth_error (comps h) (snd nc) with
                             | Some c => if c_ghost c then acc else dset acc (fst nc) (snd nc)
                             | None => acc
                             end) (v_named v) [].
End Inertia.
Arguments measures T : clear implicits.
Arguments properties T : clear implicits.
