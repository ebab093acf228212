(** Specification vocabulary for vehicles: maps of space and what the options
    of a component mean. *)
From Coq Require Import Reals String List.
From Verif Require Import Num NumR Py M_Vector M_Path M_Surface M_Geometry M_Component M_Vehicle SpecR3 SpecSurf.
Import ListNotations.
Local Open Scope R_scope.

(** a map of space that may fail *)
Definition pmap := pt -> res pt.
Definition and_then (F G : pmap) : pmap := fun p => match F p with Ok q => G q | Raise e => Raise e end.
(** the maps of a list, first one first *)
Definition in_order (l : list pmap) : pmap := fold_right and_then (fun p => Ok p) l.

(** u' is u followed by F *)
Definition moved (F : pmap) (u u' : surf R) : Prop :=
  forall r s, u' r s = match u r s with Ok p => F p | Raise e => Raise e end.

(** a displacement that depends on the point *)
Definition displaced (f : R -> R -> option R -> res pt) : pmap := fun p =>
  match f (vx p) (vy p) (Some (vz p)) with Ok o => Ok (translate p o) | Raise e => Raise e end.

(** bending along x or y: the point over the mean surface, at distance z along
    the unit normal of slope fd *)
Record bend := mkBend { along_x : bool; offset_of : R -> R -> res R; slope_of : R -> R -> res R }.
Definition bent (b : bend) : pmap := fun p =>
  match offset_of b (vx p) (vy p), slope_of b (vx p) (vy p) with
  | Raise e, _ => Raise e
  | Ok _, Raise e => Raise e
  | Ok o, Ok m => Ok (plus_scaled (V3 (vx p) (vy p) o) (vz p)
      (if along_x b then V3 (- m / sqrt (1 + m * m)) 0 (1 / sqrt (1 + m * m))
       else V3 0 (- m / sqrt (1 + m * m)) (1 / sqrt (1 + m * m))))
  end.

(** right-handed rotation about an axis through the origin *)
Definition turned (degrees : R) (axis : string) : pmap := fun p =>
  Ok (rodrigues (axis_vec axis) origin (degrees * (PI / 180)) p).
Definition mirrored_in (axis : string) : pmap := fun p => Ok (reflect (axis_vec axis) p).

(** documented transformations *)
Inductive motion :=
| Turn (degrees : R) (axis : string)
| Slide (v : pt)
| Flow (f : R -> R -> option R -> res pt).
Definition motion_map (m : motion) : pmap :=
  match m with
  | Turn a axis => turned a axis
  | Slide v => fun p => Ok (translate p v)
  | Flow f => displaced f
  end.
Definition motion_ok (m : motion) : Prop := match m with Turn _ axis => is_axis axis | _ => True end.
(** as the user writes it *)
Definition written (m : motion) : transformation R :=
  match m with
  | Turn a axis => ("rotate"%string, [ANum a; AStr axis])
  | Slide v => ("translate"%string, [AVec v])
  | Flow f => ("translate"%string, [AFun f])
  end.

(** the options of a component *)
Record plan := mkPlan {
  p_modifier : option (R -> R -> option R -> res pt);
  p_bends : list bend;
  p_axis : option string;
  p_append : bool;
  p_motions : list motion
}.
Definition plan_ok (p : plan) : Prop :=
  (forall a, p_axis p = Some a -> is_axis a) /\ Forall motion_ok (p_motions p).
Definition written_bend (b : bend) : string * option (cfun R) * option (cfun R) :=
  (if along_x b then "x"%string else "y"%string, Some (offset_of b), Some (slope_of b)).
Definition planned (c : comp R) (p : plan) : Prop :=
  c_modifier c = p_modifier p /\
  (c_curvatures c = Some (map written_bend (p_bends p)) \/ c_curvatures c = None /\ p_bends p = []) /\
  c_axis c = p_axis p /\ c_append c = p_append p /\
  c_transformations c = map written (p_motions p).

(** the maps before and after the reflection *)
Definition before_reflection (p : plan) (angle : R) : list pmap :=
  (match p_modifier p with Some f => [displaced f] | None => [] end)
  ++ map bent (p_bends p) ++ [turned angle "y"].
Definition after_reflection (p : plan) (more : list motion) : list pmap := map motion_map (p_motions p ++ more).

(** the same entries in the same order, under new keys, each moved by F *)
Definition relates (key : string -> string) (F : pmap) (d d' : dict (surf R)) : Prop :=
  Forall2 (fun a b => fst b = key (fst a) /\ moved F (snd a) (snd b)) d d'.
Definition same_key (k : string) : string := k.
Definition mirror_key (k : string) : string := (k ++ "_mirrored")%string.

(** the patches of a finished component, from the generated ones *)
Definition finished (p : plan) (angle : R) (more : list motion) (g d : dict (surf R)) : Prop :=
  let A := before_reflection p angle in
  let B := after_reflection p more in
  match p_axis p with
  | None => relates same_key (in_order (A ++ B)) g d
  | Some axis =>
      if p_append p then
        exists d1 d2, d = d1 ++ d2 /\ relates same_key (in_order (A ++ B)) g d1 /\
                      relates mirror_key (in_order (A ++ mirrored_in axis :: B)) g d2
      else relates mirror_key (in_order (A ++ mirrored_in axis :: B)) g d
  end.

(** no generated key is another one with _mirrored appended *)
Definition plain_keys (g : dict (surf R)) : Prop :=
  NoDup (dkeys g) /\ forall k, In k (dkeys g) -> ~ In (mirror_key k) (dkeys g).

(** ** components in a heap *)

(** the dictionary of a component *)
Definition patches_at (h : heap R) (i : nat) : option (dict (surf R)) :=
  match nth_error (comps h) i with Some c => nth_error (dicts h) (c_patches c) | None => None end.

(** a single component whose class generates the patches g; its dictionary is
    still empty or is replaced *)
Definition builds_own (h : heap R) (i : nat) (g : dict (surf R)) : Prop :=
  exists c replaces rr rs, nth_error (comps h) i = Some c /\ c_kind c = Own replaces (Ok (g, rr, rs)) /\
    NoDup (dkeys g) /\ (replaces = true \/ patches_at h i = Some []).

(** the entries of several dictionaries, those of dictionary n under key_n *)
Fixpoint joined (n : nat) (gs : list (dict (surf R))) : dict (surf R) :=
  match gs with
  | [] => []
  | g :: gs' => map (fun kp => ((fst kp ++ "_" ++ str_nat n)%string, snd kp)) g ++ joined (S n) gs'
  end.
Definition builds (h : heap R) (i : nat) (g : dict (surf R)) : Prop :=
  builds_own h i g \/
  exists c children gs, nth_error (comps h) i = Some c /\ c_kind c = Composite children /\
    Forall2 (builds_own h) children gs /\ g = joined 0 gs.

(** a component with its children *)
Definition with_children (h : heap R) (i : nat) : list nat :=
  i :: match nth_error (comps h) i with
       | Some c => match c_kind c with Composite chs => chs | Own _ _ => [] end
       | None => []
       end.

(** no two components share a dictionary *)
Definition separate (h : heap R) : Prop :=
  (forall j, j < length (comps h) -> patches_at h j <> None)%nat /\
  (forall j k c c', nth_error (comps h) j = Some c -> nth_error (comps h) k = Some c' -> j <> k -> c_patches c <> c_patches c').

(** component i, with object c, generates g and has the options p *)
Definition ready (h : heap R) (i : nat) (g : dict (surf R)) (p : plan) : Prop :=
  builds h i g /\ plain_keys g /\ plan_ok p /\ exists c, nth_error (comps h) i = Some c /\ planned c p.

(** a component that writes into its existing dictionary *)
Definition writes_in_place (h : heap R) (i : nat) : Prop :=
  exists c gen, nth_error (comps h) i = Some c /\ c_kind c = Own false gen.
Definition keys_apart (g : dict (surf R)) : Prop :=
  NoDup (dkeys g ++ map mirror_key (dkeys g) ++ map (fun k => mirror_key (mirror_key k)) (dkeys g)).
