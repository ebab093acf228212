(** Model of src/hypervehicle/hangar/htv.py and of the constructor
    components/wing.py:29-171 on the heap of M_Vehicle.v.

    scipy.optimize.bisect is a parameter.  As in M_Hangar.v the attributes are
    read before the rest of create_instance runs.  Division is total here; in
    Python a zero L_nom or body_width_nom raises ZeroDivisionError. *)
From Coq Require Import ZArith Bool String List.
From Verif Require Import Num Py M_Vector M_Path M_Surface M_Geometry M_Mesh M_Component M_Common M_Wing M_Vehicle M_VecHeap M_Sens M_Gen M_Hangar.
Import ListNotations.
Local Open Scope string_scope.

Section Htv.
  Context {T : Type} {N : Num T}.
  Notation M := (M (T := T)).
  Variable bisect : (T -> res T) -> T -> T -> res T.

  (* wing.py:29-171 -- Wing(...): the search for t_B1 runs in the constructor *)
  Definition new_wing (w : wing T) (r : resolution) (name : option string) : M nat :=
    bindM (new_object "wing" (Own false (let! d := wing_patches bisect w in Ok (d, [], []))) r name) (fun i =>
    bindM (lift (wing_t_B1 bisect w)) (fun _ => ret i)).

  (* htv.py:48-56 -- Line_B0TT *)
  Definition htv_line (L body_width : T) : res (path T) :=
    let TT := vec2 L n0 in
    let B0 := vec2 n0 (ndiv body_width n2) in
    let B1 := vec2 (nmul (nlit 15 100) L) (vy B0) in
    Polyline [Line B0 B1; Line B1 TT].
  (* htv.py:58-62 -- get_local_width *)
  Definition htv_local_width (line : path T) (x : T) : res T :=
    let! t := bisect (fun t => let! p := p_call line t in Ok (nsub (vx p) x)) n0 n1 in
    let! p := p_call line t in
    Ok (nmul n2 (vy p)).
  (* htv.py:64-80 -- wing1_tf_top *)
  Definition htv_top (line : path T) (L h t_LE : T) : tfun T := fun x y _ =>
    let! local_width := htv_local_width line x in
    let inner := nsub local_width (nmul n2 t_LE) in
    let z_val :=
      if nltb y (nmul nhalf inner) then
        nadd (nmul (nmul nhalf (nsub h t_LE)) (ncos (ndiv (nmul (nmul n2 npi) y) inner))) (nmul nhalf (nadd h t_LE))
      else if neqb y (nmul nhalf inner) then t_LE else t_LE in
    let z_val := nmul z_val (nadd (nsub L x) (nlit 5 100)) in
    Ok (V3 n0 n0 (nneg z_val)).
  (* htv.py:82-85 -- wing1_tf_bot *)
  Definition htv_bot (t_LE : T) : tfun T := fun _ _ _ => Ok (V3 n0 n0 (nmul (nlit 2 10) t_LE)).
  (* htv.py:87-103 -- the body; lewf is constant *)
  Definition htv_body (line : path T) (L body_width h t_LE : T) : wing T :=
    mkWing (vec2 n0 n0) (vec2 (nmul (nlit 15 100) L) n0) (vec2 L n0) (vec2 n0 (ndiv body_width n2))
      line "Bezier" None None (htv_top line L h t_LE) (htv_bot t_LE) (Some (fun _ => Ok (nlit 1 100)))
      "custom" "FLAP" n0 n0 false.

  (* htv.py:108-143 -- the flap *)
  Definition htv_flap_length (L L_nom : T) : T := nmul (nlit 2 10) (ndiv L L_nom).
  Definition htv_flap_gap (body_width body_width_nom : T) : T := nmul (nlit 1 100) (ndiv body_width body_width_nom).
  Definition htv_flap (L body_width t_LE flap_angle L_nom body_width_nom : T) : res (wing T) :=
    let flap_length := htv_flap_length L L_nom in
    let flap_gap := htv_flap_gap body_width body_width_nom in
    let offset := nmul (nlit 1 10) t_LE in
    let side := nadd n0 (nmul nhalf flap_gap) in
    let A0f := vec2 flap_length side in
    let A1f := vec2 (nadd flap_length (nmul (nlit 5 100) L)) side in
    let TTf := vec2 (nadd flap_length (nmul (nlit 1 10) L)) side in
    let B0f := vec2 flap_length (nadd (ndiv (nmul (nlit 8 10) body_width) n2) (nmul nhalf flap_gap)) in
    let B1f := vec2 (vx A1f) (nmul nhalf (vy B0f)) in
    let! line := Polyline [Line B0f B1f; Line B1f TTf] in
    Ok (mkWing A0f A1f TTf B0f line "Bezier" None None
          (fun _ _ _ => Ok (V3 n0 n0 (nsub (nneg t_LE) offset)))
          (fun _ _ _ => Ok (V3 n0 n0 (nsub (nmul (nlit 2 10) t_LE) offset)))
          None "custom" "FLAP" flap_length (ndeg2rad flap_angle) false).

  (** add_component(component, reflection_axis="y") *)
  Definition reflected_y : add_args T := mkAdd None (Some "y") true None None None None false.

  (* htv.py:37-147 -- create_instance *)
  Definition htv_vehicle (L body_width h t_LE flap_angle L_nom body_width_nom : T) : M (vehicle T) :=
    bindM (lift (htv_line L body_width)) (fun line =>
    bindM (new_wing (htv_body line L body_width h t_LE) (ResInt 5) None) (fun wing =>
    bindM (add (configured "Hypersonic Technology Vehicle") wing reflected_y) (fun htv =>
    bindM (lift (htv_flap L body_width t_LE flap_angle L_nom body_width_nom)) (fun fw =>
    bindM (new_wing fw (ResInt 5) None) (fun flap_wing =>
    bindM (deepcopy_comp flap_wing) (fun copy =>
    bindM (add htv copy default_add) (fun htv =>
      add htv flap_wing reflected_y))))))).

  (* htv.py:20-35; h_nom and t_LE_nom are never read *)
  Definition ParametricHTV : generator (pval T) (M (vehicle T)) :=
    mkGen []
      [SetAttr "L" (fun _ => Ok (PNum n1)); SetAttr "body_width" (fun _ => Ok (PNum nhalf));
       SetAttr "h" (fun _ => Ok (PNum (nlit 1 10))); SetAttr "t_LE" (fun _ => Ok (PNum (nlit 1 100)));
       SetAttr "flap_angle" (fun _ => Ok (PNum (nZ 15)));
       SetAttr "L_nom" (fun _ => Ok (PNum n1)); SetAttr "body_width_nom" (fun _ => Ok (PNum (nlit 8 10)));
       SetAttr "h_nom" (fun _ => Ok (PNum (nlit 2 10))); SetAttr "t_LE_nom" (fun _ => Ok (PNum (nlit 25 1000))); SuperInit]
      (fun self =>
         let! L := number self "L" in let! bw := number self "body_width" in let! h := number self "h" in
         let! t := number self "t_LE" in let! a := number self "flap_angle" in
         let! Ln := number self "L_nom" in let! bn := number self "body_width_nom" in
         Ok (htv_vehicle L bw h t a Ln bn)).
End Htv.
