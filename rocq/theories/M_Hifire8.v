(** Model of src/hypervehicle/hangar/hifire8.py.

    scipy.optimize.bisect is a parameter.  As in M_Hangar.v the attributes are
    read before the rest of create_instance runs.  np.arctan(q) is natan2 q 1.
    np.sqrt of a negative number, nan with a warning in numpy, is what nsqrt
    makes of it (0 in the reals). *)
From Coq Require Import ZArith Bool String List.
From Verif Require Import Num Py M_Vector M_Path M_Surface M_Geometry M_Mesh M_Component M_Common M_Wing M_Fin M_Vehicle M_VecHeap M_Sens M_Gen M_Hangar M_Htv M_X43.
Import ListNotations.
Local Open Scope string_scope.

Section Hifire8.
  Context {T : Type} {N : Num T}.
  Notation M := (M (T := T)).
  Variable bisect : (T -> res T) -> T -> T -> res T.

  (* hifire8.py:14-23 -- leading_edge_width_function *)
  Definition h8_width (r : T) : res T :=
    let! p := p_call (Bezier [vec2 n0 (nlit 1 100); vec2 nhalf (nlit 1 10); vec2 n1 (nlit 1 100)]) r in
    Ok (vy p).

  (* hifire8.py:172-176 *)
  Definition h8_wing_L : T := nlit 13 10.
  Definition h8_wing_thickness : T := nlit 4 100.
  Definition h8_wing_width : T := nlit 4 10.
  Definition h8_wing_origin : T := nlit 2 10.
  Definition h8_flap_length : T := nlit 2 10.
  (* hifire8.py:179-187 *)
  Definition h8_A0 : vec T := vec2 h8_wing_origin n0.
  Definition h8_A1 : vec T := vec2 (nadd (vx h8_A0) (nmul nhalf h8_wing_L)) n0.
  Definition h8_TT : vec T := vec2 (nadd (vx h8_A0) h8_wing_L) n0.
  Definition h8_B0 : vec T := vec2 (vx h8_A0) h8_wing_width.
  Definition h8_B1 : vec T := vec2 (nadd (vx h8_A0) (nmul (nlit 1 10) h8_wing_L)) (vy h8_B0).
  Definition h8_B2 : vec T := vec2 (vx h8_A1) (nmul nhalf h8_wing_width).
  Definition h8_B3 : vec T := vec2 (vx h8_TT) (nmul (nlit 13 100) h8_wing_width).
  (* hifire8.py:190-194 *)
  Definition h8_edge : res (path T) := Polyline [Line h8_B0 h8_B1; Line h8_B1 h8_B2; Line h8_B2 h8_B3; Line h8_B3 h8_TT].
  (* hifire8.py:196-207 -- wing *)
  Definition h8_wing (line : path T) : wing T :=
    mkWing h8_A0 h8_A1 h8_TT h8_B0 line "Bezier" None None
      (uniform_thickness_function h8_wing_thickness "top") (uniform_thickness_function h8_wing_thickness "bot") (Some h8_width) "custom" "FLAP"
      h8_flap_length n0 false.

  (* hifire8.py:90-93 *)
  Definition h8_fin_length : T := nlit 4 10.
  Definition h8_fin_height : T := nmul (nlit 4 10) h8_fin_length.
  Definition h8_fin_thickness : T := nmul (nlit 2 100) h8_fin_length.
  Definition h8_fin_angle : T := ndeg2rad (nZ (90 - 45)).
  (* hifire8.py:104-160 -- a fin with the given corners and angle *)
  Definition h8_fin (p0 p1 p2 p3 : vec T) (angle : T) : fin T :=
    mkFin p0 p1 p2 p3 h8_fin_thickness angle
      (uniform_thickness_function h8_fin_thickness "top") (uniform_thickness_function h8_fin_thickness "bot") (Some h8_width)
      "flat" n0 n0 n0 (vec2 n0 n0) None.

  (* hifire8.py:211, 213-214 *)
  Definition h8_L_n : T := nlit 5 10.
  Definition h8_t_n : T := nlit 5 1000.
  Definition h8_w_n : T := nlit 15 100.

  Section Shape.
    Variables L R_base R_nose nozzle_length : T.

    (* hifire8.py:53-63 *)
    Definition h8_slope : T := natan2 (ndiv (nsub R_base R_nose) L) n1.
    Definition h8_X1 : T := nmul n1 L.
    Definition h8_X3 : T := nneg nozzle_length.
    Definition h8_R1 : T := nsub R_base (nmul h8_X1 (ntan h8_slope)).
    Definition h8_R2 : T := nsub R_base (nmul n0 (ntan h8_slope)).
    (* hifire8.py:65-75 *)
    Definition h8_fuse_line : res (path T) :=
      Polyline [Line (vec2 h8_X1 h8_R1) (vec2 n0 h8_R2); Line (vec2 n0 h8_R2) (vec2 h8_X3 h8_R2); Line (vec2 h8_X3 h8_R2) (vec2 h8_X3 n0)].
    Definition h8_cap_line : path T := Line (vec2 h8_X1 n0) (vec2 h8_X1 h8_R1).

    (* hifire8.py:95-97 -- eval_r_at_x *)
    Definition h8_r (x : T) : T := nsub R_base (nmul x (ntan h8_slope)).
    (* hifire8.py:99-102, 104-160 *)
    Definition h8_p0 : vec T := vec2 n0 (h8_r n0).
    Definition h8_p1 : vec T := vec2 (nmul (nlit 2 10) h8_fin_length) (nadd (h8_r (nmul (nlit 2 10) h8_fin_length)) h8_fin_height).
    Definition h8_p2 : vec T := vec2 (nmul (nlit 7 10) h8_fin_length) (nadd (h8_r (nmul (nlit 7 10) h8_fin_length)) h8_fin_height).
    Definition h8_p3 : vec T := vec2 h8_fin_length (h8_r h8_fin_length).
    Definition h8_fin1 : fin T := h8_fin h8_p0 h8_p1 h8_p2 h8_p3 h8_fin_angle.
    Definition h8_fin2 : fin T := h8_fin h8_p0 h8_p1 h8_p2 h8_p3 (nadd h8_fin_angle (ndeg2rad (nZ 90))).
    Definition h8_fin3 : fin T := h8_fin h8_p0 (vscale h8_p1 nhalf) (vscale h8_p2 nhalf) h8_p3 (ndeg2rad (nneg (nZ 90))).

    (* hifire8.py:212-217 *)
    Definition h8_r_b : T := h8_r L.
    Definition h8_side_theta : T := natan2 (ndiv (nsub h8_r_b (nmul nhalf h8_w_n)) h8_L_n) n1.
    (* hifire8.py:220-226 *)
    Definition h8_A0n : vec T := vec2 L n0.
    Definition h8_A1n : vec T := vec2 (nadd L (nmul nhalf h8_L_n)) n0.
    Definition h8_TTn : vec T := vec2 (nadd L h8_L_n) n0.
    Definition h8_B0n : vec T := vec2 (vx h8_A0n) h8_r_b.
    Definition h8_B1n : vec T := vec2 (vx h8_A1n) (nsub h8_r_b (nmul (nsub (vx h8_A1n) L) (ntan h8_side_theta))).
    Definition h8_B2n : vec T := vec2 (vx h8_TTn) (nmul nhalf h8_w_n).
    (* hifire8.py:228-232 *)
    Definition h8_nose_edge : res (path T) := Polyline [Line h8_B0n h8_B1n; Line h8_B1n h8_B2n; Line h8_B2n h8_TTn].
    (* hifire8.py:234-262 -- nose_tf_top and nose_tf_bot *)
    Definition h8_nose_z (x y : T) : T :=
      let circular := nsub n1 (nmul (ndiv n1 h8_L_n) (nsub x L)) in
      let flat := nsub n1 circular in
      nadd (nmul circular (nsqrt (nsub (nsq h8_r_b) (nsq y)))) (nmul flat h8_t_n).
    Definition h8_nose_top : tfun T := fun x y _ => Ok (V3 n0 n0 (nneg (h8_nose_z x y))).
    Definition h8_nose_bot : tfun T := fun x y _ => Ok (V3 n0 n0 (h8_nose_z x y)).
    (* hifire8.py:264-275 -- nose *)
    Definition h8_nose (line : path T) : wing T :=
      mkWing h8_A0n h8_A1n h8_TTn h8_B0n line "Bezier" None None h8_nose_top h8_nose_bot (Some h8_width) "FLAT" "FLAP" n0 n0 false.

    (* hifire8.py:278-283 *)
    Definition h8_add (axis : option string) (name : string) : add_args T := mkAdd (Some name) axis true None None None None false.

    (* hifire8.py:42-285 -- create_instance *)
    Definition h8_vehicle : M (vehicle T) :=
      bindM (lift h8_fuse_line) (fun fuse_line =>
      bindM (new_revolved fuse_line (ResInt 4) None) (fun fuselage_0 =>
      bindM (new_revolved h8_cap_line (ResInt 4) None) (fun fuselage_1 =>
      bindM (new_composite (ResInt 8) None) (fun fuselage =>
      bindM (composite_add fuselage fuselage_0 default_add) (fun _ =>
      bindM (composite_add fuselage fuselage_1 default_add) (fun _ =>
      bindM (new_fin bisect h8_fin1 (ResInt 3) None) (fun fin1 =>
      bindM (new_fin bisect h8_fin2 (ResInt 3) None) (fun fin2 =>
      bindM (new_fin bisect h8_fin3 (ResInt 3) None) (fun fin3 =>
      bindM (lift h8_edge) (fun line =>
      bindM (new_wing bisect (h8_wing line) (ResInt 4) None) (fun wing =>
      bindM (lift h8_nose_edge) (fun line =>
      bindM (new_wing bisect (h8_nose line) (ResInt 4) None) (fun nose =>
      bindM (add (configured "HIFiRE-8") fuselage (h8_add None "fuselage")) (fun v =>
      bindM (add v wing (h8_add (Some "y") "wing")) (fun v =>
      bindM (add v nose (h8_add (Some "y") "nose")) (fun v =>
      bindM (add v fin1 (h8_add None "fin1")) (fun v =>
      bindM (add v fin2 (h8_add None "fin2")) (fun v =>
        add v fin3 (h8_add None "fin3"))))))))))))))))))).
  End Shape.

  (* hifire8.py:32-40 *)
  Definition ParametricHIFiRE8 : generator (pval T) (M (vehicle T)) :=
    mkGen []
      [SetAttr "L" (fun _ => Ok (PNum (nlit 12 10))); SetAttr "R_base" (fun _ => Ok (PNum (nlit 175 1000)));
       SetAttr "R_nose" (fun _ => Ok (PNum (nlit 1 10))); SetAttr "nozzle_length" (fun _ => Ok (PNum (nlit 1 10))); SuperInit]
      (fun self =>
         let! L := number self "L" in let! Rb := number self "R_base" in
         let! Rn := number self "R_nose" in let! nl := number self "nozzle_length" in
         Ok (h8_vehicle L Rb Rn nl)).
End Hifire8.
