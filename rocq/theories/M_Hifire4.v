(** Model of src/hypervehicle/hangar/hifire4.py.

    scipy.optimize.bisect is a parameter.  As in M_Hangar.v the attributes are
    read before the rest of create_instance runs; the curvature functions read
    the two multipliers again when they are called, and here keep the values they
    had (nothing writes to them in between).  x**2 is x*x. *)
From Coq Require Import ZArith Bool String List.
From Verif Require Import Num Py M_Vector M_Path M_Surface M_Geometry M_Mesh M_Component M_Common M_Wing M_Fin M_Vehicle M_VecHeap M_Sens M_Gen M_Hangar M_Htv M_X43 M_D21.
Import ListNotations.
Local Open Scope string_scope.

Section Hifire4.
  Context {T : Type} {N : Num T}.
  Notation M := (M (T := T)).
  Variable bisect : (T -> res T) -> T -> T -> res T.

  Section Shape.
    Variables x_mult y_mult R L_n L_b : T.

    (* hifire4.py:37 *)
    Definition hf4_L_t : T := nadd L_n L_b.
    (* hifire4.py:41-45 *)
    Definition hf4_rho : T := ndiv (nadd (nsq R) (nsq L_n)) (nmul n2 R).
    Definition hf4_y_o (x : T) : T :=
      nround 6 (nsub (nadd (nsqrt (nsub (nsq hf4_rho) (nsq (nsub L_n x)))) R) hf4_rho).
    Definition hf4_a_o : vec T := vec2 n0 n0.
    Definition hf4_b_o : vec T := vec2 (nneg L_n) (hf4_y_o L_n).
    Definition hf4_c_o : vec T := vec2 (vx hf4_b_o) (nsub (vy hf4_b_o) hf4_rho).
    (* hifire4.py:46-56 *)
    Definition hf4_b1 : vec T := vsub hf4_b_o (vec2 L_b n0).
    Definition hf4_b2 : vec T := vsub hf4_b1 (vec2 n0 R).
    Definition hf4_fuseline : res (path T) :=
      Polyline [Arc hf4_a_o hf4_b_o hf4_c_o; Line hf4_b_o hf4_b1; Line hf4_b1 hf4_b2].

    (* hifire4.py:59-74 *)
    Definition hf4_curv_x (x _y : T) : T := nmul (nmul x_mult (nlit 5 100)) (nsq x).
    Definition hf4_curv_xd (x _y : T) : T := nmul (nmul (nmul x_mult (nlit 5 100)) n2) x.
    Definition hf4_curv_y (_x y : T) : T := nmul (nmul y_mult (nlit 1 10)) (nsq y).
    Definition hf4_curv_yd (_x y : T) : T := nmul (nmul (nmul y_mult (nlit 1 10)) n2) y.
    Definition hf4_curvatures : list (curvature (T := T)) :=
      [("x", Some (fun x y => Ok (hf4_curv_x x y)), Some (fun x y => Ok (hf4_curv_xd x y)));
       ("y", Some (fun x y => Ok (hf4_curv_y x y)), Some (fun x y => Ok (hf4_curv_yd x y)))].

    (* hifire4.py:91-95 *)
    Definition hf4_wing_L : T := nmul (nlit 8 10) hf4_L_t.
    Definition hf4_thickness : T := nmul (nlit 25 100) R.
    Definition hf4_span : T := nmul (nlit 35 10) R.
    Definition hf4_flap_length : T := nmul (nlit 1 10) hf4_L_t.
    (* hifire4.py:99-112 *)
    Definition hf4_A0 : vec T := vsub hf4_a_o (vec2 hf4_wing_L n0).
    Definition hf4_A1 : vec T := vec2 (nadd (vx hf4_A0) (nmul (nlit 5 10) hf4_wing_L)) n0.
    Definition hf4_TT : vec T := vsub (vec2 (nadd (vx hf4_A0) hf4_wing_L) n0) (vec2 (nlit 3 10) n0).
    Definition hf4_B0 : vec T := vec2 (vx hf4_A0) hf4_span.
    Definition hf4_B1 : vec T := vec2 (vx hf4_A1) (nmul (nlit 95 100) (vy hf4_B0)).
    Definition hf4_B2 : vec T := vec2 (vx hf4_TT) (nmul (nlit 15 100) hf4_span).
    Definition hf4_edge : res (path T) := Polyline [Line hf4_B0 hf4_B1; Line hf4_B1 hf4_B2; Line hf4_B2 hf4_TT].
    (* hifire4.py:114-125 *)
    Definition hf4_wing (line : path T) : wing T :=
      mkWing hf4_A0 hf4_A1 hf4_TT hf4_B0 line "Bezier" None None
        (uniform_thickness_function hf4_thickness "top") (uniform_thickness_function hf4_thickness "bot") None "custom" "FLAP"
        hf4_flap_length (ndeg2rad (nZ 0)) false.

    (* hifire4.py:135-148 *)
    Definition hf4_shifted (p : vec T) : vec T := vadd p (vec2 n0 (nneg (hf4_curv_x (vx p) (vy p)))).
    Definition hf4_fin_length : T := nmul (nlit 2 10) hf4_wing_L.
    Definition hf4_p0 : vec T := vsub hf4_A0 (vec2 hf4_flap_length n0).
    Definition hf4_p1 : vec T := vadd hf4_p0 (vec2 n0 R).
    Definition hf4_p2 : vec T := vadd hf4_p1 (vec2 (nmul (nlit 5 10) hf4_fin_length) (nmul (nneg (nlit 5 10)) R)).
    Definition hf4_p3 : vec T := vadd hf4_p0 (vec2 hf4_fin_length n0).
    (* hifire4.py:151-208 -- fin1, fin2 and fin3 differ in the offset *)
    Definition hf4_fin (o : vec T) : fin T :=
      mkFin (hf4_shifted hf4_p0) (hf4_shifted hf4_p1) (hf4_shifted hf4_p2) (hf4_shifted hf4_p3) hf4_thickness (ndeg2rad (nneg (nZ 90)))
        (uniform_thickness_function hf4_thickness "top") (uniform_thickness_function hf4_thickness "bot") None "sharp" hf4_thickness n0 n0 (vec2 n0 n0)
        (Some (fun _ _ _ => Ok o)).
    Definition hf4_offset1 : vec T := vec2 n0 hf4_span.
    Definition hf4_offset2 : vec T := vec2 n0 (nneg hf4_span).
    Definition hf4_offset3 : vec T := V3 n0 n0 (nmul (nneg (nlit 95 100)) R).

    (* hifire4.py:211-222 *)
    Definition hf4_add (axis : option string) : add_args T := mkAdd None axis true (Some hf4_curvatures) None None None false.

    (* hifire4.py:29-224 -- create_instance *)
    Definition hf4_vehicle : M (vehicle T) :=
      bindM (lift hf4_fuseline) (fun fuseline =>
      bindM (new_revolved fuseline (ResInt 20) None) (fun fuselage =>
      bindM (lift hf4_edge) (fun line =>
      bindM (new_wing bisect (hf4_wing line) (ResInt 3) None) (fun wing =>
      bindM (new_fin bisect (hf4_fin hf4_offset1) (ResInt 3) None) (fun fin1 =>
      bindM (new_fin bisect (hf4_fin hf4_offset2) (ResInt 3) None) (fun fin2 =>
      bindM (new_fin bisect (hf4_fin hf4_offset3) (ResInt 3) None) (fun fin3 =>
      bindM (add (configured "HIFiRE4") fuselage (hf4_add None)) (fun v =>
      bindM (add v wing (hf4_add (Some "y"))) (fun v =>
      bindM (add v fin1 default_add) (fun v =>
      bindM (add v fin2 default_add) (fun v =>
        add v fin3 default_add))))))))))).
  End Shape.

  (* hifire4.py:18-27 *)
  Definition ParametricHIFiRE4 : generator (pval T) (M (vehicle T)) :=
    mkGen []
      [SetAttr "x_curve_mult" (fun _ => Ok (PNum (nlit 3 10))); SetAttr "y_curve_mult" (fun _ => Ok (PNum (nlit 5 10)));
       SetAttr "R" (fun _ => Ok (PNum (nlit 2 10))); SetAttr "L_n" (fun _ => Ok (PNum (nZ 2)));
       SetAttr "L_b" (fun _ => Ok (PNum (nZ 4))); SuperInit]
      (fun self =>
         let! xm := number self "x_curve_mult" in let! ym := number self "y_curve_mult" in let! R := number self "R" in
         let! L_n := number self "L_n" in let! L_b := number self "L_b" in
         Ok (hf4_vehicle xm ym R L_n L_b)).
End Hifire4.
