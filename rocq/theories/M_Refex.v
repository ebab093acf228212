(** Model of src/hypervehicle/hangar/refex.py.

    scipy.optimize.bisect is a parameter.  So are the four toggles and the vector
    cannard_shift (keywords for them are the choice of these parameters; vectors
    are not changed in place by the operations used here, M_VecHeap.v).  As in
    M_Hangar.v the attributes are read before the rest of create_instance runs.
    (-1) ** i is 1 and then -1, and i / 2 * 360 is 0 and then 180. *)
From Coq Require Import ZArith Bool String List.
From Verif Require Import Num Py M_Vector M_Path M_Surface M_Geometry M_Mesh M_Component M_Common M_Wing M_Fin M_Vehicle M_VecHeap M_Sens M_Gen M_Transform M_Hangar M_Htv M_X43 M_D21.
Import ListNotations.
Local Open Scope string_scope.

Section Refex.
  Context {T : Type} {N : Num T}.
  Notation M := (M (T := T)).
  Variable bisect : (T -> res T) -> T -> T -> res T.
  Variables generate_fuselage generate_wings generate_canards generate_tail : bool.
  Variable cannard_shift : vec T.

  (* refex.py:11-20 -- leading_edge_width_function *)
  Definition rx_width (r : T) : res T :=
    let! p := p_call (Bezier [vec2 n0 (nlit 1 100); vec2 nhalf (nlit 5 100); vec2 n1 (nlit 1 100)]) r in
    Ok (vy p).

  (* refex.py:40-51 *)
  Record rx_params := mkRx {
    rx_h : T; rx_r_n : T; rx_r_o : T; rx_L_o : T; rx_L_b : T; rx_fin_thickness : T;
    rx_wing_length : T; rx_wing_span : T; rx_tail_height : T; rx_tail_thickness : T; rx_canard_angle : T }.

  Section Shape.
    Variable P : rx_params.
    Let h := rx_h P.

    (* refex.py:74-84 *)
    Definition rx_f1 : vec T := vsub (vec2 n0 h) (vec2 (rx_L_o P) n0).
    Definition rx_b0 : vec T := vec2 n0 (vy rx_f1).
    Definition rx_b1 : vec T := vsub rx_b0 (vec2 (rx_L_b P) n0).
    Definition rx_bb1 : vec T := vec2 (vx rx_b1) n0.
    Definition rx_body_line : res (path T) :=
      Polyline [Line (vec2 n0 n0) rx_b0; Line rx_b0 rx_b1; Line rx_b1 rx_bb1].

    (* refex.py:99-107 *)
    Definition rx_fin_height : T := nmul (nlit 13 10) h.
    Definition rx_fin_length : T := nmul (nlit 13 10) rx_fin_height.
    Definition rx_shift_in : vec T := vec2 n0 (nmul (nneg (nlit 2 100)) rx_fin_height).
    Definition rx_p0 : vec T := vadd (vadd (vsub rx_f1 (vec2 rx_fin_length n0)) rx_shift_in) cannard_shift.
    Definition rx_p1 : vec T := vadd (vadd rx_p0 (vec2 n0 rx_fin_height)) rx_shift_in.
    Definition rx_p2 : vec T := vadd (vadd rx_p1 (vec2 (nmul (nlit 3 10) rx_fin_length) n0)) rx_shift_in.
    Definition rx_p3 : vec T := vadd (vadd rx_f1 rx_shift_in) cannard_shift.
    Definition rx_pivot : vec T := vec2 (nmul nhalf (nadd (vx rx_p0) (vx rx_p3))) (vy rx_p0).
    (* refex.py:112-132 -- a canard at the given angles in degrees *)
    Definition rx_canard (degrees pivot : T) : fin T :=
      mkFin rx_p0 rx_p1 rx_p2 rx_p3 (rx_fin_thickness P) (ndeg2rad degrees)
        (uniform_thickness_function (rx_fin_thickness P) "top") (uniform_thickness_function (rx_fin_thickness P) "bot") (Some rx_width)
        "sharp" (rx_fin_thickness P) n0 (ndeg2rad pivot) rx_pivot None.

    (* refex.py:137-150 *)
    Definition rx_wing_thickness : T := nmul (nZ 3) (rx_fin_thickness P).
    Definition rx_flap_length : T := nmul (nlit 1 10) (rx_wing_length P).
    Definition rx_A0 : vec T := vec2 (nadd (vx rx_b1) rx_flap_length) n0.
    Definition rx_TT : vec T := vadd rx_A0 (vec2 (rx_wing_length P) n0).
    Definition rx_A1 : vec T := vec2 (nmul nhalf (nadd (vx rx_A0) (vx rx_TT))) n0.
    Definition rx_B0 : vec T := vadd rx_A0 (vec2 n0 (nadd (rx_wing_span P) h)).
    Definition rx_B1 : vec T := vadd rx_B0 (vec2 (nsub (nmul nhalf (rx_wing_length P)) rx_flap_length) n0).
    Definition rx_edge : res (path T) := Polyline [Line rx_B0 rx_B1; Line rx_B1 rx_TT].
    (* refex.py:152-156 -- wing2_tf_top, wing2_tf_bot *)
    Definition rx_top : tfun T := fun _ _ _ => Ok (V3 n0 n0 (nsub h rx_wing_thickness)).
    Definition rx_bot : tfun T := fun _ _ _ => Ok (V3 n0 n0 h).
    (* refex.py:159-170 -- wing *)
    Definition rx_wing (line : path T) : wing T :=
      mkWing rx_A0 rx_A1 rx_TT rx_B0 line "Bezier" None None rx_top rx_bot (Some rx_width) "custom" "FLAP" rx_flap_length n0 false.

    (* refex.py:218-236, 239-257 -- a rectangular cross section *)
    Definition rx_square (x : T) : list (path T) :=
      let sw := V3 x (nneg h) n0 in let nw := V3 x h n0 in let se := V3 x (nneg h) h in let ne := V3 x h h in
      [Line nw ne; ReversedPath (Line se ne); ReversedPath (Line sw se); Line sw nw].
    (* refex.py:260-295 -- the last cross section *)
    Definition rx_round (x : T) : list (path T) :=
      let c := V3 x n0 n0 in let a := ndeg2rad (nZ 60) in
      let sw := V3 x (nneg h) n0 in let nw := V3 x h n0 in
      let se := V3 x (nmul (nneg h) (ncos a)) (nmul h (nsin a)) in let ne := V3 x (nmul h (ncos a)) (nmul h (nsin a)) in
      [Arc nw ne c; ReversedPath (Arc se ne c); ReversedPath (Arc sw se c); Line sw nw].
    (* refex.py:217-302 -- _define_fuselage: the cross sections *)
    Definition rx_sections : list (list (path T)) :=
      let x := vx rx_bb1 in
      [rx_square x; rx_square (nadd x (nmul (nlit 9 10) (rx_wing_length P))); rx_round (nadd x (nmul (nlit 13 10) (rx_wing_length P)))].

    (* refex.py:181-188 *)
    Definition rx_tail_length : T := nmul (nlit 120 100) (rx_tail_height P).
    Definition rx_tail_in : vec T := vec2 n0 (nmul (nneg (nlit 2 100)) (rx_tail_height P)).
    Definition rx_t0 : vec T := vadd (vadd rx_b1 rx_tail_in) (vec2 (nmul n2 (rx_tail_thickness P)) n0).
    Definition rx_t1 : vec T := vadd (vadd rx_t0 (vec2 n0 (rx_tail_height P))) rx_tail_in.
    Definition rx_t2 : vec T := vadd (vadd rx_t1 (vec2 (nmul (nlit 4 10) rx_tail_length) n0)) rx_tail_in.
    Definition rx_t3 : vec T := vadd (vadd rx_t0 (vec2 rx_tail_length n0)) rx_tail_in.
    (* refex.py:192-209 -- tail *)
    Definition rx_tail : fin T :=
      mkFin rx_t0 rx_t1 rx_t2 rx_t3 (rx_tail_thickness P) (ndeg2rad (nneg (nZ 90)))
        (uniform_thickness_function (rx_tail_thickness P) "top") (uniform_thickness_function (rx_tail_thickness P) "bot") (Some rx_width)
        "sharp" (rx_tail_thickness P) n0 n0 (vec2 n0 n0) None.

    (** add a component if the toggle is on *)
    Definition add_if (b : bool) (v : vehicle T) (make : M nat) (a : add_args T) : M (vehicle T) :=
      if b then bindM make (fun i => add v i a) else ret v.

    (* refex.py:59-215 -- create_instance *)
    Definition rx_vehicle : M (vehicle T) :=
      bindM (lift (OgiveNose h (rx_r_n P) (rx_r_o P) (rx_L_o P))) (fun line =>
      bindM (new_revolved line (ResInt 50) None) (fun nose =>
      bindM (add_if generate_fuselage (configured "ReFEX") (ret nose) default_add) (fun v =>
      bindM (lift rx_body_line) (fun line =>
      bindM (new_revolved line (ResInt 50) None) (fun body =>
      bindM (add_if generate_fuselage v (ret body) default_add) (fun v =>
      bindM (add_if generate_canards v (new_fin bisect (rx_canard (nZ 0) (rx_canard_angle P)) (ResInt 3) None) default_add) (fun v =>
      bindM (add_if generate_canards v (new_fin bisect (rx_canard (nZ 180) (nneg (rx_canard_angle P))) (ResInt 3) None) default_add) (fun v =>
      bindM (lift rx_edge) (fun line =>
      bindM (add_if generate_wings v (new_wing bisect (rx_wing line) (ResInt 3) None) mirrored_add) (fun v =>
      bindM (add_if generate_fuselage v (new_swept rx_sections (ResInt 20) None) default_add) (fun v =>
      bindM (add_if generate_tail v (new_fin bisect rx_tail (ResInt 3) None) default_add) (fun v =>
        ret (add_vehicle_transformations v CART3D))))))))))))).
  End Shape.

  (* refex.py:33-57 *)
  Definition ParametricReFEX : generator (pval T) (M (vehicle T)) :=
    mkGen []
      [SetAttr "h" (fun _ => Ok (PNum (nlit 225 1000))); SetAttr "r_n" (fun _ => Ok (PNum (nlit 75 1000)));
       SetAttr "r_o" (fun _ => Ok (PNum (nlit 15 10))); SetAttr "L_o" (fun _ => Ok (PNum (nlit 5 100)));
       SetAttr "L_b" (fun _ => Ok (PNum (nlit 25 10))); SetAttr "fin_thickness" (fun _ => Ok (PNum (nlit 2 100)));
       SetAttr "wing_length" (fun _ => Ok (PNum (nlit 9 10))); SetAttr "wing_span" (fun _ => Ok (PNum (nlit 35 100)));
       SetAttr "tail_height" (fun _ => Ok (PNum (nlit 35 100))); SetAttr "tail_thickness" (fun _ => Ok (PNum (nlit 2 100)));
       SetAttr "canard_angle" (fun _ => Ok (PNum n0)); SuperInit]
      (fun self =>
         let! h := number self "h" in let! r_n := number self "r_n" in let! r_o := number self "r_o" in let! L_o := number self "L_o" in
         let! L_b := number self "L_b" in let! ft := number self "fin_thickness" in let! wl := number self "wing_length" in
         let! ws := number self "wing_span" in let! th := number self "tail_height" in let! tt := number self "tail_thickness" in
         let! ca := number self "canard_angle" in
         Ok (rx_vehicle (mkRx h r_n r_o L_o L_b ft wl ws th tt ca))).
End Refex.
Arguments rx_params T : clear implicits.
