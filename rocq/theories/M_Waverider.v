(** Model of src/hypervehicle/hangar/waverider.py.

    scipy.optimize.bisect and the three resolutions fuse_stl_res, wing_stl_res
    and fin_stl_res are parameters.  As in M_Hangar.v the numerical attributes
    are read before the rest of create_instance runs; the methods that read them
    again when they are called keep the values they had (nothing writes to them
    in between).  The attributes _cf, curvatures and densities are the ones
    __init__ sets: keywords of these names, and keywords that hide methods, are
    left out.  What analyse_after_generating(densities) adds is generate_analysed
    of M_Inertia.v.  x**2 is x*x.  Division is total here; in Python a zero u1y
    raises ZeroDivisionError when the wings are meshed. *)
From Coq Require Import ZArith Bool String List.
From Verif Require Import Num Py M_Vector M_Path M_Surface M_Geometry M_Mesh M_Component M_Common M_Wing M_Fin M_Vehicle M_VecHeap M_Sens M_Gen M_Hangar M_Htv M_X43 M_D21 M_Transform.
Import ListNotations.
Local Open Scope string_scope.

(** the numerical attributes *)
Record wr_params (T : Type) := mkWr {
  wr_length : T; wr_width : T; wr_le_width : T; wr_LE_thickness : T; wr_aoa : T;
  wr_f1x : T; wr_f1y : T; wr_f2y : T;
  wr_p2x : T; wr_p2y : T; wr_p3x : T; wr_p3y : T;
  wr_u1y : T; wr_u2x : T; wr_u3x : T; wr_u3y : T;
  wr_flap_angle : T; wr_flap_height : T; wr_a0_t : T; wr_tt_t : T;
  wr_w1x : T; wr_w1y : T; wr_w2x : T; wr_w2y : T;
  wr_x_mult : T; wr_y_mult : T; wr_zero_offset : T; wr_curve_zero : T
}.
Arguments wr_length {T}. Arguments wr_width {T}. Arguments wr_le_width {T}. Arguments wr_LE_thickness {T}. Arguments wr_aoa {T}.
Arguments wr_f1x {T}. Arguments wr_f1y {T}. Arguments wr_f2y {T}. Arguments wr_p2x {T}. Arguments wr_p2y {T}. Arguments wr_p3x {T}. Arguments wr_p3y {T}.
Arguments wr_u1y {T}. Arguments wr_u2x {T}. Arguments wr_u3x {T}. Arguments wr_u3y {T}.
Arguments wr_flap_angle {T}. Arguments wr_flap_height {T}. Arguments wr_a0_t {T}. Arguments wr_tt_t {T}.
Arguments wr_w1x {T}. Arguments wr_w1y {T}. Arguments wr_w2x {T}. Arguments wr_w2y {T}.
Arguments wr_x_mult {T}. Arguments wr_y_mult {T}. Arguments wr_zero_offset {T}. Arguments wr_curve_zero {T}.

Section Waverider.
  Context {T : Type} {N : Num T}.
  Notation M := (M (T := T)).
  Variable bisect : (T -> res T) -> T -> T -> res T.
  Variables fuse_res wing_res fin_res : nat.

  Section Shape.
    Variable P : wr_params T.

    (* waverider.py:197-210 -- fuselage_revolve_line *)
    Definition wr_fuseline : path T :=
      Bezier [vec2 n0 n0; vec2 (wr_f1x P) (wr_f1y P); vec2 (ndiv (wr_length P) n2) (wr_f2y P);
              vec2 (nsub (wr_length P) (wr_f1x P)) (wr_f1y P); vec2 (wr_length P) n0].
    (* waverider.py:212-219 -- modify_underside *)
    Definition wr_underside : tfun T := fun _ _ z =>
      let z := or_else z n0 in
      Ok (if ngtb z n0 then vneg (V3 n0 n0 z) else V3 n0 n0 n0).
    (* waverider.py:323-336 -- _curv_x, _curv_xd, _curv_y, _curv_yd *)
    Definition wr_curv_x (x _y : T) : T := nmul (nmul (nmul (nZ 5) (nsub (wr_x_mult P) (wr_curve_zero P))) (nlit 5 100)) (nsq x).
    Definition wr_curv_xd (x _y : T) : T := nmul (nmul (nmul (nmul (nZ 5) (nsub (wr_x_mult P) (wr_curve_zero P))) (nlit 5 100)) n2) x.
    Definition wr_curv_y (_x y : T) : T := nmul (nmul (nmul (nZ 5) (nsub (wr_y_mult P) (wr_curve_zero P))) (nlit 1 10)) (nsq y).
    Definition wr_curv_yd (_x y : T) : T := nmul (nmul (nmul (nmul (nZ 5) (nsub (wr_y_mult P) (wr_curve_zero P))) (nlit 1 10)) n2) y.
    (* waverider.py:156-159 *)
    Definition wr_curvatures : list (curvature (T := T)) :=
      [("x", Some (fun x y => Ok (wr_curv_x x y)), Some (fun x y => Ok (wr_curv_xd x y)));
       ("y", Some (fun x y => Ok (wr_curv_y x y)), Some (fun x y => Ok (wr_curv_yd x y)))].
    (* waverider.py:129, 221-229 *)
    Definition wr_cf : T -> res T := RobertsFunction true true (nlit 1025 1000).
    Definition wr_add_fuselage : add_args T :=
      mkAdd (Some "fuselage") None true (Some wr_curvatures) (Some (mkClustering (Some wr_cf) None)) None (Some wr_underside) false.

    (* waverider.py:302-305 -- _get_local_height *)
    Definition wr_local_height (x : T) : res T :=
      let! t := bisect (fun t => let! p := p_call wr_fuseline t in Ok (nsub (vx p) x)) n0 n1 in
      let! p := p_call wr_fuseline t in
      Ok (vy p).
    (* waverider.py:296-300 -- _get_local_width *)
    Definition wr_local_width (line : path T) (x : T) : res T :=
      let! t := bisect (fun t => let! p := p_call line t in Ok (nsub (vx p) x)) n0 n1 in
      let! p := p_call line t in
      Ok (vy p).

    (* waverider.py:231-247 -- Line_B0TT; both control points are limited by the
       height at p2x *)
    Definition wr_A1 : vec T := vec2 (nmul (nlit 5 10) (wr_length P)) n0.
    Definition wr_TT : vec T := vec2 (wr_length P) n0.
    Definition wr_B0 : vec T := vec2 n0 (ndiv (wr_width P) n2).
    Definition wr_line : res (path T) :=
      let! h2 := wr_local_height (wr_p2x P) in
      let p2y := nmax (wr_p2y P) h2 in
      let! h3 := wr_local_height (wr_p2x P) in
      let p3y := nmax (wr_p3y P) h3 in
      Ok (Bezier [wr_B0; vec2 (wr_p2x P) p2y; vec2 (wr_p3x P) p3y; wr_TT]).
    (* waverider.py:251-258 -- thickness_contour *)
    Definition wr_contour : path T :=
      Bezier [vec2 n0 (wr_u1y P); vec2 (wr_u2x P) (wr_u1y P); vec2 (wr_u3x P) (wr_u3y P); vec2 (ndiv (wr_width P) n2) n0].
    (* waverider.py:307-321 -- _wing1_tf_top *)
    Definition wr_top (line : path T) : tfun T := fun x y _ =>
      let! local_width := wr_local_width line x in
      let s := if neqb local_width n0 then n0 else ndiv y local_width in
      let! c := p_call wr_contour s in
      let! h := wr_local_height x in
      let z_val := nmul (vy c) (ndiv (nabs h) (wr_u1y P)) in
      Ok (V3 n0 n0 (nsub (nneg z_val) (ndiv (wr_LE_thickness P) n2))).
    (* waverider.py:260-271 -- wing1_tf_bot; s is not used *)
    Definition wr_bot (line : path T) : tfun T := fun x _ _ =>
      let! _ := wr_local_width line x in
      Ok (V3 n0 n0 (nadd (nneg n0) (ndiv (wr_LE_thickness P) n2))).
    (* waverider.py:292-294 -- _lewf *)
    Definition wr_lewf : T -> res T := fun _ => Ok (wr_le_width P).
    (* waverider.py:273-283; A0 and the flap are left at their defaults *)
    Definition wr_wing (line : path T) : wing T :=
      mkWing (V3 n0 n0 n0) wr_A1 wr_TT wr_B0 line "Bezier" None None (wr_top line) (wr_bot line) (Some wr_lewf) "custom" "FLAP" n0 n0 false.
    (* waverider.py:285-290 *)
    Definition wr_add_wings : add_args T := mkAdd (Some "wings") (Some "y") true (Some wr_curvatures) None None None false.

    (* waverider.py:338-342 -- _adjust_aoa *)
    Definition wr_adjusted : T := nadd (wr_aoa P) (nmul (wr_curv_xd (wr_length P) n0) (ndiv (nZ 180) npi)).

    (* waverider.py:344-371 -- the flap *)
    Definition wr_flap (line : path T) : res (wing T) :=
      let! A0 := p_call line (wr_a0_t P) in
      let! A1 := p_call line (nadd (wr_a0_t P) (ndiv (nsub (wr_tt_t P) (wr_a0_t P)) n2)) in
      let! TT := p_call line (wr_tt_t P) in
      let B0 := vadd A0 (vec2 n0 (wr_flap_height P)) in
      let cp1 := vadd B0 (vec2 (wr_w1x P) (nsub (wr_w1y P) (wr_zero_offset P))) in
      let cp2 := vsub TT (vec2 (wr_w2x P) (nsub (wr_w2y P) (wr_zero_offset P))) in
      let edge := Bezier [B0; cp1; cp2; TT] in
      Ok (mkWing A0 A1 TT B0 edge "Bezier" None None
            (uniform_thickness_function (wr_LE_thickness P) "top") (uniform_thickness_function (wr_LE_thickness P) "bot") (Some wr_lewf)
            "custom" "FLAP" (vx A0) (wr_flap_angle P) true).
    (* waverider.py:373-384 *)
    Definition wr_add_right : add_args T := mkAdd (Some "right_flap") None true (Some wr_curvatures) None None None false.
    Definition wr_add_left : add_args T := mkAdd (Some "left_flap") (Some "y") false (Some wr_curvatures) None None None false.

    (* waverider.py:386-408 -- the fin *)
    Definition wr_fin_thickness : T := nlit 5 1000.
    Definition wr_fin_height : T := nlit 1 10.
    Definition wr_fin_length : T := nlit 3 10.
    Definition wr_fin : fin T :=
      mkFin (vec2 n0 n0) (vec2 (nmul (nlit 1 10) wr_fin_length) (nmul (nlit 7 10) wr_fin_height))
        (vec2 (nmul (nlit 6 10) wr_fin_length) wr_fin_height) (vec2 wr_fin_length n0) wr_fin_thickness (ndeg2rad (nneg (nZ 90)))
        (uniform_thickness_function wr_fin_thickness "top") (uniform_thickness_function wr_fin_thickness "bot")
        (Some (fun _ => Ok (nlit 1 100))) "flat" n0 n0 n0 (vec2 n0 n0) None.
    (* waverider.py:409-413 *)
    Definition wr_add_fin : add_args T := mkAdd (Some "fin") None true (Some wr_curvatures) None None None false.

    (* waverider.py:167-195 -- create_instance *)
    Definition wr_vehicle : M (vehicle T) :=
      bindM (new_revolved wr_fuseline (ResInt fuse_res) None) (fun fuselage =>
      bindM (add (configured "waverider") fuselage wr_add_fuselage) (fun v =>
      bindM (lift wr_line) (fun line =>
      bindM (new_wing bisect (wr_wing line) (ResInt wing_res) None) (fun wings =>
      bindM (add v wings wr_add_wings) (fun v =>
      bindM (lift (wr_flap line)) (fun w =>
      bindM (new_wing bisect w (ResInt wing_res) None) (fun flap =>
      bindM (add v flap wr_add_right) (fun v =>
      bindM (deepcopy_comp flap) (fun copy =>
      bindM (add v copy wr_add_left) (fun v =>
      bindM (new_fin bisect wr_fin (ResInt fin_res) None) (fun fin =>
      bindM (add v fin wr_add_fin) (fun v =>
        ret (add_vehicle_transformations (add_vehicle_transformations v CART3D)
               [("rotate", [ANum (nneg wr_adjusted); AStr "z"])]))))))))))))).
  End Shape.

  (** a default that is a number *)
  Definition wr_set (k : string) (e : attrs (pval T) -> res T) : stmt (pval T) := SetAttr k (fun self => let! x := e self in Ok (PNum x)).
  (* waverider.py:15-16, 114-165 *)
  Definition ParametricWaverider : generator (pval T) (M (vehicle T)) :=
    mkGen [[("zero_offset", PNum n1); ("curve_zero", PNum (nZ 5))]]
      [wr_set "length" (fun _ => Ok n1); wr_set "width" (fun _ => Ok (nlit 35 100));
       wr_set "le_width" (fun _ => Ok (nlit 3 1000)); wr_set "LE_thickness" (fun _ => Ok (nlit 3 1000));
       wr_set "aoa" (fun _ => Ok (nZ 3));
       wr_set "f1x" (fun self => let! l := number self "length" in Ok (nmul (nlit 25 100) l));
       wr_set "f1y" (fun _ => Ok (nlit 75 1000)); wr_set "f2y" (fun _ => Ok (nlit 75 1000));
       wr_set "p2x" (fun self => let! l := number self "length" in Ok (ndiv (nmul n1 l) (nZ 3)));
       wr_set "p2y" (fun self => let! w := number self "width" in Ok (ndiv (ndiv (nmul n2 w) n2) (nZ 3)));
       wr_set "p3x" (fun self => let! l := number self "length" in Ok (ndiv (nmul (nlit 275 100) l) (nZ 3)));
       wr_set "p3y" (fun self => let! w := number self "width" in Ok (ndiv (ndiv (nmul (nlit 15 10) w) n2) (nZ 3)));
       wr_set "u1y" (fun _ => Ok (nlit 1 10));
       wr_set "u2x" (fun self => let! w := number self "width" in Ok (ndiv (ndiv w n2) (nZ 3)));
       wr_set "u3x" (fun self => let! w := number self "width" in Ok (ndiv (ndiv (nmul n2 w) n2) (nZ 3)));
       wr_set "u3y" (fun self => let! u := number self "u1y" in Ok (ndiv u (nZ 10)));
       wr_set "flap_angle" (fun _ => Ok n0); wr_set "flap_height" (fun _ => Ok (nlit 1 10));
       wr_set "a0_t" (fun _ => Ok (nlit 65 1000)); wr_set "tt_t" (fun _ => Ok (nlit 35 100));
       wr_set "w1x" (fun _ => Ok (nlit 1 10));
       wr_set "w1y" (fun self => let! z := number self "zero_offset" in Ok (nadd n0 z));
       wr_set "w2x" (fun _ => Ok (nlit 1 10));
       wr_set "w2y" (fun self => let! z := number self "zero_offset" in Ok (nadd n0 z));
       wr_set "x_curve_mult" (fun self => let! z := number self "curve_zero" in Ok (nadd (nlit 1 1000) z));
       wr_set "y_curve_mult" (fun self => let! z := number self "curve_zero" in Ok (nadd (nlit 1 1000) z));
       SuperInit]
      (fun self =>
         let! length := number self "length" in let! width := number self "width" in
         let! le_width := number self "le_width" in let! LE_thickness := number self "LE_thickness" in let! aoa := number self "aoa" in
         let! f1x := number self "f1x" in let! f1y := number self "f1y" in let! f2y := number self "f2y" in
         let! p2x := number self "p2x" in let! p2y := number self "p2y" in let! p3x := number self "p3x" in let! p3y := number self "p3y" in
         let! u1y := number self "u1y" in let! u2x := number self "u2x" in let! u3x := number self "u3x" in let! u3y := number self "u3y" in
         let! flap_angle := number self "flap_angle" in let! flap_height := number self "flap_height" in
         let! a0_t := number self "a0_t" in let! tt_t := number self "tt_t" in
         let! w1x := number self "w1x" in let! w1y := number self "w1y" in let! w2x := number self "w2x" in let! w2y := number self "w2y" in
         let! x_mult := number self "x_curve_mult" in let! y_mult := number self "y_curve_mult" in
         let! zero_offset := number self "zero_offset" in let! curve_zero := number self "curve_zero" in
         Ok (wr_vehicle (mkWr T length width le_width LE_thickness aoa f1x f1y f2y p2x p2y p3x p3y u1y u2x u3x u3y
                              flap_angle flap_height a0_t tt_t w1x w1y w2x w2y x_mult y_mult zero_offset curve_zero))).
End Waverider.
