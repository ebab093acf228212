(** Model of src/hypervehicle/hangar/d21.py.

    scipy.optimize.bisect is a parameter.  So are the two integers wing_stl_res
    and te_fin_stl_res (keywords for them are the choice of these parameters).
    As in M_Hangar.v the attributes are read before the rest of create_instance
    runs.  The thickness functions of the fins read fin_thickness when they are
    called; both values it ever has are wing_thickness. *)
From Coq Require Import ZArith Bool String List.
From Verif Require Import Num Py M_Vector M_Path M_Surface M_Geometry M_Mesh M_Component M_Common M_Wing M_Fin M_Vehicle M_VecHeap M_Sens M_Gen M_Hangar M_Htv M_X43.
Import ListNotations.
Local Open Scope string_scope.

Section D21.
  Context {T : Type} {N : Num T}.
  Notation M := (M (T := T)).
  Variable bisect : (T -> res T) -> T -> T -> res T.
  Variables wing_stl_res te_fin_stl_res : nat.

  Section Shape.
    Variables R_b L_b L_w W_w flap_angle : T.

    (* d21.py:44-52 *)
    Definition d21_b0 : vec T := vec2 n0 R_b.
    Definition d21_b1 : vec T := vsub d21_b0 (vec2 L_b n0).
    Definition d21_b2 : vec T := vsub d21_b1 (vec2 n0 R_b).
    Definition d21_fuseline : res (path T) :=
      Polyline [Line (vec2 n0 n0) d21_b0; Line d21_b0 d21_b1; Line d21_b1 d21_b2].
    (* d21.py:58-66 *)
    Definition d21_shift : vec T := vec2 (nneg (nlit 1 10)) n0.
    Definition d21_tip : vec T := vadd (vec2 (nmul (nlit 15 100) L_b) n0) d21_shift.
    Definition d21_top : vec T := vadd (vec2 n0 (nmul n1 R_b)) d21_shift.
    Definition d21_mid : vec T := vadd (vec2 n0 (nmul (nlit 3 10) R_b)) d21_shift.
    Definition d21_noseline : res (path T) :=
      Polyline [Bezier [d21_tip; d21_mid; d21_top]; Line d21_top (vadd (vec2 (nneg (nlit 5 10)) n0) d21_shift)].

    (* d21.py:80-94 *)
    Definition d21_thickness : T := nmul (nlit 15 100) R_b.
    Definition d21_A0 : vec T := vsub (vec2 n0 n0) (vec2 L_w n0).
    Definition d21_A1 : vec T := vec2 (nadd (vx d21_A0) (nmul (nlit 6 10) L_w)) n0.
    Definition d21_TT : vec T := vsub (vec2 (nadd (vx d21_A0) L_w) n0) (vec2 (nlit 3 10) n0).
    Definition d21_B0 : vec T := vec2 (vx d21_A0) W_w.
    Definition d21_B1 : vec T := vec2 (vx d21_A1) (nmul (nlit 5 10) (vy d21_B0)).
    Definition d21_B2 : vec T := vec2 (vx d21_TT) (nmul (nlit 15 100) W_w).
    (* d21.py:96-107 *)
    Definition d21_edge : res (path T) :=
      Polyline [Line d21_B0 d21_B1;
                Bezier [d21_B1; vec2 (nmul (nlit 5 10) (nadd (vx d21_B1) (vx d21_B2))) (vy d21_B1); d21_B2];
                Line d21_B2 d21_TT].
    (* d21.py:109-113 -- local_ws *)
    Definition d21_local_ws (line : path T) (x : T) : res T :=
      let! t := bisect (fun t => let! p := p_call line t in Ok (nsub (vx p) x)) n0 n1 in
      let! p := p_call line t in Ok (vy p).
    (* d21.py:115-124 -- wing_tf_top *)
    Definition d21_wing_top (line : path T) : tfun T := fun x y _ =>
      let! lws := d21_local_ws line x in
      let lws := if neqb lws n0 then nlit 1 1000 else lws in
      let thickener := nmul (nlit 5 10) (nsub n1 (ndiv y lws)) in
      Ok (V3 n0 n0 (nsub (ndiv (nneg d21_thickness) n2) thickener)).
    (* d21.py:126-127 -- wing_tf_bot *)
    Definition d21_wing_bot : tfun T := fun _ _ _ => Ok (V3 n0 n0 (ndiv d21_thickness n2)).
    (* d21.py:129-140 -- wing *)
    Definition d21_wing (line : path T) : wing T :=
      mkWing d21_A0 d21_A1 d21_TT d21_B0 line "Bezier" None None (d21_wing_top line) d21_wing_bot None "custom" "FLAP"
        (nmul (nlit 1 10) L_w) (ndeg2rad flap_angle) false.

    (* d21.py:160-165 *)
    Definition d21_fin_top : tfun T := fun _ _ _ => Ok (V3 n0 n0 (ndiv (nneg d21_thickness) n2)).
    Definition d21_fin_bot : tfun T := fun _ _ _ => Ok (V3 n0 n0 (ndiv d21_thickness n2)).
    (* d21.py:151-158, 167-179 -- tail *)
    Definition d21_tail : fin T :=
      let height := nmul (nlit 15 100) W_w in let length := nsub L_b L_w in
      let p0 := d21_b2 in let p1 := vadd p0 (vec2 n0 height) in
      mkFin p0 p1 (vadd p1 (vec2 (nmul (nlit 4 10) length) n0)) (vadd p0 (vec2 length n0))
        d21_thickness (ndeg2rad (nneg (nZ 90))) d21_fin_top d21_fin_bot None "flat" n0 n0 n0 (vec2 n0 n0)
        (Some (fun _ _ _ => Ok (V3 n0 n0 (nmul (nneg (nlit 95 100)) R_b)))).
    (* d21.py:186-219 -- tew1 (0 degrees) and tew2 (180 degrees) *)
    Definition d21_tew (degrees : T) : fin T :=
      let height := nmul (nlit 45 100) W_w in let length := nmul (nlit 13 10) (nsub L_b L_w) in
      let p0 := d21_b2 in let p1 := vadd p0 (vec2 n0 height) in
      mkFin p0 p1 (vadd p1 (vec2 length n0)) (vadd p0 (vec2 length n0))
        d21_thickness (ndeg2rad degrees) d21_fin_top d21_fin_bot None "flat" n0 n0 n0 (vec2 n0 n0) None.

    (* d21.py:141 *)
    Definition mirrored_add : add_args T := mkAdd None (Some "y") true None None None None false.

    (* d21.py:34-222 -- create_instance *)
    Definition d21_vehicle : M (vehicle T) :=
      bindM (lift d21_fuseline) (fun fuseline =>
      bindM (new_revolved fuseline (ResInt 20) None) (fun fuselage =>
      bindM (add (configured "Lockhead Martin D-21") fuselage default_add) (fun v =>
      bindM (lift d21_noseline) (fun noseline =>
      bindM (new_revolved noseline (ResInt 20) None) (fun nose =>
      bindM (add v nose default_add) (fun v =>
      bindM (lift d21_edge) (fun line =>
      bindM (new_wing bisect (d21_wing line) (ResInt wing_stl_res) None) (fun wing =>
      bindM (add v wing mirrored_add) (fun v =>
      bindM (new_fin bisect d21_tail (ResInt te_fin_stl_res) None) (fun tail =>
      bindM (add v tail default_add) (fun v =>
      bindM (new_fin bisect (d21_tew (nZ 0)) (ResInt te_fin_stl_res) None) (fun tew1 =>
      bindM (add v tew1 default_add) (fun v =>
      bindM (new_fin bisect (d21_tew (nZ 180)) (ResInt te_fin_stl_res) None) (fun tew2 =>
        add v tew2 default_add)))))))))))))).
  End Shape.

  (* d21.py:20-32 *)
  Definition ParametricD21 : generator (pval T) (M (vehicle T)) :=
    mkGen []
      [SetAttr "R_b" (fun _ => Ok (PNum n1)); SetAttr "L_b" (fun _ => Ok (PNum (nZ 20)));
       SetAttr "L_w" (fun _ => Ok (PNum (nZ 16))); SetAttr "W_w" (fun _ => Ok (PNum (nZ 5)));
       SetAttr "flap_angle" (fun _ => Ok (PNum n0)); SuperInit]
      (fun self =>
         let! R_b := number self "R_b" in let! L_b := number self "L_b" in let! L_w := number self "L_w" in
         let! W_w := number self "W_w" in let! fa := number self "flap_angle" in
         Ok (d21_vehicle R_b L_b L_w W_w fa)).
End D21.
