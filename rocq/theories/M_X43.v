(** Model of src/hypervehicle/hangar/x43.py and of the constructor
    components/fin.py:29-151 on the heap of M_Vehicle.v.

    scipy.optimize.bisect is a parameter.  As in M_Hangar.v the attributes are
    read before the rest of create_instance runs.  Division is total here; in
    Python a zero body_length or wing coordinate on the axis raises
    ZeroDivisionError.  np.arctan(q) is natan2 q 1. *)
From Coq Require Import ZArith Bool String List.
From Verif Require Import Num Py M_Vector M_Path M_Surface M_Geometry M_Mesh M_Component M_Common M_Wing M_Fin M_Vehicle M_VecHeap M_Sens M_Gen M_Hangar M_Htv.
Import ListNotations.
Local Open Scope string_scope.

Section X43.
  Context {T : Type} {N : Num T}.
  Notation M := (M (T := T)).
  Variable bisect : (T -> res T) -> T -> T -> res T.

  (* fin.py:29-151, 153-494 -- Fin(...): nothing is computed in the constructor;
     generate_patches binds self.patches to a new dictionary *)
  Definition new_fin (f : fin T) (r : resolution) (name : option string) : M nat :=
    new_object "fin" (Own true (let! d := fin_patches bisect f in Ok (d, [], []))) r name.

  Section Shape.
    Variables L body_width body_angle wing_span wing_length wing_TE_back flap_length engine_h
      fin_height fin_length rudder_length flap_angle rudder_angle : T.

    (* x43.py:59-72 *)
    Definition x43_nom : T := nlit 37 10.
    Definition x43_beta : T := ndeg2rad body_angle.
    Definition x43_LE : T := ndiv (nmul (nlit 5 100) L) x43_nom.
    Definition x43_TE : T := ndiv (nmul (nlit 2 10) L) x43_nom.
    Definition x43_A0 : vec T := vec2 n0 n0.
    Definition x43_A1 : vec T := vec2 (ndiv (nmul (nlit 18 10) L) x43_nom) n0.
    Definition x43_TT : vec T := vec2 L n0.
    Definition x43_B0 : vec T := vec2 n0 (ndiv body_width n2).
    Definition x43_B1 : vec T := vec2 (vx x43_A1) (vy x43_B0).
    Definition x43_B2 : vec T := vec2 (vx x43_TT) (nmul (nlit 4 10) (vy x43_B0)).
    (* x43.py:74-78 *)
    Definition x43_line : res (path T) := Polyline [Line x43_B0 x43_B1; Line x43_B1 x43_B2; Line x43_B2 x43_TT].
    (* x43.py:80-85 *)
    Definition x43_rounding : path T :=
      let p1 := V3 n0 n0 (nlit 25 1000) in
      Bezier [p1; V3 n0 (nmul (nlit 9 10) (vy x43_B0)) (vz p1); V3 n0 (vy x43_B0) n0].
    (* x43.py:87-92 -- get_local_y *)
    Definition x43_local_y (x : T) : T :=
      if nltb x (vx x43_B1) then vy x43_B0
      else nadd (ndiv (nmul (nsub x (vx x43_B2)) (nsub (vy x43_B2) (vy x43_B1))) (nsub (vx x43_B2) (vx x43_B1))) (vy x43_B2).
    (* x43.py:94-108 -- wing1_tf_top *)
    Definition x43_top : tfun T := fun x y _ =>
      let z_m := nmul (nneg L) (ntan x43_beta) in
      let z_u := nsub z_m (nmul nhalf x43_TE) in
      let beta_u := nneg (natan2 (ndiv (nadd z_u (nmul nhalf x43_LE)) L) n1) in
      let z_1 := nsub (nmul (nsub x L) (ntan beta_u)) (ndiv x43_LE n2) in
      let! p := p_call x43_rounding (ndiv y (x43_local_y x)) in
      let z_2 := nmul (nneg (nsub L x)) (vz p) in
      Ok (V3 n0 n0 (nadd z_1 z_2)).
    (* x43.py:110-115 -- wing1_tf_bot *)
    Definition x43_bot_z (x : T) : T :=
      let z_m := nmul (nneg L) (ntan x43_beta) in
      let z_l := nadd z_m (nmul nhalf x43_TE) in
      let beta_l := nneg (natan2 (ndiv (nsub z_l (nmul nhalf x43_LE)) L) n1) in
      nadd (nmul (nsub x L) (ntan beta_l)) (ndiv x43_LE n2).
    Definition x43_bot : tfun T := fun x _ _ => Ok (V3 n0 n0 (x43_bot_z x)).
    (* x43.py:117-126 -- leading_edge_width_function *)
    Definition x43_width (r : T) : res T :=
      let! p := p_call (Bezier [vec2 n0 (nlit 2 100); vec2 (nlit 75 100) (nlit 5 100); vec2 n1 (nlit 5 100)]) r in
      Ok (vy p).
    (* x43.py:128-138 -- body *)
    Definition x43_body : res (wing T) :=
      let! line := x43_line in
      Ok (mkWing x43_A0 x43_A1 x43_TT x43_B0 line "Bezier" None None x43_top x43_bot (Some x43_width) "custom" "FLAP" n0 n0 false).

    (* x43.py:152-177 -- the planform and thickness of the flaps *)
    Definition x43_flap_thickness : T := ndiv (nmul (nlit 3 100) L) x43_nom.
    Definition x43_fA0 : vec T := vec2 (nadd (vx x43_B0) flap_length) (vy x43_B0).
    Definition x43_fA1 : vec T :=
      vec2 (nadd (vx x43_A0) (nmul nhalf wing_length)) (x43_local_y (nadd (vx x43_A0) (nmul nhalf wing_length))).
    Definition x43_fTT : vec T := vec2 (nadd (vx x43_A0) wing_length) (x43_local_y (nadd (vx x43_A0) wing_length)).
    Definition x43_fB0 : vec T := vec2 (nadd (nsub (vx x43_A0) wing_TE_back) flap_length) (nadd (vy x43_B0) wing_span).
    Definition x43_fB1 : vec T :=
      vec2 (nadd (vx x43_A0) (nmul (nlit 4 10) wing_length)) (nadd (vy x43_B0) (nmul (nlit 75 100) wing_span)).
    Definition x43_z_ba (x : T) : T := nmul (nneg (nsub x L)) (ntan x43_beta).
    Definition x43_wing_top : tfun T := fun x _ _ => Ok (V3 n0 n0 (nsub (ndiv (nneg x43_flap_thickness) n2) (x43_z_ba x))).
    Definition x43_wing_bot : tfun T := fun x _ _ => Ok (V3 n0 n0 (nsub (ndiv x43_flap_thickness n2) (x43_z_ba x))).
    (* x43.py:179-191 -- wing; flap_angle is passed on as it is *)
    Definition x43_wing : res (wing T) :=
      let! line := Polyline [Line x43_fB0 x43_fB1; Line x43_fB1 x43_fTT] in
      Ok (mkWing x43_fA0 x43_fA1 x43_fTT x43_fB0 line "Bezier" None None x43_wing_top x43_wing_bot (Some x43_width)
            "custom" "FLAP" flap_length flap_angle true).

    (* x43.py:199-215 *)
    Definition x43_iTT : vec T := vec2 (nmul nhalf (nadd (vx x43_TT) (vx x43_B1))) n0.
    Definition x43_iB2 : vec T :=
      vec2 (vx x43_iTT)
        (nadd (ndiv (nmul (nsub (vx x43_iTT) (vx x43_B2)) (nsub (vy x43_B2) (vy x43_B1))) (nsub (vx x43_B2) (vx x43_B1))) (vy x43_B2)).
    Definition x43_iline : res (path T) := Polyline [Line x43_B0 x43_B1; Line x43_B1 x43_iB2; Line x43_iB2 x43_iTT].
    Definition x43_inlet_start : T := nmul (nlit 8 10) (vx x43_B1).
    Definition x43_exit_start : T := nmul (nlit 3 10) (nsub (vx x43_B1) (vx x43_B0)).
    (* x43.py:217-219 -- inlet_tf_top *)
    Definition x43_inlet_top : tfun T := fun x _ _ => Ok (V3 n0 n0 (nsub (x43_bot_z x) (nlit 5 100))).
    (* x43.py:221-240 -- inlet_tf_bot *)
    Definition x43_engine (x : T) : T :=
      if nltb x x43_exit_start then nmul (ndiv engine_h (nsub x43_exit_start (vx x43_A0))) x
      else if nltb x43_inlet_start x then nmul (ndiv (nneg engine_h) (nsub (vx x43_iTT) x43_inlet_start)) (nsub x (vx x43_iTT))
      else engine_h.
    Definition x43_inlet_bot : tfun T := fun x y _ =>
      let z_val := x43_engine x in
      let y_local := x43_local_y x in
      let z_taper := if nltb (nmul (nlit 8 10) y_local) y
                     then nmul (nsub (ndiv (nmul (nZ 5) y) y_local) (nZ 4)) z_val else n0 in
      Ok (V3 n0 n0 (nadd (nsub (nadd z_val (x43_bot_z x)) z_taper) (nlit 1 100000))).
    (* x43.py:242-251 -- leading_edge_width_function2 *)
    Definition x43_width2 (r : T) : res T :=
      let! p := p_call (Bezier [vec2 n0 (nlit 1 1000); vec2 nhalf (nlit 1 1000); vec2 n1 (nlit 1 1000)]) r in
      Ok (vy p).
    (* x43.py:253-263 -- inlet *)
    Definition x43_inlet : res (wing T) :=
      let! line := x43_iline in
      Ok (mkWing x43_A0 x43_A1 x43_iTT x43_B0 line "Bezier" None None x43_inlet_top x43_inlet_bot (Some x43_width2) "custom" "FLAP" n0 n0 false).

    (* x43.py:274-341 -- fin1 (side 1) and fin2 (side -1) *)
    Definition x43_fin_thickness : T := ndiv (nmul (nlit 2 100) L) x43_nom.
    Definition x43_fin_offset : T := nmul (nneg (nsub fin_length L)) (ntan x43_beta).
    Definition x43_fin (y_shift : T) : fin T :=
      mkFin (vec2 rudder_length x43_fin_offset) (vec2 rudder_length (nadd x43_fin_offset fin_height))
        (vec2 (nmul nhalf fin_length) (nadd x43_fin_offset fin_height)) (vec2 fin_length x43_fin_offset)
        x43_fin_thickness (ndeg2rad (nneg (nZ 90)))
        (uniform_thickness_function x43_fin_thickness "top") (uniform_thickness_function x43_fin_thickness "bot")
        (Some x43_width) "sharp" rudder_length (ndeg2rad rudder_angle) n0 (vec2 n0 n0)
        (Some (fun _ _ _ => Ok (V3 n0 y_shift n0))).

    (* x43.py:344-349 -- the six additions *)
    Definition named_add (name : string) (axis : option string) : add_args T := mkAdd (Some name) axis true None None None None false.

    (* x43.py:43-351 -- create_instance *)
    Definition x43_vehicle : M (vehicle T) :=
      bindM (lift x43_body) (fun wb =>
      bindM (new_wing bisect wb (ResInt 4) None) (fun body =>
      bindM (lift x43_wing) (fun ww =>
      bindM (new_wing bisect ww (ResInt 2) None) (fun wing =>
      bindM (lift x43_inlet) (fun wi =>
      bindM (new_wing bisect wi (ResInt 4) None) (fun inlet =>
      bindM (new_fin (x43_fin (vy x43_B0)) (ResInt 2) None) (fun fin1 =>
      bindM (new_fin (x43_fin (nneg (vy x43_B0))) (ResInt 2) None) (fun fin2 =>
      bindM (add (configured "X-43A") body (named_add "body" (Some "y"))) (fun v =>
      bindM (deepcopy_comp wing) (fun copy =>
      bindM (add v copy (named_add "wing1" None)) (fun v =>
      bindM (add v wing (named_add "wing2" (Some "y"))) (fun v =>
      bindM (add v inlet (named_add "inlet" (Some "y"))) (fun v =>
      bindM (add v fin1 (named_add "fin1" None)) (fun v =>
        add v fin2 (named_add "fin2" None))))))))))))))).
  End Shape.

  (* x43.py:19-41 *)
  Definition ParametricX43 : generator (pval T) (M (vehicle T)) :=
    mkGen []
      [SetAttr "body_length" (fun _ => Ok (PNum (nlit 37 10))); SetAttr "body_width" (fun _ => Ok (PNum n1));
       SetAttr "body_angle" (fun _ => Ok (PNum n0)); SetAttr "wing_span" (fun _ => Ok (PNum (nlit 4 10)));
       SetAttr "wing_length" (fun _ => Ok (PNum n1)); SetAttr "wing_TE_back" (fun _ => Ok (PNum (nlit 25 100)));
       SetAttr "flap_length" (fun _ => Ok (PNum (nlit 3 10))); SetAttr "engine_h" (fun _ => Ok (PNum (nlit 1 10)));
       SetAttr "fin_height" (fun _ => Ok (PNum (nlit 3 10))); SetAttr "fin_length" (fun _ => Ok (PNum n1));
       SetAttr "rudder_length" (fun _ => Ok (PNum (nlit 2 10))); SetAttr "flap_angle" (fun _ => Ok (PNum n0));
       SetAttr "rudder_angle" (fun _ => Ok (PNum n0)); SuperInit]
      (fun self =>
         let! L := number self "body_length" in let! bw := number self "body_width" in let! ba := number self "body_angle" in
         let! ws := number self "wing_span" in let! wl := number self "wing_length" in let! wt := number self "wing_TE_back" in
         let! fl := number self "flap_length" in let! eh := number self "engine_h" in
         let! fh := number self "fin_height" in let! fn := number self "fin_length" in let! rl := number self "rudder_length" in
         let! fa := number self "flap_angle" in let! ra := number self "rudder_angle" in
         Ok (x43_vehicle L bw ba ws wl wt fl eh fh fn rl fa ra)).
End X43.
