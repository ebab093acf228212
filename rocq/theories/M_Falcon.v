(** Model of src/hypervehicle/hangar/falcon9.py. *)
From Coq Require Import ZArith Bool String List.
From Verif Require Import Num Py M_Vector M_Path M_Surface M_Geometry M_Mesh M_Component M_Vehicle M_VecHeap M_Sens M_Gen M_Hangar.
Import ListNotations.
Local Open Scope string_scope.

Section Falcon.
  Context {T : Type} {N : Num T}.
  Notation M := (M (T := T)).

  (* falcon9.py:37-69 -- the revolve line of the fairing *)
  Definition falcon9_fairing (D h r_n r_o f_L : T) : res (path T) :=
    let x_o := nneg (nsqrt (nsub (nsq (nsub r_o r_n)) (nsq (nsub r_o h)))) in
    let y_t := ndiv (nmul r_n (nsub r_o h)) (nsub r_o r_n) in
    let x_t := nsub x_o (nsqrt (nsub (nsq r_n) (nsq y_t))) in
    let x_a := nsub x_o r_n in
    let a_o := vec2 (nneg x_t) y_t in
    let b_o := vec2 n0 h in
    let c_o := vec2 n0 (nadd (nneg r_o) h) in
    let ogive_arc := Arc a_o b_o c_o in
    let a_n := vec2 (nneg x_a) n0 in
    let c_n := vec2 (nneg x_o) n0 in
    let nose_arc := Arc a_n a_o c_n in
    let f1 := vsub b_o (vec2 f_L n0) in
    let r_b := ndiv D n2 in
    let fb1 := vec2 (nsub (vx f1) (nmul (nlit 1 10) f_L)) r_b in
    let fb2 := vec2 (nsub (vx f1) (nmul (nlit 3 10) f_L)) n0 in
    let! fb_line := Polyline [Line f1 fb1; Line fb1 fb2] in
    Polyline [nose_arc; ogive_arc; Line b_o f1; fb_line].
  (* falcon9.py:74-86 -- the revolve line of the body *)
  Definition falcon9_body (D L_b h f_L : T) : res (path T) :=
    let f1 := vsub (vec2 n0 h) (vec2 f_L n0) in
    let r_b := ndiv D n2 in
    let b00 := vec2 (vx f1) n0 in
    let b0 := vec2 (vx f1) r_b in
    let b1 := vsub b0 (vec2 L_b n0) in
    let bb1 := vec2 (vx b1) n0 in
    Polyline [Line b00 b0; Line b0 b1; Line b1 bb1].
  (* falcon9.py:28-91 -- create_instance *)
  Definition falcon9_vehicle (D L_b h r_n r_o f_L : T) : M (vehicle T) :=
    bindM (lift (falcon9_fairing D h r_n r_o f_L)) (fun fairing_line =>
    bindM (new_revolved fairing_line (ResInt 100) None) (fun fairing =>
    bindM (add (configured "SpaceX Falcon 9") fairing default_add) (fun falcon9 =>
    bindM (lift (falcon9_body D L_b h f_L)) (fun line =>
    bindM (new_revolved line (ResInt 50) None) (fun fuselage =>
      add falcon9 fuselage default_add))))).
  (* falcon9.py:16-26 *)
  Definition ParametricFalcon9 : generator (pval T) (M (vehicle T)) :=
    mkGen []
      [SetAttr "D" (fun _ => Ok (PNum (nlit 375 100))); SetAttr "L_b" (fun _ => Ok (PNum (nZ 60)));
       SetAttr "h" (fun _ => Ok (PNum (ndiv (nZ 5) n2))); SetAttr "r_n" (fun _ => Ok (PNum (nlit 75 100)));
       SetAttr "r_o" (fun _ => Ok (PNum (nZ 7))); SetAttr "f_L" (fun _ => Ok (PNum (nZ 6))); SuperInit]
      (fun self =>
         let! D := number self "D" in let! L_b := number self "L_b" in let! h := number self "h" in
         let! r_n := number self "r_n" in let! r_o := number self "r_o" in let! f_L := number self "f_L" in
         Ok (falcon9_vehicle D L_b h r_n r_o f_L)).
End Falcon.
