(** Model of components/common.py and of the constants of components. *)
From Coq Require Import ZArith Bool String List Ascii.
From Verif Require Import Num Py M_Vector M_Path M_Surface M_Geometry M_Component.
Import ListNotations.
Local Open Scope string_scope.

(** str.upper and str.lower on ASCII strings *)
Definition upper_ascii (a : ascii) : ascii :=
  let n := nat_of_ascii a in if (Nat.leb 97 n && Nat.leb n 122)%bool then ascii_of_nat (n - 32) else a.
Definition lower_ascii (a : ascii) : ascii :=
  let n := nat_of_ascii a in if (Nat.leb 65 n && Nat.leb n 90)%bool then ascii_of_nat (n + 32) else a.
Fixpoint map_string (f : ascii -> ascii) (s : string) : string :=
  match s with EmptyString => EmptyString | String a s' => String (f a) (map_string f s') end.
Definition upper := map_string upper_ascii.
Definition lower := map_string lower_ascii.

Section Common.
  Context {T : Type} {N : Num T}.

  (* common.py:7-16 -- leading_edge_width_function *)
  Definition leading_edge_width_function (r : T) : res T :=
    let! p := p_call (Bezier [V3 n0 (nlit 1 100) n0; V3 nhalf (nlit 1 10) n0; V3 n1 (nlit 1 100) n0]) r in
    Ok (vy p).

  (* common.py:19-26 -- uniform_thickness_function *)
  Definition uniform_thickness_function (thickness : T) (side : string) : tfun T :=
    let m := if String.eqb side "top" then nZ (-1) else n1 in
    fun _ _ _ => Ok (V3 n0 n0 (ndiv (nmul m thickness) n2)).

  (* common.py:29-46 -- circle_patch; the third argument is not used *)
  Definition circle_patch (centre : vec T) (r : T) (plane : string) : res (surf T) :=
    let a := ndiv npi (nZ 4) in
    let tr := V3 (nadd (vx centre) (nmul r (ncos a))) (nadd (vy centre) (nmul r (nsin a))) n0 in
    let tl := V3 (nsub (vx centre) (nmul r (ncos a))) (nadd (vy centre) (nmul r (nsin a))) n0 in
    let br := V3 (nadd (vx centre) (nmul r (ncos a))) (nsub (vy centre) (nmul r (nsin a))) n0 in
    let bl := V3 (nsub (vx centre) (nmul r (ncos a))) (nadd (vy centre) (nmul (nneg r) (nsin a))) n0 in
    CoonsPatch (Arc tl tr centre) (Arc br tr centre) (Arc bl br centre) (Arc bl tl centre).

  (* common.py:49-113 -- OgiveNose: the revolve line *)
  Record ogive := mkOgive {
    og_nose : path T; og_arc : path T; og_fairing : path T; og_base : path T }.
  Definition ogive_parts (h r_n r_o L_o : T) : ogive :=
    let x_o := nneg (nsqrt (nsub (nsq (nsub r_o r_n)) (nsq (nsub r_o h)))) in
    let y_t := ndiv (nmul r_n (nsub r_o h)) (nsub r_o r_n) in
    let x_t := nsub x_o (nsqrt (nsub (nsq r_n) (nsq y_t))) in
    let x_a := nsub x_o r_n in
    let a_o := V3 (nneg x_t) y_t n0 in
    let b_o := V3 n0 h n0 in
    let c_o := V3 n0 (nadd (nneg r_o) h) n0 in
    let a_n := V3 (nneg x_a) n0 n0 in
    let c_n := V3 (nneg x_o) n0 n0 in
    let f1 := vsub b_o (V3 L_o n0 n0) in
    mkOgive (Arc a_n a_o c_n) (Arc a_o b_o c_o) (Line b_o f1) (Line f1 (V3 (vx f1) n0 n0)).
  Definition OgiveNose (h r_n r_o L_o : T) : res (path T) :=
    let o := ogive_parts h r_n r_o L_o in
    Polyline [og_nose o; og_arc o; og_fairing o; og_base o].
End Common.
Arguments ogive T : clear implicits.
