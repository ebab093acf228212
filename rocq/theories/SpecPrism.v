(** Specification vocabulary for prisms: the vector area of a closed polygon. *)
From Coq Require Import Reals List.
From Verif Require Import M_Vector SpecR3 SpecMesh.
Import ListNotations.
Local Open Scope R_scope.

(** the n chords of a curve on [0,1] cut at equal steps of its parameter *)
Definition chords (n : nat) (c : R -> pt) : list (edge pt) := chain (fun k => c (INR k / INR n)) n.

(** half the sum of p x q over the directed edges: for a closed polygon in a
    plane, its area times the unit normal about which it runs counter-clockwise *)
Definition vector_area (l : list (edge pt)) : pt := scaled (1 / 2) (sum_vec (map (fun e => crossR (fst e) (snd e)) l)).

(** a loop of four curves *)
Definition loop4 (n : nat) (c : nat -> R -> pt) : list (edge pt) :=
  chords n (c 0%nat) ++ chords n (c 1%nat) ++ chords n (c 2%nat) ++ chords n (c 3%nat).

(** the directed edges of a quadrilateral *)
Definition quad (a b c d : pt) : list (edge pt) := [(a, b); (b, c); (c, d); (d, a)].
