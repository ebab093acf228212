(** Specification vocabulary for components. *)
From Coq Require Import Reals String List.
From Verif Require Import Py M_Vector SpecR3 M_Path SpecSurf.
Import ListNotations.
Local Open Scope R_scope.

(** the edge after edge e of a loop of n edges *)
Definition next_edge (n e : nat) : nat := if Nat.eqb (S e) n then 0%nat else S e.

(** edge e of section k is the curve g k e (on [0,1]); all sections have n edges *)
Definition sections_are (n : nat) (sections : list (list (path R))) (g : nat -> nat -> R -> pt) : Prop :=
  forall k cs, nth_error sections k = Some cs ->
    length cs = n /\ forall e p, nth_error cs e = Some p -> evaluates01 p (g k e).

(** consecutive edges of every section meet exactly *)
Definition loops_close (n m : nat) (g : nat -> nat -> R -> pt) : Prop :=
  forall k e, (k < m)%nat -> (e < n)%nat -> g k e 1 = g k (next_edge n e) 0.

(** agreement within 1e-12 per coordinate *)
Definition within (d : R) (p q : pt) : Prop :=
  Rabs (vx p - vx q) <= d /\ Rabs (vy p - vy q) <= d /\ Rabs (vz p - vz q) <= d.
