(** Specification vocabulary: clustering functions. *)
From Coq Require Import Reals.
From Verif Require Import Num NumR Py.
Local Open Scope R_scope.

(** where the nodes of an evenly spaced grid go *)
Definition places (c : option (R -> res R)) (g : R -> R) : Prop :=
  forall t, 0 <= t <= 1 -> match c with Some f => f t = Ok (g t) | None => g t = t end.
(** [0,1] stays, with its ends *)
Definition keeps_ends (g : R -> R) : Prop := g 0 = 0 /\ g 1 = 1 /\ forall t, 0 <= t <= 1 -> 0 <= g t <= 1.
Definition rising (g : R -> R) : Prop := forall s t, 0 <= s -> s < t -> t <= 1 -> g s < g t.
(** node k of n + 1 cells *)
Definition node (n k : nat) : R := INR k / INR (S n).
(** the same nodes in both directions, and the same seen from either end *)
Definition alike (n : nat) (g h : R -> R) : Prop := forall k, (k <= S n)%nat -> g (node n k) = h (node n k).
Definition even_handed (n : nat) (g : R -> R) : Prop := forall k, (k <= S n)%nat -> g (node n (S n - k)) = 1 - g (node n k).
