(** Properties C19-C20: Roberts clustering (geometry/path.py). *)
From Coq Require Import Reals Lra List Bool Lia.
From Verif Require Import Num NumR Py M_Vector SpecR3 M_Path SpecPath L_Roberts.
Import ListNotations.
Local Open Scope R_scope.

(** C19: for beta > 1 and at least one end flag, clustering is a strictly
    increasing bijection of [0,1] that fixes the ends *)
Theorem C19_bijection e1 e2 beta : 1 < beta -> e1 || e2 = true ->
  exists f, (forall x, clustered_roberts x e1 e2 beta = Ok (f x)) /\
    f 0 = 0 /\ f 1 = 1 /\ (forall x y, x < y -> f x < f y) /\
    (forall x, 0 <= x <= 1 -> 0 <= f x <= 1) /\
    (forall y, 0 <= y <= 1 -> exists x, 0 <= x <= 1 /\ f x = y).
Proof. exact (clustered_all e1 e2 beta). Qed.

(** C19: the end1 map is the mirror image of the end2 map, and the two-ended
    map is symmetric about 1/2, its upper half being the end2 map *)
Theorem C19_mirror beta x : 1 < beta ->
  exists y z w, clustered_roberts x true false beta = Ok y /\
    clustered_roberts (1 - x) false true beta = Ok (1 - y) /\
    clustered_roberts x true true beta = Ok z /\
    clustered_roberts (1 - x) true true beta = Ok (1 - z) /\
    clustered_roberts (2 * x - 1) false true beta = Ok w /\ z = (1 + w) / 2.
Proof. exact (clustered_mirror beta x). Qed.

(** C19: points really are drawn towards the clustered end *)
Theorem C19_clusters beta x h : 1 < beta -> 0 < h -> 0 <= x - h -> x + h <= 1 ->
  exists a b c, clustered_roberts (x - h) false true beta = Ok a /\
    clustered_roberts x false true beta = Ok b /\
    clustered_roberts (x + h) false true beta = Ok c /\ 0 < c - b < b - a.
Proof. exact (clustered_shrinks beta x h). Qed.

(** C19: no flags or beta < 1: identity *)
Theorem C19_identity e e1 e2 beta : (e1 = false /\ e2 = false) \/ beta < 1 ->
  clustered_roberts e e1 e2 beta = Ok e.
Proof. exact (clustered_identity e e1 e2 beta). Qed.

(** C19: beta = 1 with a flag set divides by zero *)
Theorem C19_beta1 e e1 e2 : e1 || e2 = true ->
  clustered_roberts e e1 e2 1 = Raise ZeroDivisionError.
Proof. exact (clustered_beta1 e e1 e2). Qed.

Example C19_meets : exists y, clustered_roberts (1 / 2) true false 2 = Ok y /\ 0 < y < 1.
Proof.
  destruct (C19_bijection true false 2 ltac:(lra) eq_refl) as (f & F & F0 & F1 & M & _).
  exists (f (1 / 2)). split; [apply F|]. pose proof (M 0 (1 / 2)). pose proof (M (1 / 2) 1). lra.
Qed.

(** C20: n+1 ordered points from t1 to t2 *)
Theorem C20_distribute t1 t2 n e1 e2 beta :
  (1 <= n)%nat -> (e1 || e2 = true -> 1 < beta \/ beta < 1) ->
  exists l, distribute_points t1 t2 n e1 e2 beta = Ok l /\
    length l = S n /\ nth 0 l 0 = t1 /\ nth n l 0 = t2 /\
    (forall i j, (i < j)%nat -> (j <= n)%nat ->
       (t1 < t2 -> nth i l 0 < nth j l 0) /\ (t2 < t1 -> nth j l 0 < nth i l 0)).
Proof. exact (distribute_all t1 t2 n e1 e2 beta). Qed.

(** C20: beta = 1 raises, n = 0 gives only the first point *)
Theorem C20_beta1 t1 t2 n e1 e2 : e1 || e2 = true ->
  distribute_points t1 t2 n e1 e2 1 = Raise ZeroDivisionError.
Proof. exact (distribute_beta1 t1 t2 n e1 e2). Qed.
Theorem C20_zero t1 t2 e1 e2 beta : 1 < beta ->
  distribute_points t1 t2 0 e1 e2 beta = Ok [t1].
Proof. exact (distribute_zero t1 t2 e1 e2 beta). Qed.

(** C20: the clustering objects handed to the mesher produce nv increasing
    parameters from 0 to 1 *)
Theorem C20_cluster_function e1 e2 beta nv : (2 <= nv)%nat -> 1 < beta ->
  exists l, roberts_distribute e1 e2 beta nv = Ok l /\ length l = nv /\
    nth 0 l 0 = 0 /\ nth (nv - 1) l 0 = 1 /\ strictly_increasing l.
Proof. exact (roberts_distribute_all e1 e2 beta nv). Qed.

Example C20_meets : exists l, distribute_points 3 1 7 true true (11 / 10) = Ok l /\
  length l = 8%nat /\ nth 5 l 0 < nth 4 l 0.
Proof.
  destruct (C20_distribute 3 1 7 true true (11 / 10)) as (l & E & L & _ & _ & M); [lia|intros; lra|].
  exists l. split; [exact E|]. split; [exact L|]. apply (proj2 (M 4%nat 5%nat ltac:(lia) ltac:(lia))). lra.
Qed.

Print Assumptions C19_bijection.
Print Assumptions C19_mirror.
Print Assumptions C19_clusters.
Print Assumptions C20_distribute.
Print Assumptions C20_cluster_function.
