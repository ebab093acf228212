(** Property C86: smoothness of splines. *)
From Coq Require Import Reals Lra List Lia.
From Verif Require Import Num NumR Py M_Vector SpecR3 M_Path SpecPath SpecPoly L_Vector L_Line L_Polyline L_Spline L_Smooth.
Import ListNotations.
Local Open Scope R_scope.

Lemma closed_points_length pts closed tol : (2 <= length pts)%nat -> (2 <= length (closed_points pts closed tol))%nat.
Proof.
  intros H. unfold closed_points. destruct closed; [|exact H]. destruct (Rltb _ _); [|exact H]. rewrite app_length. cbn. lia.
Qed.

(** C86: where two consecutive segments of a Spline meet their second derivatives
    agree exactly, however the iteration ended, and their first derivatives agree
    up to the tolerance or 3^-50 times the largest second difference of the
    points, whichever is larger: the iteration always gets that far in its 50
    sweeps. *)
Theorem C86_joints pts closed tol pl E : (2 <= length pts)%nat -> 0 <= tol ->
  Spline_init pts closed tol = Ok pl ->
  (forall i, (S (S i) < length (closed_points pts closed tol))%nat ->
     nrm (second_difference (nth i (closed_points pts closed tol) origin) (nth (S i) (closed_points pts closed tol) origin)
       (nth (S (S i)) (closed_points pts closed tol) origin)) <= E) ->
  forall i, (S (S i) < length (closed_points pts closed tol))%nat ->
  exists s s' f g v w a, nth_error (pl_segments pl) i = Some s /\ nth_error (pl_segments pl) (S i) = Some s' /\
    evaluates s f /\ evaluates s' g /\
    has_velocity f 1 v /\ has_velocity g 0 w /\ dist v w <= Rmax tol (E / 3 ^ 50) /\
    has_acceleration f 1 a /\ has_acceleration g 0 a.
Proof.
  intros Hp Ht H HE i Hi. destruct (spline_init_ok pts closed tol Hp Ht) as (ls & _ & _ & EQ).
  rewrite EQ in H. injection H as <-. cbn [pl_segments]. pose proof (closed_points_length pts closed tol Hp) as L2.
  set (P := closed_points pts closed tol) in *. clearbody P. clear EQ.
  assert (E0 : 0 <= E) by (eapply Rle_trans; [apply nrm_nonneg|apply (HE i Hi)]).
  destruct (iterate_result P tol 49 P E eq_refl L2 E0 (first_sweep P E E0 HE)) as (B & LB & SB & CB).
  unfold spline_segs. set (D := gs_iterate 50 tol P P) in *.
  assert (LD : length D = length P) by apply gs_iterate_length.
  rewrite !nth_error_map, !(segments_nth P D) by (try exact LD; lia). cbn [option_map].
  do 2 eexists. do 5 eexists. split; [reflexivity|]. split; [reflexivity|].
  split; [apply bezier_cubic|]. split; [apply bezier_cubic|]. split; [apply cubic_velocity|]. split; [apply cubic_velocity|].
  split; [|split; [apply cubic_acceleration|]].
  - apply (dist_change _ _ _ P B D i SB CB); [lia| |]; unfold cubic_vel, cubic'; apply vec_ext; cbn; field.
  - match goal with |- has_acceleration (cubic_pt ?a ?b ?c ?d) 0 ?x => replace x with (cubic_acc a b c d 0); [apply cubic_acceleration|] end.
    unfold cubic_acc. apply vec_ext; cbn; field.
Qed.

(** C86: the ends are those of a natural spline: no acceleration *)
Theorem C86_natural pts closed tol pl : (2 <= length pts)%nat -> 0 <= tol ->
  Spline_init pts closed tol = Ok pl ->
  exists s s' f g, nth_error (pl_segments pl) 0 = Some s /\ nth_error (pl_segments pl) (length (pl_segments pl) - 1) = Some s' /\
    evaluates s f /\ evaluates s' g /\ has_acceleration f 0 origin /\ has_acceleration g 1 origin.
Proof.
  intros Hp Ht H. destruct (spline_init_ok pts closed tol Hp Ht) as (ls & _ & _ & EQ).
  rewrite EQ in H. injection H as <-. cbn [pl_segments]. rewrite spline_segs_length. pose proof (closed_points_length pts closed tol Hp) as L2.
  set (P := closed_points pts closed tol) in *. clearbody P. clear EQ.
  unfold spline_segs. destruct (iterate_ends P tol 50 P eq_refl L2) as (I0 & I1). set (D := gs_iterate 50 tol P P) in *.
  assert (LD : length D = length P) by apply gs_iterate_length.
  rewrite !nth_error_map, !(segments_nth P D) by (try exact LD; lia). cbn [option_map].
  do 4 eexists. split; [reflexivity|]. split; [reflexivity|]. split; [apply bezier_cubic|]. split; [apply bezier_cubic|].
  replace (S (length P - 1 - 1)) with (length P - 1)%nat by lia. rewrite I0, I1.
  assert (T : forall a b c d t, cubic_acc a b c d t = origin -> has_acceleration (cubic_pt a b c d) t origin)
    by (intros a b c d t <-; apply cubic_acceleration).
  split; apply T; unfold cubic_acc; apply vec_ext; cbn; field.
Qed.

(** C86: and so are those of a closed spline, which need not be smooth where it
    closes: through two points it returns to its start in exactly the direction
    opposite to the one it left in *)
Theorem C86_closed_refuted p0 p1 tol : 0 <= tol < dist p0 p1 ->
  exists pl s s' f g v, Spline_init [p0; p1] true tol = Ok pl /\
    nth_error (pl_segments pl) 0 = Some s /\ nth_error (pl_segments pl) (length (pl_segments pl) - 1) = Some s' /\
    evaluates s f /\ evaluates s' g /\ f 0 = g 1 /\ v <> origin /\ has_velocity f 0 v /\ has_velocity g 1 (scaled (-1) v).
Proof.
  intros Ht. assert (Hp : (2 <= length [p0; p1])%nat) by (cbn; lia).
  destruct (spline_init_ok [p0; p1] true tol Hp ltac:(lra)) as (ls & _ & _ & EQ).
  assert (CP : closed_points [p0; p1] true tol = [p0; p1; p0]).
  { unfold closed_points. cbn [nth last]. destruct (Rltb tol (dist p0 p1)) eqn:X; [reflexivity|]. apply Rltb_false in X. lra. }
  rewrite CP in EQ.
  set (P := [p0; p1; p0]) in *.
  assert (L2 : (2 <= length P)%nat) by (cbn; lia).
  destruct (iterate_ends P tol 50 P eq_refl L2) as (I0 & I1).
  assert (ST : stable P P (nrm (second_difference p0 p1 p0))).
  { apply first_sweep; [apply nrm_nonneg|]. intros [|i] Hi; [apply Rle_refl|cbn in Hi; lia]. }
  destruct (iterate_result P tol 49 P _ eq_refl L2 (nrm_nonneg _) ST) as (B & LB & (_ & B0 & B1 & SB) & _).
  set (D := gs_iterate 50 tol P P) in *.
  assert (LD : length D = length P) by apply gs_iterate_length.
  assert (SG : spline_segs tol P = map Bezier (spline_segments P D)) by reflexivity.
  rewrite SG in EQ. clear SG.
  do 5 eexists. exists (scaled (3 / 2) (diff p1 p0)). split; [exact EQ|]. clear EQ. cbn [pl_segments]. clearbody D.
  rewrite map_length, spline_segments_length by exact LD.
  rewrite !nth_error_map, !(segments_nth P D) by (try exact LD; cbn; lia). cbn [option_map].
  split; [reflexivity|]. split; [reflexivity|]. split; [apply bezier_cubic|]. split; [apply bezier_cubic|].
  specialize (SB 0%nat ltac:(rewrite LB; cbn; lia)). specialize (B1 2%nat ltac:(rewrite LB; reflexivity)).
  cbn [length P Nat.sub nth] in *. rewrite <- B1 in SB. rewrite I0, I1 in *. clear B0 B1.
  split; [apply vec_ext; cbn; unfold cubic; ring|]. split.
  { intros Z. assert (p1 = p0).
    { pose proof (f_equal vx Z) as X. pose proof (f_equal vy Z) as Y. pose proof (f_equal vz Z) as W. cbn in X, Y, W. apply vec_ext; lra. }
    subst p1. rewrite (proj2 (dist_zero p0 p0) eq_refl) in Ht. lra. }
  split; match goal with |- has_velocity (cubic_pt ?a ?b ?c ?d) ?t ?x => replace x with (cubic_vel a b c d t); [apply cubic_velocity|] end;
    rewrite SB; unfold cubic_vel, cubic'; apply vec_ext; cbn; field.
Qed.

Example C86_meets :
  let pts := [V3 0 0 0; V3 1 1 0; V3 2 0 0; V3 4 0 1] : list pt in
  (2 <= length pts)%nat /\ (exists pl, Spline_init pts false (1 / 10) = Ok pl) /\ 0 <= 1 < dist (V3 0 0 0) (V3 2 0 0) /\
  forall i, (S (S i) < length (closed_points pts false (1 / 10)))%nat ->
    nrm (second_difference (nth i (closed_points pts false (1 / 10)) origin) (nth (S i) (closed_points pts false (1 / 10)) origin)
       (nth (S (S i)) (closed_points pts false (1 / 10)) origin)) <= 3.
Proof.
  cbv zeta. split; [cbn; lia|]. split.
  { destruct (spline_init_ok [V3 0 0 0; V3 1 1 0; V3 2 0 0; V3 4 0 1] false (1 / 10) ltac:(cbn; lia) ltac:(lra)) as (ls & _ & _ & EQ). eexists; exact EQ. }
  split.
  - split; [lra|]. unfold dist. cbn. replace 1 with (sqrt 1) at 1 by apply sqrt_1. apply sqrt_lt_1; lra.
  - cbn [closed_points length]. intros [|[|i]] Hi; [| |lia]; cbn [nth]; unfold nrm, second_difference; cbn;
      replace 3 with (sqrt 9) at 1 by (replace 9 with (3 * 3) by lra; apply sqrt_square; lra); apply sqrt_le_1; lra.
Qed.

Print Assumptions C86_joints.
Print Assumptions C86_natural.
Print Assumptions C86_closed_refuted.
