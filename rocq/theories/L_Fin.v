(** Lemmas about fin patches. *)
From Coq Require Import Reals Lra String List Lia ZArith Bool.
From Verif Require Import Num NumR Py M_Vector SpecR3 M_Path M_Surface M_Geometry M_Component M_Common M_Fin
  SpecPath SpecPoly SpecSurf SpecWing SpecFin L_Vector L_Line L_Polyline L_Coons L_ArcLength L_Curves L_Rigid L_Ellipse L_Wing.
Import ListNotations.
Local Open Scope R_scope.
Local Opaque el_u el_pt MeanLeadingEdgePatchFunction ArcLengthParameterizedPath.

(** ** the bent leading edge *)
Lemma dist_pos (a b : pt) : a <> b -> 0 < dist a b.
Proof.
  intros H. destruct (Rle_lt_or_eq_dec _ _ (dist_nonneg a b)) as [|E]; [assumption|].
  exfalso. apply H, dist_zero. auto.
Qed.
Section Bent.
  Variables p1 p2 p3 : pt.
  Hypothesis H12 : p1 <> p2.
  Hypothesis H23 : p2 <> p3.
  Notation T := (corner_time p1 p2 p3).
  Notation L := (dist p1 p2 + dist p2 p3).

  Lemma corner_range : 0 < T < 1.
  Proof using H12 H23.
    pose proof (dist_pos _ _ H12). pose proof (dist_pos _ _ H23). unfold corner_time. split.
    - apply Rmult_lt_0_compat; [lra|]. apply Rinv_0_lt_compat; lra.
    - apply Rmult_lt_reg_r with L; [lra|]. unfold Rdiv. rewrite Rmult_assoc, Rinv_l by lra. lra.
  Qed.
  Lemma corner_L : T * L = dist p1 p2 /\ (1 - T) * L = dist p2 p3.
  Proof using H12 H23.
    pose proof (dist_pos _ _ H12). pose proof (dist_pos _ _ H23). unfold corner_time. split; field; lra.
  Qed.

  Lemma bent_evaluates : exists q, Polyline [Line p1 p2; Line p2 p3] = Ok q /\ evaluates q (bent p1 p2 p3).
  Proof using H12 H23.
    pose proof (dist_pos _ _ H12) as D1. pose proof (dist_pos _ _ H23) as D2.
    set (segs := [Line p1 p2; Line p2 p3]).
    assert (Hl : lengths segs [dist p1 p2; dist p2 p3])
      by (constructor; [apply line_length|constructor; [apply line_length|constructor]]).
    assert (Hn : segs <> []) by discriminate.
    unfold Polyline. rewrite (init_open segs _ _ Hn Hl). cbn [bind]. eexists. split; [reflexivity|].
    intros t. cbn [p_call polyline_path].
    assert (Ht : Forall total_path segs)
      by (repeat constructor; intros u; rewrite line_lerp; eexists; reflexivity).
    destruct (polyline_one_segment segs _ (1 / 10000000000) _ t Hn Hl ltac:(repeat constructor; assumption) Ht
       (init_open segs _ _ Hn Hl)) as (k & s & Hk & _ & Es & E).
    rewrite E. clear E. cbn [pl_t_values] in *. unfold in_segment in Hk. cbn [length segs] in Hk.
    assert (B0 : nth 0 (breaks [dist p1 p2; dist p2 p3]) 0 = 0) by (unfold breaks; cbn; unfold Rsum; cbn; field; lra).
    assert (B1 : nth 1 (breaks [dist p1 p2; dist p2 p3]) 0 = T) by (unfold breaks, corner_time; cbn; unfold Rsum; cbn; field; lra).
    assert (B2 : nth 2 (breaks [dist p1 p2; dist p2 p3]) 0 = 1) by (unfold breaks; cbn; unfold Rsum; cbn; field; lra).
    pose proof corner_range. unfold local_t, bent.
    destruct k as [|[|k]]; cbn [nth_error segs] in Es; [| |destruct k; discriminate].
    - injection Es as <-. rewrite line_lerp, B0, B1. destruct Hk as (_ & _ & [Hk|Hk]); [discriminate|].
      rewrite B1 in Hk. destruct (Rle_dec t T); [|lra]. do 2 f_equal. field. lra.
    - injection Es as <-. rewrite line_lerp, B1, B2. destruct Hk as (_ & [Hk|Hk] & _); [discriminate|].
      rewrite B1 in Hk. destruct (Rle_dec t T); [lra|]. do 2 f_equal.
  Qed.

  Lemma bent_first s : s <= 1 -> bent p1 p2 p3 (T * s) = lerp s p1 p2.
  Proof using H12 H23.
    intros Hs. pose proof corner_range. unfold bent. destruct (Rle_dec (T * s) T) as [|N].
    - f_equal. field. lra.
    - exfalso. apply N. nra.
  Qed.
  Lemma bent_second s : 0 <= s -> bent p1 p2 p3 (T + (1 - T) * s) = lerp s p2 p3.
  Proof using H12 H23.
    intros Hs. pose proof corner_range. unfold bent. destruct (Rle_dec (T + (1 - T) * s) T) as [N|].
    - assert (s = 0) by nra. subst. replace ((T + (1 - T) * 0) / T) with 1 by (field; lra). rewrite lerp_0, lerp_1. reflexivity.
    - f_equal. field. lra.
  Qed.
  Lemma bent_ends : bent p1 p2 p3 0 = p1 /\ bent p1 p2 p3 T = p2 /\ bent p1 p2 p3 1 = p3.
  Proof using H12 H23.
    split; [|split].
    - rewrite <- (Rmult_0_r T), bent_first by lra. apply lerp_0.
    - transitivity (bent p1 p2 p3 (T * 1)); [rewrite Rmult_1_r; reflexivity|]. rewrite bent_first by lra. apply lerp_1.
    - replace 1 with (T + (1 - T) * 1) by ring. rewrite bent_second by lra. apply lerp_1.
  Qed.
  (** constant speed *)
  Lemma bent_speed t : dist (bent p1 p2 p3 T) (bent p1 p2 p3 t) = L * Rabs (T - t).
  Proof using H12 H23.
    pose proof corner_range as R. pose proof corner_L as [L1 L2]. destruct bent_ends as (_ & -> & _).
    destruct (Rle_dec t T) as [H|H].
    - replace t with (T * (t / T)) by (field; lra). rewrite bent_first.
      2:{ apply Rmult_le_reg_r with T; [lra|]. unfold Rdiv. rewrite Rmult_assoc, Rinv_l by lra. lra. }
      rewrite <- (lerp_1 p1 p2) at 1. rewrite line_speed.
      replace (T - T * (t / T)) with (T * (1 - t / T)) by ring. rewrite Rabs_mult, (Rabs_pos_eq T) by lra.
      rewrite <- Rmult_assoc, (Rmult_comm L T), L1. apply Rmult_comm.
    - replace t with (T + (1 - T) * ((t - T) / (1 - T))) by (field; lra). rewrite bent_second.
      2:{ apply Rmult_le_pos; [lra|]. left; apply Rinv_0_lt_compat; lra. }
      rewrite <- (lerp_0 p2 p3) at 1. rewrite line_speed.
      replace (T - (T + (1 - T) * ((t - T) / (1 - T)))) with ((1 - T) * (0 - (t - T) / (1 - T))) by ring.
      rewrite Rabs_mult, (Rabs_pos_eq (1 - T)) by lra.
      rewrite <- Rmult_assoc, (Rmult_comm L (1 - T)), L2. apply Rmult_comm.
  Qed.
End Bent.
