From Coq Require Import Reals Lra Psatz ZArith List Lia Bool String.
From Verif Require Import Num NumR Py M_Vector SpecR3 M_Path M_Surface M_Geometry
  SpecPath SpecPoly SpecSurf L_Vector L_Line L_Spline.
Import ListNotations.
Local Open Scope R_scope.

(** ** SubRangedPath *)
Lemma sub_ends (p : path R) a b :
  p_call (SubRangedPath p a b) 0 = p_call p a /\
  p_call (SubRangedPath p a b) 1 = p_call p b.
Proof.
  unfold SubRangedPath; cbn [p_call]. numR. split; f_equal; ring.
Qed.

Lemma sub_nested (p : path R) a b c d t :
  p_call (SubRangedPath (SubRangedPath p a b) c d) t =
  p_call (SubRangedPath p (a + c * (b - a)) (a + d * (b - a))) t.
Proof. unfold SubRangedPath; cbn [p_call]. numR. f_equal. ring. Qed.

Lemma sub_full (p : path R) t : p_call (SubRangedPath p 0 1) t = p_call p t.
Proof. unfold SubRangedPath; cbn [p_call]. numR. f_equal. ring. Qed.

Lemma rev_call (p : path R) t : p_call (ReversedPath p) t = p_call p (1 - t).
Proof. unfold ReversedPath, SubRangedPath; cbn [p_call]. numR. f_equal. ring. Qed.

Lemma rev_rev (p : path R) t : p_call (ReversedPath (ReversedPath p)) t = p_call p t.
Proof. rewrite !rev_call. f_equal. ring. Qed.

Lemma sub_rev (p : path R) a b t :
  p_call (ReversedPath (SubRangedPath p a b)) t = p_call (SubRangedPath p b a) t.
Proof. rewrite rev_call. unfold SubRangedPath; cbn [p_call]. numR. f_equal. ring. Qed.

Lemma sub_line_lerp p0 p1 a b t :
  p_call (SubRangedPath (Line p0 p1) a b) t = Ok (lerp t (lerp a p0 p1) (lerp b p0 p1)).
Proof.
  unfold SubRangedPath; cbn [p_call]. rewrite line_lerp. f_equal. numR.
  unfold lerp; apply vec_ext; cbn; ring.
Qed.

Lemma sub_length_iff p0 p1 a b n : p0 <> p1 -> (1 <= n)%nat ->
  exists true_len, Path_length (p_call (SubRangedPath (Line p0 p1) a b)) n = Ok true_len /\
    true_len = Rabs (a - b) * dist p0 p1 /\
    (p_len (SubRangedPath (Line p0 p1) a b) = Ok true_len <-> Rabs (a - b) = 1).
Proof.
  intros Hne Hn. exists (Rabs (a - b) * dist p0 p1). split; [|split; [reflexivity|]].
  - rewrite (path_length_inscribed _ (fun t => lerp t (lerp a p0 p1) (lerp b p0 p1)) n)
      by (auto; intros; apply sub_line_lerp).
    f_equal. rewrite (inscribed_straight _ (fun t => t) (lerp a p0 p1) (lerp b p0 p1)) by auto.
    apply line_speed.
  - unfold SubRangedPath; cbn [p_len]. rewrite line_length.
    assert (D : dist p0 p1 <> 0) by (intros E; apply dist_zero in E; contradiction).
    split; intros H.
    + injection H as H. apply Rmult_eq_reg_r with (dist p0 p1); auto. lra.
    + rewrite H. f_equal. ring.
Qed.

Lemma rev_length (p : path R) : p_len (ReversedPath p) = p_len p.
Proof. reflexivity. Qed.

(** ** ElipsePath *)
Definition el_theta (side : string) (r : R) : R :=
  if String.eqb side "bot" then r * (PI / 2) else (r - 1) * (PI / 2).
Definition el_x (a b T : R) : R := a * b / sqrt (b * b + (a * T) * (a * T)).

Lemma elipse_value c th w side r : side = "bot"%string \/ side = "top"%string ->
  p_call (ElipsePath c th w side) r =
  Ok (let x := el_x w (Rabs th) (Rtan (el_theta side r)) in
      V3 (vx c) (vy c + x) (vz c + x * Rtan (el_theta side r))).
Proof.
  intros H. unfold ElipsePath; cbn [p_call]. unfold Elipse_call, el_theta, el_x.
  destruct H as [-> | ->]; cbn [String.eqb Ascii.eqb Bool.eqb bind]; numR; rewrite sin_PI2, cos_PI2.
  - replace (0 + r * PI / 2) with (r * (PI / 2)) by field.
    f_equal. unfold vadd; cbn [vx vy vz nadd NumR]. apply vec_ext; cbn; ring.
  - replace (- PI / 2 + r * PI / 2) with ((r - 1) * (PI / 2)) by field.
    f_equal. unfold vadd; cbn [vx vy vz nadd NumR]. apply vec_ext; cbn; ring.
Qed.

Lemma el_den_pos a b T : b <> 0 -> 0 < sqrt (b * b + a * T * (a * T)).
Proof. intros. apply sqrt_lt_R0. assert (0 < b * b) by nra. nra. Qed.

Lemma el_on a b T : a <> 0 -> b <> 0 ->
  (el_x a b T / a) * (el_x a b T / a) + (el_x a b T * T / b) * (el_x a b T * T / b) = 1.
Proof.
  intros Ha Hb. unfold el_x. pose proof (el_den_pos a b T Hb) as Hd.
  assert (S : sqrt (b * b + a * T * (a * T)) * sqrt (b * b + a * T * (a * T))
              = b * b + a * T * (a * T)) by (apply sqrt_sqrt; nra).
  set (d := sqrt (b * b + a * T * (a * T))) in *.
  replace (a * b / d / a * (a * b / d / a) + a * b / d * T / b * (a * b / d * T / b))
    with ((b * b + a * T * (a * T)) / (d * d)) by (field; repeat split; lra).
  rewrite S. field. nra.
Qed.

Lemma elipse_on c th w side r : th <> 0 -> w <> 0 ->
  side = "bot"%string \/ side = "top"%string ->
  exists p, p_call (ElipsePath c th w side) r = Ok p /\ vx p = vx c /\
    ((vy p - vy c) / w) * ((vy p - vy c) / w) + ((vz p - vz c) / th) * ((vz p - vz c) / th) = 1.
Proof.
  intros Hth Hw Hs. eexists. split; [apply elipse_value; exact Hs|]. cbn [vx vy vz].
  split; [reflexivity|]. set (T := Rtan (el_theta side r)). set (x := el_x w (Rabs th) T).
  pose proof (el_on w (Rabs th) T Hw (Rabs_no_R0 _ Hth)) as E. fold x in E.
  replace (vy c + x - vy c) with x by ring. replace (vz c + x * T - vz c) with (x * T) by ring.
  rewrite <- E. f_equal.
  assert (K : Rabs th * Rabs th = th * th) by (rewrite <- Rabs_mult; apply Rabs_right; nra).
  assert (Rabs th <> 0) by (apply Rabs_no_R0; auto).
  replace (x * T / Rabs th * (x * T / Rabs th)) with (x * T * (x * T) / (Rabs th * Rabs th))
    by (field; auto).
  rewrite K. field; auto.
Qed.

Lemma elipse_bad_side c (th w : R) side r :
  side <> "bot"%string -> side <> "top"%string ->
  p_call (ElipsePath c th w side) r = Raise GenericError.
Proof.
  intros H1 H2. unfold ElipsePath; cbn [p_call]. unfold Elipse_call.
  apply String.eqb_neq in H1, H2. rewrite H1, H2. reflexivity.
Qed.

Lemma Rtan_nonneg t : 0 <= t <= PI / 2 -> 0 <= Rtan t.
Proof.
  intros H. unfold Rtan. destruct Req_EM_T as [E|E].
  - destruct (Rlt_dec 0 (sin t)) as [L|L]; [unfold tan_big; lra|].
    exfalso. apply L. pose proof PI_RGT_0.
    destruct (Req_dec t 0) as [->|N]; [rewrite cos_0 in E; lra|]. apply sin_gt_0; lra.
  - unfold tan. pose proof PI_RGT_0. apply Rmult_le_pos; [apply sin_ge_0; lra|].
    apply Rlt_le, Rinv_0_lt_compat. assert (0 <= cos t) by (apply cos_ge_0; lra). lra.
Qed.
Lemma Rtan_opp t : Rtan (- t) = - Rtan t.
Proof.
  unfold Rtan. rewrite cos_neg, sin_neg.
  destruct Req_EM_T as [E|E]; [|apply tan_neg].
  pose proof (sin2_cos2 t) as S. unfold Rsqr in S. rewrite E in S.
  destruct (Rlt_dec 0 (sin t)), (Rlt_dec 0 (- sin t)); try lra.
  exfalso. assert (sin t = 0) by lra. rewrite H in S. lra.
Qed.

Lemma el_x_bounds a b T : 0 < a -> 0 < b -> 0 <= T ->
  0 < el_x a b T <= a /\ 0 <= el_x a b T * T <= b.
Proof.
  intros Ha Hb HT. unfold el_x. pose proof (el_den_pos a b T (Rgt_not_eq _ _ Hb)) as Hd.
  assert (S : sqrt (b * b + a * T * (a * T)) * sqrt (b * b + a * T * (a * T))
              = b * b + a * T * (a * T)) by (apply sqrt_sqrt; nra).
  set (d := sqrt (b * b + a * T * (a * T))) in *.
  assert (0 <= a * T) by (apply Rmult_le_pos; lra).
  assert (b <= d) by (apply Rsqr_incr_0; unfold Rsqr; nra).
  assert (a * T <= d) by (apply Rsqr_incr_0; unfold Rsqr; nra).
  assert (0 < a * b) by nra.
  repeat split.
  - apply Rdiv_lt_0_compat; auto.
  - apply Rmult_le_reg_r with d; auto. unfold Rdiv. rewrite Rmult_assoc, Rinv_l by lra. nra.
  - apply Rmult_le_pos; auto. apply Rlt_le, Rdiv_lt_0_compat; auto.
  - apply Rmult_le_reg_r with d; auto.
    replace (a * b / d * T * d) with (b * (a * T)) by (field; lra). nra.
Qed.

Lemma elipse_quadrant c th w r : th <> 0 -> 0 < w -> 0 <= r <= 1 ->
  (exists p, p_call (ElipsePath c th w "bot") r = Ok p /\
     0 < vy p - vy c <= w /\ 0 <= vz p - vz c <= Rabs th) /\
  (exists p, p_call (ElipsePath c th w "top") r = Ok p /\
     0 < vy p - vy c <= w /\ - Rabs th <= vz p - vz c <= 0).
Proof.
  intros Hth Hw Hr. pose proof PI_RGT_0. pose proof (Rabs_pos_lt _ Hth). split.
  - eexists. split; [apply elipse_value; auto|]. cbn [vx vy vz].
    assert (T0 : 0 <= Rtan (el_theta "bot" r))
      by (apply Rtan_nonneg; unfold el_theta; cbn; nra).
    pose proof (el_x_bounds w (Rabs th) _ Hw H0 T0). lra.
  - eexists. split; [apply elipse_value; auto|]. cbn [vx vy vz].
    assert (T0 : 0 <= - Rtan (el_theta "top" r)).
    { rewrite <- Rtan_opp. apply Rtan_nonneg; unfold el_theta; cbn; nra. }
    pose proof (el_x_bounds w (Rabs th) _ Hw H0 T0) as B.
    assert (E : el_x w (Rabs th) (- Rtan (el_theta "top" r)) = el_x w (Rabs th) (Rtan (el_theta "top" r))).
    { unfold el_x. f_equal. f_equal. ring. }
    rewrite E in B. lra.
Qed.

Lemma Rtan_PI2 : Rtan (PI / 2) = tan_big.
Proof.
  unfold Rtan. rewrite cos_PI2. destruct Req_EM_T; [|lra].
  rewrite sin_PI2. destruct (Rlt_dec 0 1); [reflexivity|lra].
Qed.
Lemma Rtan_0 : Rtan 0 = 0.
Proof. rewrite Rtan_regular by (rewrite cos_0; lra). apply tan_0. Qed.

Lemma el_x_0 a b : 0 < b -> el_x a b 0 = a.
Proof.
  intros. unfold el_x. replace (b * b + a * 0 * (a * 0)) with (b * b) by ring.
  rewrite sqrt_square by lra. field. lra.
Qed.
Lemma el_x_gap a b : 0 < a -> 0 < b -> el_x a b tan_big <= b / tan_big.
Proof.
  intros Ha Hb. destruct (el_x_bounds a b tan_big Ha Hb) as [_ [_ B]]; [unfold tan_big; lra|].
  assert (0 < tan_big) by (unfold tan_big; lra).
  apply Rmult_le_reg_r with tan_big; auto. unfold Rdiv. rewrite Rmult_assoc, Rinv_l by lra. lra.
Qed.

(** the two quarter ellipses share their tip exactly; the other ends miss the
    thickness axis by at most |thickness| / 1.6e16 in y *)
Lemma elipse_ends c th w : th <> 0 -> 0 < w ->
  p_call (ElipsePath c th w "bot") 0 = Ok (V3 (vx c) (vy c + w) (vz c)) /\
  p_call (ElipsePath c th w "top") 1 = Ok (V3 (vx c) (vy c + w) (vz c)) /\
  (exists p, p_call (ElipsePath c th w "bot") 1 = Ok p /\
     0 < vy p - vy c <= Rabs th / tan_big) /\
  (exists p, p_call (ElipsePath c th w "top") 0 = Ok p /\
     0 < vy p - vy c <= Rabs th / tan_big).
Proof.
  intros Hth Hw. pose proof (Rabs_pos_lt _ Hth) as Hp.
  assert (TB : 0 <= tan_big) by (unfold tan_big; lra).
  split; [|split; [|split]].
  - rewrite elipse_value by auto. unfold el_theta; cbn [String.eqb Ascii.eqb Bool.eqb].
    rewrite Rmult_0_l, Rtan_0. cbv zeta. rewrite el_x_0 by auto. f_equal. apply vec_ext; cbn; ring.
  - rewrite elipse_value by auto. unfold el_theta; cbn [String.eqb Ascii.eqb Bool.eqb].
    replace ((1 - 1) * (PI / 2)) with 0 by ring. rewrite Rtan_0. cbv zeta.
    rewrite el_x_0 by auto. f_equal. apply vec_ext; cbn; ring.
  - eexists. split; [apply elipse_value; auto|]. cbn [vy].
    unfold el_theta; cbn [String.eqb Ascii.eqb Bool.eqb]. rewrite Rmult_1_l, Rtan_PI2.
    pose proof (el_x_gap w (Rabs th) Hw Hp). pose proof (el_x_bounds w (Rabs th) tan_big Hw Hp TB). lra.
  - eexists. split; [apply elipse_value; auto|]. cbn [vy].
    unfold el_theta; cbn [String.eqb Ascii.eqb Bool.eqb].
    replace ((0 - 1) * (PI / 2)) with (- (PI / 2)) by ring. rewrite Rtan_opp, Rtan_PI2.
    assert (E : el_x w (Rabs th) (- tan_big) = el_x w (Rabs th) tan_big)
      by (unfold el_x; f_equal; f_equal; ring).
    rewrite E. pose proof (el_x_gap w (Rabs th) Hw Hp).
    pose proof (el_x_bounds w (Rabs th) tan_big Hw Hp TB). lra.
Qed.
