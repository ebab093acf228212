(** The arc-length parameterised quarter ellipse and the elliptical leading
    edge section. *)
From Coq Require Import Reals Lra List String Lia ZArith.
From Verif Require Import Num NumR Py M_Vector SpecR3 M_Path M_Surface M_Geometry
  SpecPath SpecPoly SpecSurf L_Vector L_Line L_ArcLength L_Curves.
Local Open Scope R_scope.

Lemma sin_n_le n x : Rabs (sin (INR n * x)) <= INR n * Rabs (sin x).
Proof.
  induction n as [|n IH]; [cbn; rewrite Rmult_0_l, sin_0, Rabs_R0; lra|].
  rewrite S_INR, Rmult_plus_distr_r, Rmult_1_l, sin_plus.
  eapply Rle_trans; [apply Rabs_triang|]. rewrite !Rabs_mult.
  assert (A : Rabs (cos x) <= 1) by (apply Rabs_le; pose proof (COS_bound x); lra).
  assert (B : Rabs (cos (INR n * x)) <= 1) by (apply Rabs_le; pose proof (COS_bound (INR n * x)); lra).
  pose proof (Rabs_pos (sin x)). pose proof (Rabs_pos (sin (INR n * x))).
  pose proof (Rabs_pos (cos x)). pose proof (Rabs_pos (cos (INR n * x))). nra.
Qed.

Lemma tan_near n : (1 <= n)%nat ->
  0 <= Rtan (PI / 2 - / INR n * (PI / 2)) <= INR n.
Proof.
  intros Hn. set (x := / INR n * (PI / 2)). pose proof PI_RGT_0.
  assert (Hp : 1 <= INR n) by (apply (le_INR 1 n); auto).
  assert (Hi : 0 < / INR n <= 1).
  { split; [apply Rinv_0_lt_compat; lra|]. rewrite <- Rinv_1. apply Rinv_le_contravar; lra. }
  assert (Hx : 0 < x <= PI / 2) by (unfold x; nra).
  split; [apply Rtan_nonneg; lra|].
  assert (S0 : 0 < sin x) by (apply sin_gt_0; lra).
  rewrite Rtan_regular by (rewrite cos_shift; lra).
  unfold tan. rewrite sin_shift, cos_shift.
  pose proof (sin_n_le n x) as B.
  replace (INR n * x) with (PI / 2) in B by (unfold x; field; lra).
  rewrite sin_PI2, Rabs_R1, Rabs_pos_eq in B by lra.
  pose proof (COS_bound x).
  apply Rmult_le_reg_r with (sin x); auto. unfold Rdiv. rewrite Rmult_assoc, Rinv_l by lra. nra.
Qed.

Definition el_pt (c : pt) (th w : R) (side : string) (r : R) : pt :=
  let x := el_x w (Rabs th) (Rtan (el_theta side r)) in
  V3 (vx c) (vy c + x) (vz c + x * Rtan (el_theta side r)).

Lemma el_x_even a b T : el_x a b (- T) = el_x a b T.
Proof. unfold el_x. f_equal. f_equal. ring. Qed.

(** the x coordinate decreases strictly in |T| *)
Lemma el_x_decr a b T T' : 0 < a -> 0 < b -> 0 <= T < T' -> el_x a b T' < el_x a b T.
Proof.
  intros Ha Hb H. unfold el_x.
  assert (P : 0 < a * b) by nra.
  apply Rmult_lt_compat_l; [exact P|].
  assert (D : sqrt (b * b + a * T * (a * T)) < sqrt (b * b + a * T' * (a * T'))).
  { apply sqrt_lt_1_alt. assert (a * T < a * T') by nra. assert (0 <= a * T) by nra. nra. }
  pose proof (el_den_pos a b T (Rgt_not_eq _ _ Hb)).
  apply Rinv_lt_contravar; [|exact D]. nra.
Qed.

Lemma tan_small : 0 <= Rtan (PI / 2 - 1 / INR (Z.to_nat 1000) * (PI / 2)) <= 1000.
Proof.
  pose proof (tan_near (Z.to_nat 1000)) as B.
  replace (INR (Z.to_nat 1000)) with 1000 in * by (rewrite INR_IZR_INZ, Z2Nat.id by lia; reflexivity).
  replace (1 / 1000) with (/ 1000) by field. apply B. lia.
Qed.

Lemma elipse_moves c th w side : th <> 0 -> 0 < w -> side = "bot"%string \/ side = "top"%string ->
  el_pt c th w side 0 <> el_pt c th w side (1 / INR (Z.to_nat 1000)).
Proof.
  intros Hth Hw Hs E. pose proof (Rabs_pos_lt _ Hth) as Hb.
  apply (f_equal vy) in E. unfold el_pt in E; cbn [vy] in E.
  set (k := INR (Z.to_nat 1000)) in *.
  assert (Hk : k = 1000) by (unfold k; rewrite INR_IZR_INZ, Z2Nat.id by lia; reflexivity).
  pose proof PI_RGT_0. pose proof tan_small as TS. fold k in TS.
  destruct Hs as [-> | ->]; unfold el_theta in E; cbn [String.eqb Ascii.eqb Bool.eqb] in E.
  - rewrite Rmult_0_l, Rtan_0 in E.
    assert (0 < Rtan (1 / k * (PI / 2))).
    { rewrite Rtan_regular; [apply tan_gt_0; rewrite Hk; nra|].
      assert (0 < cos (1 / k * (PI / 2))) by (apply cos_gt_0; rewrite Hk; nra). lra. }
    pose proof (el_x_decr w (Rabs th) 0 _ Hw Hb (conj (Rle_refl 0) H0)). lra.
  - replace ((0 - 1) * (PI / 2)) with (- (PI / 2)) in E by ring.
    replace ((1 / k - 1) * (PI / 2)) with (- (PI / 2 - 1 / k * (PI / 2))) in E by ring.
    rewrite !Rtan_opp, Rtan_PI2, !el_x_even in E.
    assert (tan_big > 1000) by (unfold tan_big; lra).
    assert (L : 0 <= Rtan (PI / 2 - 1 / k * (PI / 2)) < tan_big) by lra.
    pose proof (el_x_decr w (Rabs th) _ _ Hw Hb L). lra.
Qed.

Lemma elipse_evaluates c th w side : side = "bot"%string \/ side = "top"%string ->
  evaluates (ElipsePath c th w side) (el_pt c th w side).
Proof. intros H t. rewrite elipse_value by exact H. reflexivity. Qed.


Lemma sumn_ext f f' k : (forall i, f i = f' i) -> sumn f k = sumn f' k.
Proof. intros H. induction k as [|k IH]; cbn; [reflexivity|]. rewrite IH, H. reflexivity. Qed.

Lemma ut_ext g g' n t :
  (forall a b, dist (g a) (g b) = dist (g' a) (g' b)) -> ut g n t = ut g' n t.
Proof.
  intros H.
  assert (A : forall k, arc_upto g n k = arc_upto g' n k) by (intros k; apply sumn_ext; intros; apply H).
  unfold ut. change (inscribed g n) with (arc_upto g n n). change (inscribed g' n) with (arc_upto g' n n).
  rewrite A. f_equal. unfold table. apply map_ext. intros k. unfold aX. rewrite A. reflexivity.
Qed.

(** parameter of the ellipse reached at fraction t of its sampled length; it
    does not depend on the centre *)
Definition el_u (th w : R) (side : string) : R -> R :=
  ut (el_pt (V3 0 0 0) th w side) (Z.to_nat 1000).

Lemma el_dist c c' th w side a b :
  dist (el_pt c th w side a) (el_pt c th w side b) = dist (el_pt c' th w side a) (el_pt c' th w side b).
Proof. unfold dist, el_pt; cbn [vx vy vz]. f_equal. ring. Qed.

Lemma elipse_arc c th w side : side = "bot"%string \/ side = "top"%string ->
  exists q, ArcLengthParameterizedPath (ElipsePath c th w side) = Ok q /\
    evaluates q (fun t => el_pt c th w side (el_u th w side t)).
Proof.
  intros Hs.
  destruct (arclen_path (ElipsePath c th w side) _ (Z.to_nat 1000) (elipse_evaluates c th w side Hs))
    as (q & E & C & _); [lia|].
  exists q. split; [exact E|]. intros t. rewrite C. unfold el_u. do 2 f_equal.
  apply ut_ext. intros. apply el_dist.
Qed.

Lemma el_u_ends th w side : th <> 0 -> 0 < w -> side = "bot"%string \/ side = "top"%string ->
  el_u th w side 0 = 0 /\ el_u th w side 1 = 1.
Proof.
  intros Hth Hw Hs. assert (1 <= Z.to_nat 1000)%nat by lia. unfold el_u. split.
  - apply ut_0_iff; [assumption|].
    pose proof (dist_nonneg (el_pt (V3 0 0 0) th w side 0) (el_pt (V3 0 0 0) th w side (1 / INR (Z.to_nat 1000)))).
    destruct (Rle_lt_or_eq_dec _ _ H0) as [|E]; [assumption|]. exfalso.
    apply (elipse_moves (V3 0 0 0) th w side Hth Hw Hs). apply dist_zero. auto.
  - apply ut_1. assumption.
Qed.

(** how far the end of a quarter ellipse with half thickness b and width a
    misses the thickness axis *)
Definition gap_h (a b : R) : R := el_x a b tan_big.
Definition gap_v (a b : R) : R := b - el_x a b tan_big * tan_big.

Lemma el_pt_ends c th w : th <> 0 -> 0 < w ->
  el_pt c th w "top" 0 = V3 (vx c) (vy c + gap_h w (Rabs th)) (vz c - Rabs th + gap_v w (Rabs th)) /\
  el_pt c th w "top" 1 = V3 (vx c) (vy c + w) (vz c) /\
  el_pt c th w "bot" 0 = V3 (vx c) (vy c + w) (vz c) /\
  el_pt c th w "bot" 1 = V3 (vx c) (vy c + gap_h w (Rabs th)) (vz c + Rabs th - gap_v w (Rabs th)).
Proof.
  intros Hth Hw. pose proof (Rabs_pos_lt _ Hth) as Hp.
  unfold el_pt, el_theta, gap_h, gap_v; cbn [String.eqb Ascii.eqb Bool.eqb].
  replace ((0 - 1) * (PI / 2)) with (- (PI / 2)) by ring.
  replace ((1 - 1) * (PI / 2)) with 0 by ring.
  rewrite Rmult_0_l, Rmult_1_l, Rtan_opp, Rtan_PI2, Rtan_0, el_x_even, el_x_0 by exact Hp.
  repeat split; apply vec_ext; cbn [vx vy vz]; ring.
Qed.

Lemma gap_bounds a b : 0 < a -> 0 < b ->
  0 < gap_h a b <= b / tan_big /\ 0 <= gap_v a b <= b * (b * b) / (2 * (a * a) * (tan_big * tan_big)).
Proof.
  intros Ha Hb. assert (HT : 0 < tan_big) by (unfold tan_big; lra).
  destruct (el_x_bounds a b tan_big Ha Hb) as [[A0 A] [B0 B]]; [lra|].
  split; [split; [exact A0|apply el_x_gap; auto]|]. unfold gap_v. split; [lra|].
  unfold el_x in *. pose proof (el_den_pos a b tan_big (Rgt_not_eq _ _ Hb)) as Hd.
  assert (S : sqrt (b * b + a * tan_big * (a * tan_big)) * sqrt (b * b + a * tan_big * (a * tan_big))
              = b * b + a * tan_big * (a * tan_big)) by (apply sqrt_sqrt; nra).
  set (d := sqrt (b * b + a * tan_big * (a * tan_big))) in *.
  set (k := a * tan_big) in *. assert (Hk : 0 < k) by (unfold k; nra).
  assert (L : k <= d) by (apply Rsqr_incr_0; unfold Rsqr; nra).
  replace (2 * (a * a) * (tan_big * tan_big)) with (2 * (k * k)) by (unfold k; ring).
  replace (b - a * b / d * tan_big) with (b * ((d - k) / d)) by (unfold k; field; lra).
  assert (E : (d - k) / d = b * b / (d * (d + k))).
  { replace (b * b) with ((d - k) * (d + k)) by nra. field. split; lra. }
  rewrite E. unfold Rdiv. rewrite (Rmult_assoc b (b * b)).
  apply Rmult_le_compat_l; [lra|]. apply Rmult_le_compat_l; [nra|].
  apply Rinv_le_contravar; [nra|]. nra.
Qed.

(** the elliptical section: value of a leading edge patch at parameter r of the
    section at position t of the mean line, turned by the angle al *)
Definition section_pt (m : pt) (th w al : R) (side : string) (r : R) : pt :=
  let e := el_pt (V3 0 0 0) th w side (el_u th w side r) in
  V3 (vx m + vy e * cos al) (vy m + vy e * sin al) (vz m + vz e).

Lemma le_angle_ok (line : path R) g t : evaluates line g -> exists al, le_angle line t = Ok al.
Proof.
  intros H. unfold le_angle. destruct (neqb t n0); [eexists; reflexivity|].
  destruct (neqb t n1); [eexists; reflexivity|]. rewrite !(H _). eexists; reflexivity.
Qed.
Lemma le_angle_0 (line : path R) : le_angle line 0 = Ok (PI / 2).
Proof. unfold le_angle; numR. rewrite (proj2 (Reqb_true 0 0) eq_refl). reflexivity. Qed.
Lemma le_angle_1 (line : path R) : le_angle line 1 = Ok 0.
Proof.
  unfold le_angle; numR. rewrite (proj2 (Reqb_false 1 0)) by lra.
  rewrite (proj2 (Reqb_true 1 1) eq_refl). reflexivity.
Qed.

Lemma le_value (mean guide : path R) gm gg wf side t0 t1 tr r :
  evaluates mean gm -> evaluates guide gg -> side = "bot"%string \/ side = "top"%string ->
  forall t, t = t1 - tr * (t1 - t0) -> forall w al, wf t = Ok w -> le_angle mean t = Ok al ->
  MeanLeadingEdgePatchFunction mean guide wf t0 t1 side tr r =
  Ok (section_pt (gm t) (vz (gm t) - vz (gg t)) w al side r).
Proof.
  intros Hm Hg Hs t Et w al Hw Hal. unfold MeanLeadingEdgePatchFunction; numR.
  rewrite <- Et, (Hm t), (Hg t). cbn [bind]. rewrite Hw. cbn [bind].
  destruct (elipse_arc (V3 0 0 0) (vz (gm t) - vz (gg t)) w side Hs) as (q & E & C).
  rewrite E. cbn [bind]. rewrite (C r). cbn [bind]. rewrite Hal. cbn [bind]. reflexivity.
Qed.

Lemma section_ends m th w al : th <> 0 -> 0 < w ->
  section_pt m th w al "top" 0 =
    V3 (vx m + gap_h w (Rabs th) * cos al) (vy m + gap_h w (Rabs th) * sin al) (vz m - Rabs th + gap_v w (Rabs th)) /\
  section_pt m th w al "top" 1 = V3 (vx m + w * cos al) (vy m + w * sin al) (vz m) /\
  section_pt m th w al "bot" 0 = V3 (vx m + w * cos al) (vy m + w * sin al) (vz m) /\
  section_pt m th w al "bot" 1 =
    V3 (vx m + gap_h w (Rabs th) * cos al) (vy m + gap_h w (Rabs th) * sin al) (vz m + Rabs th - gap_v w (Rabs th)).
Proof.
  intros Hth Hw. unfold section_pt.
  destruct (el_u_ends th w "top" Hth Hw) as [-> ->]; [auto|].
  destruct (el_u_ends th w "bot" Hth Hw) as [-> ->]; [auto|].
  destruct (el_pt_ends (V3 0 0 0) th w Hth Hw) as (-> & -> & -> & ->).
  cbn [vx vy vz]. repeat split; apply vec_ext; cbn [vx vy vz]; ring.
Qed.
