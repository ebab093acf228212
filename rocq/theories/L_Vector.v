From Coq Require Import Reals Lra Psatz ZArith Nsatz.
From Verif Require Import Num NumR Py M_Vector SpecR3.
Local Open Scope R_scope.

Lemma vec_ext (a b : pt) : vx a = vx b -> vy a = vy b -> vz a = vz b -> a = b.
Proof. destruct a, b; simpl; congruence. Qed.

Ltac vunf :=
  unfold vneg, vadd, vsub, vdiv, vscale, vabs, vnorm, vunit, vnormalize, vdot,
    cross_product, transform_to_global_frame, transform_to_local_frame,
    inner, nrm, dist, lerp, plus_scaled, translate, origin in *;
  numR; cbn [vx vy vz] in *.
Ltac vdestr := repeat match goal with v : vec R |- _ => destruct v as [? ? ?] end.
Ltac vring := intros; vdestr; vunf; try apply vec_ext; cbn [vx vy vz]; try ring.

Lemma vadd_comm (a b : pt) : vadd a b = vadd b a. Proof. vring. Qed.
Lemma vadd_assoc (a b c : pt) : vadd (vadd a b) c = vadd a (vadd b c). Proof. vring. Qed.
Lemma vadd_0_r (a : pt) : vadd a origin = a. Proof. vring. Qed.
Lemma vadd_neg (a : pt) : vadd a (vneg a) = origin. Proof. vring. Qed.
Lemma vsub_add_neg (a b : pt) : vsub a b = vadd a (vneg b). Proof. vring. Qed.
Lemma vscale_1 (a : pt) : vscale a 1 = a. Proof. vring. Qed.
Lemma vscale_0 (a : pt) : vscale a 0 = origin. Proof. vring. Qed.
Lemma vscale_mul (a : pt) k l : vscale (vscale a k) l = vscale a (k * l). Proof. vring. Qed.
Lemma vscale_add (a b : pt) k : vscale (vadd a b) k = vadd (vscale a k) (vscale b k). Proof. vring. Qed.
Lemma vscale_plus (a : pt) k l : vscale a (k + l) = vadd (vscale a k) (vscale a l). Proof. vring. Qed.
Lemma vdiv_scale (a : pt) k : k <> 0 -> vscale (vdiv a k) k = a.
Proof. intros. vdestr; vunf; apply vec_ext; cbn; field; auto. Qed.

Lemma dot_inner (a b : pt) : vdot a b = inner a b. Proof. vring. Qed.

Lemma cross_orth (a b : pt) :
  inner (cross_product a b) a = 0 /\ inner (cross_product a b) b = 0.
Proof. split; vring. Qed.
Lemma cross_antisym (a b : pt) : cross_product a b = vneg (cross_product b a).
Proof. vring. Qed.
Lemma cross_lagrange (a b : pt) :
  inner (cross_product a b) (cross_product a b)
  = inner a a * inner b b - inner a b * inner a b.
Proof. vring. Qed.
Lemma cross_basis :
  cross_product ex ey = ez /\ cross_product ey ez = ex /\ cross_product ez ex = ey.
Proof. unfold ex, ey, ez; repeat split; vring. Qed.
Lemma cross_jacobi (a b c : pt) :
  vadd (vadd (cross_product a (cross_product b c)) (cross_product b (cross_product c a)))
       (cross_product c (cross_product a b)) = origin.
Proof. vring. Qed.
Lemma cross_bilinear (a b c : pt) k :
  cross_product (vadd (vscale a k) b) c = vadd (vscale (cross_product a c) k) (cross_product b c).
Proof. vring. Qed.
Lemma cross_det (a b c : pt) : inner (cross_product a b) c = det3 a b c.
Proof. unfold det3; vring. Qed.

Lemma sum3_sq_zero x y z : x * x + y * y + z * z = 0 -> x = 0 /\ y = 0 /\ z = 0.
Proof. intros; repeat split; nra. Qed.
Lemma sum3_sq_pos x y z : 0 <= x * x + y * y + z * z.
Proof. nra. Qed.

Lemma vabs_nrm (v : pt) : vabs v = nrm v. Proof. reflexivity. Qed.
Lemma nrm_nonneg v : 0 <= nrm v.
Proof. apply sqrt_pos. Qed.
Lemma nrm_sq v : nrm v * nrm v = inner v v.
Proof. unfold nrm, inner; apply sqrt_sqrt; apply sum3_sq_pos. Qed.
Lemma nrm_zero v : nrm v = 0 <-> v = origin.
Proof.
  split; intros H.
  - assert (K : inner v v = 0) by (rewrite <- nrm_sq, H; ring).
    unfold inner in K. apply sum3_sq_zero in K. destruct v; cbn in *; unfold origin.
    destruct K as (-> & -> & ->); reflexivity.
  - subst. unfold nrm, origin; cbn. replace (0*0+0*0+0*0) with 0 by ring. apply sqrt_0.
Qed.
Lemma nrm_pos v : v <> origin -> 0 < nrm v.
Proof. intros H. destruct (Rle_lt_or_eq_dec _ _ (nrm_nonneg v)); auto.
  symmetry in e; apply nrm_zero in e; tauto. Qed.
Lemma nrm_scale v k : nrm (vscale v k) = Rabs k * nrm v.
Proof.
  unfold nrm. vdestr; vunf.
  replace (vx * k * (vx * k) + vy * k * (vy * k) + vz * k * (vz * k))
    with ((k * k) * (vx * vx + vy * vy + vz * vz)) by ring.
  rewrite sqrt_mult_alt by nra. f_equal. apply sqrt_Rsqr_abs.
Qed.
Lemma cauchy_schwarz a b : inner a b <= nrm a * nrm b.
Proof.
  pose proof (nrm_nonneg a); pose proof (nrm_nonneg b).
  assert (inner a b * inner a b <= (nrm a * nrm b) * (nrm a * nrm b)).
  { replace (nrm a * nrm b * (nrm a * nrm b)) with ((nrm a * nrm a) * (nrm b * nrm b)) by ring.
    rewrite !nrm_sq. pose proof (cross_lagrange a b).
    assert (0 <= inner (cross_product a b) (cross_product a b))
      by (unfold inner; apply sum3_sq_pos). lra. }
  assert (0 <= nrm a * nrm b) by (apply Rmult_le_pos; auto).
  destruct (Rle_lt_dec (inner a b) 0); [lra|].
  apply Rsqr_incr_0; unfold Rsqr; lra.
Qed.
Lemma inner_add a b : inner (vadd a b) (vadd a b) = inner a a + 2 * inner a b + inner b b.
Proof. vring. Qed.
Lemma nrm_triangle a b : nrm (vadd a b) <= nrm a + nrm b.
Proof.
  pose proof (nrm_nonneg a); pose proof (nrm_nonneg b); pose proof (nrm_nonneg (vadd a b)).
  apply Rsqr_incr_0; unfold Rsqr; try lra.
  rewrite nrm_sq, inner_add.
  pose proof (cauchy_schwarz a b).
  replace ((nrm a + nrm b) * (nrm a + nrm b))
    with (nrm a * nrm a + 2 * (nrm a * nrm b) + nrm b * nrm b) by ring.
  rewrite !nrm_sq. lra.
Qed.
Lemma dist_nrm a b : dist a b = nrm (vsub a b). Proof. vring. Qed.
Lemma dist_sym a b : dist a b = dist b a.
Proof. vunf. f_equal; ring. Qed.
Lemma dist_zero a b : dist a b = 0 <-> a = b.
Proof.
  rewrite dist_nrm, nrm_zero. split; intros H.
  - vdestr. unfold origin in H. vunf. injection H as A B C. f_equal; lra.
  - subst; vring.
Qed.
Lemma dist_triangle a b c : dist a c <= dist a b + dist b c.
Proof.
  rewrite !dist_nrm. replace (vsub a c) with (vadd (vsub a b) (vsub b c)) by vring.
  apply nrm_triangle.
Qed.
Lemma dist_nonneg a b : 0 <= dist a b. Proof. apply sqrt_pos. Qed.

Lemma unit_nrm v : v <> origin -> nrm (vunit v) = 1.
Proof.
  intros H. pose proof (nrm_pos v H).
  replace (vunit v) with (vscale v (/ nrm v)) by reflexivity.
  rewrite nrm_scale, Rabs_right. field; lra.
  apply Rle_ge, Rlt_le, Rinv_0_lt_compat; auto.
Qed.
Lemma unit_parallel v : v <> origin -> vscale (vunit v) (nrm v) = v.
Proof. intros H. pose proof (nrm_pos v H). apply vdiv_scale. lra. Qed.
Lemma normalize_unit (v : pt) : vnormalize v = vunit v. Proof. reflexivity. Qed.
Lemma cross_zero_parallel a b : a <> origin -> cross_product a b = origin ->
  exists k, b = vscale a k.
Proof.
  intros Ha H. assert (Hp := nrm_pos a Ha).
  assert (Hi : inner a a <> 0) by (rewrite <- nrm_sq; nra).
  exists (inner a b / inner a a).
  destruct a as [a1 a2 a3], b as [b1 b2 b3]. unfold origin in H. vunf.
  injection H as H1 H2 H3.
  set (S := a1 * a1 + a2 * a2 + a3 * a3) in *.
  assert (K : forall b a, b * S = a * (a1 * b1 + a2 * b2 + a3 * b3) ->
              b = a * ((a1 * b1 + a2 * b2 + a3 * b3) / S)).
  { intros b a E. apply Rmult_eq_reg_r with S; auto. rewrite E. field; auto. }
  apply vec_ext; cbn; apply K; unfold S; clear -H1 H2 H3; nsatz.
Qed.

(** ** frames *)
(** the frame vectors as rows of an orthogonal matrix: columns are orthonormal too *)
Lemma frame_columns n t1 t2 : orthonormal n t1 t2 ->
  vx n * vx n + vx t1 * vx t1 + vx t2 * vx t2 = 1 /\
  vy n * vy n + vy t1 * vy t1 + vy t2 * vy t2 = 1 /\
  vz n * vz n + vz t1 * vz t1 + vz t2 * vz t2 = 1 /\
  vx n * vy n + vx t1 * vy t1 + vx t2 * vy t2 = 0 /\
  vx n * vz n + vx t1 * vz t1 + vx t2 * vz t2 = 0 /\
  vy n * vz n + vy t1 * vz t1 + vy t2 * vz t2 = 0.
Proof.
  intros (A&B&C&D&E&F). unfold inner in *.
  destruct n as [a b c], t1 as [d e f], t2 as [g h i]; cbn in *.
  set (k := a * (e * i - h * f) - d * (b * i - h * c) + g * (b * f - e * c)).
  assert (K : k * k = 1) by (unfold k; nsatz).
  assert (G : k = 1 \/ k = -1) by (destruct (Rle_dec 0 k); [left|right]; nra).
  unfold k in G. clear K k. repeat split; destruct G; nsatz.
Qed.

Lemma frame_roundtrip v n t1 t2 c : orthonormal n t1 t2 ->
  let l := transform_to_local_frame v n t1 t2 (Some c) in
  transform_to_global_frame l n t1 t2 (Some c)
  = V3 (vx v) (vy v + (vy l - vz l) * vy t2) (vz v).
Proof.
  intros H. apply frame_columns in H.
  destruct n as [a b d], t1 as [e f g], t2 as [h i j], c as [cx cy cz], v as [x y z].
  vunf. destruct H as (H1&H2&H3&H4&H5&H6).
  apply vec_ext; cbn; nsatz.
Qed.

Lemma frame_roundtrip_none v n t1 t2 : orthonormal n t1 t2 ->
  let l := transform_to_local_frame v n t1 t2 None in
  transform_to_global_frame l n t1 t2 None
  = V3 (vx v) (vy v + (vy l - vz l) * vy t2) (vz v).
Proof.
  intros H. apply frame_columns in H.
  destruct n as [a b d], t1 as [e f g], t2 as [h i j], v as [x y z].
  vunf. destruct H as (H1&H2&H3&H4&H5&H6).
  apply vec_ext; cbn; nsatz.
Qed.

Lemma frame_roundtrip_iff v n t1 t2 c : orthonormal n t1 t2 ->
  let l := transform_to_local_frame v n t1 t2 (Some c) in
  transform_to_global_frame l n t1 t2 (Some c) = v
  <-> (vz l - vy l) * vy t2 = 0.
Proof.
  intros H l. pose proof (frame_roundtrip v n t1 t2 c H) as R. cbv zeta in R.
  fold l in R. rewrite R. split; intros E.
  - apply (f_equal vy) in E. cbn [vy] in E. lra.
  - apply vec_ext; cbn [vx vy vz]; try reflexivity. lra.
Qed.

Lemma local_frame_coords v n t1 t2 c :
  let l := transform_to_local_frame v n t1 t2 (Some c) in
  vx l = inner (V3 (vx v - vx c) (vy v - vy c) (vz v - vz c)) n /\
  vy l = inner (V3 (vx v - vx c) (vy v - vy c) (vz v - vz c)) t1 /\
  vz l = inner (V3 (vx v - vx c) (vy v - vy c) (vz v - vz c)) t2.
Proof. repeat split; vring. Qed.
