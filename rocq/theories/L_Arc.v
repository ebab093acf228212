From Coq Require Import Reals Lra Psatz ZArith List Lia Bool Nsatz.
From Verif Require Import Num NumR Py M_Vector SpecR3 M_Path SpecPath SpecPoly L_Vector L_Line.
Local Open Scope R_scope.

Lemma cross_crossR (a b : pt) : cross_product a b = crossR a b.
Proof. unfold crossR. vring. Qed.
Lemma sub_diff (a b : pt) : vsub a b = diff a b.
Proof. unfold diff. vring. Qed.
Lemma vdiv_scaled (a : pt) k : vdiv a k = scaled (/ k) a.
Proof. unfold scaled. vdestr; vunf; apply vec_ext; cbn; unfold Rdiv; ring. Qed.
Lemma vabs_nrm' (v : pt) : vabs v = nrm v. Proof. reflexivity. Qed.

Lemma inner_scaled_l k a b : inner (scaled k a) b = k * inner a b.
Proof. unfold inner, scaled; cbn; ring. Qed.
Lemma inner_scaled_r k a b : inner a (scaled k b) = k * inner a b.
Proof. unfold inner, scaled; cbn; ring. Qed.
Lemma inner_sym a b : inner a b = inner b a.
Proof. unfold inner; ring. Qed.
Lemma crossR_lagrange a b :
  inner (crossR a b) (crossR a b) = inner a a * inner b b - inner a b * inner a b.
Proof. unfold inner, crossR; cbn; ring. Qed.

Lemma nrm_inner v : nrm v = sqrt (inner v v). Proof. reflexivity. Qed.

Ltac chg_sub := repeat match goal with |- context [vsub ?x ?y] => change (vsub x y) with (diff x y) end.
Ltac chg_abs := repeat match goal with |- context [vabs ?x] => change (vabs x) with (nrm x) end.
Ltac chg_dot := repeat match goal with |- context [vdot ?x ?y] => change (vdot x y) with (inner x y) end.

Section Arc.
  Variables a b c : pt.
  Let u := diff a c.
  Let v := diff b c.
  Let N := crossR u v.
  Hypothesis HN : N <> origin.

  Let ru := nrm u.
  Let rv := nrm v.
  Let rN := nrm N.

  Lemma arc_rN : 0 < rN. Proof. apply nrm_pos, HN. Qed.
  Lemma arc_u_nz : u <> origin.
  Proof. intros E. apply HN. unfold N. rewrite E. unfold crossR, origin; cbn. f_equal; ring. Qed.
  Lemma arc_v_nz : v <> origin.
  Proof. intros E. apply HN. unfold N. rewrite E. unfold crossR, origin; cbn. f_equal; ring. Qed.
  Lemma arc_ru : 0 < ru. Proof. apply nrm_pos, arc_u_nz. Qed.
  Lemma arc_rv : 0 < rv. Proof. apply nrm_pos, arc_v_nz. Qed.

  Let t1 := scaled (/ ru) u.
  Let n := scaled (/ rN) N.
  Let t2 := crossR n t1.

  Lemma arc_loc_z : inner v n = 0.
  Proof. unfold n, N. rewrite inner_scaled_r. unfold inner, crossR; cbn; ring. Qed.
  Lemma arc_loc_x : inner v t1 = inner u v / ru.
  Proof. unfold t1. rewrite inner_scaled_r, inner_sym. unfold Rdiv; ring. Qed.
  Lemma arc_loc_y : inner v t2 = rN / ru.
  Proof.
    unfold t2.
    assert (E : inner v (crossR n t1) = / ru * / rN * inner N N).
    { unfold n, t1, N, inner, crossR, scaled; cbn. ring. }
    rewrite E. rewrite <- nrm_sq. fold rN. pose proof arc_rN. pose proof arc_ru. field; lra.
  Qed.
  Lemma arc_loc_norm : inner u v / ru * (inner u v / ru) + rN / ru * (rN / ru) = rv * rv.
  Proof.
    pose proof arc_ru.
    assert (E : rN * rN = (ru * ru) * (rv * rv) - inner u v * inner u v).
    { unfold rN, ru, rv. rewrite !nrm_sq. apply crossR_lagrange. }
    replace (inner u v / ru * (inner u v / ru) + rN / ru * (rN / ru))
      with ((inner u v * inner u v + rN * rN) / (ru * ru)) by (field; lra).
    rewrite E. field; lra.
  Qed.

  Definition arc_theta := Ratan2 (rN / ru) (inner u v / ru).

  Lemma arc_y_pos : 0 < rN / ru.
  Proof. apply Rdiv_lt_0_compat; [apply arc_rN|apply arc_ru]. Qed.
  Lemma arc_cos : cos arc_theta = inner u v / (ru * rv).
  Proof.
    unfold arc_theta. pose proof arc_y_pos. pose proof arc_ru. pose proof arc_rv.
    rewrite Ratan2_cos by (right; lra).
    rewrite arc_loc_norm, sqrt_square by lra. field; lra.
  Qed.
  Lemma arc_sin : sin arc_theta = rN / (ru * rv).
  Proof.
    unfold arc_theta. pose proof arc_y_pos. pose proof arc_ru. pose proof arc_rv.
    rewrite Ratan2_sin by (right; lra).
    rewrite arc_loc_norm, sqrt_square by lra. field; lra.
  Qed.
  Lemma arc_sin_pos : 0 < sin arc_theta.
  Proof.
    rewrite arc_sin. apply Rdiv_lt_0_compat; [apply arc_rN|].
    apply Rmult_lt_0_compat; [apply arc_ru|apply arc_rv].
  Qed.
  Lemma arc_theta_range : 0 < arc_theta < PI.
  Proof.
    pose proof (Ratan2_bound (rN / ru) (inner u v / ru)) as [L U]. fold arc_theta in L, U.
    pose proof arc_sin_pos as S. split.
    - destruct (Rle_lt_dec arc_theta 0) as [H|H]; [exfalso|exact H].
      assert (sin arc_theta <= 0); [|lra].
      destruct (Req_dec arc_theta 0) as [->|Hn]; [rewrite sin_0; lra|].
      apply Rlt_le, sin_lt_0_var; lra.
    - destruct (Req_dec arc_theta PI) as [E|E]; [|lra].
      rewrite E, sin_PI in S. lra.
  Qed.
  Lemma arc_theta_angle : arc_angle a b c arc_theta.
  Proof.
    split; [apply arc_theta_range|]. fold u v ru rv. rewrite arc_cos.
    pose proof arc_ru. pose proof arc_rv. field; lra.
  Qed.

  (** exact value of the code's arc *)
  Lemma arc_eval_value t : Rabs (ru - rv) <= 1 / 100000 ->
    Arc_eval a b c t =
    Ok (let k := rv / ru in
        let q := plus_scaled (plus_scaled c (k * cos (t * arc_theta)) u)
                             (k * sin (t * arc_theta)) (crossR (arc_normal a b c) u) in
        V3 (vx q) (vy q + rv * sin (t * arc_theta) * vy (arc_normal a b c)) (vz q),
        arc_theta * rv).
  Proof.
    intros Hr. unfold Arc_eval. cbv zeta. chg_sub. fold u v.
    chg_abs. fold ru rv.
    cbn [nabs nsub NumR]. unfold ngtb. cbn [nltb nlit NumR].
    destruct (Rltb_spec (1 / 100000) (Rabs (ru - rv))) as [Hc|_]; [lra|].
    unfold vnormalize. rewrite !cross_crossR. fold N. chg_abs. fold ru rN.
    pose proof arc_rN as PN. pose proof arc_ru as Pu. pose proof arc_rv as Pv.
    destruct (Rltb_spec n0 rN) as [_|Hc]; [|unfold n0 in *; cbn in *; lra].
    rewrite !vdiv_scaled. fold t1 n. fold t2.
    unfold transform_to_local_frame. cbv zeta. chg_dot. cbn [vx vy vz].
    rewrite arc_loc_z, arc_loc_x, arc_loc_y.
    rewrite Rabs_R0.
    destruct (Rltb_spec (1 / 1000000) 0) as [Hc|_]; [lra|].
    cbn [natan2 nmul NumR]. fold arc_theta. f_equal. f_equal.
    replace (arc_theta * t) with (t * arc_theta) by ring.
    set (phi := t * arc_theta).
    assert (EN : arc_normal a b c = n) by reflexivity. rewrite EN.
    assert (Et2 : t2 = scaled (/ ru) (crossR n u)).
    { unfold t2, t1, crossR, scaled; cbn. f_equal; ring. }
    rewrite Et2. unfold transform_to_global_frame, t1, plus_scaled, scaled.
    cbn [vx vy vz nadd nmul ncos nsin nZ n0 NumR].
    apply vec_ext; cbn [vx vy vz]; numR; field; lra.
  Qed.
End Arc.

Lemma arc_raises_radii a b c t :
  1 / 100000 < Rabs (dist a c - dist b c) -> Arc_eval a b c t = Raise GenericError.
Proof.
  intros H. unfold Arc_eval. cbv zeta. chg_sub; chg_abs.
  rewrite !dist_nrm in H. change (1 / 100000 < Rabs (nrm (diff a c) - nrm (diff b c))) in H.
  cbn [nabs nsub NumR]. unfold ngtb. cbn [nltb nlit NumR].
  destruct (Rltb_spec (1 / 100000) (Rabs (nrm (diff a c) - nrm (diff b c)))); [reflexivity|lra].
Qed.

Lemma arc_raises_plane a b c t :
  crossR (diff a c) (diff b c) = origin -> Arc_eval a b c t = Raise GenericError.
Proof.
  intros H. unfold Arc_eval. cbv zeta. chg_sub; chg_abs.
  destruct (ngtb _ _); [reflexivity|].
  rewrite cross_crossR, H. rewrite (proj2 (nrm_zero origin) eq_refl).
  unfold ngtb. cbn [nltb n0 NumR nZ]. unfold n0; cbn [nZ NumR].
  destruct (Rltb_spec 0 0); [lra|]. reflexivity.
Qed.

Lemma arc_ok_iff a b c t :
  is_ok (p_call (Arc a b c) t) <->
  (Rabs (dist a c - dist b c) <= 1 / 100000 /\ crossR (diff a c) (diff b c) <> origin).
Proof.
  cbn [p_call Arc]. split.
  - intros [p Hp]. split.
    + destruct (Rle_lt_dec (Rabs (dist a c - dist b c)) (1 / 100000)) as [L|L]; [exact L|].
      rewrite arc_raises_radii in Hp by exact L. discriminate.
    + intros E. rewrite arc_raises_plane in Hp by exact E. discriminate.
  - intros [H1 H2]. rewrite !dist_nrm in H1. change (Rabs (nrm (diff a c) - nrm (diff b c)) <= 1 / 100000) in H1.
    rewrite (arc_eval_value a b c H2 t H1). cbn [bind]. eexists; reflexivity.
Qed.

Lemma arc_raise_kind a b c t e :
  p_call (Arc a b c) t = Raise e -> e = GenericError.
Proof.
  intros H.
  destruct (Rle_lt_dec (Rabs (dist a c - dist b c)) (1 / 100000)) as [L|L].
  - assert (Dec : crossR (diff a c) (diff b c) = origin \/ crossR (diff a c) (diff b c) <> origin).
    { destruct (Req_dec (nrm (crossR (diff a c) (diff b c))) 0) as [E|E].
      - left. apply nrm_zero, E.
      - right. intros Z. apply E, nrm_zero, Z. }
    destruct Dec as [Z|Z].
    + cbn [p_call Arc] in H. rewrite arc_raises_plane in H by exact Z. cbn in H. congruence.
    + destruct (proj2 (arc_ok_iff a b c t) (conj L Z)) as [p Hp]. congruence.
  - cbn [p_call Arc] in H. rewrite arc_raises_radii in H by exact L. cbn in H. congruence.
Qed.

(** equal radii: the code's arc is the true arc plus an error in y *)
Lemma arc_equal_radii a b c : dist a c = dist b c -> crossR (diff a c) (diff b c) <> origin ->
  exists theta, arc_angle a b c theta /\
    p_len (Arc a b c) = Ok (dist a c * theta) /\
    (forall t, p_call (Arc a b c) t =
      Ok (let q := arc_point a b c (t * theta) in
          V3 (vx q) (vy q + dist a c * sin (t * theta) * vy (arc_normal a b c)) (vz q))) /\
    arc_point a b c theta = b.
Proof.
  intros Hr HN. exists (arc_theta a b c).
  assert (E : nrm (diff a c) = nrm (diff b c)) by (change (nrm (vsub a c) = nrm (vsub b c)); rewrite <- !dist_nrm; exact Hr).
  assert (D : dist a c = nrm (diff a c)) by (rewrite dist_nrm; reflexivity).
  pose proof (arc_ru a b c HN) as Pu.
  pose proof (arc_rN a b c HN) as PN.
  split; [apply arc_theta_angle, HN|].
  assert (Hz : Rabs (nrm (diff a c) - nrm (diff b c)) <= 1 / 100000).
  { rewrite E, Rminus_diag_eq by reflexivity. rewrite Rabs_R0. lra. }
  split; [|split].
  - cbn [p_len Arc]. rewrite (arc_eval_value a b c HN _ Hz). cbn [bind]. f_equal.
    rewrite D, E. ring.
  - intros t. cbn [p_call Arc]. rewrite (arc_eval_value a b c HN _ Hz). cbn [bind]. f_equal.
    unfold arc_point. cbv zeta.
    replace (nrm (diff b c) / nrm (diff a c)) with 1 by (rewrite <- E; field; lra).
    rewrite !Rmult_1_l. rewrite D, E. reflexivity.
  - unfold arc_point, arc_normal.
    rewrite (arc_cos a b c HN), (arc_sin a b c HN).
    set (r := nrm (diff a c)) in *. set (rN := nrm (crossR (diff a c) (diff b c))) in *.
    rewrite <- E.
    assert (I : r * r = inner (diff a c) (diff a c)) by apply nrm_sq.
    assert (Hx : forall w x y : R, (* w component *)
        w * (r * r) = inner (diff a c) (diff b c) * x + y -> w = inner (diff a c) (diff b c) / (r * r) * x + y / (r * r)).
    { intros w x y H. apply Rmult_eq_reg_r with (r * r); [|nra]. rewrite H. field. lra. }
    destruct a as [a1 a2 a3], b as [b1 b2 b3], c as [c1 c2 c3].
    unfold diff, inner, crossR, scaled, plus_scaled in *; cbn [vx vy vz] in *.
    apply vec_ext; cbn [vx vy vz];
    match goal with |- ?cc + ?k * ?x + rN / (r * r) * (?p) = ?bb =>
      replace (rN / (r * r) * p) with ((rN * p) / (r * r)) by (field; lra);
      cut (bb - cc = k * x + (rN * p) / (r * r)); [lra|]; apply Hx
    end; rewrite I; field; lra.
Qed.

Lemma arc_theta_unique a b c th th' :
  crossR (diff a c) (diff b c) <> origin ->
  arc_angle a b c th -> arc_angle a b c th' -> th = th'.
Proof.
  intros HN [[A1 A2] A] [[B1 B2] B].
  pose proof (arc_ru a b c HN) as Pu. pose proof (arc_rv a b c HN) as Pv.
  assert (cos th = cos th').
  { apply Rmult_eq_reg_l with (nrm (diff a c) * nrm (diff b c)); [lra|].
    apply Rgt_not_eq, Rmult_lt_0_compat; auto. }
  destruct (Rlt_le_dec th th') as [L|L].
  - pose proof (cos_decreasing_1 th th'). lra.
  - destruct L as [L|L]; [|auto]. pose proof (cos_decreasing_1 th' th). lra.
Qed.

Lemma arc_point_0 a b c : arc_point a b c 0 = a.
Proof.
  unfold arc_point, plus_scaled, diff. rewrite cos_0, sin_0. cbn. apply vec_ext; cbn; ring.
Qed.

Lemma arc_point_dist a b c phi : crossR (diff a c) (diff b c) <> origin ->
  dist (arc_point a b c phi) c = dist a c.
Proof.
  intros HN. pose proof (arc_rN a b c HN) as PN.
  set (N := crossR (diff a c) (diff b c)) in *. set (rN := nrm N) in *.
  assert (I : rN * rN = inner N N) by apply nrm_sq.
  unfold dist. f_equal.
  pose proof (sin2_cos2 phi) as SC. unfold Rsqr in SC.
  set (n := arc_normal a b c).
  assert (N1 : inner n n = 1).
  { unfold n, arc_normal. fold N. rewrite inner_scaled_l, inner_scaled_r.
    fold rN. rewrite <- I. field; lra. }
  assert (N2 : inner n (diff a c) = 0).
  { unfold n, arc_normal. fold N. rewrite inner_scaled_l. unfold N, inner, crossR; cbn; ring. }
  unfold arc_point. fold n. clearbody n. clear I PN.
  destruct a as [a1 a2 a3], c as [c1 c2 c3], n as [n1 n2 n3].
  unfold plus_scaled, inner, diff, crossR in *; cbn [vx vy vz] in *.
  set (x := a1 - c1) in *. set (y := a2 - c2) in *. set (z := a3 - c3) in *.
  set (C := cos phi) in *. set (S := sin phi) in *. clearbody x y z C S.
  assert (E1 : (c1 + C * x + S * (n2 * z - n3 * y) - c1) * (c1 + C * x + S * (n2 * z - n3 * y) - c1) +
    (c2 + C * y + S * (n3 * x - n1 * z) - c2) * (c2 + C * y + S * (n3 * x - n1 * z) - c2) +
    (c3 + C * z + S * (n1 * y - n2 * x) - c3) * (c3 + C * z + S * (n1 * y - n2 * x) - c3)
    = C * C * (x*x+y*y+z*z) + S * S * ((n1*n1+n2*n2+n3*n3) * (x*x+y*y+z*z) - (n1*x+n2*y+n3*z)*(n1*x+n2*y+n3*z))) by ring.
  rewrite E1, N1, N2. replace (S * S) with (1 - C * C) by lra. ring.
Qed.

Lemma arc_hits_end_iff a b c : dist a c = dist b c -> crossR (diff a c) (diff b c) <> origin ->
  (p_call (Arc a b c) 1 = Ok b <-> vy (crossR (diff a c) (diff b c)) = 0).
Proof.
  intros Hr HN. destruct (arc_equal_radii a b c Hr HN) as (th & Ha & _ & Hc & Hb).
  rewrite Hc, Rmult_1_l, Hb.
  pose proof (arc_ru a b c HN) as Pu. pose proof (arc_rN a b c HN) as PN.
  assert (D : dist a c = nrm (diff a c)) by (rewrite dist_nrm; reflexivity).
  assert (S : 0 < sin th) by (destruct Ha as [[A B] _]; apply sin_gt_0; auto).
  assert (En : vy (arc_normal a b c) = / nrm (crossR (diff a c) (diff b c)) * vy (crossR (diff a c) (diff b c))) by reflexivity.
  assert (P1 : 0 < dist a c * sin th * / nrm (crossR (diff a c) (diff b c))).
  { rewrite D. apply Rmult_lt_0_compat; [apply Rmult_lt_0_compat; auto|apply Rinv_0_lt_compat; auto]. }
  split; intros H.
  - pose proof (f_equal (fun r => match r with Ok v => vy v | Raise _ => vy b end) H) as H'.
    cbn beta iota zeta in H'. cbn [vy] in H'.
    rewrite En in H'. rewrite <- Rmult_assoc in H'.
    apply Rmult_eq_reg_l with (dist a c * sin th * / nrm (crossR (diff a c) (diff b c))); lra.
  - f_equal. cbv zeta. rewrite En, H. apply vec_ext; cbn [vx vy vz]; ring.
Qed.

Lemma arc_flat a b c : dist a c = dist b c -> crossR (diff a c) (diff b c) <> origin ->
  vy (crossR (diff a c) (diff b c)) = 0 ->
  exists theta, arc_angle a b c theta /\ p_len (Arc a b c) = Ok (dist a c * theta) /\
    p_call (Arc a b c) 0 = Ok a /\ p_call (Arc a b c) 1 = Ok b /\
    forall t, p_call (Arc a b c) t = Ok (arc_point a b c (t * theta)) /\
      dist (arc_point a b c (t * theta)) c = dist a c.
Proof.
  intros Hr HN Hy. destruct (arc_equal_radii a b c Hr HN) as (th & Ha & Hl & Hc & Hb).
  exists th.
  assert (En : vy (arc_normal a b c) = 0).
  { unfold arc_normal, scaled. cbn [vy]. rewrite Hy. ring. }
  assert (Hc' : forall t, p_call (Arc a b c) t = Ok (arc_point a b c (t * th))).
  { intros t. rewrite Hc. cbv zeta. f_equal. apply vec_ext; cbn [vx vy vz]; try reflexivity.
    rewrite En. ring. }
  repeat split; auto; try apply Ha.
  - rewrite Hc', Rmult_0_l, arc_point_0. reflexivity.
  - rewrite Hc', Rmult_1_l, Hb. reflexivity.
  - apply arc_point_dist, HN.
Qed.

Lemma arc_start_value a b c : dist a c = dist b c -> crossR (diff a c) (diff b c) <> origin ->
  p_call (Arc a b c) 0 = Ok a.
Proof.
  intros Hr HN. destruct (arc_equal_radii a b c Hr HN) as (th & Ha & Hl & Hc & Hb).
  rewrite Hc, Rmult_0_l, sin_0, arc_point_0. f_equal. apply vec_ext; cbn [vx vy vz]; ring.
Qed.
