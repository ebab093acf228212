(** C111: circle_patch (components/common.py): where it is a disc, and which
    centres it accepts. *)
From Coq Require Import Reals Lra Psatz String List.
From Verif Require Import Num NumR Py M_Vector SpecR3 M_Path M_Surface M_Common
  SpecPath SpecPoly SpecSurf L_Vector L_Line L_Arc L_Coons.
Local Open Scope R_scope.

(** the point of the disc with parameters u and v: four circular edges of a
    quarter turn each, blended *)
Definition disc_point (c : pt) (r u v : R) : pt :=
  let a := (2 * u - 1) * (PI / 4) in let b := (2 * v - 1) * (PI / 4) in
  V3 (vx c + r * (sin a + (2 * u - 1) * (cos b - sqrt (1 / 2))))
     (vy c + r * (sin b + (2 * v - 1) * (cos a - sqrt (1 / 2)))) (vz c).

Lemma half_sqrt : sqrt (1 / 2) * sqrt (1 / 2) = 1 / 2 /\ 0 < sqrt (1 / 2).
Proof. split; [apply sqrt_sqrt; lra|apply sqrt_lt_R0; lra]. Qed.
Lemma quarter_trig : cos (PI / 4) = sqrt (1 / 2) /\ sin (PI / 4) = sqrt (1 / 2).
Proof.
  assert (H : 1 / sqrt 2 = sqrt (1 / 2)).
  { symmetry. apply Rsqr_inj; [apply sqrt_pos|left; apply Rdiv_lt_0_compat; [lra|apply sqrt_lt_R0; lra]|].
    unfold Rsqr. rewrite (proj1 half_sqrt). assert (S : sqrt 2 * sqrt 2 = 2) by (apply sqrt_sqrt; lra).
    assert (sqrt 2 <> 0) by (intros E; rewrite E in S; lra).
    replace (1 / sqrt 2 * (1 / sqrt 2)) with (1 / (sqrt 2 * sqrt 2)) by (field; assumption). rewrite S. reflexivity. }
  rewrite cos_PI4, sin_PI4. auto.
Qed.

(** a quarter turn in a plane z = const *)
Lemma quarter_arc cx cy cz p q sg : p * p + q * q <> 0 -> (sg = 1 \/ sg = -1) ->
  evaluates (Arc (V3 (cx + p) (cy + q) cz) (V3 (cx - sg * q) (cy + sg * p) cz) (V3 cx cy cz))
    (fun t => V3 (cx + (cos (t * (PI / 2)) * p - sg * (sin (t * (PI / 2)) * q))) (cy + (cos (t * (PI / 2)) * q + sg * (sin (t * (PI / 2)) * p))) cz).
Proof.
  intros H S t. set (a := V3 (cx + p) (cy + q) cz). set (b := V3 (cx - sg * q) (cy + sg * p) cz). set (c := V3 cx cy cz).
  assert (S2 : sg * sg = 1) by (destruct S; subst; ring).
  assert (P : 0 < p * p + q * q) by nra.
  assert (Da : diff a c = V3 p q 0) by (apply vec_ext; cbn; ring).
  assert (Db : diff b c = V3 (- (sg * q)) (sg * p) 0) by (apply vec_ext; cbn; ring).
  assert (E : dist a c = dist b c).
  { unfold dist, a, b, c. cbn [vx vy vz]. f_equal. replace ((cx - sg * q - cx) * (cx - sg * q - cx)) with (sg * sg * (q * q)) by ring.
    replace ((cy + sg * p - cy) * (cy + sg * p - cy)) with (sg * sg * (p * p)) by ring. rewrite S2. ring. }
  assert (N : crossR (diff a c) (diff b c) = V3 0 0 (sg * (p * p + q * q))) by (rewrite Da, Db; apply vec_ext; cbn; ring).
  assert (NN : nrm (V3 0 0 (sg * (p * p + q * q))) = p * p + q * q).
  { unfold nrm, inner. cbn [vx vy vz]. replace (0 * 0 + 0 * 0 + sg * (p * p + q * q) * (sg * (p * p + q * q))) with (sg * sg * ((p * p + q * q) * (p * p + q * q))) by ring.
    rewrite S2, Rmult_1_l. apply sqrt_square. lra. }
  assert (NZ : crossR (diff a c) (diff b c) <> origin).
  { rewrite N. intros Q. injection Q as Q. apply Rmult_integral in Q. destruct Q; [destruct S; lra|lra]. }
  destruct (arc_equal_radii a b c E NZ) as (th & (Rth & Cth) & _ & V & _).
  assert (ET : th = PI / 2).
  { rewrite Da, Db in Cth. replace (inner (V3 p q 0) (V3 (- (sg * q)) (sg * p) 0)) with 0 in Cth by (unfold inner; cbn; ring).
    assert (C0 : cos th = 0).
    { apply Rmult_integral in Cth. destruct Cth as [Cth|]; [exfalso|assumption]. apply Rmult_integral in Cth.
      destruct Cth as [Z|Z]; apply (proj1 (nrm_zero _)) in Z; injection Z as Z1 Z2; destruct S; subst sg; nra. }
    destruct (Rtotal_order th (PI / 2)) as [L|[Q|G]]; [|exact Q|].
    - pose proof (cos_gt_0 th ltac:(lra) L). lra.
    - pose proof (cos_lt_0 th G ltac:(lra)). lra. }
  subst th. rewrite V. cbv zeta. f_equal. unfold arc_point, arc_normal. cbv zeta. rewrite N, NN, Da.
  apply vec_ext; unfold plus_scaled, crossR, scaled, c; cbn [vx vy vz]; field; lra.
Qed.

Section Disc.
  Variables (c : pt) (r : R).
  Let s := r * sqrt (1 / 2).
  Let n' := fun t => V3 (vx c + (cos (t * (PI / 2)) * (- s) - -1 * (sin (t * (PI / 2)) * s))) (vy c + (cos (t * (PI / 2)) * s + -1 * (sin (t * (PI / 2)) * (- s)))) 0.
  Let e' := fun t => V3 (vx c + (cos (t * (PI / 2)) * s - 1 * (sin (t * (PI / 2)) * (- s)))) (vy c + (cos (t * (PI / 2)) * (- s) + 1 * (sin (t * (PI / 2)) * s))) 0.
  Let s' := fun t => V3 (vx c + (cos (t * (PI / 2)) * (- s) - 1 * (sin (t * (PI / 2)) * (- s)))) (vy c + (cos (t * (PI / 2)) * (- s) + 1 * (sin (t * (PI / 2)) * (- s)))) 0.
  Let w' := fun t => V3 (vx c + (cos (t * (PI / 2)) * (- s) - -1 * (sin (t * (PI / 2)) * (- s)))) (vy c + (cos (t * (PI / 2)) * (- s) + -1 * (sin (t * (PI / 2)) * (- s)))) 0.

  Lemma turned_trig t : sin ((2 * t - 1) * (PI / 4)) = sqrt (1 / 2) * (sin (t * (PI / 2)) - cos (t * (PI / 2))) /\
    cos ((2 * t - 1) * (PI / 4)) = sqrt (1 / 2) * (sin (t * (PI / 2)) + cos (t * (PI / 2))).
  Proof using.
    replace ((2 * t - 1) * (PI / 4)) with (t * (PI / 2) - PI / 4) by field. rewrite sin_minus, cos_minus.
    destruct quarter_trig as [-> ->]. split; ring.
  Qed.

  Lemma disc_is plane : vz c = 0 -> r <> 0 -> exists S, circle_patch c r plane = Ok S /\ forall u v, S u v = Ok (disc_point c r u v).
  Proof using.
    intros Z Hr. destruct half_sqrt as [K2 K0]. destruct quarter_trig as [QC QS].
    assert (Hs : s <> 0) by (unfold s; intros Q; apply Rmult_integral in Q; lra).
    assert (P : s * s + s * s <> 0) by nra.
    assert (C : V3 (vx c) (vy c) 0 = c) by (apply vec_ext; cbn; auto).
    assert (EN : evaluates (Arc (V3 (vx c + - s) (vy c + s) 0) (V3 (vx c - -1 * s) (vy c + -1 * - s) 0) (V3 (vx c) (vy c) 0)) n') by (apply quarter_arc; [intros Q; apply P; lra|auto]).
    assert (EE : evaluates (Arc (V3 (vx c + s) (vy c + - s) 0) (V3 (vx c - 1 * - s) (vy c + 1 * s) 0) (V3 (vx c) (vy c) 0)) e') by (apply quarter_arc; [intros Q; apply P; lra|auto]).
    assert (ES : evaluates (Arc (V3 (vx c + - s) (vy c + - s) 0) (V3 (vx c - 1 * - s) (vy c + 1 * - s) 0) (V3 (vx c) (vy c) 0)) s') by (apply quarter_arc; [intros Q; apply P; lra|auto]).
    assert (EW : evaluates (Arc (V3 (vx c + - s) (vy c + - s) 0) (V3 (vx c - -1 * - s) (vy c + -1 * - s) 0) (V3 (vx c) (vy c) 0)) w') by (apply quarter_arc; [intros Q; apply P; lra|auto]).
    assert (T0 : cos (0 * (PI / 2)) = 1 /\ sin (0 * (PI / 2)) = 0) by (rewrite Rmult_0_l, cos_0, sin_0; auto).
    assert (T1 : cos (1 * (PI / 2)) = 0 /\ sin (1 * (PI / 2)) = 1) by (rewrite Rmult_1_l, cos_PI2, sin_PI2; auto).
    unfold circle_patch, npi, ncos, nsin, n0, n1. numR.
    replace (PI / 4) with (PI / 4) by field. rewrite QC, QS. fold s.
    replace (vx c - s) with (vx c + - s) by ring. replace (vy c - s) with (vy c + - s) by ring.
    replace (- r * sqrt (1 / 2)) with (- s) by (unfold s; ring).
    assert (EN' : evaluates (Arc (V3 (vx c + - s) (vy c + s) 0) (V3 (vx c + s) (vy c + s) 0) c) n').
    { replace (V3 (vx c + s) (vy c + s) 0) with (V3 (vx c - -1 * s) (vy c + -1 * - s) 0) by (apply vec_ext; cbn; ring). rewrite <- C at 5. exact EN. }
    assert (EE' : evaluates (Arc (V3 (vx c + s) (vy c + - s) 0) (V3 (vx c + s) (vy c + s) 0) c) e').
    { replace (V3 (vx c + s) (vy c + s) 0) with (V3 (vx c - 1 * - s) (vy c + 1 * s) 0) by (apply vec_ext; cbn; ring). rewrite <- C at 5. exact EE. }
    assert (ES' : evaluates (Arc (V3 (vx c + - s) (vy c + - s) 0) (V3 (vx c + s) (vy c + - s) 0) c) s').
    { replace (V3 (vx c + s) (vy c + - s) 0) with (V3 (vx c - 1 * - s) (vy c + 1 * - s) 0) by (apply vec_ext; cbn; ring). rewrite <- C at 5. exact ES. }
    assert (EW' : evaluates (Arc (V3 (vx c + - s) (vy c + - s) 0) (V3 (vx c + - s) (vy c + s) 0) c) w').
    { replace (V3 (vx c + - s) (vy c + s) 0) with (V3 (vx c - -1 * - s) (vy c + -1 * - s) 0) by (apply vec_ext; cbn; ring). rewrite <- C at 5. exact EW. }
    unfold CoonsPatch.
    assert (NR : forall p q : pt, p = q -> near p q) by (intros p q ->; unfold near, near1; repeat split; rewrite Rminus_diag_eq, Rabs_R0 by reflexivity; pose proof (Rabs_pos (vx q)); pose proof (Rabs_pos (vy q)); pose proof (Rabs_pos (vz q)); lra).
    rewrite (coons_edges_ok _ _ _ _ n' e' s' w' EN' EE' ES' EW').
    - cbn [bind]. eexists. split; [reflexivity|]. intros u v. unfold Coons_call.
      cbn [c_south c_north c_west c_east c_p00 c_p10 c_p11 c_p01 c_offset].
      rewrite (ES' u), (EN' u), (EW' v), (EE' v). cbn [bind]. f_equal.
      unfold n', e', s', w', disc_point, zero_offset. destruct T0 as [-> ->], T1 as [-> ->].
      destruct (turned_trig u) as [-> ->], (turned_trig v) as [-> ->].
      apply vec_ext; cbn [vx vy vz vadd vsub vscale vneg]; numR; unfold s; [ring|ring|rewrite Z; ring].
    - unfold corners_near, n', e', s', w'. destruct T0 as [-> ->], T1 as [-> ->]. repeat (split; [apply NR, vec_ext; cbn; ring|]). apply NR, vec_ext; cbn; ring.
  Qed.
End Disc.

(** ** the disc *)
Definition across (a b : R) : R := sin (a * (PI / 4)) + a * (cos (b * (PI / 4)) - sqrt (1 / 2)).
Lemma across_odd a b : across (- a) b = - across a b.
Proof. unfold across. rewrite Ropp_mult_distr_l_reverse, sin_neg. ring. Qed.
Lemma across_even a b : across a (- b) = across a b.
Proof. unfold across. rewrite Ropp_mult_distr_l_reverse, cos_neg. reflexivity. Qed.
Lemma eighth_bounds a : 0 <= a <= 1 -> 0 <= sin (a * (PI / 4)) <= sqrt (1 / 2) /\ sqrt (1 / 2) <= cos (a * (PI / 4)) <= 1.
Proof.
  intros Ha. pose proof PI_RGT_0 as PP. destruct quarter_trig as [QC QS].
  assert (A : 0 <= a * (PI / 4) <= PI / 4) by (split; [apply Rmult_le_pos; lra|nra]).
  split; split.
  - apply sin_ge_0; lra.
  - rewrite <- QS. apply sin_incr_1; lra.
  - rewrite <- QC. apply cos_decr_1; lra.
  - apply COS_bound.
Qed.
Lemma across_edge b : across 1 b * across 1 b + across b 1 * across b 1 = 1.
Proof.
  unfold across. rewrite !Rmult_1_l. destruct quarter_trig as [-> ->].
  replace (sin (b * (PI / 4)) + b * (sqrt (1 / 2) - sqrt (1 / 2))) with (sin (b * (PI / 4))) by ring.
  replace (sqrt (1 / 2) + (cos (b * (PI / 4)) - sqrt (1 / 2))) with (cos (b * (PI / 4))) by ring.
  pose proof (sin2_cos2 (b * (PI / 4))) as Q. unfold Rsqr in Q. lra.
Qed.
Lemma across_in a b : 0 <= a <= 1 -> 0 <= b <= 1 -> across a b * across a b + across b a * across b a <= 1.
Proof.
  intros Ha Hb. pose proof PI_RGT_0 as PP. assert (P4 : PI <= 4) by apply PI_4. destruct half_sqrt as [K2 K0].
  destruct (Req_dec a 1) as [-> |N]; [rewrite across_edge; lra|].
  rewrite <- (across_edge b).
  set (q := PI / 4) in *. set (k := sqrt (1 / 2)) in *.
  assert (DS : forall t, derivable_pt_lim (fun t => sin (t * q)) t (q * cos (t * q))).
  { intros t. replace (q * cos (t * q)) with (cos (t * q) * (1 * q + t * 0)) by ring.
    apply (derivable_pt_lim_comp (fun t => t * q) sin); [apply (derivable_pt_lim_mult (fun t => t) (fun _ => q)); [apply derivable_pt_lim_id|apply derivable_pt_lim_const]|apply derivable_pt_lim_sin]. }
  assert (DC : forall t, derivable_pt_lim (fun t => cos (t * q)) t (- (q * sin (t * q)))).
  { intros t. replace (- (q * sin (t * q))) with (- sin (t * q) * (1 * q + t * 0)) by ring.
    apply (derivable_pt_lim_comp (fun t => t * q) cos); [apply (derivable_pt_lim_mult (fun t => t) (fun _ => q)); [apply derivable_pt_lim_id|apply derivable_pt_lim_const]|apply derivable_pt_lim_cos]. }
  set (X' := fun t => q * cos (t * q) + (cos (b * q) - k)). set (Y' := fun t => - (b * (q * sin (t * q)))).
  assert (DX : forall t, derivable_pt_lim (fun t => across t b) t (X' t)).
  { intros t. unfold X', across. fold q. fold k. replace (q * cos (t * q) + (cos (b * q) - k)) with (q * cos (t * q) + (1 * (cos (b * q) - k) + t * 0)) by ring.
    apply (derivable_pt_lim_plus (fun t => sin (t * q)) (fun t => t * (cos (b * q) - k))); [apply DS|].
    apply (derivable_pt_lim_mult (fun t => t) (fun _ => cos (b * q) - k)); [apply derivable_pt_lim_id|apply derivable_pt_lim_const]. }
  assert (DY : forall t, derivable_pt_lim (fun t => across b t) t (Y' t)).
  { intros t. unfold Y', across. fold q. fold k. replace (- (b * (q * sin (t * q)))) with (0 + b * (- (q * sin (t * q)) - 0)) by ring.
    apply (derivable_pt_lim_plus (fun t => sin (b * q)) (fun t => b * (cos (t * q) - k))); [apply derivable_pt_lim_const|].
    apply (derivable_pt_lim_scal (fun t => cos (t * q) - k)). apply (derivable_pt_lim_minus (fun t => cos (t * q)) (fun _ => k)); [apply DC|apply derivable_pt_lim_const]. }
  destruct (MVT_cor2 (fun t => across t b * across t b + across b t * across b t)
    (fun t => (X' t * across t b + across t b * X' t) + (Y' t * across b t + across b t * Y' t)) a 1 ltac:(lra)) as (t & E & Rt).
  { intros t _. apply (derivable_pt_lim_plus (fun t => across t b * across t b) (fun t => across b t * across b t)).
    - apply (derivable_pt_lim_mult (fun t => across t b) (fun t => across t b)); apply DX.
    - apply (derivable_pt_lim_mult (fun t => across b t) (fun t => across b t)); apply DY. }
  cbv beta in E.
  assert (G : 0 <= X' t * across t b + Y' t * across b t); [|nra].
  destruct (eighth_bounds t ltac:(lra)) as [[S0 S1] [C1 C2]]. destruct (eighth_bounds b Hb) as [[Sb0 Sb1] [Cb1 Cb2]]. fold q in S0, S1, C1, C2, Sb0, Sb1, Cb1, Cb2. fold k in S1, C1, Sb1, Cb1.
  unfold X', Y', across. fold q. fold k. clear E DS DC DX DY X' Y'.
  set (st := sin (t * q)) in *. set (ct := cos (t * q)) in *. set (sb := sin (b * q)) in *. set (cb := cos (b * q)) in *. fold k in K2, K0.
  assert (Q : 0 < q <= 1) by (unfold q; lra). clearbody st ct sb cb k q.
  (* x >= sin t, and the claim for x = sin t *)
  assert (A1 : 0 <= (q * ct + (cb - k)) * (t * (cb - k))) by (apply Rmult_le_pos; [|apply Rmult_le_pos; lra]; assert (0 <= q * ct) by (apply Rmult_le_pos; lra); lra).
  assert (A2 : b * sb <= k) by nra.
  assert (A3 : b * (sb + b * (ct - k)) <= ct).
  { assert (b * b <= 1) by nra. assert (b * b * (ct - k) <= 1 * (ct - k)) by (apply Rmult_le_compat_r; lra). lra. }
  assert (A4 : q * (b * (sb + b * (ct - k))) <= q * ct) by (apply Rmult_le_compat_l; lra).
  assert (A5 : 0 <= st * (q * ct + (cb - k) - q * (b * (sb + b * (ct - k))))) by (apply Rmult_le_pos; lra).
  nra.
Qed.
Lemma across_all a b : -1 <= a <= 1 -> -1 <= b <= 1 -> across a b * across a b + across b a * across b a <= 1.
Proof.
  intros Ha Hb. assert (S : forall a b, across (Rabs a) (Rabs b) * across (Rabs a) (Rabs b) = across a b * across a b).
  { intros x y. unfold Rabs. destruct (Rcase_abs x), (Rcase_abs y); rewrite ?across_even, ?across_odd; ring. }
  rewrite <- (S a b), <- (S b a). apply across_in; (split; [apply Rabs_pos|apply Rabs_le; lra]).
Qed.

(** C111: for a centre in the plane z = 0 circle_patch is a disc: all its points
    are within r of the centre, its four edges are on the circle and go once
    around it; plane is ignored *)
Theorem C111_disc c r plane : vz c = 0 -> r <> 0 ->
  exists S, circle_patch c r plane = Ok S /\ (forall u v, S u v = Ok (disc_point c r u v)) /\
    (forall u v, 0 <= u <= 1 -> 0 <= v <= 1 -> dist (disc_point c r u v) c <= Rabs r /\ vz (disc_point c r u v) = 0) /\
    (forall t, let a := (2 * t - 1) * (PI / 4) in
       disc_point c r 1 t = V3 (vx c + r * cos a) (vy c + r * sin a) 0 /\ disc_point c r t 1 = V3 (vx c + r * cos (PI / 2 - a)) (vy c + r * sin (PI / 2 - a)) 0 /\
       disc_point c r 0 t = V3 (vx c + r * cos (PI - a)) (vy c + r * sin (PI - a)) 0 /\ disc_point c r t 0 = V3 (vx c + r * cos (a - PI / 2)) (vy c + r * sin (a - PI / 2)) 0).
Proof.
  intros Z Hr. destruct (disc_is c r plane Z Hr) as (S & ES & V). exists S. split; [exact ES|]. split; [exact V|].
  destruct quarter_trig as [QC QS]. split.
  - intros u v Hu Hv. split; [|exact Z]. unfold dist, disc_point. cbn [vx vy vz].
    match goal with |- sqrt ?e <= _ => replace e with (Rsqr r * (across (2 * u - 1) (2 * v - 1) * across (2 * u - 1) (2 * v - 1) + across (2 * v - 1) (2 * u - 1) * across (2 * v - 1) (2 * u - 1))) by (unfold across, Rsqr; ring) end.
    rewrite <- sqrt_Rsqr_abs. apply sqrt_le_1_alt. pose proof (across_all (2 * u - 1) (2 * v - 1) ltac:(lra) ltac:(lra)). pose proof (Rle_0_sqr r). nra.
  - intros t a. unfold disc_point. rewrite Z. fold a.
    replace ((2 * 1 - 1) * (PI / 4)) with (PI / 4) by field. replace ((2 * 0 - 1) * (PI / 4)) with (- (PI / 4)) by field.
    rewrite !sin_neg, !cos_neg, QC, QS. rewrite !cos_minus, !sin_minus, cos_PI2, sin_PI2, cos_PI, sin_PI.
    split; [|split; [|split]]; apply vec_ext; cbn [vx vy vz]; ring.
Qed.

(** ** centres off the plane *)
Lemma arc_end a b c : dist a c = dist b c -> crossR (diff a c) (diff b c) <> origin ->
  exists g, evaluates (Arc a b c) g /\ g 0 = a /\ g 1 = V3 (vx b) (vy b + vy (crossR (diff a c) (diff b c)) / dist a c) (vz b).
Proof.
  intros E NZ. pose proof (arc_start_value a b c E NZ) as V0. destruct (arc_equal_radii a b c E NZ) as (th & (Rth & Cth) & _ & V & B).
  eexists. split; [intros t; apply V|]. split.
  - specialize (V 0). rewrite V0 in V. injection V as V. symmetry. exact V.
  - cbv zeta beta. rewrite Rmult_1_l, B. f_equal. f_equal.
    set (N := crossR (diff a c) (diff b c)) in *. unfold arc_normal. fold N.
    assert (PN : 0 < nrm N) by (apply nrm_pos, NZ).
    assert (Da : dist a c = nrm (diff a c)) by (rewrite dist_nrm; reflexivity). assert (Db : dist b c = nrm (diff b c)) by (rewrite dist_nrm; reflexivity).
    rewrite <- Da in Cth. rewrite <- Db, <- E in Cth.
    assert (LG : nrm N * nrm N = (nrm (diff a c) * nrm (diff a c)) * (nrm (diff b c) * nrm (diff b c)) - inner (diff a c) (diff b c) * inner (diff a c) (diff b c)).
    { rewrite !nrm_sq. unfold N, inner, crossR. cbn [vx vy vz]. ring. }
    rewrite <- Da, <- Db, <- E, <- Cth in LG. set (d := dist a c) in *.
    assert (Sp : 0 < sin th) by (apply sin_gt_0; lra). pose proof (sin2_cos2 th) as SC. unfold Rsqr in SC.
    assert (D0 : 0 <= d) by apply dist_nonneg.
    assert (SN : d * d * sin th = nrm N).
    { apply Rsqr_inj; [apply Rmult_le_pos; nra|lra|]. unfold Rsqr. rewrite LG. replace (sin th * sin th) with (1 - cos th * cos th) by lra.
      replace (d * d * sin th * (d * d * sin th)) with (d * d * (d * d) * (sin th * sin th)) by ring. replace (sin th * sin th) with (1 - cos th * cos th) by lra. ring. }
    assert (Dp : d <> 0) by (intros Q; rewrite Q in SN; lra).
    unfold scaled. cbn [vy]. rewrite <- SN. field. split; [exact Dp|lra].
Qed.

(** C111: circle_patch refuses r = 0; otherwise it accepts a centre exactly when
    the error its arcs make off the plane z = 0 is within the tolerance of the
    corner check *)
Theorem C111_accepts c r plane :
  let s := r * sqrt (1 / 2) in let e := Rabs (sqrt 2 * r * vz c) / sqrt (r * r + vz c * vz c) in
  (r = 0 -> circle_patch c r plane = Raise GenericError) /\
  (r <> 0 -> (is_ok (circle_patch c r plane) <-> e <= 1 / 100000 + 1 / 100 * Rabs (vy c - s) /\ e <= 1 / 100000 + 1 / 100 * Rabs (vy c + s)) /\
             (~ is_ok (circle_patch c r plane) -> circle_patch c r plane = Raise GenericError)).
Proof.
  intros s e. destruct half_sqrt as [K2 K0]. destruct quarter_trig as [QC QS].
  unfold circle_patch, CoonsPatch, npi, ncos, nsin, n0, n1. numR. rewrite QC, QS. fold s.
  replace (- r * sqrt (1 / 2)) with (- s) by (unfold s; ring).
  set (tl := V3 (vx c - s) (vy c + s) 0). set (tr := V3 (vx c + s) (vy c + s) 0).
  set (br := V3 (vx c + s) (vy c - s) 0). set (bl := V3 (vx c - s) (vy c + - s) 0).
  split.
  - intros Hr. assert (S0 : s = 0) by (unfold s; rewrite Hr; ring).
    assert (E : forall x y z, Coons_edges x y (Arc bl br c) z zero_offset = Raise GenericError); [|rewrite E; reflexivity].
    intros x y z. unfold Coons_edges. assert (Q : p_call (Arc bl br c) n0 = Raise GenericError); [|rewrite Q; reflexivity].
    cbn [p_call Arc]. rewrite arc_raises_plane; [reflexivity|]. unfold bl, br. rewrite S0. apply vec_ext; unfold crossR, diff, origin; cbn [vx vy vz]; ring.
  - intros Hr. assert (Hs : s <> 0) by (unfold s; intros Q; apply Rmult_integral in Q; lra). assert (Ps : 0 < s * s) by nra.
    set (D := sqrt (r * r + vz c * vz c)).
    assert (S2 : s * s + s * s = r * r) by (unfold s; replace (r * sqrt (1 / 2) * (r * sqrt (1 / 2))) with (r * r * (sqrt (1 / 2) * sqrt (1 / 2))) by ring; rewrite K2; field).
    assert (DD : dist tl c = D /\ dist tr c = D /\ dist bl c = D /\ dist br c = D).
    { unfold D, dist, tl, tr, bl, br. cbn [vx vy vz]. rewrite <- S2. repeat split; f_equal; ring. }
    destruct DD as (Dtl & Dtr & Dbl & Dbr).
    assert (Cn : crossR (diff tl c) (diff tr c) = V3 0 (- (2 * s * vz c)) (- (2 * (s * s)))) by (apply vec_ext; unfold crossR, diff, tl, tr; cbn [vx vy vz]; ring).
    assert (Ce : crossR (diff br c) (diff tr c) = V3 (2 * s * vz c) 0 (2 * (s * s))) by (apply vec_ext; unfold crossR, diff, br, tr; cbn [vx vy vz]; ring).
    assert (Cs : crossR (diff bl c) (diff br c) = V3 0 (- (2 * s * vz c)) (2 * (s * s))) by (apply vec_ext; unfold crossR, diff, bl, br; cbn [vx vy vz]; ring).
    assert (Cw : crossR (diff bl c) (diff tl c) = V3 (2 * s * vz c) 0 (- (2 * (s * s)))) by (apply vec_ext; unfold crossR, diff, bl, tl; cbn [vx vy vz]; ring).
    destruct (arc_end tl tr c ltac:(congruence)) as (gn & En & N0 & N1); [rewrite Cn; intros Q; injection Q; intros; lra|].
    destruct (arc_end br tr c ltac:(congruence)) as (ge & Ee & E0 & E1); [rewrite Ce; intros Q; injection Q; intros; lra|].
    destruct (arc_end bl br c ltac:(congruence)) as (gs & Es & P0 & P1); [rewrite Cs; intros Q; injection Q; intros; lra|].
    destruct (arc_end bl tl c ltac:(congruence)) as (gw & Ew & W0 & W1); [rewrite Cw; intros Q; injection Q; intros; lra|].
    rewrite Cn, Dtl in N1. rewrite Ce, Dbr in E1. rewrite Cs, Dbl in P1. rewrite Cw, Dbl in W1. cbn [vy] in N1, E1, P1, W1.
    pose proof (coons_edges_iff _ _ _ _ gn ge gs gw En Ee Es Ew zero_offset) as CI. pose proof (coons_edges_fail _ _ _ _ gn ge gs gw En Ee Es Ew zero_offset) as CF.
    assert (LF : forall x : res (coons R), is_ok (let! d := x in Ok (Coons_call d)) <-> is_ok x).
    { intros [x|]; cbn; split; intros [y Hy]; try discriminate; eexists; reflexivity. }
    assert (Dp : 0 < D) by (apply sqrt_lt_R0; nra).
    assert (EE : e = Rabs (- (2 * s * vz c) / D)).
    { unfold e. fold D. unfold Rdiv. rewrite (Rabs_mult (- (2 * s * vz c)) (/ D)), (Rabs_pos_eq (/ D)) by (left; apply Rinv_0_lt_compat, Dp). f_equal.
      rewrite Rabs_Ropp. f_equal. unfold s. assert (Q : sqrt 2 = 2 * sqrt (1 / 2)); [|rewrite Q; ring].
      apply Rsqr_inj; [apply sqrt_pos|lra|]. unfold Rsqr. rewrite sqrt_sqrt by lra. replace (2 * sqrt (1 / 2) * (2 * sqrt (1 / 2))) with (4 * (sqrt (1 / 2) * sqrt (1 / 2))) by ring. rewrite K2. field. }
    assert (CN : corners_near gn ge gs gw <-> e <= 1 / 100000 + 1 / 100 * Rabs (vy c - s) /\ e <= 1 / 100000 + 1 / 100 * Rabs (vy c + s)).
    { unfold corners_near. rewrite P0, P1, E0, E1, N0, N1, W0, W1. unfold near, near1, tl, tr, bl, br. cbn [vx vy vz].
      replace (vy c - s + - (2 * s * vz c) / D - (vy c - s)) with (- (2 * s * vz c) / D) by ring.
      replace (vy c + s + - (2 * s * vz c) / D - (vy c + s + 0 / D)) with (- (2 * s * vz c) / D) by (unfold Rdiv; ring).
      replace (vy c + s - (vy c + s + 0 / D)) with 0 by (unfold Rdiv; ring).
      replace (vy c + s + 0 / D) with (vy c + s) by (unfold Rdiv; ring). rewrite <- EE.
      assert (MM : forall x, x - x = 0) by (intros x; ring). rewrite !MM, !Rabs_R0.
      assert (T : forall x, 0 <= 1 / 100000 + 1 / 100 * Rabs x) by (intros x; pose proof (Rabs_pos x); lra).
      assert (T0 : 0 <= 1 / 100000 + 1 / 100 * 0) by lra.
      pose proof (T (vx c - s)). pose proof (T (vx c + s)). pose proof (T (vy c + - s)). pose proof (T (vy c + s)). tauto. }
    split; [rewrite LF, CI; exact CN|]. intros NO. rewrite LF, CI in NO. rewrite (CF NO). reflexivity.
Qed.

(** a unit disc about (3, 4, 0), and the centre (0, 0, 1), which is refused *)
Example C111_meets : vz (V3 3 4 0) = 0 /\ (1:R) <> 0 /\ is_ok (circle_patch (V3 3 4 0) 1 "xy") /\
  circle_patch (V3 0 0 1) 1 "xy" = Raise GenericError.
Proof.
  split; [reflexivity|]. split; [lra|]. split.
  - destruct (C111_disc (V3 3 4 0) 1 "xy" eq_refl ltac:(lra)) as (S & E & _). exists S. exact E.
  - destruct (C111_accepts (V3 0 0 1) 1 "xy") as [_ H]. destruct (H ltac:(lra)) as [I F]. apply F. rewrite I. cbn [vx vy vz].
    intros [A _]. revert A. replace (1 * 1 + 1 * 1) with 2 by ring. rewrite !Rmult_1_r, Rmult_1_l.
    assert (P2 : 0 < sqrt 2) by (apply sqrt_lt_R0; lra). rewrite (Rabs_pos_eq (sqrt 2)) by lra.
    unfold Rdiv at 1. rewrite Rinv_r by lra. destruct half_sqrt as [K2 K0]. rewrite Rabs_left by lra. nra.
Qed.

Print Assumptions C111_disc.
Print Assumptions C111_accepts.
