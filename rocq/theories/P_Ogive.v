(** C70: OgiveNose (components/common.py 49-113). *)
From Coq Require Import Reals Lra List Lia.
From Verif Require Import Num NumR Py M_Vector SpecR3 M_Path M_Surface M_Common SpecPath SpecPoly L_Vector L_Line L_Arc L_Polyline P_Polyline.
Import ListNotations.
Local Open Scope R_scope.

Definition on_axis (p : pt) : Prop := vy p = 0 /\ vz p = 0.

Lemma dlim_lin k s : derivable_pt_lim (fun t => t * k) s k.
Proof.
  assert (Q : derivable_pt_lim (fun t => t * k) s (1 * k + s * 0))
    by (apply (derivable_pt_lim_mult (fun t => t) (fun _ => k)); [apply derivable_pt_lim_id|apply derivable_pt_lim_const]).
  replace (1 * k + s * 0) with k in Q by ring. exact Q.
Qed.
Lemma dlim_scal c (f : R -> R) s l : derivable_pt_lim f s l -> derivable_pt_lim (fun t => c * f t) s (c * l).
Proof.
  intros Hf. replace (c * l) with (0 * f s + c * l) by ring.
  apply (derivable_pt_lim_mult (fun _ => c) f); [apply derivable_pt_lim_const|exact Hf].
Qed.
Lemma dlim_ext (f g : R -> R) s l : (forall t, f t = g t) -> derivable_pt_lim f s l -> derivable_pt_lim g s l.
Proof. intros E D eps He. destruct (D eps He) as [dl Q]. exists dl. intros q Hq Hd. rewrite <- !E. apply Q; assumption. Qed.

Section Ogive.
  Variables (h rn ro Lo : R).
  Hypothesis Hn : 0 < rn.
  Hypothesis Hh : rn < h < ro.

  Let d := ro - rn.
  Let e := ro - h.
  Let X := sqrt (d * d - e * e).
  Lemma og_d : 0 < d. Proof. unfold d. lra. Qed.
  Lemma og_e : 0 < e < d. Proof. unfold d, e. lra. Qed.
  Lemma og_X2 : X * X = d * d - e * e.
  Proof. unfold X. apply sqrt_sqrt. pose proof og_e. nra. Qed.
  Lemma og_X : 0 < X.
  Proof. unfold X. apply sqrt_lt_R0. pose proof og_e. nra. Qed.

  Let c_n : pt := V3 X 0 0.
  Let c_o : pt := V3 0 (- e) 0.
  Let a_n : pt := V3 (X + rn) 0 0.
  Let a_o : pt := V3 (X * ro / d) (rn * e / d) 0.
  Let b_o : pt := V3 0 h 0.
  Let f1 : pt := V3 (- Lo) h 0.

  Lemma og_parts : let o := ogive_parts h rn ro Lo in
    og_nose o = Arc a_n a_o c_n /\ og_arc o = Arc a_o b_o c_o /\ og_fairing o = Line b_o f1 /\ og_base o = Line f1 (V3 (- Lo) 0 0).
  Proof.
    pose proof og_d as Hd. pose proof og_e as He. pose proof og_X as HX. pose proof og_X2 as HX2.
    assert (E1 : nsqrt (nsub (nsq (nsub ro rn)) (nsq (nsub ro h))) = X).
    { unfold X, d, e. reflexivity. }
    assert (E2 : nsqrt (nsub (nsq rn) (nsq (ndiv (nmul rn (nsub ro h)) (nsub ro rn)))) = rn * X / d).
    { change (sqrt (rn * rn - (rn * e / d) * (rn * e / d)) = rn * X / d).
      replace (rn * rn - rn * e / d * (rn * e / d)) with ((rn * X / d) * (rn * X / d)).
      - apply sqrt_square. apply Rmult_le_pos; [nra|left; apply Rinv_0_lt_compat; lra].
      - field_simplify; [|lra..]. replace (X ^ 2) with (d * d - e * e) by nra. field. lra. }
    unfold ogive_parts. cbv zeta. cbn [og_nose og_arc og_fairing og_base]. rewrite E1, E2.
    assert (A1 : V3 (nneg (nsub (nneg X) rn)) n0 n0 = a_n) by (apply vec_ext; cbn; unfold a_n; cbn; ring).
    assert (A2 : V3 (nneg (nsub (nneg X) (rn * X / d))) (ndiv (nmul rn (nsub ro h)) (nsub ro rn)) n0 = a_o).
    { unfold a_o. apply vec_ext; cbn; [|reflexivity|reflexivity]. unfold d in *. field. lra. }
    assert (A3 : V3 (nneg (nneg X)) n0 n0 = c_n) by (apply vec_ext; cbn; unfold c_n; cbn; ring).
    assert (A4 : V3 n0 (nadd (nneg ro) h) n0 = c_o) by (apply vec_ext; cbn; unfold c_o, e; cbn; ring).
    rewrite A1, A2, A3, A4.
    assert (A5 : vsub (V3 n0 h n0) (V3 Lo n0 n0) = f1) by (apply vec_ext; cbn; unfold f1; cbn; ring).
    rewrite A5. repeat split.
  Qed.

  Lemma og_rad_n : dist a_n c_n = rn /\ dist a_o c_n = rn.
  Proof.
    pose proof og_d as Hd. pose proof og_X2 as HX2. unfold dist. cbn [vx vy vz a_n a_o c_n]. split.
    - replace (_ + _) with (rn * rn) by ring. apply sqrt_square. lra.
    - replace (_ + _) with (rn * rn); [apply sqrt_square; lra|].
      replace ro with (d + rn) by (unfold d; ring). field_simplify; [|lra..]. replace (X ^ 2) with (d * d - e * e) by nra. field. lra.
  Qed.
  Lemma og_rad_o : dist a_o c_o = ro /\ dist b_o c_o = ro.
  Proof.
    pose proof og_d as Hd. pose proof og_X2 as HX2. unfold dist. cbn [vx vy vz b_o a_o c_o]. split.
    - replace (_ + _) with (ro * ro); [apply sqrt_square; lra|].
      replace ro with (d + rn) by (unfold d; ring). field_simplify; [|lra..]. replace (X ^ 2) with (d * d - e * e) by nra. field. lra.
    - replace (_ + _) with (ro * ro) by (unfold e; ring). apply sqrt_square. lra.
  Qed.
  Lemma og_cross_n : crossR (diff a_n c_n) (diff a_o c_n) = V3 0 0 (rn * (rn * e / d)).
  Proof. unfold crossR, diff. cbn. apply vec_ext; cbn; ring. Qed.
  Lemma og_cross_o : crossR (diff a_o c_o) (diff b_o c_o) = V3 0 0 (X * ro / d * ro).
  Proof. unfold crossR, diff. cbn. apply vec_ext; cbn; unfold e; ring. Qed.
  Lemma og_pos_n : 0 < rn * (rn * e / d).
  Proof.
    pose proof og_d. pose proof og_e. apply Rmult_lt_0_compat; [lra|]. apply Rmult_lt_0_compat; [nra|apply Rinv_0_lt_compat; lra].
  Qed.
  Lemma og_pos_o : 0 < X * ro / d * ro.
  Proof.
    pose proof og_d. pose proof og_X. apply Rmult_lt_0_compat; [|lra]. apply Rmult_lt_0_compat; [nra|apply Rinv_0_lt_compat; lra].
  Qed.
  Lemma normal_z a b c k : crossR (diff a c) (diff b c) = V3 0 0 k -> 0 < k -> arc_normal a b c = V3 0 0 1.
  Proof.
    intros E Hk. unfold arc_normal. rewrite E.
    assert (Q : nrm (V3 0 0 k) = k) by (unfold nrm; cbn [vx vy vz]; replace (0 * 0 + 0 * 0 + k * k) with (k * k) by ring; apply sqrt_square; lra).
    rewrite Q. unfold scaled. cbn [vx vy vz]. apply vec_ext; cbn [vx vy vz]; [ring|ring|field; lra].
  Qed.

  (** the two arcs as functions of the angle *)
  Definition nose_at (th t : R) : pt := V3 (X + rn * cos (t * th)) (rn * sin (t * th)) 0.
  Definition ogive_at (th t : R) : pt :=
    V3 (ro / d * (X * cos (t * th) - e * sin (t * th))) (ro / d * (e * cos (t * th) + X * sin (t * th)) - e) 0.
  Lemma og_nose_ok : exists th, 0 < th < PI / 2 /\ cos th = X / d /\ sin th = e / d /\
    p_len (Arc a_n a_o c_n) = Ok (rn * th) /\ evaluates (Arc a_n a_o c_n) (nose_at th).
  Proof.
    pose proof og_d as Hd. pose proof og_e as He. pose proof og_X as HX. pose proof og_pos_n as Pn. destruct og_rad_n as [R1 R2].
    destruct (arc_flat a_n a_o c_n) as (th & Ha & Hl & _ & H1 & Hc).
    - congruence.
    - rewrite og_cross_n. intros Q. injection Q as Q. lra.
    - rewrite og_cross_n. reflexivity.
    - exists th. pose proof (normal_z _ _ _ _ og_cross_n Pn) as Nz.
      assert (AP : forall t, arc_point a_n a_o c_n (t * th) = nose_at th t).
      { intros t. unfold arc_point. rewrite Nz. unfold plus_scaled, crossR, diff, nose_at. cbn. apply vec_ext; cbn; ring. }
      assert (C : cos th = X / d /\ sin th = e / d).
      { pose proof (proj1 (Hc 1)) as Q. rewrite H1, AP in Q. injection Q as Qx Qy. rewrite !Rmult_1_l in Qx, Qy. split.
        - apply Rmult_eq_reg_l with rn; [|lra]. replace (rn * cos th) with (X * ro / d - X) by lra. unfold d in *. field. lra.
        - apply Rmult_eq_reg_l with rn; [|lra]. rewrite <- Qy. field. lra. }
      destruct C as [C S]. destruct Ha as [[T1 T2] _]. split; [split; [exact T1|]|].
      + destruct (Rlt_le_dec th (PI / 2)) as [L|L]; [exact L|]. exfalso.
        assert (cos th <= 0) by (apply cos_le_0; lra). rewrite C in H. assert (0 < X / d) by (apply Rmult_lt_0_compat; [lra|apply Rinv_0_lt_compat; lra]). lra.
      + repeat split; [exact C|exact S|rewrite Hl, R1; reflexivity|]. intros t. rewrite (proj1 (Hc t)), AP. reflexivity.
  Qed.
  Lemma og_ogive_ok : exists th, 0 < th < PI / 2 /\ cos th = e / d /\ sin th = X / d /\
    p_len (Arc a_o b_o c_o) = Ok (ro * th) /\ evaluates (Arc a_o b_o c_o) (ogive_at th).
  Proof.
    pose proof og_d as Hd. pose proof og_e as He. pose proof og_X as HX. pose proof og_X2 as HX2. pose proof og_pos_o as Pn. destruct og_rad_o as [R1 R2].
    destruct (arc_flat a_o b_o c_o) as (th & Ha & Hl & _ & H1 & Hc).
    - congruence.
    - rewrite og_cross_o. intros Q. injection Q as Q. lra.
    - rewrite og_cross_o. reflexivity.
    - exists th. pose proof (normal_z _ _ _ _ og_cross_o Pn) as Nz.
      assert (AP : forall t, arc_point a_o b_o c_o (t * th) = ogive_at th t).
      { intros t. unfold arc_point. rewrite Nz. unfold plus_scaled, crossR, diff, ogive_at. cbn.
        apply vec_ext; cbn; unfold d in *; field; lra. }
      assert (C : cos th = e / d /\ sin th = X / d).
      { pose proof (proj1 (Hc 1)) as Q. rewrite H1, AP in Q. injection Q as Qx Qy. rewrite !Rmult_1_l in Qx, Qy.
        assert (Zx : X * cos th - e * sin th = 0) by (apply Rmult_eq_reg_l with (ro / d); [lra|]; apply Rgt_not_eq, Rmult_lt_0_compat; [lra|apply Rinv_0_lt_compat; lra]).
        assert (Zy : e * cos th + X * sin th = d).
        { apply Rmult_eq_reg_l with (ro / d).
          - replace (ro / d * d) with ro by (field; lra). unfold e in *. lra.
          - apply Rgt_not_eq, Rmult_lt_0_compat; [lra|apply Rinv_0_lt_compat; lra]. }
        assert (Z1 : d * d * cos th = d * e).
        { replace (d * d) with (X * X + e * e) by lra. replace ((X * X + e * e) * cos th) with (X * (X * cos th - e * sin th) + e * (e * cos th + X * sin th)) by ring.
          rewrite Zx, Zy. ring. }
        assert (Z2 : d * d * sin th = d * X).
        { replace (d * d) with (X * X + e * e) by lra. replace ((X * X + e * e) * sin th) with (X * (e * cos th + X * sin th) - e * (X * cos th - e * sin th)) by ring.
          rewrite Zx, Zy. ring. }
        split.
        - apply Rmult_eq_reg_l with (d * d); [|nra]. rewrite Z1. field. lra.
        - apply Rmult_eq_reg_l with (d * d); [|nra]. rewrite Z2. field. lra. }
      destruct C as [C S]. destruct Ha as [[T1 T2] _]. split; [split; [exact T1|]|].
      + destruct (Rlt_le_dec th (PI / 2)) as [L|L]; [exact L|]. exfalso.
        assert (cos th <= 0) by (apply cos_le_0; lra). rewrite C in H. assert (0 < e / d) by (apply Rmult_lt_0_compat; [lra|apply Rinv_0_lt_compat; lra]). lra.
      + repeat split; [exact C|exact S|rewrite Hl, R1; reflexivity|]. intros t. rewrite (proj1 (Hc t)), AP. reflexivity.
  Qed.

  (** *** C70: the four pieces of the revolve line *)
  Theorem C70_pieces : 0 < Lo -> let o := ogive_parts h rn ro Lo in
    exists nose ogive fair base cn co,
      evaluates (og_nose o) nose /\ evaluates (og_arc o) ogive /\ evaluates (og_fairing o) fair /\ evaluates (og_base o) base /\
      (* circular, with the radii asked for, about centres on the axis of the nose and below the axis *)
      (forall t, dist (nose t) cn = rn) /\ (forall t, dist (ogive t) co = ro) /\ on_axis cn /\ vy co = h - ro /\
      (* connected, from the axis to the axis, as high as asked for *)
      on_axis (nose 0) /\ nose 1 = ogive 0 /\ ogive 1 = fair 0 /\ vy (ogive 1) = h /\ fair 1 = base 0 /\ on_axis (base 1) /\
      vx (fair 1) = - Lo /\ vx (base 1) = - Lo /\
      (* smooth at the first two joints *)
      (exists v w k, has_velocity nose 1 v /\ has_velocity ogive 0 w /\ v <> origin /\ 0 < k /\ w = scaled k v) /\
      (exists v w k, has_velocity ogive 1 v /\ has_velocity fair 0 w /\ v <> origin /\ 0 < k /\ w = scaled k v) /\
      (* nowhere below the axis *)
      (forall t, 0 <= t <= 1 -> 0 <= vy (nose t) /\ 0 <= vy (ogive t) /\ 0 <= vy (fair t) /\ 0 <= vy (base t)).
  Proof.
    intros HL o. destruct og_parts as (P1 & P2 & P3 & P4). fold o in P1, P2, P3, P4.
    pose proof og_d as Hd. pose proof og_e as He. pose proof og_X as HX. pose proof og_X2 as HX2.
    destruct og_nose_ok as (t1 & T1 & C1 & S1 & _ & E1). destruct og_ogive_ok as (t2 & T2 & C2 & S2 & _ & E2).
    exists (nose_at t1), (ogive_at t2), (fun t => lerp t b_o f1), (fun t => lerp t f1 (V3 (- Lo) 0 0)), c_n, c_o.
    rewrite P1, P2, P3, P4. split; [exact E1|]. split; [exact E2|]. split; [intros t; apply line_lerp|]. split; [intros t; apply line_lerp|].
    assert (SC : forall a, sin a * sin a + cos a * cos a = 1) by (intros a; pose proof (sin2_cos2 a) as Q; unfold Rsqr in Q; exact Q).
    split.
    { intros t. unfold dist, nose_at, c_n. cbn [vx vy vz]. replace (_ + _) with (rn * rn * (sin (t * t1) * sin (t * t1) + cos (t * t1) * cos (t * t1))) by ring.
      rewrite SC, Rmult_1_r. apply sqrt_square. lra. }
    split.
    { intros t. unfold dist, ogive_at, c_o. cbn [vx vy vz].
      replace (_ + _) with (ro / d * (ro / d) * (X * X + e * e) * (sin (t * t2) * sin (t * t2) + cos (t * t2) * cos (t * t2))) by ring.
      rewrite SC, HX2, Rmult_1_r. replace (ro / d * (ro / d) * (d * d - e * e + e * e)) with (ro * ro) by (field; lra). apply sqrt_square. lra. }
    split; [split; reflexivity|]. split; [cbn; unfold e; ring|].
    split; [unfold on_axis, nose_at; cbn; rewrite Rmult_0_l, sin_0; split; ring|].
    split.
    { unfold nose_at, ogive_at. rewrite !Rmult_1_l, !Rmult_0_l, C1, S1, cos_0, sin_0. apply vec_ext; cbn; [unfold d in *; field; lra|unfold d in *; field; lra|reflexivity]. }
    assert (O1 : ogive_at t2 1 = b_o).
    { unfold ogive_at. rewrite Rmult_1_l, C2, S2. unfold b_o. apply vec_ext; cbn; [field; lra| |reflexivity].
      replace (e * (e / d) + X * (X / d)) with ((X * X + e * e) / d) by (field; lra). rewrite HX2. unfold e. field. unfold d in *. lra. }
    split; [rewrite O1; unfold lerp; cbn; apply vec_ext; cbn; ring|].
    split; [rewrite O1; reflexivity|].
    split; [unfold lerp; apply vec_ext; cbn; ring|].
    split; [unfold on_axis, lerp; cbn; split; ring|].
    split; [unfold lerp; cbn; ring|]. split; [unfold lerp; cbn; ring|].
    assert (Dc : forall th s, derivable_pt_lim (fun t => cos (t * th)) s (- sin (s * th) * th)).
    { intros th s. apply (derivable_pt_lim_comp (fun t => t * th) cos).
      - apply dlim_lin.
      - apply derivable_pt_lim_cos. }
    assert (Ds : forall th s, derivable_pt_lim (fun t => sin (t * th)) s (cos (s * th) * th)).
    { intros th s. apply (derivable_pt_lim_comp (fun t => t * th) sin).
      - apply dlim_lin.
      - apply derivable_pt_lim_sin. }
    assert (Vn : forall s, has_velocity (nose_at t1) s (V3 (rn * (- sin (s * t1) * t1)) (rn * (cos (s * t1) * t1)) 0)).
    { intros s. unfold has_velocity, nose_at. cbn [vx vy vz]. repeat split.
      - replace (rn * (- sin (s * t1) * t1)) with (0 + rn * (- sin (s * t1) * t1)) by ring.
        apply (derivable_pt_lim_plus (fun _ => X) (fun t => rn * cos (t * t1))); [apply derivable_pt_lim_const|apply dlim_scal, Dc].
      - apply dlim_scal, Ds.
      - apply derivable_pt_lim_const. }
    assert (Lin : forall (k a b th s : R), derivable_pt_lim (fun t => k * (a * cos (t * th) + b * sin (t * th))) s (k * (a * (- sin (s * th) * th) + b * (cos (s * th) * th)))).
    { intros k a b th s.
      apply dlim_scal. apply derivable_pt_lim_plus; apply dlim_scal; [apply Dc|apply Ds]. }
    assert (Vo : forall s, has_velocity (ogive_at t2) s
       (V3 (ro / d * (X * (- sin (s * t2) * t2) + - e * (cos (s * t2) * t2))) (ro / d * (e * (- sin (s * t2) * t2) + X * (cos (s * t2) * t2))) 0)).
    { intros s. unfold has_velocity, ogive_at. cbn [vx vy vz]. repeat split.
      - apply (dlim_ext (fun t => ro / d * (X * cos (t * t2) + - e * sin (t * t2)))); [intros; ring|apply Lin].
      - replace (ro / d * (e * (- sin (s * t2) * t2) + X * (cos (s * t2) * t2))) with
          (ro / d * (e * (- sin (s * t2) * t2) + X * (cos (s * t2) * t2)) - 0) by ring.
        apply (derivable_pt_lim_minus (fun t => ro / d * (e * cos (t * t2) + X * sin (t * t2))) (fun _ => e)); [apply Lin|apply derivable_pt_lim_const].
      - apply derivable_pt_lim_const. }
    split.
    { pose proof (Vn 1) as A. pose proof (Vo 0) as B. rewrite Rmult_1_l in A. rewrite Rmult_0_l in B. rewrite sin_0, cos_0 in B. rewrite C1, S1 in A.
      eexists. eexists. exists (ro * t2 / (rn * t1)). split; [exact A|]. split; [exact B|]. split; [|split].
      - intros Q. injection Q as _ Q. assert (0 < rn * (X / d * t1)); [|lra]. repeat apply Rmult_lt_0_compat; try lra. apply Rinv_0_lt_compat; lra.
      - apply Rmult_lt_0_compat; [apply Rmult_lt_0_compat; lra|]. apply Rinv_0_lt_compat, Rmult_lt_0_compat; lra.
      - unfold scaled. cbn. apply vec_ext; cbn; [field; lra|field; lra|ring]. }
    split.
    { pose proof (Vo 1) as A. rewrite Rmult_1_l in A. rewrite C2, S2 in A.
      eexists. exists (V3 (- Lo) 0 0), (Lo / (ro * t2)). split; [exact A|]. split.
      - unfold has_velocity, lerp. cbn [vx vy vz b_o f1]. repeat split.
        + apply (dlim_ext (fun s => s * - Lo)); [intros; cbn; ring|apply dlim_lin].
        + apply (dlim_ext (fun _ => h)); [intros; cbn; ring|apply derivable_pt_lim_const].
        + apply (dlim_ext (fun _ => 0)); [intros; cbn; ring|apply derivable_pt_lim_const].
      - assert (Ex : ro / d * (X * (- (X / d) * t2) + - e * (e / d * t2)) = - ro * t2).
        { replace (ro / d * (X * (- (X / d) * t2) + - e * (e / d * t2))) with (- ro * t2 * ((X * X + e * e) / (d * d))) by (field; lra).
          rewrite HX2. replace (d * d - e * e + e * e) with (d * d) by ring. field. lra. }
        assert (Ey : ro / d * (e * (- (X / d) * t2) + X * (e / d * t2)) = 0) by (field; lra).
        split; [|split].
        + intros Q. injection Q as Q _. assert (0 < ro * t2) by (apply Rmult_lt_0_compat; lra). lra.
        + apply Rmult_lt_0_compat; [lra|]. apply Rinv_0_lt_compat, Rmult_lt_0_compat; lra.
        + unfold scaled. cbn. apply vec_ext; cbn; [rewrite Ex; field; lra|rewrite Ey; ring|ring]. }
    intros t Ht. assert (A1 : 0 <= t * t1 <= PI / 2) by nra. assert (A2 : 0 <= t * t2 <= t2) by nra. pose proof PI_RGT_0 as HP.
    split; [unfold nose_at; cbn; apply Rmult_le_pos; [lra|apply sin_ge_0; lra]|].
    split; [|unfold lerp; cbn; split; nra].
    unfold ogive_at. cbn [vy].
    (* e cos + X sin = d sin (phi + .) >= e on [0, th2] *)
    assert (Q : e * cos (t * t2) + X * sin (t * t2) = d * cos (t2 - t * t2)).
    { rewrite cos_minus, C2, S2. field. lra. }
    rewrite Q.
    assert (Q2 : cos t2 <= cos (t2 - t * t2)) by (apply cos_decr_1; lra).
    rewrite C2 in Q2. assert (e <= d * cos (t2 - t * t2)) by (apply Rmult_le_compat_l with (r := d) in Q2; [|lra]; replace (d * (e / d)) with e in Q2 by (field; lra); exact Q2).
    assert (1 <= ro / d) by (apply Rmult_le_reg_r with d; [lra|]; replace (ro / d * d) with ro by (field; lra); unfold d; lra).
    nra.
  Qed.
End Ogive.

(** *** C70: the revolve line as the constructor returns it: it starts and ends
    on the axis, it never leaves the upper half of the x-y plane, and it is as
    long as its four pieces *)
Theorem C70_line h rn ro Lo : 0 < rn -> rn < h < ro -> 0 < Lo ->
  exists p L x, OgiveNose h rn ro Lo = Ok p /\ p_len p = Ok L /\ Lo + h < L /\ 0 < x /\
    p_call p 0 = Ok (V3 x 0 0) /\ p_call p 1 = Ok (V3 (- Lo) 0 0) /\
    (forall t, 0 <= t <= 1 -> exists q, p_call p t = Ok q /\ 0 <= vy q /\ vz q = 0).
Proof.
  intros Hn Hh HL. pose proof (C70_pieces h rn ro Lo Hn Hh HL) as C. cbv zeta in C.
  destruct (og_parts h rn ro Lo Hn Hh) as (P1 & P2 & P3 & P4).
  destruct (og_nose_ok h rn ro Hn Hh) as (t1 & T1 & C1 & S1 & L1 & E1).
  destruct (og_ogive_ok h rn ro Hn Hh) as (t2 & T2 & C2 & S2 & L2 & E2).
  pose proof (og_X h rn ro Hh) as HX.
  set (o := ogive_parts h rn ro Lo) in *. set (X := sqrt _) in *.
  destruct C as (nose & og & fair & base & cn & co & V1 & V2 & V3' & V4 & _ & _ & _ & _ & A0 & J1 & J2 & J3 & J4 & A1 & X1 & X2 & _ & _ & Y).
  assert (L3 : p_len (og_fairing o) = Ok Lo).
  { rewrite P3. cbn [p_len Line]. f_equal. rewrite vabs_nrm. unfold nrm. cbn [vsub vx vy vz nsub NumR].
    replace (_ + _) with (Lo * Lo) by ring. apply sqrt_square; lra. }
  assert (L4 : p_len (og_base o) = Ok h).
  { rewrite P4. cbn [p_len Line]. f_equal. rewrite vabs_nrm. unfold nrm. cbn [vsub vx vy vz nsub NumR].
    replace (_ + _) with (h * h) by ring. apply sqrt_square; lra. }
  set (segs := [og_nose o; og_arc o; og_fairing o; og_base o]).
  assert (HLs : lengths segs [rn * t1; ro * t2; Lo; h]).
  { unfold segs, lengths. rewrite P1, P2. constructor; [exact L1|]. constructor; [exact L2|]. constructor; [exact L3|]. constructor; [exact L4|constructor]. }
  assert (Hpos : Forall (fun l => 0 < l) [rn * t1; ro * t2; Lo; h]) by (repeat constructor; try lra; apply Rmult_lt_0_compat; lra).
  assert (HT : Forall total_path segs).
  { repeat constructor; intros t; unfold is_ok; [rewrite V1|rewrite V2|rewrite V3'|rewrite V4]; eexists; reflexivity. }
  assert (Hne : segs <> []) by discriminate.
  destruct (C08_breakpoints segs _ (nlit (Num := NumR) 1 10000000000) Hne HLs Hpos) as (pl & Hpl & Hs & Hlen & B0 & B1 & Hinc & Hd & _).
  destruct (C09_breakpoint_values segs _ _ pl Hne HLs Hpos HT Hpl) as (K0 & K1 & _).
  exists (polyline_path pl), (rn * t1 + (ro * t2 + (Lo + h))), (X + rn).
  split; [unfold OgiveNose, Polyline; fold o; fold segs; rewrite Hpl; reflexivity|].
  split; [cbn [p_len polyline_path]; rewrite Hs, (sum_lengths_sum _ _ HLs); unfold Rsum; cbn; f_equal; ring|].
  split; [assert (0 < rn * t1) by (apply Rmult_lt_0_compat; lra); assert (0 < ro * t2) by (apply Rmult_lt_0_compat; lra); lra|].
  split; [lra|].
  split.
  { cbn [p_call polyline_path]. rewrite (K0 _ eq_refl), P1, (E1 0). unfold nose_at. fold X. rewrite Rmult_0_l, cos_0, sin_0. f_equal. apply vec_ext; cbn; ring. }
  split.
  { cbn [p_call polyline_path]. rewrite (K1 _ eq_refl), (V4 1). f_equal. destruct A1 as [A1 A2]. apply vec_ext; cbn; assumption. }
  assert (Z1 : forall t, vz (nose t) = 0).
  { intros t. pose proof (V1 t) as Q. rewrite P1, (E1 t) in Q. injection Q as Q. rewrite <- Q. reflexivity. }
  assert (Z2 : forall t, vz (og t) = 0).
  { intros t. pose proof (V2 t) as Q. rewrite P2, (E2 t) in Q. injection Q as Q. rewrite <- Q. reflexivity. }
  assert (Z3 : forall t, vz (fair t) = 0).
  { intros t. pose proof (V3' t) as Q. rewrite P3, line_lerp in Q. injection Q as Q. rewrite <- Q. unfold lerp. cbn. ring. }
  assert (Z4 : forall t, vz (base t) = 0).
  { intros t. pose proof (V4 t) as Q. rewrite P4, line_lerp in Q. injection Q as Q. rewrite <- Q. unfold lerp. cbn. ring. }
  intros t Ht. destruct (C09_one_segment segs _ _ pl t Hne HLs Hpos HT Hpl) as (k & s & [Hk [I1 I2]] & _ & Hs' & Hc).
  set (u := local_t (pl_t_values pl) k t) in *.
  assert (Hu : 0 <= u <= 1).
  { unfold u, local_t. assert (G : 0 < nth (S k) (pl_t_values pl) 0 - nth k (pl_t_values pl) 0).
    { assert (nth k (pl_t_values pl) 0 < nth (S k) (pl_t_values pl) 0); [apply Hinc; [lia|rewrite Hlen; lia]|lra]. }
    assert (Lo' : nth k (pl_t_values pl) 0 <= t) by (destruct I1 as [-> |I1]; [rewrite B0; lra|lra]).
    assert (Up : t <= nth (S k) (pl_t_values pl) 0).
    { destruct I2 as [-> |I2]; [|exact I2]. change (S (length segs - 1)) with (length segs). rewrite B1. lra. }
    split; [apply Rmult_le_pos; [lra|left; apply Rinv_0_lt_compat; lra]|].
    apply Rmult_le_reg_r with (nth (S k) (pl_t_values pl) 0 - nth k (pl_t_values pl) 0); [exact G|].
    unfold Rdiv. rewrite Rmult_assoc, Rinv_l by lra. lra. }
  pose proof (Y u Hu) as (Y1 & Y2 & Y3 & Y4). cbn [p_call polyline_path]. rewrite Hc.
  destruct k as [|[|[|[|k]]]]; cbn in Hs', Hk; try lia; injection Hs' as <-.
  - exists (nose u). rewrite V1. auto.
  - exists (og u). rewrite V2. auto.
  - exists (fair u). rewrite V3'. auto.
  - exists (base u). rewrite V4. auto.
Qed.

(** *** C70: at the two ends of the admissible range an arc has no length and the
    constructor raises: h = r_o (a hemispherical cap needs no nose arc) and
    h = r_n (no room for the ogive arc) *)
Theorem C70_degenerate h rn ro Lo : 0 < rn < ro -> h = ro \/ h = rn -> OgiveNose h rn ro Lo = Raise GenericError.
Proof.
  intros Hr Hh. unfold OgiveNose, ogive_parts, Polyline, Polyline_init. cbv zeta. cbn [og_nose og_arc og_fairing og_base bind reset_breakpoints].
  unfold reset_breakpoints. cbn [cumulative bind].
  set (x0 := nneg (nsqrt (nsub (nsq (nsub ro rn)) (nsq (nsub ro h))))).
  set (yt := ndiv (nmul rn (nsub ro h)) (nsub ro rn)). set (xt := nsub x0 (nsqrt (nsub (nsq rn) (nsq yt)))).
  set (a_n := V3 (nneg (nsub x0 rn)) n0 n0). set (a_o := V3 (nneg xt) yt n0). set (c_n := V3 (nneg x0) n0 n0).
  assert (AL : forall a b c, p_len (Arc a b c) = (let! (_, L) := Arc_eval a b c n1 in Ok L)) by reflexivity.
  assert (AR : forall a b c, crossR (diff a c) (diff b c) = origin -> p_len (Arc a b c) = Raise GenericError).
  { intros a b c Q. rewrite AL, arc_raises_plane by exact Q. reflexivity. }
  destruct Hh as [-> | ->].
  - rewrite (AR a_n); [reflexivity|].
    assert (yt = 0) by (unfold yt; change (rn * (ro - ro) / (ro - rn) = 0); field; lra).
    unfold crossR, diff, a_n, a_o, c_n, origin. clearbody yt xt x0. cbn. rewrite H. apply vec_ext; cbn; ring.
  - destruct (p_len (Arc a_n a_o c_n)) as [l|ex] eqn:El.
    + cbn [bind]. rewrite AR; [reflexivity|].
      assert (Ey : yt = rn) by (unfold yt; change (rn * (ro - rn) / (ro - rn) = rn); field; lra).
      assert (Ex0 : x0 = 0).
      { unfold x0. change (- sqrt ((ro - rn) * (ro - rn) - (ro - rn) * (ro - rn)) = 0). replace ((ro - rn) * (ro - rn) - (ro - rn) * (ro - rn)) with 0 by ring. rewrite sqrt_0. ring. }
      assert (Ex : xt = 0).
      { unfold xt. rewrite Ex0, Ey. change (0 - sqrt (rn * rn - rn * rn) = 0). replace (rn * rn - rn * rn) with 0 by ring. rewrite sqrt_0. ring. }
      unfold crossR, diff, a_o, origin. clear El. clearbody yt xt x0. cbn. rewrite Ex, Ey. apply vec_ext; cbn; ring.
    + cbn [bind]. f_equal.
      assert (Q : p_call (Arc a_n a_o c_n) 1 = Raise ex).
      { revert El. rewrite AL. cbn [p_call Arc]. change (n1 (N := NumR)) with 1.
        destruct (Arc_eval a_n a_o c_n 1) as [[? ?]|?]; cbn; congruence. }
      exact (arc_raise_kind _ _ _ _ _ Q).
Qed.

(** the Falcon 9 fairing of the hangar (hangar/falcon9.py) *)
Example C70_meets : 0 < 0.75 /\ 0.75 < 5 / 2 < 7 /\ 0 < 6.
Proof. lra. Qed.

Print Assumptions C70_pieces.
Print Assumptions C70_line.
Print Assumptions C70_degenerate.
