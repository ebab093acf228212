(** The parametric D-21: its parts can be built. *)
From Coq Require Import String Reals Lra ZArith List Lia Bool.
From Verif Require Import Num NumR Py M_Vector SpecR3 M_Path M_Surface M_Geometry M_Mesh M_Component M_Common M_Wing M_Fin M_Vehicle M_VecHeap M_Sens M_Gen M_Hangar M_Htv M_X43 M_D21
  SpecPath SpecPoly SpecSurf SpecMesh SpecComp SpecVehicle SpecAdd SpecPrism SpecHangar SpecWing SpecFin SpecPair SpecFiles SpecHtv SpecHalf SpecX43 SpecD21
  L_Vector L_Line L_Coons L_Curves L_Wing L_WingOk L_WingTotal L_WingLocal L_Fin L_FinSeams L_FinTotal L_Component L_Mesh L_Edges L_Heap L_Rigid L_Reflect L_Pipeline L_Generate L_Cache L_Files L_Prism L_Hangar L_Block L_Wedge L_Pair L_Htv L_Parts L_Finner L_Falcon P_Cylinder.
From Verif Require Import SpecLathe SpecProfile L_Profile L_Lathe L_Quad L_Parts2.
Import ListNotations.
Local Open Scope R_scope.

Lemma brackets_answers tol bisect : brackets tol bisect -> answers bisect.
Proof. intros H f phi E S. destruct (H f phi E S) as (t & _ & _ & Et & _). eauto. Qed.

Section Shapes.
  Variable bisect : (R -> res R) -> R -> R -> res R.
  Variables Rb Lb Lw W fa : R.
  Hypothesis HR : 0 < Rb <= 1000000.
  Hypothesis HL : 3 / 4 < Lw < Lb.
  Hypothesis HW : 0 < W.

  (** ** the bodies of revolution *)
  Lemma d21_fuse_parts : d21_fuseline Rb Lb = cylinder_line 0 (- Lb) Rb.
  Proof using.
    unfold d21_fuseline, cylinder_line, d21_b2, d21_b1, d21_b0, vec2.
    assert (F1 : vsub (V3 n0 Rb n0) (V3 Lb n0 n0) = V3 (- Lb) Rb 0) by (apply vec_ext; cbn; ring). rewrite F1.
    assert (F2 : vsub (V3 (- Lb) Rb 0) (V3 n0 Rb n0) = V3 (- Lb) 0 0) by (apply vec_ext; cbn; ring). rewrite F2. reflexivity.
  Qed.
  Lemma d21_fuse_draws : exists p, d21_fuseline Rb Lb = Ok p /\ draws Rb p (V3 0 0 0) (V3 (- Lb) 0 0).
  Proof using HR HL.
    rewrite d21_fuse_parts. unfold cylinder_line.
    destruct (draws_polyline Rb [Line (V3 0 0 0) (V3 0 Rb 0); Line (V3 0 Rb 0) (V3 (- Lb) Rb 0);
              Line (V3 (- Lb) Rb 0) (V3 (- Lb) 0 0)] [V3 0 0 0; V3 0 Rb 0; V3 (- Lb) Rb 0; V3 (- Lb) 0 0]) as (p & Ep & Dp).
    - discriminate.
    - intros k s Es. destruct k as [|[|[|k]]]; cbn in Es; [injection Es as <-..|destruct k; discriminate];
        (apply draws_line; cbn; [try lra..|]; intros Q; injection Q as Q; lra).
    - intros k Hk. cbn [length] in Hk. destruct k as [|[|[|k]]]; [lia| | |lia]; cbn; lra.
    - exists p. auto.
  Qed.
  Definition nose_tip : pt := V3 (15 / 100 * Lb - 1 / 10) 0 0.
  Definition nose_back : pt := V3 (- (6 / 10)) 0 0.
  Lemma d21_nose_draws : exists p, d21_noseline Rb Lb = Ok p /\ draws Rb p nose_tip nose_back.
  Proof using HR HL.
    unfold d21_noseline.
    assert (F1 : d21_tip Lb = nose_tip) by (unfold d21_tip, d21_shift, nose_tip, vec2; apply vec_ext; cbn; field). rewrite F1.
    assert (F2 : d21_mid Rb = V3 (- (1 / 10)) (3 / 10 * Rb) 0) by (unfold d21_mid, d21_shift, vec2; apply vec_ext; cbn; field). rewrite F2.
    assert (F3 : d21_top Rb = V3 (- (1 / 10)) Rb 0) by (unfold d21_top, d21_shift, vec2; apply vec_ext; cbn; field). rewrite F3.
    assert (F4 : vadd (vec2 (nneg (nlit 5 10)) n0) d21_shift = nose_back) by (unfold d21_shift, vec2, nose_back; apply vec_ext; cbn; field). rewrite F4.
    destruct (draws_polyline Rb [Bezier [nose_tip; V3 (- (1 / 10)) (3 / 10 * Rb) 0; V3 (- (1 / 10)) Rb 0]; Line (V3 (- (1 / 10)) Rb 0) nose_back]
      [nose_tip; V3 (- (1 / 10)) Rb 0; nose_back]) as (p & Ep & Dp).
    - discriminate.
    - intros k s Es. destruct k as [|[|k]]; cbn [nth_error] in Es; [injection Es as <-..|destruct k; discriminate]; cbn [nth].
      + apply quad_draws; unfold nose_tip; cbn; try lra. intros Q. injection Q as Q. lra.
      + apply draws_line; unfold nose_back; cbn; try lra. intros Q. injection Q as Q. lra.
    - intros k Hk. cbn [length] in Hk. assert (k = 1%nat) as -> by lia. cbn. lra.
    - exists p. auto.
  Qed.

  (** ** the leading edge of the wing *)
  Definition wB0 : pt := V3 (- Lw) W 0.
  Definition wB1 : pt := V3 (- (4 / 10 * Lw)) (5 / 10 * W) 0.
  Definition wMid : pt := V3 (5 / 10 * (- (4 / 10 * Lw) + - (3 / 10))) (5 / 10 * W) 0.
  Definition wB2 : pt := V3 (- (3 / 10)) (15 / 100 * W) 0.
  Definition wTT : pt := V3 (- (3 / 10)) 0 0.
  Lemma wing_points : d21_A0 Lw = V3 (- Lw) 0 0 /\ d21_A1 Lw = V3 (- (4 / 10 * Lw)) 0 0 /\ d21_TT Lw = wTT /\ d21_B0 Lw W = wB0 /\
    d21_B1 Lw W = wB1 /\ d21_B2 Lw W = wB2.
  Proof using.
    unfold d21_B2, d21_B1, d21_B0, d21_TT, d21_A1, d21_A0, vec2, wTT, wB0, wB1, wB2. repeat split; apply vec_ext; cbn; field.
  Qed.
  Definition edge_facts (q : path R) (g : R -> pt) (l1 l2 : R) : Prop :=
    let l3 := 15 / 100 * W in let len := l1 + l2 + l3 in
    d21_edge Lw W = Ok q /\ evaluates q g /\ g 0 = wB0 /\ g 1 = wTT /\ 0 < l1 <= 6 / 10 * Lw + 5 / 10 * W /\ 35 / 100 * W <= l2 <= 4 / 10 * Lw - 3 / 10 + 35 / 100 * W /\
    (forall t t', 0 <= t -> t <= t' -> t' <= 1 -> vx (g t) <= vx (g t')) /\
    (forall t, 0 <= t -> t <= 1 -> vx (g t) <= - (4 / 10 * Lw) -> t * len <= l1) /\
    (forall t, 0 <= t -> - (4 / 10 * Lw) <= vx (g t) -> l1 <= t * len) /\
    (forall t, l1 + l2 < t * len -> g t = V3 (- (3 / 10)) ((1 - t) * len) 0).
  Lemma d21_edge_ok : exists q g l1 l2, edge_facts q g l1 l2.
  Proof using HL HW.
    destruct wing_points as (PA0 & PA1 & PTT & PB0 & PB1 & PB2).
    destruct (quad_length wB1 wMid wB2) as (l2 & El2 & L2); [unfold wB1, wMid, wB2; cbn; lra..|reflexivity|reflexivity|reflexivity|].
    set (l1 := dist wB0 wB1).
    assert (NE : wB0 <> wB1) by (intros Q; apply (f_equal vx) in Q; unfold wB0, wB1 in Q; cbn in Q; lra).
    assert (P1 : 0 < l1) by (apply L_Fin.dist_pos; exact NE).
    assert (B1 : l1 <= 6 / 10 * Lw + 5 / 10 * W).
    { unfold l1. pose proof (dist_taxi wB0 wB1) as T. unfold wB0, wB1 in T |- *. cbn [vx vy vz] in T.
      rewrite (Rabs_right (_ - - Lw)), (Rabs_left (_ - W)), Rminus_0_r, Rabs_R0 in T by lra. lra. }
    assert (P2 : 35 / 100 * W <= l2).
    { pose proof (dist_dy wB1 wB2) as T. change (vy wB1 - vy wB2) with (5 / 10 * W - 15 / 100 * W) in T. lra. }
    assert (U2 : l2 <= 4 / 10 * Lw - 3 / 10 + 35 / 100 * W).
    { destruct L2 as [_ L2]. unfold wB1, wB2 in L2. cbn [vx vy] in L2. lra. }
    assert (D3 : dist wB2 wTT = 15 / 100 * W).
    { unfold dist, nrm, inner, diff, wB2, wTT. cbn [vx vy vz].
      match goal with |- sqrt ?e = _ => replace e with ((15 / 100 * W) * (15 / 100 * W)) by ring end. apply sqrt_square. lra. }
    assert (XH : forall u v, 0 <= u -> u < v -> v <= 1 -> vx (quad_at wB1 wMid wB2 u) < vx (quad_at wB1 wMid wB2 v)).
    { intros u v H0 H1 H2. unfold quad_at; cbn [vx]. apply quad_lt; try assumption. unfold wB1, wMid, wB2; cbn [vx]. lra. }
    destruct (three_evaluates wB0 wB1 wB2 wTT (Bezier [wB1; wMid; wB2]) (quad_at wB1 wMid wB2) l1 l2 (15 / 100 * W) eq_refl D3 P1 ltac:(lra) ltac:(lra) (quad_evaluates _ _ _) El2)
      as (q & Eq & Vq).
    assert (X1 : vx wB0 < vx wB1) by (unfold wB0, wB1; cbn; lra). assert (X2 : vx wB2 = vx wTT) by reflexivity.
    exists q, (three_at wB0 wB1 wB2 wTT (quad_at wB1 wMid wB2) l1 l2 (15 / 100 * W)), l1, l2. unfold edge_facts. cbv zeta.
    split.
    { unfold d21_edge. rewrite PB0, PB1, PB2, PTT. exact Eq. }
    split; [exact Vq|]. split; [apply three_0; exact P1|]. split; [apply three_1; lra|]. split; [lra|]. split; [lra|].
    split; [apply three_forwards; try lra; try assumption; [apply quad_0|apply quad_1]|].
    split; [change (- (4 / 10 * Lw)) with (vx wB1); apply three_before; try lra; try assumption; [apply quad_0|apply quad_1]|].
    split; [change (- (4 / 10 * Lw)) with (vx wB1); apply three_after; try lra; assumption|].
    intros t Ht. rewrite three_third by lra. unfold lerp, wB2, wTT. cbn [vx vy vz]. apply vec_ext; cbn [vx vy vz]; [lra| |ring]. field. lra.
  Qed.

  (** ** the wing *)
  Lemma default_0 : leading_edge_width_function (T := R) 0 = Ok (1 / 100).
  Proof using. unfold leading_edge_width_function. cbn. f_equal. field. Qed.
  Definition local_span (q : path R) (x : R) : R :=
    match d21_local_ws bisect q x with Ok l => if Reqb l 0 then 1 / 1000 else l | Raise _ => 0 end.
  Definition wing_up (q : path R) (x y : R) : R := - (15 / 100 * Rb) / 2 - 5 / 10 * (1 - y / local_span q x).
  Definition wing_down (x y : R) : R := 15 / 100 * Rb / 2.
  Lemma d21_wing_ok tol q g l1 l2 : bisects tol bisect -> edge_facts q g l1 l2 ->
    exists d t1, wing_patches bisect (d21_wing bisect Rb Lw W fa q) = Ok d /\ wing_t_B1 bisect (d21_wing bisect Rb Lw W fa q) = Ok t1 /\
      dkeys d = open_wing_keys /\ (forall u, In u (dvals d) -> on_square u) /\
      (forall n, exists e, In e (mesh_edges (wing_grid n d)) /\ in_plane "y" e) /\
      (forall n, vertex_of (wing_grid n d) (d21_flap_inner Lw fa) /\ vertex_of (wing_grid n d) (d21_flap_outer Lw W fa)) /\
      forall n, tol <= 1 / 1000000 -> Lw <= 1000 * W -> 41 * Lw + 51 * W <= 30 * W * INR (S n) ->
        exists y, 24 / 100 * W / INR (S n) <= y <= 15 / 100 * W /\ vertex_of (wing_grid n d) (V3 (- (3 / 10)) y (500 * y - 1 / 2 - 75 / 1000 * Rb)).
  Proof using HR HL HW.
    intros (Hi & Hb & Hx) (Eq & Vq & G0 & G1 & B1 & B2 & Mo & Bef & Aft & Third). pose proof (brackets_answers _ _ Hb) as Han.
    destruct wing_points as (PA0 & PA1 & PTT & PB0 & _ & _).
    set (w := d21_wing bisect Rb Lw W fa q).
    assert (Vt : vertical_on (- Lw) (- (3 / 10)) (w_top w) (wing_up q)).
    { intros x y z Hxx. unfold w; cbn [w_top d21_wing]. unfold d21_wing_top.
      destruct (Han (fun t => let! p := p_call q t in Ok (vx p - x)) (fun t => vx (g t) - x)) as [t Et].
      { intros t _. rewrite (Vq t). reflexivity. } { rewrite G0, G1. unfold wB0, wTT; cbn [vx]. lra. }
      assert (E : d21_local_ws bisect q x = Ok (vy (g t))) by (unfold d21_local_ws; numR; rewrite Et; cbn [bind]; rewrite (Vq t); reflexivity).
      unfold wing_up, local_span. rewrite E. cbn [bind]. unfold d21_thickness. numR. reflexivity. }
    assert (Vb : vertical_on (- Lw) (- (3 / 10)) (w_bot w) wing_down) by (intros x y z _; reflexivity).
    assert (LB0 : local_span q (- Lw) = W).
    { unfold local_span, d21_local_ws. numR. rewrite (proj1 (Hx _ 0 1 Rle_0_1)).
      - cbn [bind]. rewrite (Vq 0), G0. unfold wB0. cbn [bind vy]. destruct (Reqb W 0) eqn:E; [|reflexivity]. apply Reqb_true in E. lra.
      - rewrite (Vq 0), G0. unfold wB0. cbn [bind vx]. f_equal. ring.
      - rewrite (Vq 1). eexists. reflexivity. }
    assert (LTT : local_span q (- (3 / 10)) = 1 / 1000).
    { unfold local_span, d21_local_ws. numR. rewrite (proj2 (Hx _ 0 1 Rle_0_1) (- Lw - - (3 / 10))).
      - cbn [bind]. rewrite (Vq 1), G1. unfold wTT. cbn [bind vy]. rewrite (proj2 (Reqb_true 0 0)) by reflexivity. reflexivity.
      - rewrite (Vq 0), G0. reflexivity.
      - lra.
      - rewrite (Vq 1), G1. unfold wTT. cbn [bind vx]. f_equal. ring. }
    assert (PL : planform w g (- Lw) (- (3 / 10))).
    { unfold planform, w, d21_wing. cbn [w_line w_B0 w_TT w_line_type w_tail w_A0 w_A1 w_tB1 w_tB2]. rewrite PA0, PA1, PTT, PB0.
      split; [exact Vq|]. split; [exact G0|]. split; [exact G1|]. split; [reflexivity|]. split; [reflexivity|]. unfold wB0, wTT. cbn [vx].
      split; [reflexivity|]. split; [lra|]. split; [lra|]. split; [lra|]. split; [exact Mo|]. split; [discriminate|left; reflexivity]. }
    destruct (wing_made_on bisect w g (wing_up q) wing_down (- Lw) (- (3 / 10)) (1 / 100) Hi Han PL Vt Vb) as (d & d' & t1 & Ed & Et & Kd & Sd & Ed' & SE & (u & Iu & U0 & U1)); try reflexivity.
    { intros t Ht. unfold w, wing_width. cbn [w_width d21_wing w_LE_type String.eqb Ascii.eqb Bool.eqb]. destruct (default_width t Ht) as (k & Ek & _). eauto. }
    { apply default_0. }
    { apply small_of; [|lra]. unfold w; cbn [w_B0 d21_wing]. rewrite PB0. unfold half_h, wB0, wing_up, wing_down. cbn [vx vy]. rewrite LB0.
      replace (W / W) with 1 by (field; lra). lra. }
    exists d, t1. split; [exact Ed|]. split; [exact Et|]. split; [exact Kd|]. split; [exact Sd|].
    assert (CH : forall n, exists e, In e (mesh_edges (wing_grid n d)) /\ in_plane "y" e).
    { intros n. rewrite (wing_grid_same n d d' SE). apply (chord_edge bisect _ d' g (wing_up q) n Ed'); try assumption.
      - unfold w; cbn [w_B0 d21_wing with_tf]. rewrite PB0. exact G0.
      - apply extended_vertical.
      - unfold w; cbn [w_A0 d21_wing with_tf]. rewrite PA0. reflexivity.
      - unfold w; cbn [w_A1 d21_wing with_tf]. rewrite PA1. reflexivity. }
    split; [exact CH|]. split.
    { intros n. split.
      - eapply corner_vertex; [exact Iu|]. rewrite U0. f_equal. unfold w, tip, lift, mid_h, d21_flap_inner. cbn [w_flap_length w_flap_angle w_A0 d21_wing]. rewrite PA0.
        unfold wing_up, wing_down, degrees. numR. cbn [vx vy vz]. rewrite LB0. apply vec_ext; cbn [vx vy vz]; field; lra.
      - eapply corner1_vertex; [exact Iu|]. rewrite U1. f_equal. unfold w, tip, lift, mid_h, d21_flap_outer. cbn [w_flap_length w_flap_angle w_B0 d21_wing]. rewrite PB0.
        unfold wB0, wing_up, wing_down, degrees. numR. cbn [vx vy vz]. rewrite LB0. apply vec_ext; cbn [vx vy vz]; field. lra. }
    intros n Ht HLW Hn.
    set (w' := with_tf w (extended (wing_up q)) (extended wing_down)) in *.
    destruct (wing_inv bisect w' d' Ed') as (t1' & t2 & P1 & f0 & f1 & p0 & p1 & tr & cl & E1 & E2 & _ & EB & (_ & _ & _ & C3) & _ & _ & ED').
    change (wing_t_B1 bisect w') with (wing_t_B1 bisect w) in E1. rewrite Et in E1. apply ok_inj in E1. subst t1'.
    change (p_call q t1 = Ok P1) in EB. rewrite (Vq t1) in EB. apply ok_inj in EB. subst P1.
    unfold wing_t_B2, w' in E2. cbn [w_tB2 with_tf w d21_wing] in E2. assert (T2 : t2 = (1 + t1) / 2) by (injection E2 as <-; cbn; field). clear E2.
    set (len := l1 + l2 + 15 / 100 * W) in *.
    assert (BL : 0 < len /\ len <= Lw + W) by (unfold len; lra).
    assert (T1 : Rabs (t1 * len - l1) <= 15 / 10000000 * len).
    { unfold wing_t_B1, w in Et. cbn [w_tB1 d21_wing w_line w_A1] in Et. numR. rewrite PA1 in Et. cbn [vx] in Et.
      destruct (Hb (fun t => let! p := p_call q t in Ok (vx p - - (4 / 10 * Lw))) (fun t => vx (g t) - - (4 / 10 * Lw))) as (t0 & a & b & E0 & Ha & Hbb & AB & Sa & Sb).
      { intros t _. rewrite (Vq t). reflexivity. } { rewrite G0, G1. unfold wB0, wTT; cbn [vx]. lra. }
      rewrite E0 in Et. cbn [bind] in Et. apply ok_inj in Et. pose proof (Rround_err6 t0) as RE. rewrite Et in RE.
      pose proof (Bef a ltac:(lra) ltac:(lra) ltac:(lra)) as A1. pose proof (Aft b ltac:(lra) ltac:(lra)) as A2.
      assert (RE' : - (5 / 10000000) <= t1 - t0 <= 5 / 10000000) by (unfold Rabs in RE; destruct (Rcase_abs _) in RE; lra).
      assert (D1 : t1 - b <= 5 / 10000000) by lra. assert (D2 : - (5 / 10000000) <= t1 - a) by lra.
      assert (X1 : (t1 - a) * len <= (15 / 10000000) * len) by (apply Rmult_le_compat_r; lra).
      assert (X2 : (b - t1) * len <= (15 / 10000000) * len) by (apply Rmult_le_compat_r; lra).
      apply Rabs_le. lra. }
    assert (T1' : l1 - 15 / 10000000 * len <= t1 * len <= l1 + 15 / 10000000 * len) by (unfold Rabs in T1; destruct (Rcase_abs _) in T1; lra).
    set (N := INR (S n)) in *. assert (PN : 1 <= N) by (unfold N; rewrite S_INR; pose proof (pos_INR n); lra).
    set (y := (1 - t1) * len / (2 * N)).
    assert (Y2 : y * (2 * N) = len - t1 * len) by (unfold y; field; lra).
    assert (YL : 48 / 100 * W <= y * (2 * N)) by (unfold len in *; lra).
    assert (YU : y * (2 * N) < 30 / 100 * W * N) by (unfold len in *; lra).
    assert (Yl : 24 / 100 * W / N <= y).
    { apply (Rmult_le_reg_r N); [lra|]. unfold Rdiv. rewrite Rmult_assoc, Rinv_l, Rmult_1_r by lra. lra. }
    assert (Yu : y < 15 / 100 * W).
    { apply (Rmult_lt_reg_r (2 * N)); [lra|]. lra. }
    exists y. split; [lra|]. rewrite (wing_grid_same n d d' SE).
    apply (node_vertex n d' "top_patch_1" (OffsetPatchFunction f1 (w_top w')) 0 1); [rewrite ED'; right; left; reflexivity|lia|lia|].
    destruct (coons_surf_w _ _ _ _ _ _ _ _ f1 (sub_evaluates _ _ 1 0 (sub_evaluates _ _ t1 t2 Vq)) (line_evaluates _ _) (line_evaluates _ _) (sub_evaluates _ _ 1 t2 Vq) C3) as (F0 & _).
    replace (INR 0 / INR (S n)) with 0 by (cbn [INR]; unfold Rdiv; ring). rewrite (offset_patch f1 _ (wing_up q) 0 _ _ (extended_vertical _) (F0 _)).
    fold N. replace (INR 1) with 1 by reflexivity.
    assert (TP : g (1 + 1 / N * (t2 - 1)) = V3 (- (3 / 10)) y 0).
    { rewrite Third; [apply vec_ext; cbn [vx vy vz]; [reflexivity| |reflexivity]; rewrite T2; unfold y; field; lra|].
      replace ((1 + 1 / N * (t2 - 1)) * len) with (len - y) by (rewrite T2; unfold y; field; lra). unfold len; lra. }
    rewrite TP. f_equal. unfold lift, wing_up. cbn [vx vy vz]. rewrite LTT. apply vec_ext; cbn [vx vy vz]; field.
  Qed.

  (** ** the fins *)
  Definition fin_vertices (f : fin R) (m : list (tri R)) (place : pt -> pt) : Prop :=
    forall s p, (s = 75 / 1000 * Rb \/ s = - (75 / 1000 * Rb)) -> (p = f_p1 f \/ p = f_p3 f) -> vertex_of m (place (V3 (vx p) (vy p) (vz p + s))).
  Lemma d21_fin_ok f place : in_interval bisect -> answers bisect -> f_thickness f = d21_thickness Rb -> f_top f = d21_fin_top Rb -> f_bot f = d21_fin_bot Rb ->
    f_p1 f <> f_p2 f -> f_p2 f <> f_p3 f -> vx (f_p1 f) <= vx (f_p2 f) <= vx (f_p3 f) -> vz (f_p1 f) = 0 -> f_width f = None -> f_pivot_angle f = 0 ->
    (exists o, match f_offset f with Some o' => forall x y z, o' x y z = Ok o | None => o = V3 0 0 0 end /\
      forall p, place p = vadd (rodrigues (axis_vec "x") origin (f_angle f) p) o) ->
    exists d, fin_patches bisect f = Ok d /\ dkeys d = fin_keys f /\ (forall u, In u (dvals d) -> on_square u) /\
      forall n, fin_vertices f (wing_grid n d) place.
  Proof using HR HL.
    intros Hi Han Th Tf Bf N12 N23 X Z Wd PA (o & Ho & Pl). set (h := 75 / 1000 * Rb).
    assert (Vt : vertical (f_top f) (fun _ _ => - h)).
    { rewrite Tf. intros x y z. unfold d21_fin_top, d21_thickness, h. numR. f_equal. apply vec_ext; cbn; field. }
    assert (Vb : vertical (f_bot f) (fun _ _ => h)).
    { rewrite Bf. intros x y z. unfold d21_fin_bot, d21_thickness, h. numR. f_equal. apply vec_ext; cbn; field. }
    destruct (fin_built bisect f h (1 / 100) (1 / 100) Hi Han) as (d & Ed & Kd & Sd); try assumption.
    - rewrite Th. unfold d21_thickness, h. numR. field.
    - intros t Ht. unfold fin_width. rewrite Wd. destruct (default_width t Ht) as (k & Ek & _). eauto.
    - unfold fin_width. rewrite Wd. apply default_0.
    - unfold fin_width. rewrite Wd. unfold leading_edge_width_function. cbn. f_equal. field.
    - apply small_of; unfold h; lra.
    - apply small_of; unfold h; lra.
    - intros o' E x y z. rewrite E in Ho. rewrite Ho. eexists; reflexivity.
    - exists d. split; [exact Ed|]. split; [exact Kd|]. split; [exact Sd|]. intros n s p Hs Hp.
      destruct (fin_faces bisect f h d Ed Vt Vb PA) as (top & bot & It & Ib & F).
      assert (Val : forall q, (let q := rodrigues (axis_vec "x") origin (f_angle f) q in
          match f_offset f with Some o => let! v := o (vx q) (vy q) (Some (vz q)) in Ok (vadd q v) | None => Ok q end) = Ok (place q)).
      { intros q. rewrite Pl. cbv zeta. destruct (f_offset f) as [o'|]; [rewrite Ho; reflexivity|]. subst o. f_equal. unfold vadd; numR. apply vec_ext; cbn [vx vy vz]; ring. }
      assert (R0 : INR 0 / INR (S n) = 0) by (cbn [INR]; unfold Rdiv; ring).
      assert (R1 : INR (S n) / INR (S n) = 1) by (field; apply not_0_INR; lia).
      destruct Hs as [-> | ->], Hp as [-> | ->].
      + apply (node_vertex n d "bot_patch" bot 0 (S n)); [exact Ib|lia|lia|]. rewrite R0, R1. rewrite (F h bot (f_p1 f)) by tauto. apply Val.
      + apply (node_vertex n d "bot_patch" bot (S n) 0); [exact Ib|lia|lia|]. rewrite R0, R1. rewrite (F h bot (f_p3 f)) by tauto. apply Val.
      + apply (node_vertex n d "top_patch" top (S n) 0); [exact It|lia|lia|]. rewrite R0, R1. rewrite (F (- h) top (f_p1 f)) by tauto. apply Val.
      + apply (node_vertex n d "top_patch" top 0 (S n)); [exact It|lia|lia|]. rewrite R0, R1. rewrite (F (- h) top (f_p3 f)) by tauto. apply Val.
  Qed.
  Lemma d21_tail_ok : in_interval bisect -> answers bisect -> exists d, fin_patches bisect (d21_tail Rb Lb Lw W) = Ok d /\
    dkeys d = fin_keys (d21_tail Rb Lb Lw W) /\ (forall u, In u (dvals d) -> on_square u) /\
    forall n s, (s = 75 / 1000 * Rb \/ s = - (75 / 1000 * Rb)) ->
      vertex_of (wing_grid n d) (V3 (- Lb) s (- (95 / 100 * Rb) - 15 / 100 * W)) /\ vertex_of (wing_grid n d) (V3 (- Lw) s (- (95 / 100 * Rb))).
  Proof using HR HL HW.
    intros Hi Han.
    assert (P0 : d21_b2 Rb Lb = V3 (- Lb) 0 0) by (unfold d21_b2, d21_b1, d21_b0, vec2; apply vec_ext; cbn; ring).
    destruct (d21_fin_ok (d21_tail Rb Lb Lw W) (fun p => V3 (vx p) (vz p) (- vy p - 95 / 100 * Rb)) Hi Han) as (d & Ed & Kd & Sd & V); try reflexivity.
    - unfold d21_tail; cbn [f_p1 f_p2 f_p3 f_offset f_angle]; rewrite ?P0. intros Q. apply (f_equal vx) in Q. unfold vec2 in Q. cbn in Q. lra.
    - unfold d21_tail; cbn [f_p1 f_p2 f_p3 f_offset f_angle]; rewrite ?P0. intros Q. apply (f_equal vy) in Q. unfold vec2 in Q. cbn in Q. lra.
    - unfold d21_tail; cbn [f_p1 f_p2 f_p3 f_offset f_angle]; rewrite ?P0. unfold vec2. cbn. lra.
    - unfold d21_tail; cbn [f_p1 f_p2 f_p3 f_offset f_angle]; rewrite ?P0. unfold vec2. cbn. lra.
    - unfold d21_tail; cbn [f_p1 f_p2 f_p3 f_offset f_angle]; rewrite ?P0. exists (V3 0 0 (- (95 / 100) * Rb)). split; [intros x y z; reflexivity|]. intros p.
      assert (C : cos (ndeg2rad (nneg (nZ 90))) = 0 /\ sin (ndeg2rad (nneg (nZ 90))) = -1).
      { numR. match goal with |- cos ?e = 0 /\ _ => replace e with (- (PI / 2)) by field end. rewrite cos_neg, sin_neg, cos_PI2, sin_PI2. auto. }
      destruct C as [C1 C2]. unfold rodrigues, axis_vec, vadd, crossR, inner, translate, plus_scaled, scaled, diff, origin. rewrite C1, C2. numR.
      apply vec_ext; cbn; ring.
    - exists d. split; [exact Ed|]. split; [exact Kd|]. split; [exact Sd|]. intros n s Hs.
      pose proof (V n s _ Hs (or_introl eq_refl)) as V1. pose proof (V n s _ Hs (or_intror eq_refl)) as Q3.
      unfold d21_tail in V1, Q3. cbn [f_p1 f_p3] in V1, Q3. rewrite P0 in V1, Q3. unfold vec2, vadd in V1, Q3. numR. cbn [vx vy vz] in V1, Q3. split.
      + match type of V1 with vertex_of _ ?q => replace (V3 (- Lb) s (- (95 / 100 * Rb) - 15 / 100 * W)) with q by (apply vec_ext; cbn [vx vy vz]; ring) end. exact V1.
      + match type of Q3 with vertex_of _ ?q => replace (V3 (- Lw) s (- (95 / 100 * Rb))) with q by (apply vec_ext; cbn [vx vy vz]; ring) end. exact Q3.
  Qed.
  Lemma d21_tew_ok deg place : in_interval bisect -> answers bisect -> (forall p, place p = rodrigues (axis_vec "x") origin (ndeg2rad deg) p) ->
    exists d, fin_patches bisect (d21_tew Rb Lb Lw W deg) = Ok d /\
    dkeys d = fin_keys (d21_tew Rb Lb Lw W deg) /\ (forall u, In u (dvals d) -> on_square u) /\
    forall n s, (s = 75 / 1000 * Rb \/ s = - (75 / 1000 * Rb)) ->
      vertex_of (wing_grid n d) (place (V3 (- Lb) (45 / 100 * W) s)) /\ vertex_of (wing_grid n d) (place (V3 (- Lb + 13 / 10 * (Lb - Lw)) 0 s)).
  Proof using HR HL HW.
    intros Hi Han Pl.
    assert (P0 : d21_b2 Rb Lb = V3 (- Lb) 0 0) by (unfold d21_b2, d21_b1, d21_b0, vec2; apply vec_ext; cbn; ring).
    destruct (d21_fin_ok (d21_tew Rb Lb Lw W deg) place Hi Han) as (d & Ed & Kd & Sd & V); try reflexivity.
    - unfold d21_tew; cbn [f_p1 f_p2 f_p3 f_offset f_angle]; rewrite ?P0. intros Q. apply (f_equal vx) in Q. unfold vec2 in Q. cbn in Q. lra.
    - unfold d21_tew; cbn [f_p1 f_p2 f_p3 f_offset f_angle]; rewrite ?P0. intros Q. apply (f_equal vy) in Q. unfold vec2 in Q. cbn in Q. lra.
    - unfold d21_tew; cbn [f_p1 f_p2 f_p3 f_offset f_angle]; rewrite ?P0. unfold vec2. cbn. lra.
    - unfold d21_tew; cbn [f_p1 f_p2 f_p3 f_offset f_angle]; rewrite ?P0. unfold vec2. cbn. lra.
    - unfold d21_tew; cbn [f_p1 f_p2 f_p3 f_offset f_angle]; rewrite ?P0. exists (V3 0 0 0). split; [reflexivity|]. intros p. rewrite Pl. unfold vadd; numR. apply vec_ext; cbn [vx vy vz]; ring.
    - exists d. split; [exact Ed|]. split; [exact Kd|]. split; [exact Sd|]. intros n s Hs.
      pose proof (V n s _ Hs (or_introl eq_refl)) as V1. pose proof (V n s _ Hs (or_intror eq_refl)) as Q3.
      unfold d21_tew in V1, Q3. cbn [f_p1 f_p3] in V1, Q3. rewrite P0 in V1, Q3. unfold vec2, vadd in V1, Q3. numR. cbn [vx vy vz] in V1, Q3. split.
      + match type of V1 with vertex_of _ (place ?q) => replace (V3 (- Lb) (45 / 100 * W) s) with q by (apply vec_ext; cbn [vx vy vz]; ring) end. exact V1.
      + match type of Q3 with vertex_of _ (place ?q) => replace (V3 (- Lb + 13 / 10 * (Lb - Lw)) 0 s) with q by (apply vec_ext; cbn [vx vy vz]; ring) end. exact Q3.
  Qed.
End Shapes.

(** ** one fin and the same fin turned over *)
Lemma rodrigues_0 p : rodrigues (axis_vec "x") origin 0 p = p.
Proof. unfold rodrigues, axis_vec, crossR, inner, translate, plus_scaled, scaled, diff, origin. rewrite cos_0, sin_0. apply vec_ext; cbn; ring. Qed.
Lemma rodrigues_PI p : rodrigues (axis_vec "x") origin PI p = half_turn p.
Proof. unfold half_turn, rodrigues, axis_vec, crossR, inner, translate, plus_scaled, scaled, diff, origin. rewrite cos_PI, sin_PI. apply vec_ext; cbn; ring. Qed.
Lemma half_turn_affine : affine half_turn.
Proof. intros p. unfold half_turn, translate, scaled, delta, diff, ex, ey, ez, origin. apply vec_ext; cbn; ring. Qed.
Lemma turned_grid n d : wing_grid n (dmap (fun u => RotatedPatch u PI "x" default_point) d) =
  map_mesh half_turn (wing_grid n (dmap (fun u => RotatedPatch u 0 "x" default_point) d)).
Proof.
  unfold wing_grid, values_of, dvals, dmap. induction d as [|[k u] d IH]; [reflexivity|]. cbn [map flat_map fst snd].
  unfold map_mesh in *. rewrite map_app, <- IH. f_equal.
  etransitivity; [|apply patch_grid_affine, half_turn_affine]. apply patch_grid_same. intros r s _ _. unfold RotatedPatch.
  destruct (u r s) as [p|]; cbn [bind].
  - unfold rotate_vec, lower_axis. cbn [String.eqb Ascii.eqb Bool.eqb bind]. numR. rewrite cos_0, sin_0, cos_PI, sin_PI.
    unfold half_turn, vadd, vsub, default_point; numR. apply vec_ext; cbn; ring.
  - unfold half_turn, origin. apply vec_ext; cbn; ring.
Qed.
Lemma half_turn_volume m : signed_volume (map_mesh half_turn m) = signed_volume m.
Proof.
  unfold signed_volume, map_mesh. rewrite map_map. f_equal. f_equal. apply map_ext. intros t.
  unfold vol6, det3, map_tri, half_turn, inner, crossR. cbn [t0 t1 t2 vx vy vz]. ring.
Qed.

(** ** the six components *)
Section Parts.
  Variable bisect : (R -> res R) -> R -> R -> res R.
  Variables nw nt : nat.
  Definition d21_made (c : nat) : vehicle R :=
    let names := [("revolved_1", c + 0); ("revolved_2", c + 1); ("wing_1", c + 2); ("fin_1", c + 3); ("fin_2", c + 4); ("fin_3", c + 5)]%nat%string in
    mkVehicle [c + 0; c + 1; c + 2; c + 3; c + 4; c + 5]%nat "Lockhead Martin D-21" 0 1 false
      [("revolved"%string, 2%nat); ("wing"%string, 1%nat); ("fin"%string, 3%nat)] names names [].
  (** after the first k additions *)
  Definition d21_first (k c : nat) : vehicle R :=
    let v := d21_made c in
    mkVehicle (firstn k (v_components v)) "Lockhead Martin D-21" 0 1 false
      (match k with 0 => [] | 1 => [("revolved"%string, 1)] | 2 => [("revolved"%string, 2)] | 3 => [("revolved"%string, 2); ("wing"%string, 1)]
       | 4 => [("revolved"%string, 2); ("wing"%string, 1); ("fin"%string, 1)] | 5 => [("revolved"%string, 2); ("wing"%string, 1); ("fin"%string, 2)]
       | _ => v_counts v end)%nat
      (firstn k (v_enumerated v)) (firstn k (v_named v)) [].
  Definition d21_comps (p q : path R) (w : wing R) (f1 f2 f3 : fin R) (d : nat) : list (comp R) :=
    [with_options 1 default_add (rev_comp p 20 (d + 0)); with_options 1 default_add (rev_comp q 20 (d + 1));
     with_options 1 mirrored_add (wing_comp bisect w (ResInt (S nw)) None (d + 2));
     with_options 1 default_add (L_Parts.fin_comp bisect f1 (ResInt (S nt)) None (d + 3));
     with_options 1 default_add (L_Parts.fin_comp bisect f2 (ResInt (S nt)) None (d + 4));
     with_options 1 default_add (L_Parts.fin_comp bisect f3 (ResInt (S nt)) None (d + 5))].
  Lemma d21_run Rb Lb Lw W fa h p q line t1 : d21_fuseline Rb Lb = Ok p -> d21_noseline Rb Lb = Ok q -> d21_edge Lw W = Ok line ->
    wing_t_B1 bisect (d21_wing bisect Rb Lw W fa line) = Ok t1 ->
    d21_vehicle bisect (S nw) (S nt) Rb Lb Lw W fa h =
    (ext h [[]; []; []; []; []; []]
       (d21_comps p q (d21_wing bisect Rb Lw W fa line) (d21_tail Rb Lb Lw W) (d21_tew Rb Lb Lw W 0) (d21_tew Rb Lb Lw W 180) (length (dicts h))),
     Ok (d21_made (length (comps h)))).
  Proof using.
    intros Ep Eq El Et. unfold d21_vehicle. rewrite <- (ext_nil h) at 1.
    set (w := d21_wing bisect Rb Lw W fa line) in *. set (f1 := d21_tail Rb Lb Lw W).
    change (nZ 0 : R) with 0. change (nZ 180 : R) with 180. set (f2 := d21_tew Rb Lb Lw W 0). set (f3 := d21_tew Rb Lb Lw W 180).
    unfold bindM at 1. unfold M_Vehicle.lift at 1. rewrite Ep. unfold bindM at 1. rewrite new_rev. cbn [app length].
    unfold bindM at 1. rewrite (add_to h _ _ (configured "Lockhead Martin D-21") 0 (rev_comp p 20 (length (dicts h) + 0)) _ (d21_first 1 (length (comps h)))) by reflexivity.
    cbn [list_set].
    unfold bindM at 1. unfold M_Vehicle.lift at 1. rewrite Eq. unfold bindM at 1. rewrite new_rev. cbn [app length].
    unfold bindM at 1. rewrite (add_to h _ _ _ 1 (rev_comp q 20 (length (dicts h) + 1)) _ (d21_first 2 (length (comps h)))) by reflexivity.
    cbn [list_set].
    unfold bindM at 1. unfold M_Vehicle.lift at 1. rewrite El. fold w. unfold bindM at 1. rewrite (new_wing_ext bisect h _ _ w (ResInt (S nw)) None t1 Et). cbn [app length].
    unfold bindM at 1. rewrite (add_to h _ _ _ 2 (wing_comp bisect w (ResInt (S nw)) None (length (dicts h) + 2)) _ (d21_first 3 (length (comps h)))) by reflexivity.
    cbn [list_set].
    unfold bindM at 1. rewrite (new_fin_ext bisect h _ _ f1). cbn [app length].
    unfold bindM at 1. rewrite (add_to h _ _ _ 3 (L_Parts.fin_comp bisect f1 (ResInt (S nt)) None (length (dicts h) + 3)) _ (d21_first 4 (length (comps h)))) by reflexivity.
    cbn [list_set].
    unfold bindM at 1. rewrite (new_fin_ext bisect h _ _ f2). cbn [app length].
    unfold bindM at 1. rewrite (add_to h _ _ _ 4 (L_Parts.fin_comp bisect f2 (ResInt (S nt)) None (length (dicts h) + 4)) _ (d21_first 5 (length (comps h)))) by reflexivity.
    cbn [list_set].
    unfold bindM at 1. rewrite (new_fin_ext bisect h _ _ f3). cbn [app length].
    rewrite (add_to h _ _ _ 5 (L_Parts.fin_comp bisect f3 (ResInt (S nt)) None (length (dicts h) + 5)) _ (d21_first 6 (length (comps h)))) by reflexivity.
    reflexivity.
  Qed.

  Definition d21_piece {A} (p q w f1 f2 f3 : A) (k : nat) : A :=
    match k with 0 => p | 1 => q | 2 => w | 3 => f1 | 4 => f2 | _ => f3 end%nat.
  Definition d21_fin_done (f : fin R) (g : dict (surf R)) : Prop :=
    fin_patches bisect f = Ok g /\ dkeys g = fin_keys f /\ forall u, In u (dvals g) -> on_square u.
  Lemma d21_generates p q w f1 f2 f3 gp gq gw g1 g2 g3 h : separate h -> evaluates01 p gp -> evaluates01 q gq ->
    wing_patches bisect w = Ok gw -> dkeys gw = open_wing_keys -> (forall u, In u (dvals gw) -> on_square u) ->
    d21_fin_done f1 g1 -> d21_fin_done f2 g2 -> d21_fin_done f3 g3 ->
    let C := length (comps h) in let v := d21_made C in let cs := d21_comps p q w f1 f2 f3 (length (dicts h)) in
    exists h2, generate v (ext h [[]; []; []; []; []; []] cs) = (h2, mark_generated v, Ok tt) /\
      length (comps h2) = (C + 6)%nat /\
      (forall k c, nth_error cs k = Some c -> ghost_at h2 (C + k) = c_ghost c /\ type_at h2 (C + k) = c_type c /\ tag_at h2 (C + k) = c_name c) /\
      forall k, (k < 6)%nat -> mesh_of h2 (C + k) =
        Ok (d21_piece (profile_mesh 19 gp) (profile_mesh 19 gq) (grid_y true (wing_grid nw gw)) (wing_grid nt g1) (wing_grid nt g2) (wing_grid nt g3) k).
  Proof using.
    intros SP Vp Vq Ew Kw Sw (E1 & K1 & S1) (E2 & K2 & S2) (E3 & K3 & S3) C v cs.
    assert (NF : forall f (g : dict (surf R)), dkeys g = fin_keys f -> g <> []).
    { intros f g K ->. unfold fin_keys in K. discriminate K. }
    destruct (revolved_grid 19 p gp Vp) as [Mp Sp]. destruct (revolved_grid 19 q gq Vq) as [Mq Sq].
    destruct (parts_generate v h [[]; []; []; []; []; []] cs [0; 1; 2; 3; 4; 5]%nat (d21_piece (revolved_patches p) (revolved_patches q) gw g1 g2 g3) (d21_piece 19 19 nw nt nt nt)%nat
      (d21_piece false false true false false false)) as (h2 & A & B & D & Q).
    - eapply (ext_separate h _ _ [0; 1; 2; 3; 4; 5]%nat SP); [reflexivity| |]; repeat constructor; cbn; lia || intuition discriminate.
    - reflexivity.
    - repeat constructor; cbn; intuition discriminate.
    - reflexivity.
    - reflexivity.
    - intros k Hk. cbn [In] in Hk. destruct Hk as [<-|[<-|[<-|[<-|[<-|[<-|[]]]]]]]; cbn [d21_piece].
      + eexists _, false. split; [reflexivity|]. split; [reflexivity|]. split; [apply revolved_fine|]. split; [discriminate|]. split; [exact Sp|].
        split; [right; exists 0%nat; split; reflexivity|]. split; [split; [reflexivity|]; split; [right; auto|]; repeat split|]. repeat split.
      + eexists _, false. split; [reflexivity|]. split; [reflexivity|]. split; [apply revolved_fine|]. split; [discriminate|]. split; [exact Sq|].
        split; [right; exists 1%nat; split; reflexivity|]. split; [split; [reflexivity|]; split; [right; auto|]; repeat split|]. repeat split.
      + eexists _, false. split; [reflexivity|]. split; [cbn [with_options wing_comp c_kind]; unfold wing_result; rewrite Ew; reflexivity|].
        split; [rewrite Kw; apply fineb_fine; reflexivity|]. split; [intros ->; discriminate Kw|]. split; [exact Sw|]. split; [right; exists 2%nat; split; reflexivity|].
        split; [split; [reflexivity|]; split; [right; auto|]; repeat split|]. repeat split.
      + eexists _, true. split; [reflexivity|]. split; [cbn [with_options L_Parts.fin_comp c_kind]; rewrite E1; reflexivity|].
        split; [rewrite K1; apply fin_fine|]. split; [apply (NF f1), K1|]. split; [exact S1|]. split; [left; reflexivity|].
        split; [split; [reflexivity|]; split; [right; auto|]; repeat split|]. repeat split.
      + eexists _, true. split; [reflexivity|]. split; [cbn [with_options L_Parts.fin_comp c_kind]; rewrite E2; reflexivity|].
        split; [rewrite K2; apply fin_fine|]. split; [apply (NF f2), K2|]. split; [exact S2|]. split; [left; reflexivity|].
        split; [split; [reflexivity|]; split; [right; auto|]; repeat split|]. repeat split.
      + eexists _, true. split; [reflexivity|]. split; [cbn [with_options L_Parts.fin_comp c_kind]; rewrite E3; reflexivity|].
        split; [rewrite K3; apply fin_fine|]. split; [apply (NF f3), K3|]. split; [exact S3|]. split; [left; reflexivity|].
        split; [split; [reflexivity|]; split; [right; auto|]; repeat split|]. repeat split.
    - exists h2. split; [exact A|]. split; [exact B|]. split; [exact D|]. intros k Hk.
      assert (I : In k [0; 1; 2; 3; 4; 5]%nat) by (destruct k as [|[|[|[|[|[|k]]]]]]; cbn; lia).
      unfold C. rewrite (Q k I). destruct k as [|[|[|[|[|[|k]]]]]]; cbn [d21_piece grid_y]; [rewrite Mp|rewrite Mq| | | | |lia]; reflexivity.
  Qed.
End Parts.
