(** Thickness functions of a wing are evaluated over its planform only. *)
From Coq Require Import Reals Lra String List Lia ZArith Bool FunctionalExtensionality.
From Verif Require Import Num NumR Py M_Vector SpecR3 M_Path M_Surface M_Geometry M_Component M_Common M_Wing
  SpecPath SpecPoly SpecSurf SpecWing SpecHtv L_Vector L_Line L_Coons L_ArcLength L_Curves L_Ellipse L_Wing L_WingOk L_WingTotal.
Import ListNotations.
Local Open Scope R_scope.
Local Opaque ArcLengthParameterizedPath ElipsePath Line.

Definition extended (h : R -> R -> R) : tfun R := fun x y _ => Ok (V3 0 0 (h x y)).
Lemma extended_vertical h : vertical (extended h) h.
Proof. intros x y z. reflexivity. Qed.

Definition same01 (p q : path R) : Prop := forall t, 0 <= t <= 1 -> p_call p t = p_call q t.

Lemma same_keys d d' : same_entries d d' -> dkeys d = dkeys d'.
Proof. unfold dkeys. induction 1 as [|a b l l' [E _] _ IH]; [reflexivity|]. cbn. rewrite E, IH. reflexivity. Qed.
Lemma same_on_square d d' : same_entries d d' -> (forall u, In u (dvals d') -> on_square u) -> forall u, In u (dvals d) -> on_square u.
Proof.
  unfold dvals. induction 1 as [|a b l l' [_ E] _ IH]; intros H u Hu; [destruct Hu|]. destruct Hu as [<-|Hu].
  - intros r s Hr Hs. rewrite E by assumption. apply (H (snd b)); [left; reflexivity|assumption|assumption].
  - apply IH; [intros v Hv; apply H; right; exact Hv|exact Hu].
Qed.

Lemma angle_same p q t : 0 <= t <= 1 -> same01 p q -> le_angle p t = le_angle q t.
Proof.
  intros Ht H. unfold le_angle. destruct (neqb t n0); [reflexivity|]. destruct (neqb t n1); [reflexivity|].
  set (dt := nmin _ _).
  assert (B : 0 <= dt /\ dt <= 1 - t /\ dt <= t).
  { unfold dt, nmin. numR. rewrite Rabs_pos_eq by lra. replace (t - 0) with t by ring. rewrite Rabs_pos_eq by lra.
    destruct (Rltb (1 - t) (1 / 1000)) eqn:E1; match goal with |- context [Rltb ?a ?b] => destruct (Rltb a b) eqn:E2 end; rewrite ?Rltb_true, ?Rltb_false in *; lra. }
  numR. rewrite (H (t + dt)), (H (t - dt)) by lra. reflexivity.
Qed.
Lemma mean_le_same p p' q q' wf ta tb sd : 0 <= ta <= 1 -> 0 <= tb <= 1 -> same01 p p' -> same01 q q' ->
  same_square (MeanLeadingEdgePatchFunction p q wf ta tb sd) (MeanLeadingEdgePatchFunction p' q' wf ta tb sd).
Proof.
  intros Ha Hb P Q r s Hr Hs. pose proof (range ta tb r Ha Hb Hr) as B. unfold MeanLeadingEdgePatchFunction. numR.
  rewrite (P _ B), (Q _ B), (angle_same _ _ _ B P). reflexivity.
Qed.
Lemma flat_le_same p p' q q' ta tb : 0 <= ta <= 1 -> 0 <= tb <= 1 -> same01 p p' -> same01 q q' ->
  same_square (FlatLeadingEdgePatchFunction p q ta tb) (FlatLeadingEdgePatchFunction p' q' ta tb).
Proof.
  intros Ha Hb P Q r s Hr Hs. pose proof (range ta tb r Ha Hb Hr) as B. unfold FlatLeadingEdgePatchFunction. numR.
  rewrite (P _ B), (Q _ B). reflexivity.
Qed.
Lemma mean_same p p' q q' : same01 p p' -> same01 q q' -> same01 (GeometricMeanPathFunction p q) (GeometricMeanPathFunction p' q').
Proof. intros P Q t Ht. unfold GeometricMeanPathFunction. cbn [p_call]. rewrite (P t Ht), (Q t Ht). reflexivity. Qed.

Section Local.
  Variable bisect : (R -> res R) -> R -> R -> res R.
  Hypothesis Hbis : forall f a b t, bisect f a b = Ok t -> a <= t <= b.
  Variables (w : wing R) (g : R -> pt) (ft fb : R -> R -> R) (lo hi : R).
  Hypothesis Hline : evaluates (w_line w) g.
  Hypothesis Hg0 : g 0 = w_B0 w.
  Hypothesis Hg1 : g 1 = w_TT w.
  Hypothesis HB1 : forall t, w_tB1 w = Some t -> 0 <= t <= 1.
  Hypothesis Htop : vertical_on lo hi (w_top w) ft.
  Hypothesis Hbot : vertical_on lo hi (w_bot w) fb.
  Hypothesis Hin : forall t, 0 <= t <= 1 -> lo <= vx (g t) <= hi.
  Hypothesis Hmono : forall t t', 0 <= t -> t <= t' -> t' <= 1 -> vx (g t) <= vx (g t').
  Hypothesis HA0 : vx (w_A0 w) = vx (w_B0 w).
  Hypothesis HA1 : lo <= vx (w_A1 w) <= hi.

  Notation w' := (with_tf w (extended ft) (extended fb)).

  Lemma offset_same f h : vertical_on lo hi f h -> same01 (OffsetPathFunction (w_line w) f) (OffsetPathFunction (w_line w) (extended h)).
  Proof using Hline Hin.
    intros V t Ht. unfold OffsetPathFunction. cbn [p_call]. rewrite (Hline t). cbn [bind]. rewrite V by (apply Hin, Ht). reflexivity.
  Qed.
  Lemma te_same f h : vertical_on lo hi f h -> TrailingEdgePath (w_A0 w) (w_B0 w) f = TrailingEdgePath (w_A0 w) (w_B0 w) (extended h).
  Proof using Hin Hg0 HA0.
    intros V. unfold TrailingEdgePath.
    match goal with |- mkPath ?a _ = mkPath ?b _ => assert (E : a = b); [|rewrite E; reflexivity] end.
    apply functional_extensionality. intros r. rewrite (line_evaluates (w_A0 w) (w_B0 w) r). cbn [bind].
    rewrite V; [reflexivity|]. unfold lerp; cbn [vx]. rewrite HA0.
    match goal with |- _ <= ?v <= _ => replace v with (vx (w_B0 w)) by ring end. rewrite <- Hg0. apply Hin. lra.
  Qed.
  Lemma trailing_same : wing_trailing_edge w = wing_trailing_edge w'.
  Proof using Htop Hbot Hin Hg0 HA0.
    assert (ET : wing_TE_top w = wing_TE_top w') by (exact (te_same _ _ Htop)).
    assert (EB : wing_TE_bot w = wing_TE_bot w') by (exact (te_same _ _ Hbot)).
    assert (EM : wing_TE_mean w = wing_TE_mean w') by (unfold wing_TE_mean; rewrite ET, EB; reflexivity).
    unfold wing_trailing_edge. rewrite ET, EB, EM. reflexivity.
  Qed.
  Lemma closing_same top0 bot0 top0' bot0' : top0 0 0 = top0' 0 0 -> bot0 1 0 = bot0' 1 0 ->
    wing_closing w top0 bot0 = wing_closing w' top0' bot0'.
  Proof using Htop Hbot Hin Hg0 Hg1 HA0.
    intros E0 E1.
    assert (ET : wing_TE_top w = wing_TE_top w') by (exact (te_same _ _ Htop)).
    assert (EB : wing_TE_bot w = wing_TE_bot w') by (exact (te_same _ _ Hbot)).
    assert (EM : wing_TE_mean w = wing_TE_mean w') by (unfold wing_TE_mean; rewrite ET, EB; reflexivity).
    assert (X : lo <= vx (w_TT w) <= hi) by (rewrite <- Hg1; apply Hin; lra).
    unfold wing_closing. numR. rewrite ET, EB, EM, E0, E1.
    assert (T1 : w_top w (vx (w_TT w)) (vy (w_TT w)) (Some (vz (w_TT w))) = w_top w' (vx (w_TT w')) (vy (w_TT w')) (Some (vz (w_TT w')))) by (apply Htop, X).
    assert (T2 : w_bot w (vx (w_TT w)) (vy (w_TT w)) (Some (vz (w_TT w))) = w_bot w' (vx (w_TT w')) (vy (w_TT w')) (Some (vz (w_TT w')))) by (apply Hbot, X).
    rewrite T1, T2. reflexivity.
  Qed.

  Lemma patch_same (u : surf R) f h : vertical_on lo hi f h ->
    (forall r s, 0 <= r <= 1 -> 0 <= s <= 1 -> exists p, u r s = Ok p /\ lo <= vx p <= hi) ->
    same_square (OffsetPatchFunction u f) (OffsetPatchFunction u (extended h)).
  Proof using.
    intros V B r s Hr Hs. destruct (B r s Hr Hs) as (p & E & X). unfold OffsetPatchFunction. rewrite E. cbn [bind].
    rewrite V by exact X. reflexivity.
  Qed.

  (** the planform stays between lo and hi *)
  Lemma planform_0 t1 p0 : 0 <= t1 <= 1 ->
    CoonsPatch (SubRangedPath (w_line w) 0 t1) (Line (w_A1 w) (g t1)) (Line (w_A0 w) (w_A1 w)) (Line (w_A0 w) (w_B0 w)) = Ok p0 ->
    forall r s, 0 <= r <= 1 -> 0 <= s <= 1 -> exists p, p0 r s = Ok p /\ lo <= vx p <= hi.
  Proof using Hline Hg0 Hin HA0 HA1.
    intros R1 E r s Hr Hs.
    rewrite (coons_value _ _ _ _ _ _ _ _ _ (sub_evaluates _ _ 0 t1 Hline) (line_evaluates _ _) (line_evaluates _ _) (line_evaluates _ _) E).
    eexists. split; [reflexivity|]. cbn [vx]. unfold blend. rewrite !lerp_0, !lerp_1.
    replace (0 + 0 * (t1 - 0)) with 0 by ring. replace (0 + 1 * (t1 - 0)) with t1 by ring. rewrite Hg0.
    assert (B : 0 <= 0 + r * (t1 - 0) <= 1) by nra. pose proof (Hin _ B) as I1.
    pose proof (Hin 0 ltac:(lra)) as I0. rewrite Hg0 in I0.
    unfold lerp; cbn [vx]. rewrite HA0. set (x := vx (g (0 + r * (t1 - 0)))) in *. set (b := vx (w_B0 w)) in *. set (a := vx (w_A1 w)) in *. set (e := vx (g t1)).
    match goal with |- _ <= ?v <= _ => replace v with (s * x + (1 - s) * (r * a + (1 - r) * b)) by ring end.
    assert (lo <= r * a + (1 - r) * b <= hi) by nra. nra.
  Qed.
  Lemma planform_1 t1 t2 p1 : 0 <= t1 <= 1 -> t1 <= t2 <= 1 ->
    CoonsPatch (SubRangedPath (w_line w) t1 t2) (SubRangedPath (w_line w) 1 t2) (Line (w_A1 w) (w_TT w)) (Line (w_A1 w) (g t1)) = Ok p1 ->
    forall r s, 0 <= r <= 1 -> 0 <= s <= 1 -> exists p, p1 r s = Ok p /\ lo <= vx p <= hi.
  Proof using Hline Hg1 Hin Hmono HA1.
    intros R1 R2 E r s Hr Hs.
    rewrite (coons_value _ _ _ _ _ _ _ _ _ (sub_evaluates _ _ t1 t2 Hline) (sub_evaluates _ _ 1 t2 Hline) (line_evaluates _ _) (line_evaluates _ _) E).
    eexists. split; [reflexivity|]. cbn [vx]. unfold blend. rewrite !lerp_0, !lerp_1.
    replace (t1 + 0 * (t2 - t1)) with t1 by ring. replace (t1 + 1 * (t2 - t1)) with t2 by ring.
    assert (Bn : 0 <= t1 + r * (t2 - t1) <= 1) by nra. assert (Be : 0 <= 1 + s * (t2 - 1) <= 1) by nra.
    pose proof (Hin _ Bn) as In. pose proof (Hin _ Be) as Ie. pose proof (Hin 1 ltac:(lra)) as IT. rewrite Hg1 in IT.
    assert (Mn : vx (g (t1 + r * (t2 - t1))) <= vx (g t2)) by (apply Hmono; nra).
    assert (Me : vx (g t2) <= vx (g (1 + s * (t2 - 1)))) by (apply Hmono; nra).
    pose proof (Hin t2 ltac:(lra)) as I2.
    unfold lerp; cbn [vx]. set (xn := vx (g (t1 + r * (t2 - t1)))) in *. set (xe := vx (g (1 + s * (t2 - 1)))) in *.
    set (x2 := vx (g t2)) in *. set (x1 := vx (g t1)). set (a := vx (w_A1 w)) in *. set (c := vx (w_TT w)) in *.
    match goal with |- _ <= ?v <= _ => replace v with ((1 - r) * ((1 - s) * a + s * xn) + r * (xe - s * (x2 - xn))) by ring end.
    assert (lo <= (1 - s) * a + s * xn <= hi) by nra.
    assert (lo <= xe - s * (x2 - xn) <= hi) by nra. nra.
  Qed.
  Lemma planform_2 t1 f0 : 0 <= t1 <= 1 ->
    CoonsPatch (SubRangedPath (SubRangedPath (w_line w) 0 t1) 1 0) (Line (w_A0 w) (w_B0 w)) (Line (w_A1 w) (w_A0 w)) (Line (w_A1 w) (g t1)) = Ok f0 ->
    forall r s, 0 <= r <= 1 -> 0 <= s <= 1 -> exists p, f0 r s = Ok p /\ lo <= vx p <= hi.
  Proof using Hline Hg0 Hin HA0 HA1.
    intros R1 E r s Hr Hs.
    rewrite (coons_value _ _ _ _ _ _ _ _ _ (sub_evaluates _ _ 1 0 (sub_evaluates _ _ 0 t1 Hline)) (line_evaluates _ _) (line_evaluates _ _) (line_evaluates _ _) E).
    eexists. split; [reflexivity|]. cbn [vx]. unfold blend. rewrite !lerp_0, !lerp_1.
    replace (0 + (1 + 0 * (0 - 1)) * (t1 - 0)) with t1 by ring. replace (0 + (1 + 1 * (0 - 1)) * (t1 - 0)) with 0 by ring. rewrite Hg0.
    assert (B : 0 <= 0 + (1 + r * (0 - 1)) * (t1 - 0) <= 1) by nra. pose proof (Hin _ B) as I1.
    pose proof (Hin 0 ltac:(lra)) as I0. rewrite Hg0 in I0.
    unfold lerp; cbn [vx]. rewrite HA0. set (x := vx (g (0 + (1 + r * (0 - 1)) * (t1 - 0)))) in *. set (b := vx (w_B0 w)) in *. set (a := vx (w_A1 w)) in *. set (e := vx (g t1)).
    match goal with |- _ <= ?v <= _ => replace v with (s * x + (1 - s) * ((1 - r) * a + r * b)) by ring end.
    assert (lo <= (1 - r) * a + r * b <= hi) by nra. nra.
  Qed.
  Lemma planform_3 t1 t2 f1 : 0 <= t1 <= 1 -> t1 <= t2 <= 1 ->
    CoonsPatch (SubRangedPath (SubRangedPath (w_line w) t1 t2) 1 0) (Line (w_A1 w) (g t1)) (Line (w_TT w) (w_A1 w)) (SubRangedPath (w_line w) 1 t2) = Ok f1 ->
    forall r s, 0 <= r <= 1 -> 0 <= s <= 1 -> exists p, f1 r s = Ok p /\ lo <= vx p <= hi.
  Proof using Hline Hg1 Hin Hmono HA1.
    intros R1 R2 E r s Hr Hs.
    rewrite (coons_value _ _ _ _ _ _ _ _ _ (sub_evaluates _ _ 1 0 (sub_evaluates _ _ t1 t2 Hline)) (line_evaluates _ _) (line_evaluates _ _) (sub_evaluates _ _ 1 t2 Hline) E).
    eexists. split; [reflexivity|]. cbn [vx]. unfold blend. rewrite !lerp_0, !lerp_1.
    replace (t1 + (1 + 0 * (0 - 1)) * (t2 - t1)) with t2 by ring. replace (t1 + (1 + 1 * (0 - 1)) * (t2 - t1)) with t1 by ring.
    assert (Bn : 0 <= t1 + (1 + r * (0 - 1)) * (t2 - t1) <= 1) by nra. assert (Be : 0 <= 1 + s * (t2 - 1) <= 1) by nra.
    pose proof (Hin _ Bn) as In. pose proof (Hin _ Be) as Ie. pose proof (Hin 1 ltac:(lra)) as IT. rewrite Hg1 in IT.
    assert (Mn : vx (g (t1 + (1 + r * (0 - 1)) * (t2 - t1))) <= vx (g t2)) by (apply Hmono; nra).
    assert (Me : vx (g t2) <= vx (g (1 + s * (t2 - 1)))) by (apply Hmono; nra).
    pose proof (Hin t2 ltac:(lra)) as I2.
    unfold lerp; cbn [vx]. set (xn := vx (g (t1 + (1 + r * (0 - 1)) * (t2 - t1)))) in *. set (xe := vx (g (1 + s * (t2 - 1)))) in *.
    set (x2 := vx (g t2)) in *. set (x1 := vx (g t1)). set (a := vx (w_A1 w)) in *. set (c := vx (w_TT w)) in *.
    match goal with |- _ <= ?v <= _ => replace v with (r * ((1 - s) * a + s * xn) + (1 - r) * (xe - s * (x2 - xn))) by ring end.
    assert (lo <= (1 - s) * a + s * xn <= hi) by nra.
    assert (lo <= xe - s * (x2 - xn) <= hi) by nra. nra.
  Qed.

  Local Opaque MeanLeadingEdgePatchFunction FlatLeadingEdgePatchFunction OffsetPathFunction GeometricMeanPathFunction OffsetPatchFunction.
  Theorem wing_local d' : wing_patches bisect w' = Ok d' -> exists d, wing_patches bisect w = Ok d /\ same_entries d d'.
  Proof using All.
    intros Hd. destruct (wing_inv bisect w' d' Hd) as (t1 & t2 & B1 & f0 & f1 & p0 & p1 & tr & cl & E1 & E2 & Ez & EB & (C0 & C1 & C2 & C3) & ET & EC & ->).
    change (wing_t_B1 bisect w') with (wing_t_B1 bisect w) in E1. change (wing_t_B2 w' t1) with (wing_t_B2 w t1) in E2.
    cbn [with_tf w_line w_A0 w_A1 w_B0 w_TT w_line_type w_close w_top w_bot] in Ez, EB, C0, C1, C2, C3, EC.
    pose proof (t_B1_range bisect Hbis w HB1 t1 E1) as R1. pose proof (t_B2_range bisect Hbis w HB1 t1 t2 E1 E2) as R2.
    assert (B1 = g t1) as -> by (rewrite (Hline t1) in EB; injection EB; auto).
    exists ([("top_patch_0", OffsetPatchFunction f0 (w_top w)); ("top_patch_1", OffsetPatchFunction f1 (w_top w));
             ("bot_patch_0", OffsetPatchFunction p0 (w_bot w)); ("bot_patch_1", OffsetPatchFunction p1 (w_bot w))]%string
          ++ wing_leading_edge w t1 t2 ++ tr ++ cl)%list.
    pose proof (patch_same _ _ _ Htop (planform_2 t1 f0 R1 C2)) as Q0. pose proof (patch_same _ _ _ Htop (planform_3 t1 t2 f1 R1 R2 C3)) as Q1.
    pose proof (patch_same _ _ _ Hbot (planform_0 t1 p0 R1 C0)) as Q2. pose proof (patch_same _ _ _ Hbot (planform_1 t1 t2 p1 R1 R2 C1)) as Q3.
    split.
    - unfold wing_patches, wing_planform. rewrite E1. cbn [bind]. rewrite E2, Ez, EB. cbn [bind sub_to]. numR.
      rewrite C0. cbn [bind]. rewrite C1. cbn [bind]. rewrite C2. cbn [bind]. rewrite C3. cbn [bind].
      rewrite trailing_same, ET. cbn [bind]. destruct (w_close w).
      + cbn [dget String.eqb Ascii.eqb Bool.eqb].
        rewrite (closing_same _ _ (OffsetPatchFunction f0 (extended ft)) (OffsetPatchFunction p0 (extended fb))) by (first [apply Q0|apply Q2]; lra).
        rewrite EC. reflexivity.
      + subst cl. reflexivity.
    - assert (SR : forall l, same_entries l l) by (induction l; constructor; [split; [reflexivity|intros r s _ _; reflexivity]|assumption]).
      apply Forall2_app; [apply Forall2_cons; [cbn [fst snd]; split; [reflexivity|exact Q0]|]; apply Forall2_cons; [cbn [fst snd]; split; [reflexivity|exact Q1]|]; apply Forall2_cons; [cbn [fst snd]; split; [reflexivity|exact Q2]|]; apply Forall2_cons; [cbn [fst snd]; split; [reflexivity|exact Q3]|]; apply Forall2_nil|]. apply Forall2_app; [|apply SR].
      pose proof (offset_same _ _ Htop) as LT. pose proof (offset_same _ _ Hbot) as LB. pose proof (mean_same _ _ _ _ LT LB) as LM.
      unfold wing_leading_edge. change (wing_flat w') with (wing_flat w). change (wing_width w') with (wing_width w).
      cbn [with_tf w_line w_top w_bot]. numR.
      assert (I0 : 0 <= 0 <= 1) by lra. assert (I1 : 0 <= 1 <= 1) by lra. assert (I2 : 0 <= t2 <= 1) by lra.
      destruct (wing_flat w).
      + apply Forall2_cons; [cbn [fst snd]; split; [reflexivity|exact (flat_le_same _ _ _ _ 0 t1 I0 R1 LT LB)]|].
        apply Forall2_cons; [cbn [fst snd]; split; [reflexivity|exact (flat_le_same _ _ _ _ t1 t2 R1 I2 LT LB)]|].
        apply Forall2_cons; [cbn [fst snd]; split; [reflexivity|exact (flat_le_same _ _ _ _ t1 1 R1 I1 LT LB)]|]. apply Forall2_nil.
      + apply Forall2_cons; [cbn [fst snd]; split; [reflexivity|exact (mean_le_same _ _ _ _ (wing_width w) 0 t1 "top" I0 R1 LM LT)]|].
        apply Forall2_cons; [cbn [fst snd]; split; [reflexivity|exact (mean_le_same _ _ _ _ (wing_width w) t1 t2 "top" R1 I2 LM LT)]|].
        apply Forall2_cons; [cbn [fst snd]; split; [reflexivity|exact (mean_le_same _ _ _ _ (wing_width w) t2 1 "top" I2 I1 LM LT)]|].
        apply Forall2_cons; [cbn [fst snd]; split; [reflexivity|exact (mean_le_same _ _ _ _ (wing_width w) 0 t1 "bot" I0 R1 LM LB)]|].
        apply Forall2_cons; [cbn [fst snd]; split; [reflexivity|exact (mean_le_same _ _ _ _ (wing_width w) t1 t2 "bot" R1 I2 LM LB)]|].
        apply Forall2_cons; [cbn [fst snd]; split; [reflexivity|exact (mean_le_same _ _ _ _ (wing_width w) t2 1 "bot" I2 I1 LM LB)]|]. apply Forall2_nil.
  Qed.
End Local.
