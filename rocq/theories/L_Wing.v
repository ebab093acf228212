(** Lemmas about wing patches. *)
From Coq Require Import Reals Lra String List Lia ZArith Bool.
From Verif Require Import Num NumR Py M_Vector SpecR3 M_Path M_Surface M_Geometry M_Component M_Common M_Wing
  SpecPath SpecPoly SpecSurf SpecWing L_Vector L_Line L_Coons L_ArcLength L_Curves L_Ellipse.
Import ListNotations.
Local Open Scope R_scope.
Local Opaque el_u MeanLeadingEdgePatchFunction ArcLengthParameterizedPath.

Lemma coons_surf (n e s w : path R) gn ge gs gw u :
  evaluates n gn -> evaluates e ge -> evaluates s gs -> evaluates w gw ->
  CoonsPatch n e s w = Ok u ->
  gs 0 = gw 0 -> gs 1 = ge 0 -> gn 0 = gw 1 -> gn 1 = ge 1 ->
  (forall t, u 0 t = Ok (gw t)) /\ (forall t, u 1 t = Ok (ge t)) /\
  (forall t, u t 0 = Ok (gs t)) /\ (forall t, u t 1 = Ok (gn t)).
Proof.
  intros Hn He Hs Hw Hu E1 E2 E3 E4.
  destruct (coons_exact n e s w gn ge gs gw Hn He Hs Hw zero_offset E1 E2 E3 E4) as (c & E & A & B & C & D).
  unfold CoonsPatch in Hu. rewrite E in Hu. cbn [bind] in Hu. injection Hu as <-.
  assert (Z : forall p : pt, translate p zero_offset = p)
    by (intros []; unfold translate, zero_offset; numR; apply vec_ext; cbn; ring).
  repeat split; intros t; [rewrite A|rewrite B|rewrite C|rewrite D]; rewrite Z; reflexivity.
Qed.

Lemma coons_surf_w (n e s w : path R) gn ge gs gw u :
  evaluates n gn -> evaluates e ge -> evaluates s gs -> evaluates w gw ->
  CoonsPatch n e s w = Ok u ->
  (forall t, u 0 t = Ok (gw t)) /\ (forall t, u 1 t = Ok (ge t)) /\
  (forall t, u t 0 = Ok (translate (gs t) (blend_err t (gw 0) (gs 0) (ge 0) (gs 1)))) /\
  (forall t, u t 1 = Ok (translate (gn t) (blend_err t (gw 1) (gn 0) (ge 1) (gn 1)))).
Proof.
  intros Hn He Hs Hw Hu. unfold CoonsPatch in Hu.
  destruct (Coons_edges n e s w zero_offset) as [c|] eqn:E; [|discriminate].
  cbn [bind] in Hu. injection Hu as <-.
  destruct (coons_boundary n e s w gn ge gs gw Hn He Hs Hw _ c E) as (A & B & C & D).
  assert (Z : forall p : pt, translate p zero_offset = p)
    by (intros []; unfold translate, zero_offset; numR; apply vec_ext; cbn; ring).
  repeat split; intros t; [rewrite A|rewrite B|rewrite C|rewrite D]; rewrite Z; reflexivity.
Qed.

Lemma offset_patch (u : surf R) f h r s p : vertical f h -> u r s = Ok p ->
  OffsetPatchFunction u f r s = Ok (lift h p).
Proof.
  intros V E. unfold OffsetPatchFunction. rewrite E. cbn [bind]. rewrite V. cbn [bind]. f_equal.
  unfold lift, vadd; numR. apply vec_ext; cbn; ring.
Qed.
Lemma offset_path (p : path R) f g h : vertical f h -> evaluates p g ->
  evaluates (OffsetPathFunction p f) (fun t => lift h (g t)).
Proof.
  intros V E t. unfold OffsetPathFunction; cbn [p_call]. rewrite (E t). cbn [bind]. rewrite V. cbn [bind]. f_equal.
  unfold lift, vadd; numR. apply vec_ext; cbn; ring.
Qed.
Lemma te_path A0 B0 f h : vertical f h ->
  evaluates (TrailingEdgePath A0 B0 f) (fun t => lift h (lerp t A0 B0)).
Proof.
  intros V t. unfold TrailingEdgePath; cbn [p_call]. rewrite (line_evaluates A0 B0 t). cbn [bind]. rewrite V.
  cbn [bind]. f_equal. unfold lift, vadd; numR. apply vec_ext; cbn; ring.
Qed.
Lemma mean_path (p q : path R) g a b : evaluates p (fun t => lift a (g t)) -> evaluates q (fun t => lift b (g t)) ->
  evaluates (GeometricMeanPathFunction p q) (fun t => lift (mid_h a b) (g t)).
Proof.
  intros P Q t. unfold GeometricMeanPathFunction; cbn [p_call]. rewrite (P t), (Q t). cbn [bind]. f_equal.
  unfold lift, mid_h, vscale, vadd; numR. apply vec_ext; cbn; field.
Qed.
Lemma sub_evaluates (p : path R) g a b : evaluates p g ->
  evaluates (SubRangedPath p a b) (fun t => g (a + t * (b - a))).
Proof. intros H t. unfold SubRangedPath; cbn [p_call]; numR. apply H. Qed.

Lemma Rround_unit k x : 0 <= x <= 1 -> (0 <= k)%Z -> 0 <= Rround k x <= 1.
Proof.
  intros H Hk. unfold Rround.
  assert (P : exists n : Z, powerRZ 10 k = IZR n /\ (0 < n)%Z).
  { destruct k as [|q|q]; [exists 1%Z; split; [reflexivity|lia]| |lia].
    exists (10 ^ Z.pos q)%Z. split; [|apply Z.pow_pos_nonneg; lia].
    cbn [powerRZ]. rewrite pow_IZR. f_equal. f_equal. lia. }
  destruct P as (n & -> & Hn). pose proof (IZR_lt _ _ Hn) as Hn'.
  pose proof (Rrne_spec (x * IZR n)) as S.
  assert (S' : - (1 / 2) <= x * IZR n - IZR (Rrne (x * IZR n)) <= 1 / 2)
    by (unfold Rabs in S; destruct (Rcase_abs _); lra).
  set (m := Rrne (x * IZR n)) in *.
  assert (A : (0 <= m)%Z).
  { apply Z.lt_pred_le. apply lt_IZR. rewrite <- Z.sub_1_r, minus_IZR. nra. }
  assert (B : (m <= n)%Z).
  { apply Z.lt_succ_r. apply lt_IZR. rewrite succ_IZR. nra. }
  apply IZR_le in A, B. split.
  - apply Rmult_le_pos; [lra|]. apply Rlt_le, Rinv_0_lt_compat; lra.
  - apply Rmult_le_reg_r with (IZR n); [lra|]. unfold Rdiv. rewrite Rmult_assoc, Rinv_l by lra. lra.
Qed.

(** ** leading edge sections of vertical thickness functions *)
Section Leading.
  Variables (line : path R) (g : R -> pt) (top bot : tfun R) (ft fb : R -> R -> R) (wf : R -> res R) (W : R).
  Hypothesis Hline : evaluates line g.
  Hypothesis Htop : vertical top ft.
  Hypothesis Hbot : vertical bot fb.
  Hypothesis Hthick : forall t, 0 <= t <= 1 -> ft (vx (g t)) (vy (g t)) < fb (vx (g t)) (vy (g t)).
  Hypothesis HW : 0 < W.
  Hypothesis Hwf : forall t, 0 <= t <= 1 -> exists k, wf t = Ok k /\ W <= k.

  Notation top_edge := (OffsetPathFunction line top).
  Notation bot_edge := (OffsetPathFunction line bot).
  Notation mean := (GeometricMeanPathFunction top_edge bot_edge).
  Notation le guide t0 t1 side := (MeanLeadingEdgePatchFunction mean guide wf t0 t1 side).

  Lemma mean_ev : evaluates mean (fun t => lift (mid_h ft fb) (g t)).
  Proof using Hline Htop Hbot. apply mean_path; apply offset_path; assumption. Qed.

  Lemma range t0 t1 s : 0 <= t0 <= 1 -> 0 <= t1 <= 1 -> 0 <= s <= 1 -> 0 <= t1 - s * (t1 - t0) <= 1.
  Proof using. intros. nra. Qed.

  (** any section *)
  Lemma le_section t0 t1 s t : t = t1 - s * (t1 - t0) -> 0 <= t <= 1 ->
    exists k al, W <= k /\ wf t = Ok k /\ le_angle mean t = Ok al /\
      let b := half_h ft fb (vx (g t)) (vy (g t)) in
      0 < b /\
      (forall r, le top_edge t0 t1 "top" s r = Ok (section_pt (lift (mid_h ft fb) (g t)) b k al "top" r)) /\
      (forall r, le bot_edge t0 t1 "bot" s r = Ok (section_pt (lift (mid_h ft fb) (g t)) (- b) k al "bot" r)).
  Proof using Hline Htop Hbot Hthick Hwf.
    intros Et Ht. destruct (Hwf t Ht) as (k & Ek & Lk).
    destruct (le_angle_ok mean _ t mean_ev) as [al Eal].
    exists k, al. split; [exact Lk|]. split; [exact Ek|]. split; [exact Eal|]. cbv zeta.
    pose proof (Hthick t Ht). split; [unfold half_h; lra|].
    assert (X1 : vz (lift (mid_h ft fb) (g t)) - vz (lift ft (g t)) = half_h ft fb (vx (g t)) (vy (g t)))
      by (unfold lift, mid_h, half_h; cbn [vz]; field).
    assert (X2 : vz (lift (mid_h ft fb) (g t)) - vz (lift fb (g t)) = - half_h ft fb (vx (g t)) (vy (g t)))
      by (unfold lift, mid_h, half_h; cbn [vz]; field).
    split; intros r.
    - rewrite (le_value mean top_edge _ _ wf "top" t0 t1 s r mean_ev (offset_path line top g ft Htop Hline)
        ltac:(auto) t Et k al Ek Eal). rewrite X1. reflexivity.
    - rewrite (le_value mean bot_edge _ _ wf "bot" t0 t1 s r mean_ev (offset_path line bot g fb Hbot Hline)
        ltac:(auto) t Et k al Ek Eal). rewrite X2. reflexivity.
  Qed.

  Lemma within_gap b k : 0 < b -> W <= k -> forall P Q al,
    vx Q = vx P + gap_h k b * cos al -> vy Q = vy P + gap_h k b * sin al ->
    Rabs (vz P - vz Q) = gap_v k b -> within b W P Q.
  Proof using HW.
    intros Hb Hk P Q al Ex Ey Ez. destruct (gap_bounds k b) as [[A B] [C D]]; [lra|lra|].
    fold tan_big in *. unfold within. fold tan_big. rewrite Ex, Ey, Ez. split.
    - replace _ with (gap_h k b * gap_h k b * ((sin al)² + (cos al)²)) by (unfold Rsqr; ring).
      rewrite sin2_cos2. nra.
    - eapply Rle_trans; [exact D|]. assert (0 < tan_big) by (unfold tan_big; lra).
      unfold Rdiv. apply Rmult_le_compat_l; [nra|].
      assert (0 < tan_big * tan_big) by nra. assert (0 < W * W <= k * k) by nra.
      apply Rinv_le_contravar; nra.
  Qed.

  Lemma within_part b k c c' : 0 < b -> W <= k -> -1 <= c <= 1 -> -1 <= c' <= 1 -> forall P Q,
    vx P = vx Q -> vy P - vy Q = c * gap_h k b -> vz P - vz Q = c' * gap_v k b -> within b W P Q.
  Proof using HW.
    intros Hb Hk Hc Hc' P Q Ex Ey Ez. destruct (gap_bounds k b) as [[A B] [C D]]; [lra|lra|].
    unfold within. fold tan_big. rewrite Ex, Ey, Ez. replace (vx Q - vx Q) with 0 by ring. split.
    - assert (c * c <= 1) by nra. assert (gap_h k b * gap_h k b <= b / tan_big * (b / tan_big)) by nra.
      assert (0 <= gap_h k b * gap_h k b) by nra. nra.
    - eapply Rle_trans with (gap_v k b).
      { rewrite Rabs_mult, (Rabs_pos_eq (gap_v k b)) by lra.
        assert (Rabs c' <= 1) by (apply Rabs_le; lra). pose proof (Rabs_pos c'). nra. }
      eapply Rle_trans; [exact D|]. assert (0 < tan_big) by (unfold tan_big; lra).
      unfold Rdiv. apply Rmult_le_compat_l; [nra|].
      assert (0 < tan_big * tan_big) by nra. assert (0 < W * W <= k * k) by nra.
      apply Rinv_le_contravar; nra.
  Qed.

  Lemma within_turn b k c c' : 0 < b -> W <= k -> -1 <= c <= 1 -> -1 <= c' <= 1 -> forall P Q,
    vx P - vx Q = c * gap_h k b -> vy P = vy Q -> vz P - vz Q = c' * gap_v k b -> within b W P Q.
  Proof using HW.
    intros Hb Hk Hc Hc' P Q Ex Ey Ez.
    assert (H : within b W (V3 (vy P) (vx P) (vz P)) (V3 (vy Q) (vx Q) (vz Q)))
      by (apply (within_part b k c c' Hb Hk Hc Hc'); cbn [vx vy vz]; assumption).
    unfold within in *; cbn [vx vy vz] in H. rewrite Rplus_comm. exact H.
  Qed.

  (** the edge of a leading edge patch next to the panels *)
  Lemma le_top_edge t0 t1 s t : t = t1 - s * (t1 - t0) -> 0 <= t <= 1 ->
    exists Q, le top_edge t0 t1 "top" s 0 = Ok Q /\ within_at (half_h ft fb) W (lift ft (g t)) Q.
  Proof using Hline Htop Hbot Hthick HW Hwf.
    intros Et Ht. destruct (le_section t0 t1 s t Et Ht) as (k & al & Lk & _ & _ & Hb & E & _).
    set (b := half_h ft fb (vx (g t)) (vy (g t))) in *.
    rewrite (E 0). eexists. split; [reflexivity|]. unfold within_at. cbn [lift vx vy]. fold b.
    destruct (section_ends (lift (mid_h ft fb) (g t)) b k al) as (-> & _); [lra|lra|].
    rewrite Rabs_pos_eq by lra.
    apply (within_gap b k Hb Lk _ _ al); cbn [lift vx vy vz]; [reflexivity|reflexivity|].
    destruct (gap_bounds k b) as [_ [G _]]; [lra|lra|].
    match goal with |- Rabs ?x = _ => replace x with (- gap_v k b) by (unfold b, mid_h, half_h; field) end. rewrite Rabs_Ropp. apply Rabs_pos_eq; exact G.
  Qed.
  Lemma le_bot_edge t0 t1 s t : t = t1 - s * (t1 - t0) -> 0 <= t <= 1 ->
    exists Q, le bot_edge t0 t1 "bot" s 1 = Ok Q /\ within_at (half_h ft fb) W (lift fb (g t)) Q.
  Proof using Hline Htop Hbot Hthick HW Hwf.
    intros Et Ht. destruct (le_section t0 t1 s t Et Ht) as (k & al & Lk & _ & _ & Hb & _ & E).
    set (b := half_h ft fb (vx (g t)) (vy (g t))) in *.
    rewrite (E 1). eexists. split; [reflexivity|]. unfold within_at. cbn [lift vx vy]. fold b.
    destruct (section_ends (lift (mid_h ft fb) (g t)) (- b) k al) as (_ & _ & _ & ->); [lra|lra|].
    rewrite Rabs_Ropp, Rabs_pos_eq by lra.
    apply (within_gap b k Hb Lk _ _ al); cbn [lift vx vy vz]; [reflexivity|reflexivity|].
    destruct (gap_bounds k b) as [_ [G _]]; [lra|lra|].
    match goal with |- Rabs ?x = _ => replace x with (gap_v k b) by (unfold b, mid_h, half_h; field) end. apply Rabs_pos_eq; exact G.
  Qed.
  (** top and bottom halves share the tip *)
  Lemma le_tip t0 t1 s t : t = t1 - s * (t1 - t0) -> 0 <= t <= 1 ->
    exists Q, le top_edge t0 t1 "top" s 1 = Ok Q /\ le bot_edge t0 t1 "bot" s 0 = Ok Q.
  Proof using Hline Htop Hbot Hthick HW Hwf.
    intros Et Ht. destruct (le_section t0 t1 s t Et Ht) as (k & al & Lk & _ & _ & Hb & E & F).
    set (b := half_h ft fb (vx (g t)) (vy (g t))) in *.
    rewrite (E 1), (F 0).
    destruct (section_ends (lift (mid_h ft fb) (g t)) (- b) k al) as (_ & _ & -> & _); [lra|lra|].
    destruct (section_ends (lift (mid_h ft fb) (g t)) b k al) as (_ & -> & _); [lra|lra|].
    eexists; split; reflexivity.
  Qed.
End Leading.

Lemma default_width t : 0 <= t <= 1 -> exists k, leading_edge_width_function (T := R) t = Ok k /\ 1 / 100 <= k.
Proof.
  intros H. unfold leading_edge_width_function. cbn. eexists. split; [reflexivity|]. cbn. nra.
Qed.

(** ** assembling the dictionary *)
Section Assembly.
  Variable bisect : (R -> res R) -> R -> R -> res R.

  Lemma wing_inv w d : wing_patches bisect w = Ok d ->
    exists t1 t2 B1 f0 f1 p0 p1 trailing closing,
      wing_t_B1 bisect w = Ok t1 /\ wing_t_B2 w t1 = Some t2 /\
      String.eqb (lower (w_line_type w)) "bezier" = true /\
      p_call (w_line w) t1 = Ok B1 /\
      (let B0B1 := SubRangedPath (w_line w) 0 t1 in
       let B1B2 := SubRangedPath (w_line w) t1 t2 in
       let TTB2 := SubRangedPath (w_line w) 1 t2 in
       CoonsPatch B0B1 (Line (w_A1 w) B1) (Line (w_A0 w) (w_A1 w)) (Line (w_A0 w) (w_B0 w)) = Ok p0 /\
       CoonsPatch B1B2 TTB2 (Line (w_A1 w) (w_TT w)) (Line (w_A1 w) B1) = Ok p1 /\
       CoonsPatch (SubRangedPath B0B1 1 0) (Line (w_A0 w) (w_B0 w)) (Line (w_A1 w) (w_A0 w)) (Line (w_A1 w) B1) = Ok f0 /\
       CoonsPatch (SubRangedPath B1B2 1 0) (Line (w_A1 w) B1) (Line (w_TT w) (w_A1 w)) TTB2 = Ok f1) /\
      wing_trailing_edge w = Ok trailing /\
      (if w_close w
       then wing_closing w (OffsetPatchFunction f0 (w_top w)) (OffsetPatchFunction p0 (w_bot w)) = Ok closing
       else closing = []) /\
      d = ([("top_patch_0", OffsetPatchFunction f0 (w_top w));
          ("top_patch_1", OffsetPatchFunction f1 (w_top w));
          ("bot_patch_0", OffsetPatchFunction p0 (w_bot w));
          ("bot_patch_1", OffsetPatchFunction p1 (w_bot w))]%string
          ++ wing_leading_edge w t1 t2 ++ trailing ++ closing)%list.
  Proof.
    unfold wing_patches, wing_planform. intros H.
    destruct (wing_t_B1 bisect w) as [t1|] eqn:E1; [|discriminate H]. cbn [bind] in H.
    destruct (String.eqb (lower (w_line_type w)) "bezier") eqn:Eb; [|discriminate H].
    destruct (p_call (w_line w) t1) as [B1|] eqn:E3; [|discriminate H]. cbn [bind] in H.
    destruct (CoonsPatch (SubRangedPath (w_line w) n0 t1) _ _ _) as [p0|] eqn:C0; [|discriminate H].
    cbn [bind] in H.
    destruct (wing_t_B2 w t1) as [t2|] eqn:E2; cbn [sub_to bind] in H.
    2:{ repeat (match type of H with context[CoonsPatch ?a ?b ?c ?e] =>
          destruct (CoonsPatch a b c e); cbn [bind] in H; try discriminate H end). }
    destruct (CoonsPatch (SubRangedPath (w_line w) t1 t2) _ _ _) as [p1|] eqn:C1; [|discriminate H].
    cbn [bind] in H.
    destruct (CoonsPatch (SubRangedPath (SubRangedPath (w_line w) n0 t1) n1 n0) _ _ _) as [f0|] eqn:C2; [|discriminate H].
    cbn [bind] in H.
    destruct (CoonsPatch (SubRangedPath (SubRangedPath (w_line w) t1 t2) n1 n0) _ _ _) as [f1|] eqn:C3; [|discriminate H].
    cbn [bind] in H.
    destruct (wing_trailing_edge w) as [tr|] eqn:E5; [|discriminate H]. cbn [bind] in H.
    exists t1, t2, B1, f0, f1, p0, p1, tr.
    destruct (w_close w).
    - cbn [dget String.eqb Ascii.eqb Bool.eqb] in H.
      destruct (wing_closing w _ _) as [cl|] eqn:E6; [|discriminate H]. cbn [bind] in H.
      exists cl. injection H as <-. repeat (split; [assumption || reflexivity || (repeat split; assumption)|]). reflexivity.
    - cbn [bind] in H. exists [].
      injection H as <-. repeat (split; [assumption || reflexivity || (repeat split; assumption)|]). reflexivity.
  Qed.

  Local Opaque ArcLengthParameterizedPath MeanTrailingEdgePatch CoonsPatch Line ElipsePath flap_tip.
  Lemma trailing_inv w d : wing_trailing_edge w = Ok d ->
    exists top bot t1 m1 b1 west north tele,
      MeanTrailingEdgePatch (wing_TE_mean w) (wing_TE_top w) (w_flap_length w) (w_flap_angle w) "top" = Ok top /\
      MeanTrailingEdgePatch (wing_TE_mean w) (wing_TE_bot w) (w_flap_length w) (w_flap_angle w) "bot" = Ok bot /\
      p_call (wing_TE_top w) 1 = Ok t1 /\ p_call (wing_TE_mean w) 1 = Ok m1 /\ p_call (wing_TE_bot w) 1 = Ok b1 /\
      (if wing_flat w then west = Line t1 m1 /\ north = Line m1 b1
       else vz m1 - vz t1 <> 0 /\ vz m1 - vz b1 <> 0 /\
         exists k, wing_width w 0 = Ok k /\
           ArcLengthParameterizedPath (ElipsePath m1 (vz m1 - vz t1) k "top") = Ok west /\
           ArcLengthParameterizedPath (ElipsePath m1 (vz m1 - vz b1) k "bot") = Ok north) /\
      CoonsPatch north (Line (flap_tip w m1) (V3 (vx m1) (vy m1) (vz b1)))
                 (Line (V3 (vx m1) (vy m1) (vz t1)) (flap_tip w m1)) west = Ok tele /\
      d = [("TE_top_patch", top); ("TE_bot_patch", bot); ("TELE_patch", tele)]%string.
  Proof.
    unfold wing_trailing_edge. intros H.
    destruct (String.eqb (w_tail w) "FLAP"); [|discriminate H].
    destruct (MeanTrailingEdgePatch (wing_TE_mean w) (wing_TE_top w) _ _ "top") as [top|] eqn:A; [|discriminate H].
    cbn [bind] in H.
    destruct (MeanTrailingEdgePatch (wing_TE_mean w) (wing_TE_bot w) _ _ "bot") as [bot|] eqn:B; [|discriminate H].
    cbn [bind] in H. numR.
    destruct (p_call (wing_TE_top w) 1) as [t1|]; [|discriminate H]. cbn [bind] in H.
    destruct (p_call (wing_TE_mean w) 1) as [m1|]; [|discriminate H]. cbn [bind] in H.
    destruct (p_call (wing_TE_bot w) 1) as [b1|]; [|discriminate H]. cbn [bind] in H.
    destruct (wing_flat w) eqn:F.
    - cbn [bind] in H. destruct (CoonsPatch _ _ _ _) as [u|] eqn:C in H; [|discriminate H]. cbn [bind] in H.
      injection H as <-. exists top, bot, t1, m1, b1, (Line t1 m1), (Line m1 b1), u.
      repeat split; assumption.
    - destruct (Reqb (vz m1 - vz t1) 0) eqn:Z1; [discriminate H|].
      destruct (Reqb (vz m1 - vz b1) 0) eqn:Z2; [discriminate H|].
      cbn [orb bind] in H. destruct (wing_width w 0) as [k|] eqn:Ek; [|discriminate H]. cbn [bind] in H.
      destruct (ArcLengthParameterizedPath (ElipsePath m1 _ k "top")) as [west|] eqn:Ew; [|discriminate H]. cbn [bind] in H.
      destruct (ArcLengthParameterizedPath (ElipsePath m1 _ k "bot")) as [north|] eqn:En; [|discriminate H]. cbn [bind] in H.
      destruct (CoonsPatch _ _ _ _) as [u|] eqn:C in H; [|discriminate H]. cbn [bind] in H.
      injection H as <-. exists top, bot, t1, m1, b1, west, north, u.
      apply Reqb_false in Z1, Z2.
      do 5 (split; [assumption || reflexivity|]).
      split; [|split; [exact C|reflexivity]].
      split; [exact Z1|]. split; [exact Z2|]. exists k. repeat split; assumption.
  Qed.
End Assembly.

Lemma lerp_0 (a b : pt) : lerp 0 a b = a.
Proof. destruct a; unfold lerp; apply vec_ext; cbn; ring. Qed.
Lemma lerp_1 (a b : pt) : lerp 1 a b = b.
Proof. destruct b; unfold lerp; apply vec_ext; cbn; ring. Qed.

Lemma mte_top mean te gm gt L a u : evaluates mean gm -> evaluates te gt ->
  MeanTrailingEdgePatch mean te L a "top" = Ok u ->
  (forall t, u t 1 = Ok (gt t)) /\
  (forall t, u t 0 = Ok (lerp t (tip L a (gm 0)) (tip L a (gm 1)))) /\
  (forall t, u 1 t = Ok (lerp t (tip L a (gm 1)) (gt 1))) /\
  (forall t, u 0 t = Ok (lerp t (tip L a (gm 0)) (gt 0))).
Proof.
  intros Hm Ht. unfold MeanTrailingEdgePatch; cbn [String.eqb Ascii.eqb Bool.eqb]. numR.
  rewrite (Hm 0), (Hm 1). cbn [bind].
  change (V3 (vx (gm 0) - L * cos a) (vy (gm 0)) (vz (gm 0) + L * sin a)) with (tip L a (gm 0)).
  change (V3 (vx (gm 1) - L * cos a) (vy (gm 1)) (vz (gm 1) + L * sin a)) with (tip L a (gm 1)).
  rewrite !(line_evaluates _ _ _), !(Ht _). cbn [bind]. rewrite !lerp_0, !lerp_1. intros Hu.
  destruct (coons_surf _ _ _ _ _ _ _ _ u Ht (line_evaluates _ _) (line_evaluates _ _) (line_evaluates _ _) Hu)
    as (A & B & C & D); rewrite ?lerp_0, ?lerp_1; auto.
Qed.
Lemma mte_bot mean te gm gt L a u : evaluates mean gm -> evaluates te gt ->
  MeanTrailingEdgePatch mean te L a "bot" = Ok u ->
  (forall t, u t 0 = Ok (gt t)) /\
  (forall t, u t 1 = Ok (lerp t (tip L a (gm 0)) (tip L a (gm 1)))) /\
  (forall t, u 1 t = Ok (lerp t (gt 1) (tip L a (gm 1)))) /\
  (forall t, u 0 t = Ok (lerp t (gt 0) (tip L a (gm 0)))).
Proof.
  intros Hm Ht. unfold MeanTrailingEdgePatch; cbn [String.eqb Ascii.eqb Bool.eqb]. numR.
  rewrite (Hm 0), (Hm 1). cbn [bind].
  change (V3 (vx (gm 0) - L * cos a) (vy (gm 0)) (vz (gm 0) + L * sin a)) with (tip L a (gm 0)).
  change (V3 (vx (gm 1) - L * cos a) (vy (gm 1)) (vz (gm 1) + L * sin a)) with (tip L a (gm 1)).
  rewrite !(line_evaluates _ _ _), !(Ht _). cbn [bind]. rewrite !lerp_0, !lerp_1. intros Hu.
  destruct (coons_surf _ _ _ _ _ _ _ _ u (line_evaluates _ _) (line_evaluates _ _) Ht (line_evaluates _ _) Hu)
    as (A & B & C & D); rewrite ?lerp_0, ?lerp_1; auto.
Qed.

(** what the theorems assume of a wing *)
Section Wing.
  Variable bisect : (R -> res R) -> R -> R -> res R.
  Hypothesis Hbis : forall f a b t, bisect f a b = Ok t -> a <= t <= b.
  Variables (w : wing R) (g : R -> pt) (ft fb : R -> R -> R) (d : dict (surf R)).
  Hypothesis Hline : evaluates (w_line w) g.
  Hypothesis Hg0 : g 0 = w_B0 w.
  Hypothesis Hg1 : g 1 = w_TT w.
  Hypothesis Htop : vertical (w_top w) ft.
  Hypothesis Hbot : vertical (w_bot w) fb.
  Hypothesis HB1 : forall t, w_tB1 w = Some t -> 0 <= t <= 1.
  Hypothesis Hd : wing_patches bisect w = Ok d.

  Lemma t_B1_range t1 : wing_t_B1 bisect w = Ok t1 -> 0 <= t1 <= 1.
  Proof using Hbis HB1.
    unfold wing_t_B1. destruct (w_tB1 w) as [t|] eqn:E; [intros H; injection H as <-; auto|].
    destruct (bisect _ _ _) as [t|] eqn:B; [|discriminate]. cbn [bind]. intros H; injection H as <-.
    apply Hbis in B. numR. apply Rround_unit; [lra|lia].
  Qed.
  Lemma t_B2_range t1 t2 : wing_t_B1 bisect w = Ok t1 -> wing_t_B2 w t1 = Some t2 -> t1 <= t2 <= 1.
  Proof using Hbis HB1.
    intros H1. pose proof (t_B1_range t1 H1) as B. unfold wing_t_B2. destruct (w_tB2 w).
    - intros H2. unfold wing_t_B1 in H1. rewrite H2 in H1. injection H1 as ->. lra.
    - intros H; injection H as <-. numR. lra.
  Qed.

  (** the four panels *)
  Lemma panels : exists t1 t2 top0 top1 bot0 bot1 trailing rest,
    0 <= t1 <= 1 /\ t1 <= t2 <= 1 /\ wing_t_B1 bisect w = Ok t1 /\ wing_t_B2 w t1 = Some t2 /\
    d = ([("top_patch_0", top0); ("top_patch_1", top1); ("bot_patch_0", bot0); ("bot_patch_1", bot1)]%string
           ++ wing_leading_edge w t1 t2 ++ trailing ++ rest)%list /\
    wing_trailing_edge w = Ok trailing /\
    (forall t, top0 t 1 = Ok (lift ft (g (t1 - t * (t1 - 0))))) /\
    (forall t, top0 0 t = Ok (lift ft (lerp t (w_A1 w) (g t1)))) /\
    (forall t, top0 1 t = Ok (lift ft (lerp t (w_A0 w) (w_B0 w)))) /\
    (forall t, top0 t 0 = Ok (lift ft (lerp t (w_A1 w) (w_A0 w)))) /\
    (forall t, top1 t 1 = Ok (lift ft (g (t2 - t * (t2 - t1))))) /\
    (forall t, top1 0 t = Ok (lift ft (g (1 - t * (1 - t2))))) /\
    (forall t, top1 1 t = Ok (lift ft (lerp t (w_A1 w) (g t1)))) /\
    (forall t, top1 t 0 = Ok (lift ft (lerp t (w_TT w) (w_A1 w)))) /\
    (forall t, bot0 t 1 = Ok (lift fb (g (t1 - (1 - t) * (t1 - 0))))) /\
    (forall t, bot0 0 t = Ok (lift fb (lerp t (w_A0 w) (w_B0 w)))) /\
    (forall t, bot0 1 t = Ok (lift fb (lerp t (w_A1 w) (g t1)))) /\
    (forall t, bot0 t 0 = Ok (lift fb (lerp t (w_A0 w) (w_A1 w)))) /\
    (forall t, bot1 t 1 = Ok (lift fb (g (t2 - (1 - t) * (t2 - t1))))) /\
    (forall t, bot1 0 t = Ok (lift fb (lerp t (w_A1 w) (g t1)))) /\
    (forall t, bot1 1 t = Ok (lift fb (g (1 - t * (1 - t2))))) /\
    (forall t, bot1 t 0 = Ok (lift fb (lerp t (w_A1 w) (w_TT w)))) /\
    (if w_close w then wing_closing w top0 bot0 = Ok rest else rest = []).
  Proof using Hbis HB1 Hline Hg0 Hg1 Htop Hbot Hd.
    destruct (wing_inv bisect w d Hd) as (t1 & t2 & B1 & f0 & f1 & p0 & p1 & tr & cl & E1 & E2 & _ & EB & (C0 & C1 & C2 & C3) & ET & EC & ED).
    rewrite (Hline t1) in EB. injection EB as <-.
    exists t1, t2, (OffsetPatchFunction f0 (w_top w)), (OffsetPatchFunction f1 (w_top w)),
      (OffsetPatchFunction p0 (w_bot w)), (OffsetPatchFunction p1 (w_bot w)), tr, cl.
    split; [exact (t_B1_range t1 E1)|]. split; [exact (t_B2_range t1 t2 E1 E2)|].
    split; [exact E1|]. split; [exact E2|]. split; [exact ED|]. split; [exact ET|].
    pose proof (sub_evaluates (w_line w) g 0 t1 Hline) as S01.
    pose proof (sub_evaluates (w_line w) g t1 t2 Hline) as S12.
    pose proof (sub_evaluates (w_line w) g 1 t2 Hline) as ST2.
    destruct (coons_surf _ _ _ _ _ _ _ _ p0 S01 (line_evaluates _ _) (line_evaluates _ _) (line_evaluates _ _) C0)
      as (P1 & P2 & P3 & P4); rewrite ?lerp_0, ?lerp_1; auto.
    { rewrite <- Hg0. f_equal. ring. } { f_equal. ring. }
    destruct (coons_surf _ _ _ _ _ _ _ _ p1 S12 ST2 (line_evaluates _ _) (line_evaluates _ _) C1)
      as (Q1 & Q2 & Q3 & Q4); rewrite ?lerp_0, ?lerp_1; auto.
    { rewrite <- Hg1. f_equal. ring. } { f_equal. ring. } { f_equal. ring. }
    destruct (coons_surf _ _ _ _ _ _ _ _ f0 (sub_evaluates _ _ 1 0 S01) (line_evaluates _ _) (line_evaluates _ _) (line_evaluates _ _) C2)
      as (F1 & F2 & F3 & F4); rewrite ?lerp_0, ?lerp_1; auto.
    { f_equal. ring. } { rewrite <- Hg0. f_equal. ring. }
    destruct (coons_surf _ _ _ _ _ _ _ _ f1 (sub_evaluates _ _ 1 0 S12) (line_evaluates _ _) (line_evaluates _ _) ST2 C3)
      as (G1 & G2 & G3 & G4); rewrite ?lerp_0, ?lerp_1; auto.
    { rewrite <- Hg1. f_equal. ring. } { f_equal. ring. } { f_equal. ring. }
    assert (LE : forall h a b t t', a + t * (b - a) = t' -> lift h (g (a + t * (b - a))) = lift h (g t')) by (intros; subst; reflexivity).
    repeat split; try assumption; intros t.
    all: try (erewrite offset_patch; [|eassumption|first [apply F1|apply F2|apply F3|apply F4]]; [reflexivity]).
    all: try (erewrite offset_patch; [|eassumption|first [apply G1|apply G2|apply G3|apply G4]]; [reflexivity]).
    all: try (erewrite offset_patch; [|eassumption|first [apply P1|apply P2|apply P3|apply P4]]; [reflexivity]).
    all: try (erewrite offset_patch; [|eassumption|first [apply Q1|apply Q2|apply Q3|apply Q4]]; [reflexivity]).
    - erewrite offset_patch; [|exact Htop|apply F4]. do 3 f_equal. ring.
    - erewrite offset_patch; [|exact Htop|apply G4]. do 3 f_equal. ring.
    - erewrite offset_patch; [|exact Htop|apply G1]. do 3 f_equal. ring.
    - erewrite offset_patch; [|exact Hbot|apply P4]. do 3 f_equal. ring.
    - erewrite offset_patch; [|exact Hbot|apply Q4]. do 3 f_equal. ring.
    - erewrite offset_patch; [|exact Hbot|apply Q2]. do 3 f_equal. ring.
  Qed.

  (** ** trailing edge *)
  Lemma te_mean_ev : evaluates (wing_TE_mean w) (fun t => lift (mid_h ft fb) (lerp t (w_A0 w) (w_B0 w))).
  Proof using Htop Hbot. apply mean_path; apply te_path; assumption. Qed.

  Notation L := (w_flap_length w).
  Notation a := (w_flap_angle w).
  Notation mB := (lift (mid_h ft fb) (w_B0 w)).
  Notation mA := (lift (mid_h ft fb) (w_A0 w)).

  Lemma trailing_patches trailing : wing_trailing_edge w = Ok trailing ->
    exists tet teb tele west north,
      trailing = [("TE_top_patch", tet); ("TE_bot_patch", teb); ("TELE_patch", tele)]%string /\
      (forall t, tet t 1 = Ok (lift ft (lerp t (w_A0 w) (w_B0 w)))) /\
      (forall t, tet t 0 = Ok (lerp t (tip L a mA) (tip L a mB))) /\
      (forall t, tet 1 t = Ok (lerp t (tip L a mB) (lift ft (w_B0 w)))) /\
      (forall t, teb t 0 = Ok (lift fb (lerp t (w_A0 w) (w_B0 w)))) /\
      (forall t, teb t 1 = Ok (lerp t (tip L a mA) (tip L a mB))) /\
      (forall t, teb 1 t = Ok (lerp t (lift fb (w_B0 w)) (tip L a mB))) /\
      (forall t, tet 0 t = Ok (lerp t (tip L a mA) (lift ft (w_A0 w)))) /\
      (forall t, teb 0 t = Ok (lerp t (lift fb (w_A0 w)) (tip L a mA))) /\
      (if wing_flat w then west = Line (lift ft (w_B0 w)) mB /\ north = Line mB (lift fb (w_B0 w))
       else exists k, wing_width w 0 = Ok k /\
         half_h ft fb (vx (w_B0 w)) (vy (w_B0 w)) <> 0 /\
         ArcLengthParameterizedPath (ElipsePath mB (half_h ft fb (vx (w_B0 w)) (vy (w_B0 w))) k "top") = Ok west /\
         ArcLengthParameterizedPath (ElipsePath mB (- half_h ft fb (vx (w_B0 w)) (vy (w_B0 w))) k "bot") = Ok north) /\
      CoonsPatch north (Line (tip L a mB) (lift fb (w_B0 w))) (Line (lift ft (w_B0 w)) (tip L a mB)) west = Ok tele.
  Proof using Htop Hbot.
    intros H. destruct (trailing_inv w trailing H) as (top & bot & t1 & m1 & b1 & west & north & tele & E1 & E2 & Et & Em & Eb & EW & EC & ED).
    pose proof (te_path (w_A0 w) (w_B0 w) _ ft Htop) as PT. pose proof (te_path (w_A0 w) (w_B0 w) _ fb Hbot) as PB.
    pose proof te_mean_ev as PM.
    unfold wing_TE_top in Et. rewrite (PT 1) in Et. injection Et as <-.
    unfold wing_TE_bot in Eb. rewrite (PB 1) in Eb. injection Eb as <-.
    rewrite (PM 1) in Em. injection Em as <-. rewrite !lerp_1 in *.
    destruct (mte_top _ _ _ _ _ _ top PM PT E1) as (A1 & A2 & A3 & A4).
    destruct (mte_bot _ _ _ _ _ _ bot PM PB E2) as (B1 & B2 & B3 & B4).
    rewrite ?lerp_0, ?lerp_1 in *.
    assert (Z1 : forall m h, mid_h ft fb (vx (w_B0 w)) (vy (w_B0 w)) = m -> vz (w_B0 w) + m - (vz (w_B0 w) + h) = m - h) by (intros; ring).
    exists top, bot, tele, west, north.
    do 9 (split; [assumption|]). split; [|exact EC].
    destruct (wing_flat w); [exact EW|]. destruct EW as (N1 & N2 & k & Ek & EW & EN).
    exists k. split; [exact Ek|].
    assert (X1 : vz mB - vz (lift ft (w_B0 w)) = half_h ft fb (vx (w_B0 w)) (vy (w_B0 w)))
      by (unfold lift, mid_h, half_h; cbn [vz]; field).
    assert (X2 : vz mB - vz (lift fb (w_B0 w)) = - half_h ft fb (vx (w_B0 w)) (vy (w_B0 w)))
      by (unfold lift, mid_h, half_h; cbn [vz]; field).
    rewrite X1 in *. rewrite X2 in *. split; [exact N1|]. split; assumption.
  Qed.

  (** ** seams of a wing with an elliptical leading edge *)
  Section Elliptic.
    Variable W : R.
    Hypothesis Hell : wing_flat w = false.
    Hypothesis Hthick : forall t, 0 <= t <= 1 -> ft (vx (g t)) (vy (g t)) < fb (vx (g t)) (vy (g t)).
    Hypothesis HW : 0 < W.
    Hypothesis Hwf : forall t, 0 <= t <= 1 -> exists k, wing_width w t = Ok k /\ W <= k.

    Lemma leading_ell t1 t2 : wing_leading_edge w t1 t2 =
      let top_edge := OffsetPathFunction (w_line w) (w_top w) in
      let bot_edge := OffsetPathFunction (w_line w) (w_bot w) in
      let mean := GeometricMeanPathFunction top_edge bot_edge in
      let le guide t0 t1 side := MeanLeadingEdgePatchFunction mean guide (wing_width w) t0 t1 side in
      [("LE_top_patch_0", le top_edge 0 t1 "top"); ("LE_top_patch_1", le top_edge t1 t2 "top");
       ("LE_top_patch_2", le top_edge t2 1 "top"); ("LE_bot_patch_0", le bot_edge 0 t1 "bot");
       ("LE_bot_patch_1", le bot_edge t1 t2 "bot"); ("LE_bot_patch_2", le bot_edge t2 1 "bot")]%string.
    Proof using Hell. unfold wing_leading_edge. rewrite Hell. reflexivity. Qed.

    Ltac found := repeat first [eexists | split]; cbn [app dget String.eqb Ascii.eqb Bool.eqb]; [reflexivity|reflexivity|].

    Theorem wing_gap_seams :
      let half := half_h ft fb in
      joined d "top_patch_0" s1 "LE_top_patch_0" s0 along (within_over g half W) /\
      joined d "top_patch_1" s1 "LE_top_patch_1" s0 along (within_over g half W) /\
      joined d "top_patch_1" r0 "LE_top_patch_2" s0 along (within_over g half W) /\
      joined d "bot_patch_0" s1 "LE_bot_patch_0" s1 reversed (within_over g half W) /\
      joined d "bot_patch_1" s1 "LE_bot_patch_1" s1 reversed (within_over g half W) /\
      joined d "bot_patch_1" r1 "LE_bot_patch_2" s1 along (within_over g half W).
    Proof using All.
      destruct panels as (t1 & t2 & top0 & top1 & bot0 & bot1 & tr & rest & R1 & R2 & _ & _ & ED & _ &
        A1 & _ & _ & _ & A2 & A3 & _ & _ & B1 & _ & _ & _ & B2 & _ & B3 & _).
      rewrite leading_ell in ED. cbv zeta in ED. rewrite ED.
      repeat split.
      - eexists _, _. split; [reflexivity|]. split; [reflexivity|]. intros t Ht. cbn [on_side fst snd].
        rewrite A1. unfold along.
        destruct (le_top_edge (w_line w) g (w_top w) (w_bot w) ft fb (wing_width w) W Hline Htop Hbot Hthick HW Hwf
          0 t1 t _ eq_refl) as (Q & EQ & CQ); [nra|]. eexists _, Q. split; [reflexivity|]. split; [exact EQ|]. split; [|exact CQ]. eexists. split; [|split; reflexivity]. nra.
      - eexists _, _. split; [reflexivity|]. split; [reflexivity|]. intros t Ht. cbn [on_side fst snd].
        rewrite A2. unfold along.
        destruct (le_top_edge (w_line w) g (w_top w) (w_bot w) ft fb (wing_width w) W Hline Htop Hbot Hthick HW Hwf
          t1 t2 t _ eq_refl) as (Q & EQ & CQ); [nra|]. eexists _, Q. split; [reflexivity|]. split; [exact EQ|]. split; [|exact CQ]. eexists. split; [|split; reflexivity]. nra.
      - eexists _, _. split; [reflexivity|]. split; [reflexivity|]. intros t Ht. cbn [on_side fst snd].
        rewrite A3. unfold along.
        destruct (le_top_edge (w_line w) g (w_top w) (w_bot w) ft fb (wing_width w) W Hline Htop Hbot Hthick HW Hwf
          t2 1 t _ eq_refl) as (Q & EQ & CQ); [nra|]. eexists _, Q. split; [reflexivity|]. split; [exact EQ|]. split; [|exact CQ]. eexists. split; [|split; reflexivity]. nra.
      - eexists _, _. split; [reflexivity|]. split; [reflexivity|]. intros t Ht. cbn [on_side fst snd].
        rewrite B1. unfold reversed.
        destruct (le_bot_edge (w_line w) g (w_top w) (w_bot w) ft fb (wing_width w) W Hline Htop Hbot Hthick HW Hwf
          0 t1 (1 - t) _ eq_refl) as (Q & EQ & CQ); [nra|]. eexists _, Q. split; [reflexivity|]. split; [exact EQ|]. split; [|exact CQ]. eexists. split; [|split; reflexivity]. nra.
      - eexists _, _. split; [reflexivity|]. split; [reflexivity|]. intros t Ht. cbn [on_side fst snd].
        rewrite B2. unfold reversed.
        destruct (le_bot_edge (w_line w) g (w_top w) (w_bot w) ft fb (wing_width w) W Hline Htop Hbot Hthick HW Hwf
          t1 t2 (1 - t) _ eq_refl) as (Q & EQ & CQ); [nra|]. eexists _, Q. split; [reflexivity|]. split; [exact EQ|]. split; [|exact CQ]. eexists. split; [|split; reflexivity]. nra.
      - eexists _, _. split; [reflexivity|]. split; [reflexivity|]. intros t Ht. cbn [on_side fst snd].
        rewrite B3. unfold along.
        destruct (le_bot_edge (w_line w) g (w_top w) (w_bot w) ft fb (wing_width w) W Hline Htop Hbot Hthick HW Hwf
          t2 1 t _ eq_refl) as (Q & EQ & CQ); [nra|]. eexists _, Q. split; [reflexivity|]. split; [exact EQ|]. split; [|exact CQ]. eexists. split; [|split; reflexivity]. nra.
    Qed.

    (** the leading edge patches among themselves *)
    Theorem wing_section_seams :
      (joined d "LE_top_patch_0" s1 "LE_bot_patch_0" s0 along same /\
       joined d "LE_top_patch_1" s1 "LE_bot_patch_1" s0 along same /\
       joined d "LE_top_patch_2" s1 "LE_bot_patch_2" s0 along same) /\
      (joined d "LE_top_patch_0" r0 "LE_top_patch_1" r1 along same /\
       joined d "LE_top_patch_1" r0 "LE_top_patch_2" r1 along same /\
       joined d "LE_bot_patch_0" r0 "LE_bot_patch_1" r1 along same /\
       joined d "LE_bot_patch_1" r0 "LE_bot_patch_2" r1 along same).
    Proof using All.
      destruct panels as (t1 & t2 & top0 & top1 & bot0 & bot1 & tr & rest & R1 & R2 & _ & _ & ED & _).
      rewrite leading_ell in ED. cbv zeta in ED. rewrite ED.
      assert (J : forall t0 t1', 0 <= t0 <= 1 -> 0 <= t1' <= 1 -> forall t, 0 <= t <= 1 -> exists P Q,
        MeanLeadingEdgePatchFunction (GeometricMeanPathFunction (OffsetPathFunction (w_line w) (w_top w)) (OffsetPathFunction (w_line w) (w_bot w)))
          (OffsetPathFunction (w_line w) (w_top w)) (wing_width w) t0 t1' "top" t 1 = Ok P /\
        MeanLeadingEdgePatchFunction (GeometricMeanPathFunction (OffsetPathFunction (w_line w) (w_top w)) (OffsetPathFunction (w_line w) (w_bot w)))
          (OffsetPathFunction (w_line w) (w_bot w)) (wing_width w) t0 t1' "bot" t 0 = Ok Q /\ same P Q).
      { intros t0 t1' H0 H1 t Ht.
        destruct (le_tip (w_line w) g (w_top w) (w_bot w) ft fb (wing_width w) W Hline Htop Hbot Hthick HW Hwf
          t0 t1' t _ eq_refl) as (Q & EP & EQ); [nra|]. exists Q, Q. split; [exact EP|]. split; [exact EQ|reflexivity]. }
      assert (K : forall t0 tm t1', 0 <= t0 <= 1 -> 0 <= tm <= 1 -> 0 <= t1' <= 1 -> forall t, 0 <= t <= 1 -> 
        (exists P Q,
        MeanLeadingEdgePatchFunction (GeometricMeanPathFunction (OffsetPathFunction (w_line w) (w_top w)) (OffsetPathFunction (w_line w) (w_bot w)))
          (OffsetPathFunction (w_line w) (w_top w)) (wing_width w) t0 tm "top" 0 t = Ok P /\
        MeanLeadingEdgePatchFunction (GeometricMeanPathFunction (OffsetPathFunction (w_line w) (w_top w)) (OffsetPathFunction (w_line w) (w_bot w)))
          (OffsetPathFunction (w_line w) (w_top w)) (wing_width w) tm t1' "top" 1 t = Ok Q /\ same P Q) /\
        (exists P Q,
        MeanLeadingEdgePatchFunction (GeometricMeanPathFunction (OffsetPathFunction (w_line w) (w_top w)) (OffsetPathFunction (w_line w) (w_bot w)))
          (OffsetPathFunction (w_line w) (w_bot w)) (wing_width w) t0 tm "bot" 0 t = Ok P /\
        MeanLeadingEdgePatchFunction (GeometricMeanPathFunction (OffsetPathFunction (w_line w) (w_top w)) (OffsetPathFunction (w_line w) (w_bot w)))
          (OffsetPathFunction (w_line w) (w_bot w)) (wing_width w) tm t1' "bot" 1 t = Ok Q /\ same P Q)).
      { intros t0 tm t1' H0 Hm H1 t Ht.
        destruct (le_section (w_line w) g (w_top w) (w_bot w) ft fb (wing_width w) W Hline Htop Hbot Hthick Hwf
          t0 tm 0 tm) as (k & al & Lk & Ek & Ea & _ & T & B); [ring|lra|].
        destruct (le_section (w_line w) g (w_top w) (w_bot w) ft fb (wing_width w) W Hline Htop Hbot Hthick Hwf
          tm t1' 1 tm) as (k' & al' & Lk' & Ek' & Ea' & _ & T' & B'); [ring|lra|].
        rewrite Ek in Ek'. injection Ek' as <-. rewrite Ea in Ea'. injection Ea' as <-.
        split; eexists _, _.
        - split; [exact (T t)|]. split; [exact (T' t)|reflexivity].
        - split; [exact (B t)|]. split; [exact (B' t)|reflexivity]. }
      split; [split; [|split]|split; [|split; [|split]]];
        eexists _, _; (split; [reflexivity|]); (split; [reflexivity|]); intros t Ht; cbn [on_side fst snd]; unfold along.
      - apply J; lra. - apply J; lra. - apply J; lra.
      - refine (proj1 (K _ _ _ _ _ _ t Ht)); lra. - refine (proj1 (K _ _ _ _ _ _ t Ht)); lra.
      - refine (proj2 (K _ _ _ _ _ _ t Ht)); lra. - refine (proj2 (K _ _ _ _ _ _ t Ht)); lra.
    Qed.

    (** the corner patch between the trailing edge flap and the leading edge *)
    Theorem wing_corner_seams :
      let b := half_h ft fb (vx (w_B0 w)) (vy (w_B0 w)) in
      joined d "TELE_patch" r0 "LE_top_patch_0" r1 along same /\
      joined d "TELE_patch" r1 "TE_bot_patch" r1 reversed same /\
      joined d "TELE_patch" s0 "TE_top_patch" r1 reversed (within b W) /\
      joined d "TELE_patch" s1 "LE_bot_patch_0" r1 along (within b W).
    Proof using All.
      cbv zeta.
      destruct panels as (t1 & t2 & top0 & top1 & bot0 & bot1 & tr & rest & R1 & R2 & _ & _ & ED & ET & _).
      destruct (trailing_patches tr ET) as (tet & teb & tele & west & north & EQ & _ & _ & T1 & _ & _ & B1 & _ & _ & EW & EC).
      rewrite Hell in EW. destruct EW as (k & Ek & Nb & EW & EN).
      rewrite leading_ell in ED. cbv zeta in ED. rewrite ED, EQ. clear ED.
      destruct (le_section (w_line w) g (w_top w) (w_bot w) ft fb (wing_width w) W Hline Htop Hbot Hthick Hwf
          0 t1 1 0) as (k' & al & Lk & Ek' & Ea & Hb & T & B); [ring|lra|].
      rewrite Ek in Ek'. injection Ek' as <-. rewrite le_angle_0 in Ea. injection Ea as <-.
      rewrite Hg0 in *. set (b := half_h ft fb (vx (w_B0 w)) (vy (w_B0 w))) in *.
      destruct (elipse_arc mB b k "top") as (q & E & Vw); [auto|]. rewrite EW in E. injection E as <-.
      destruct (elipse_arc mB (- b) k "bot") as (q & E & Vn); [auto|]. rewrite EN in E. injection E as <-.
      destruct (coons_surf_w _ _ _ _ _ _ _ _ tele Vn (line_evaluates _ _) (line_evaluates _ _) Vw EC) as (C1 & C2 & C3 & C4).
      rewrite !lerp_0, !lerp_1 in *.
      assert (Sec : forall th side r, side = "bot"%string \/ side = "top"%string ->
        section_pt mB th k (PI / 2) side r = el_pt mB th k side (el_u th k side r)).
      { intros th sd r _. unfold section_pt. rewrite cos_PI2, sin_PI2. unfold el_pt; cbn [vx vy vz].
        apply vec_ext; cbn [vx vy vz]; ring. }
      destruct (el_u_ends b k "top") as [U0 U1]; [lra|lra|auto|].
      destruct (el_u_ends (- b) k "bot") as [V0 V1]; [lra|lra|auto|].
      destruct (el_pt_ends mB b k) as (X0 & X1 & _ & _); [lra|lra|].
      destruct (el_pt_ends mB (- b) k) as (_ & _ & Y0 & Y1); [lra|lra|].
      rewrite Rabs_Ropp in Y1. rewrite !Rabs_pos_eq in X0, Y1 by lra.
      destruct (gap_bounds k b) as [[G1 G2] [G3 G4]]; [lra|lra|].
      split; [|split; [|split]];
        eexists _, _; (split; [reflexivity|]); (split; [reflexivity|]); intros t Ht; cbn [on_side fst snd]; unfold along, reversed.
      - eexists _, _. split; [apply C1|]. split; [apply T|]. unfold same. rewrite Sec by auto. reflexivity.
      - eexists _, _. split; [apply C2|]. split; [apply B1|]. unfold same, lerp. apply vec_ext; cbn; ring.
      - eexists _, _. split; [apply C3|]. split; [apply T1|]. rewrite U0, X0.
        apply (within_part W HW b k (1 - t) (1 - t) Hb Lk); [lra|lra| | |];
          unfold lerp, blend_err, translate, tip, lift, b, half_h, mid_h; cbn [vx vy vz]; field.
      - eexists _, _. split; [apply C4|]. split; [apply B|]. rewrite U1, X1, V0, Y0, V1, Y1, Sec by auto.
        apply (within_part W HW b k (- t) t Hb Lk); [lra|lra| | |];
          unfold lerp, blend_err, translate, tip, lift, b, half_h, mid_h; cbn [vx vy vz]; field.
    Qed.
  End Elliptic.

  (** panels and flap *)
  Theorem wing_panel_seams :
    joined d "top_patch_0" r0 "top_patch_1" r1 along same /\
    joined d "bot_patch_0" r1 "bot_patch_1" r0 along same /\
    joined d "top_patch_0" r1 "TE_top_patch" s1 along same /\
    joined d "bot_patch_0" r0 "TE_bot_patch" s0 along same /\
    joined d "TE_top_patch" s0 "TE_bot_patch" s1 along same.
  Proof using Hbis HB1 Hline Hg0 Hg1 Htop Hbot Hd.
    destruct panels as (t1 & t2 & top0 & top1 & bot0 & bot1 & tr & rest & R1 & R2 & _ & _ & ED & ET &
      _ & A1 & A2 & _ & _ & _ & A3 & _ & _ & B1 & B2 & _ & _ & B3 & _).
    destruct (trailing_patches tr ET) as (tet & teb & tele & west & north & EQ & T1 & T2 & _ & U1 & U2 & _ & _).
    assert (D : dget d "TE_top_patch" = Some tet /\ dget d "TE_bot_patch" = Some teb).
    { rewrite ED, EQ. unfold wing_leading_edge. destruct (wing_flat w); split; reflexivity. }
    destruct D as [D1 D2]. rewrite ED in *. 
    split; [|split; [|split; [|split]]].
    - exists top0, top1. split; [reflexivity|]. split; [reflexivity|]. intros t Ht. cbn [on_side fst snd]. unfold along.
      rewrite A1, A3. eexists _, _. repeat split.
    - exists bot0, bot1. split; [reflexivity|]. split; [reflexivity|]. intros t Ht. cbn [on_side fst snd]. unfold along.
      rewrite B2, B3. eexists _, _. repeat split.
    - exists top0, tet. split; [reflexivity|]. split; [exact D1|]. intros t Ht. cbn [on_side fst snd]. unfold along.
      rewrite A2, T1. eexists _, _. repeat split.
    - exists bot0, teb. split; [reflexivity|]. split; [exact D2|]. intros t Ht. cbn [on_side fst snd]. unfold along.
      rewrite B1, U1. eexists _, _. repeat split.
    - exists tet, teb. split; [exact D1|]. split; [exact D2|]. intros t Ht. cbn [on_side fst snd]. unfold along.
      rewrite T2, U2. eexists _, _. repeat split.
  Qed.

  (** ** flat leading edges *)
  Section Flat.
    Hypothesis Hflat : wing_flat w = true.
    Lemma flat_value t0 t1 s r : FlatLeadingEdgePatchFunction (OffsetPathFunction (w_line w) (w_top w))
      (OffsetPathFunction (w_line w) (w_bot w)) t0 t1 s r =
      Ok (lerp r (lift ft (g (t1 - s * (t1 - t0)))) (lift fb (g (t1 - s * (t1 - t0))))).
    Proof using Hline Htop Hbot.
      unfold FlatLeadingEdgePatchFunction; numR.
      rewrite (offset_path (w_line w) (w_top w) g ft Htop Hline _), (offset_path (w_line w) (w_bot w) g fb Hbot Hline _).
      cbn [bind]. f_equal. unfold lerp, lift. apply vec_ext; cbn [vx vy vz]; ring.
    Qed.

    Theorem wing_flat_seams :
      joined d "top_patch_0" s1 "LE_patch0" s0 along same /\
      joined d "top_patch_1" s1 "LE_patch1" s0 along same /\
      joined d "bot_patch_0" s1 "LE_patch0" s1 reversed same /\
      joined d "bot_patch_1" s1 "LE_patch1" s1 reversed same /\
      joined d "LE_patch0" r0 "LE_patch1" r1 along same /\
      joined d "TELE_patch" r0 "LE_patch0" r1 (fun t => t / 2) same /\
      joined d "TELE_patch" s1 "LE_patch0" r1 (fun t => (1 + t) / 2) same /\
      joined d "TELE_patch" r1 "TE_bot_patch" r1 reversed same /\
      joined d "TELE_patch" s0 "TE_top_patch" r1 reversed same.
    Proof using All.
      destruct panels as (t1 & t2 & top0 & top1 & bot0 & bot1 & tr & rest & R1 & R2 & _ & _ & ED & ET &
        A1 & _ & _ & _ & A2 & _ & _ & _ & B1 & _ & _ & _ & B2 & _).
      destruct (trailing_patches tr ET) as (tet & teb & tele & west & north & EQ & _ & _ & T1 & _ & _ & U1 & _ & _ & EW & EC).
      unfold wing_leading_edge in ED. rewrite Hflat in ED, EW. destruct EW as [-> ->].
      destruct (coons_surf _ _ _ _ _ _ _ _ tele (line_evaluates _ _) (line_evaluates _ _) (line_evaluates _ _) (line_evaluates _ _) EC)
        as (C1 & C2 & C3 & C4); rewrite ?lerp_0, ?lerp_1; auto.
      rewrite ED, EQ. numR. clear ED.
      split; [|split; [|split; [|split; [|split; [|split; [|split; [|split]]]]]]];
        eexists _, _; (split; [reflexivity|]); (split; [reflexivity|]); intros t Ht; cbn [on_side fst snd]; unfold along, reversed.
      - rewrite A1, flat_value, lerp_0. eexists _, _. repeat split.
      - rewrite A2, flat_value, lerp_0. eexists _, _. repeat split.
      - rewrite B1, flat_value, lerp_1. eexists _, _. repeat split.
      - rewrite B2, flat_value, lerp_1. eexists _, _. repeat split.
      - rewrite !flat_value. eexists _, _. split; [reflexivity|]. split; [reflexivity|]. unfold same.
        f_equal; do 2 f_equal; ring.
      - rewrite C1, flat_value. replace (t1 - 1 * (t1 - 0)) with 0 by ring. rewrite Hg0.
        eexists _, _. split; [reflexivity|]. split; [reflexivity|]. unfold same, lerp, lift, mid_h.
        apply vec_ext; cbn [vx vy vz]; field.
      - rewrite C4, flat_value. replace (t1 - 1 * (t1 - 0)) with 0 by ring. rewrite Hg0.
        eexists _, _. split; [reflexivity|]. split; [reflexivity|]. unfold same, lerp, lift, mid_h.
        apply vec_ext; cbn [vx vy vz]; field.
      - rewrite C2, U1. eexists _, _. split; [reflexivity|]. split; [reflexivity|]. unfold same, lerp.
        apply vec_ext; cbn [vx vy vz]; ring.
      - rewrite C3, T1. eexists _, _. split; [reflexivity|]. split; [reflexivity|]. unfold same, lerp.
        apply vec_ext; cbn [vx vy vz]; ring.
    Qed.

    (** the third patch covers the second *)
    Theorem wing_flat_overlap t1 t2 : wing_t_B1 bisect w = Ok t1 -> wing_t_B2 w t1 = Some t2 ->
      exists u1 u2 top1, dget d "LE_patch1" = Some u1 /\ dget d "LE_patch2" = Some u2 /\ dget d "top_patch_1" = Some top1 /\
        (forall s r, u1 s r = Ok (lerp r (lift ft (g (t2 - s * (t2 - t1)))) (lift fb (g (t2 - s * (t2 - t1)))))) /\
        (forall s r, u2 s r = Ok (lerp r (lift ft (g (1 - s * (1 - t1)))) (lift fb (g (1 - s * (1 - t1)))))) /\
        (forall s, top1 0 s = Ok (lift ft (g (1 - s * (1 - t2))))).
    Proof using All.
      intros E1 E2.
      destruct panels as (t1' & t2' & top0 & top1 & bot0 & bot1 & tr & rest & R1 & R2 & E1' & E2' & ED & ET &
        _ & _ & _ & _ & _ & A2 & _).
      rewrite E1 in E1'. injection E1' as <-. rewrite E2 in E2'. injection E2' as <-.
      unfold wing_leading_edge in ED. rewrite Hflat in ED. rewrite ED. numR.
      eexists _, _, _. do 3 (split; [reflexivity|]). split; [intros; apply flat_value|].
      split; [intros; apply flat_value|exact A2].
    Qed.
  End Flat.

  (** ** closing patches *)
  Section Close.
    Hypothesis Hclose : w_close w = true.
    Notation T := (w_TT w).
    Notation mT := (lift (mid_h ft fb) (w_TT w)).
    Notation mA1 := (lift (mid_h ft fb) (w_A1 w)).
    Notation bT := (half_h ft fb (vx (w_TT w)) (vy (w_TT w))).

    Lemma closing_inv top0 bot0 rest : wing_closing w top0 bot0 = Ok rest ->
      top0 0 0 = Ok (lift ft (w_A1 w)) -> bot0 1 0 = Ok (lift fb (w_A1 w)) ->
      exists c0 c1 c2 c3 e f k et eb, wing_width w 1 = Ok k /\
        CoonsPatch (Line mA mA1) (Line (lift ft (w_A1 w)) mA1) (Line (lift ft (w_A0 w)) (lift ft (w_A1 w))) (Line (lift ft (w_A0 w)) mA) = Ok c0 /\
        CoonsPatch (Line mA1 mT) (Line (lift ft T) mT) (Line (lift ft (w_A1 w)) (lift ft T)) (Line (lift ft (w_A1 w)) mA1) = Ok c1 /\
        CoonsPatch (Line (lift fb (w_A0 w)) (lift fb (w_A1 w))) (Line mA1 (lift fb (w_A1 w))) (Line mA mA1) (Line mA (lift fb (w_A0 w))) = Ok c2 /\
        CoonsPatch (Line (lift fb (w_A1 w)) (lift fb T)) (Line mT (lift fb T)) (Line mA1 mT) (Line mA1 (lift fb (w_A1 w))) = Ok c3 /\
        ArcLengthParameterizedPath (ElipsePath mT bT k "top") = Ok et /\
        ArcLengthParameterizedPath (ElipsePath mT (- bT) k "bot") = Ok eb /\
        CoonsPatch (SubRangedPath eb 1 0) et (Line mT (lift ft T)) (Line mT (lift fb T)) = Ok e /\
        CoonsPatch (Line (lift ft (w_A0 w)) (tip L a mA)) (Line (lift fb (w_A0 w)) (tip L a mA)) (Line mA (lift fb (w_A0 w))) (Line mA (lift ft (w_A0 w))) = Ok f /\
        rest = [("wing_close_top_patch0", c0); ("wing_close_top_patch1", c1); ("wing_close_bot_patch0", c2); ("wing_close_bot_patch1", c3);
                ("interior_ellip", RotatedPatch e (-90 * (PI / 180)) "z" mT); ("interior_flap_patch", f)]%string.
    Proof using Htop Hbot.
      intros H E0 E1. unfold wing_closing in H. numR.
      rewrite (Htop _ _ _), (Hbot _ _ _) in H. cbn [bind] in H.
      unfold wing_TE_top at 1, wing_TE_bot at 1 in H.
      rewrite (te_path (w_A0 w) (w_B0 w) _ ft Htop 0), (te_path (w_A0 w) (w_B0 w) _ fb Hbot 0), (te_mean_ev 0) in H.
      cbn [bind] in H. rewrite E0 in H. cbn [bind] in H. rewrite E1 in H. cbn [bind] in H. rewrite !lerp_0 in H.
      assert (X1 : forall h, vadd T (V3 0 0 (h (vx T) (vy T))) = lift h T)
        by (intros h; unfold lift, vadd; numR; apply vec_ext; cbn [vx vy vz]; ring).
      rewrite !X1 in H.
      assert (X2 : vscale (vadd (lift ft T) (lift fb T)) (1 / 2) = mT)
        by (unfold lift, vadd, vscale, mid_h; numR; apply vec_ext; cbn [vx vy vz]; field).
      rewrite X2 in H.
      assert (X3 : V3 (vx (lift fb (w_A1 w))) (vy (lift fb (w_A1 w))) ((vz (lift fb (w_A1 w)) + vz (lift ft (w_A1 w))) / 2) = mA1)
        by (unfold lift, mid_h; apply vec_ext; cbn [vx vy vz]; field).
      rewrite X3 in H.
      assert (X4 : vz mT - vz (lift ft T) = bT) by (unfold lift, mid_h, half_h; cbn [vz]; field).
      assert (X5 : vz mT - vz (lift fb T) = - bT) by (unfold lift, mid_h, half_h; cbn [vz]; field).
      rewrite X4, X5 in H. change (flap_tip w mA) with (tip L a mA) in H.
      destruct (CoonsPatch (Line mA mA1) _ _ _) as [c0|] eqn:C0; [|discriminate H]. cbn [bind] in H.
      destruct (CoonsPatch (Line mA1 mT) _ _ _) as [c1|] eqn:C1; [|discriminate H]. cbn [bind] in H.
      destruct (CoonsPatch (Line (lift fb (w_A0 w)) _) (Line mA1 _) _ _) as [c2|] eqn:C2; [|discriminate H]. cbn [bind] in H.
      destruct (CoonsPatch (Line (lift fb (w_A1 w)) _) _ _ _) as [c3|] eqn:C3; [|discriminate H]. cbn [bind] in H.
      destruct (wing_width w 1) as [k|] eqn:Ek; [|discriminate H]. cbn [bind] in H.
      destruct (ArcLengthParameterizedPath (ElipsePath mT bT k "top")) as [et|] eqn:Et; [|discriminate H]. cbn [bind] in H.
      destruct (ArcLengthParameterizedPath (ElipsePath mT (- bT) k "bot")) as [eb|] eqn:Eb; [|discriminate H]. cbn [bind] in H.
      destruct (CoonsPatch (SubRangedPath eb 1 0) _ _ _) as [e|] eqn:Ce; [|discriminate H]. cbn [bind] in H.
      destruct (CoonsPatch (Line (lift ft (w_A0 w)) (tip L a mA)) _ _ _) as [f|] eqn:Cf; [|discriminate H]. cbn [bind] in H.
      injection H as <-. exists c0, c1, c2, c3, e, f, k, et, eb.
      repeat (split; [assumption || reflexivity|]). reflexivity.
    Qed.

    (** a straight closing edge against the edge of a panel *)
    Lemma root_iff h (u v : surf R) eu ev A B :
      (forall t, u (fst (on_side eu t)) (snd (on_side eu t)) = Ok (lift h (lerp t A B))) ->
      ((forall t, v (fst (on_side ev t)) (snd (on_side ev t)) = Ok (lerp t (lift h A) (lift h B))) ->
       (seam u eu v ev along same <-> affine_between h A B)) /\
      ((forall t, v (fst (on_side ev t)) (snd (on_side ev t)) = Ok (lerp t (lift h B) (lift h A))) ->
       (seam u eu v ev reversed same <-> affine_between h A B)).
    Proof using.
      intros Hu. split; intros Hv; split.
      - intros S t Ht. destruct (S t Ht) as (P & Q & E1 & E2 & E3). unfold along in E2. rewrite Hu in E1. rewrite Hv in E2.
        injection E1 as <-. injection E2 as <-. apply (f_equal vz) in E3. unfold lift in E3. unfold lerp in *.
        cbn [vx vy vz] in *. lra.
      - intros Aff t Ht. unfold along. rewrite Hu, Hv. eexists _, _. split; [reflexivity|]. split; [reflexivity|].
        pose proof (Aff t Ht) as E. unfold same, lift. rewrite E. unfold lerp. apply vec_ext; cbn [vx vy vz]; ring.
      - intros S t Ht. destruct (S t Ht) as (P & Q & E1 & E2 & E3). unfold reversed in E2. rewrite Hu in E1. rewrite Hv in E2.
        injection E1 as <-. injection E2 as <-. apply (f_equal vz) in E3. unfold lift in E3. unfold lerp in *.
        cbn [vx vy vz] in *. lra.
      - intros Aff t Ht. unfold reversed. rewrite Hu, Hv. eexists _, _. split; [reflexivity|]. split; [reflexivity|].
        pose proof (Aff t Ht) as E. unfold same, lift. rewrite E. unfold lerp. apply vec_ext; cbn [vx vy vz]; ring.
    Qed.
    Lemma affine_sym h A B : affine_between h A B -> affine_between h B A.
    Proof using.
      intros H t Ht. pose proof (H (1 - t)) as E. unfold lerp in *; cbn [vx vy] in *.
      replace (1 - (1 - t)) with t in E by ring.
      rewrite (Rplus_comm ((1 - t) * vx B)), (Rplus_comm ((1 - t) * vy B)), E by lra. ring.
    Qed.
    Lemma joined_iff (D : dict (surf R)) na ea nb eb f c u v :
      dget D na = Some u -> dget D nb = Some v -> (joined D na ea nb eb f c <-> seam u ea v eb f c).
    Proof using.
      intros Eu Ev. split.
      - intros (u' & v' & E1 & E2 & S). rewrite Eu in E1. rewrite Ev in E2. injection E1 as E1. injection E2 as E2. subst u' v'. exact S.
      - intros S. exists u, v. auto.
    Qed.

    Lemma close_lookup top0 top1 bot0 bot1 t1 t2 tet teb tele c0 c1 c2 c3 e f :
      let D := ([("top_patch_0", top0); ("top_patch_1", top1); ("bot_patch_0", bot0); ("bot_patch_1", bot1)]%string
           ++ wing_leading_edge w t1 t2 ++ [("TE_top_patch", tet); ("TE_bot_patch", teb); ("TELE_patch", tele)]%string
           ++ [("wing_close_top_patch0", c0); ("wing_close_top_patch1", c1); ("wing_close_bot_patch0", c2); ("wing_close_bot_patch1", c3);
                ("interior_ellip", e); ("interior_flap_patch", f)]%string)%list in
      dget D "TE_top_patch" = Some tet /\ dget D "TE_bot_patch" = Some teb /\
      dget D "wing_close_top_patch0" = Some c0 /\ dget D "wing_close_top_patch1" = Some c1 /\
      dget D "wing_close_bot_patch0" = Some c2 /\ dget D "wing_close_bot_patch1" = Some c3 /\
      dget D "interior_ellip" = Some e /\ dget D "interior_flap_patch" = Some f /\
      dget D "top_patch_0" = Some top0 /\ dget D "top_patch_1" = Some top1 /\
      dget D "bot_patch_0" = Some bot0 /\ dget D "bot_patch_1" = Some bot1.
    Proof using. unfold wing_leading_edge. destruct (wing_flat w); repeat split. Qed.

    Theorem wing_root_seams :
      (joined d "top_patch_0" s0 "wing_close_top_patch0" s0 reversed same <-> affine_between ft (w_A1 w) (w_A0 w)) /\
      (joined d "top_patch_1" s0 "wing_close_top_patch1" s0 reversed same <-> affine_between ft (w_TT w) (w_A1 w)) /\
      (joined d "bot_patch_0" s0 "wing_close_bot_patch0" s1 along same <-> affine_between fb (w_A0 w) (w_A1 w)) /\
      (joined d "bot_patch_1" s0 "wing_close_bot_patch1" s1 along same <-> affine_between fb (w_A1 w) (w_TT w)) /\
      joined d "wing_close_top_patch0" s1 "wing_close_bot_patch0" s0 along same /\
      joined d "wing_close_top_patch1" s1 "wing_close_bot_patch1" s0 along same /\
      joined d "wing_close_top_patch0" r1 "wing_close_top_patch1" r0 along same /\
      joined d "wing_close_bot_patch0" r1 "wing_close_bot_patch1" r0 along same /\
      joined d "wing_close_top_patch0" r0 "interior_flap_patch" r0 reversed same /\
      joined d "wing_close_bot_patch0" r0 "interior_flap_patch" s0 along same /\
      joined d "interior_flap_patch" s1 "TE_top_patch" r0 reversed same /\
      joined d "interior_flap_patch" r1 "TE_bot_patch" r0 along same /\
      joined d "interior_ellip" r0 "wing_close_bot_patch1" r1 along same.
    Proof using Hbis HB1 Hline Hg0 Hg1 Htop Hbot Hd Hclose.
      destruct panels as (t1 & t2 & top0 & top1 & bot0 & bot1 & tr & rest & R1 & R2 & _ & _ & ED & ET &
        _ & P00 & _ & P1 & _ & _ & _ & P2 & _ & _ & P3 & P4 & _ & _ & _ & P5 & CL).
      rewrite Hclose in CL.
      assert (E0 : top0 0 0 = Ok (lift ft (w_A1 w))) by (rewrite P00, lerp_0; reflexivity).
      assert (E1 : bot0 1 0 = Ok (lift fb (w_A1 w))) by (rewrite P3, lerp_0; reflexivity).
      destruct (closing_inv top0 bot0 rest CL E0 E1) as (c0 & c1 & c2 & c3 & e & f & k & et & eb & Ek & C0 & C1 & C2 & C3 & Et & Eb & Ce & Cf & ER).
      destruct (trailing_patches tr ET) as (tet & teb & tele & west & north & EQ & _ & _ & _ & _ & _ & _ & T0 & U0 & _).
      set (e' := RotatedPatch e (-90 * (PI / 180)) "z" mT) in *.
      pose proof (close_lookup top0 top1 bot0 bot1 t1 t2 tet teb tele c0 c1 c2 c3 e' f) as LK.
      rewrite EQ, ER in ED. cbv zeta in LK. rewrite <- ED in LK. clear ED.
      destruct LK as (L1 & L2 & L3 & L4 & L5 & L6 & L7 & L8 & M1 & M2 & M3 & M4).
      destruct (coons_surf _ _ _ _ _ _ _ _ c0 (line_evaluates _ _) (line_evaluates _ _) (line_evaluates _ _) (line_evaluates _ _) C0)
        as (A1 & A2 & A3 & A4); rewrite ?lerp_0, ?lerp_1; auto.
      destruct (coons_surf _ _ _ _ _ _ _ _ c1 (line_evaluates _ _) (line_evaluates _ _) (line_evaluates _ _) (line_evaluates _ _) C1)
        as (B1 & B2 & B3 & B4); rewrite ?lerp_0, ?lerp_1; auto.
      destruct (coons_surf _ _ _ _ _ _ _ _ c2 (line_evaluates _ _) (line_evaluates _ _) (line_evaluates _ _) (line_evaluates _ _) C2)
        as (D1 & D2 & D3 & D4); rewrite ?lerp_0, ?lerp_1; auto.
      destruct (coons_surf _ _ _ _ _ _ _ _ c3 (line_evaluates _ _) (line_evaluates _ _) (line_evaluates _ _) (line_evaluates _ _) C3)
        as (F1 & F2 & F3 & F4); rewrite ?lerp_0, ?lerp_1; auto.
      destruct (coons_surf _ _ _ _ _ _ _ _ f (line_evaluates _ _) (line_evaluates _ _) (line_evaluates _ _) (line_evaluates _ _) Cf)
        as (G1 & G2 & G3 & G4); rewrite ?lerp_0, ?lerp_1; auto.
      destruct (elipse_arc mT bT k "top") as (q & Eq & Vt); [auto|]. rewrite Et in Eq. injection Eq as <-.
      destruct (elipse_arc mT (- bT) k "bot") as (q & Eq & Vb); [auto|]. rewrite Eb in Eq. injection Eq as <-.
      destruct (coons_surf_w _ _ _ _ _ _ _ _ e (sub_evaluates _ _ 1 0 Vb) Vt (line_evaluates _ _) (line_evaluates _ _) Ce)
        as (K1 & _ & _ & _).
      split; [|split; [|split; [|split]]].
      - rewrite (joined_iff _ _ _ _ _ _ _ _ _ M1 L3).
        apply (proj2 (root_iff ft top0 c0 s0 s0 (w_A1 w) (w_A0 w) P1)). exact A3.
      - rewrite (joined_iff _ _ _ _ _ _ _ _ _ M2 L4).
        apply (proj2 (root_iff ft top1 c1 s0 s0 (w_TT w) (w_A1 w) P2)). exact B3.
      - rewrite (joined_iff _ _ _ _ _ _ _ _ _ M3 L5).
        apply (proj1 (root_iff fb bot0 c2 s0 s1 (w_A0 w) (w_A1 w) P4)). exact D4.
      - rewrite (joined_iff _ _ _ _ _ _ _ _ _ M4 L6).
        apply (proj1 (root_iff fb bot1 c3 s0 s1 (w_A1 w) (w_TT w) P5)). exact F4.
      - assert (S : forall (u v : surf R) ea eb' h gu gv,
          (forall t, u (fst (on_side ea t)) (snd (on_side ea t)) = Ok (gu t)) ->
          (forall t, v (fst (on_side eb' t)) (snd (on_side eb' t)) = Ok (gv t)) ->
          (forall t, gu t = gv (h t)) -> seam u ea v eb' h same).
        { intros u v ea eb' h gu gv Eu Ev Eg t Ht. rewrite Eu, Ev. eexists _, _. split; [reflexivity|]. split; [reflexivity|]. apply Eg. }
        assert (LR : forall t (x y : pt), lerp t x y = lerp (reversed t) y x)
          by (intros; unfold lerp, reversed; apply vec_ext; cbn [vx vy vz]; ring).
        repeat split; (eapply joined_iff; [eassumption|eassumption|]).
        + refine (S _ _ s1 s0 _ _ _ A4 D3 _). reflexivity.
        + refine (S _ _ s1 s0 _ _ _ B4 F3 _). reflexivity.
        + refine (S _ _ r1 r0 _ _ _ A2 B1 _). reflexivity.
        + refine (S _ _ r1 r0 _ _ _ D2 F1 _). reflexivity.
        + refine (S _ _ r0 r0 _ _ _ A1 G1 _). intros; apply LR.
        + refine (S _ _ r0 s0 _ _ _ D1 G3 _). reflexivity.
        + refine (S _ _ s1 r0 _ _ _ G4 T0 _). intros; apply LR.
        + refine (S _ _ r1 r0 _ _ _ G2 U0 _). reflexivity.
        + refine (S _ _ r0 r1 _ (fun t => lerp t mT (lift fb (w_TT w))) _ _ F2 _); [|reflexivity].
          intros t. cbn [on_side fst snd]. unfold e', RotatedPatch. rewrite K1. cbn [bind lower_axis String.eqb Ascii.eqb Bool.eqb].
          unfold rotate_vec; cbn [String.eqb Ascii.eqb Bool.eqb bind]. f_equal.
          unfold lerp, lift, vsub, vadd; numR. apply vec_ext; cbn [vx vy vz]; ring.
    Qed.

    (** the elliptical closing patch *)
    Theorem wing_root_ellipse W : 0 < W ->
      (forall t, 0 <= t <= 1 -> exists k, wing_width w t = Ok k /\ W <= k) ->
      wing_flat w = false ->
      (forall t, 0 <= t <= 1 -> ft (vx (g t)) (vy (g t)) < fb (vx (g t)) (vy (g t))) ->
      joined d "interior_ellip" r1 "LE_top_patch_2" r0 along same /\
      joined d "interior_ellip" s0 "wing_close_top_patch1" r1 reversed (within bT W) /\
      joined d "interior_ellip" s1 "LE_bot_patch_2" r0 reversed (within bT W).
    Proof using Hbis HB1 Hline Hg0 Hg1 Htop Hbot Hd Hclose.
      intros HW Hwf Hell Hthick.
      destruct panels as (t1 & t2 & top0 & top1 & bot0 & bot1 & tr & rest & R1 & R2 & _ & _ & ED & ET &
        _ & P00 & _ & P1 & _ & _ & _ & P2 & _ & _ & P3 & P4 & _ & _ & _ & P5 & CL).
      rewrite Hclose in CL.
      assert (E0 : top0 0 0 = Ok (lift ft (w_A1 w))) by (rewrite P00, lerp_0; reflexivity).
      assert (E1 : bot0 1 0 = Ok (lift fb (w_A1 w))) by (rewrite P3, lerp_0; reflexivity).
      destruct (closing_inv top0 bot0 rest CL E0 E1) as (c0 & c1 & c2 & c3 & e & f & k & et & eb & Ek & C0 & C1 & C2 & C3 & Et & Eb & Ce & Cf & ER).
      destruct (trailing_patches tr ET) as (tet & teb & tele & west & north & EQ & _).
      destruct (coons_surf _ _ _ _ _ _ _ _ c1 (line_evaluates _ _) (line_evaluates _ _) (line_evaluates _ _) (line_evaluates _ _) C1)
        as (B1 & B2 & B3 & B4); rewrite ?lerp_0, ?lerp_1; auto.
      destruct (elipse_arc mT bT k "top") as (q & Eq & Vt); [auto|]. rewrite Et in Eq. injection Eq as <-.
      destruct (elipse_arc mT (- bT) k "bot") as (q & Eq & Vb); [auto|]. rewrite Eb in Eq. injection Eq as <-.
      destruct (coons_surf_w _ _ _ _ _ _ _ _ e (sub_evaluates _ _ 1 0 Vb) Vt (line_evaluates _ _) (line_evaluates _ _) Ce)
        as (K1 & K2 & K3 & K4).
      replace (1 + 0 * (0 - 1)) with 1 in * by ring. replace (1 + 1 * (0 - 1)) with 0 in * by ring.
      rewrite !lerp_0, !lerp_1 in *.
      destruct (le_section (w_line w) g (w_top w) (w_bot w) ft fb (wing_width w) W Hline Htop Hbot Hthick Hwf
          t2 1 0 1) as (k' & al & Lk & Ek' & Ea & Hb & ST & SB); [ring|lra|].
      rewrite Ek in Ek'. injection Ek' as <-. rewrite le_angle_1 in Ea. injection Ea as <-.
      rewrite Hg1 in *. set (b := bT) in *.
      destruct (el_u_ends b k "top") as [U0 U1]; [lra|lra|auto|].
      destruct (el_u_ends (- b) k "bot") as [V0 V1]; [lra|lra|auto|].
      destruct (el_pt_ends mT b k) as (X0 & X1 & _ & _); [lra|lra|].
      destruct (el_pt_ends mT (- b) k) as (_ & _ & Y0 & Y1); [lra|lra|].
      rewrite Rabs_Ropp in Y1. rewrite !Rabs_pos_eq in X0, Y1 by lra.
      destruct (gap_bounds k b) as [[G1 G2] [G3 G4]]; [lra|lra|].
      rewrite leading_ell, EQ, ER in ED by exact Hell. cbv zeta in ED. rewrite ED. clear ED.
      (* a quarter turn about the vertical through mT *)
      set (turn := fun p : pt => V3 (vx mT + (vy p - vy mT)) (vy mT - (vx p - vx mT)) (vz p)).
      assert (RT : forall r s p, e r s = Ok p -> RotatedPatch e (-90 * (PI / 180)) "z" mT r s = Ok (turn p)).
      { intros r s p Ep. unfold RotatedPatch. rewrite Ep. cbn [bind]. unfold rotate_vec, lower_axis; cbn [String.eqb Ascii.eqb Bool.eqb bind].
        numR. replace (-90 * (PI / 180)) with (- (PI / 2)) by field. rewrite cos_neg, sin_neg, cos_PI2, sin_PI2.
        f_equal. unfold turn, vsub, vadd; numR. apply vec_ext; cbn [vx vy vz]; ring. }
      split; [|split];
        eexists _, _; (split; [reflexivity|]); (split; [reflexivity|]); intros t Ht; cbn [on_side fst snd]; unfold along, reversed.
      - rewrite (RT _ _ _ (K2 t)). eexists _, _. split; [reflexivity|]. split; [apply ST|].
        unfold same, section_pt, turn. rewrite cos_0, sin_0. unfold el_pt; cbn [vx vy vz]. apply vec_ext; cbn [vx vy vz]; ring.
      - rewrite (RT _ _ _ (K3 t)). eexists _, _. split; [reflexivity|]. split; [apply B2|]. rewrite U0, X0.
        apply (within_turn W HW b k t t Hb Lk); [lra|lra| | |];
          unfold turn, lerp, blend_err, translate, tip, lift, b, half_h, mid_h; cbn [vx vy vz]; field.
      - rewrite (RT _ _ _ (K4 t)). eexists _, _. split; [reflexivity|]. split; [apply SB|]. rewrite U1, X1, V0, Y0, V1, Y1.
        replace (1 + t * (0 - 1)) with (1 - t) by ring.
        apply (within_turn W HW b k (- (1 - t)) (1 - t) Hb Lk); [lra|lra| | |];
          unfold section_pt, turn, lerp, blend_err, translate, tip, lift, el_pt, b, half_h, mid_h; rewrite ?cos_0, ?sin_0; cbn [vx vy vz]; field.
    Qed.
  End Close.
End Wing.
