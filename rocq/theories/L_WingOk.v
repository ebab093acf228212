(** When the patches of a wing can be built. *)
From Coq Require Import Reals Lra String List Lia ZArith Bool.
From Verif Require Import Num NumR Py M_Vector SpecR3 M_Path M_Surface M_Geometry M_Component M_Common M_Wing
  SpecPath SpecPoly SpecSurf SpecWing L_Vector L_Line L_Coons L_ArcLength L_Curves L_Ellipse L_Wing.
Import ListNotations.
Local Open Scope R_scope.
Local Opaque el_u el_pt ArcLengthParameterizedPath.

Lemma near_refl p : near p p.
Proof.
  unfold near, near1. repeat split;
    (match goal with |- Rabs (?x - ?x) <= _ => replace (x - x) with 0 by ring;
      rewrite Rabs_R0; pose proof (Rabs_pos x); lra end).
Qed.
Lemma near_small a b : Rabs (vx a - vx b) <= 1 / 100000 -> Rabs (vy a - vy b) <= 1 / 100000 ->
  Rabs (vz a - vz b) <= 1 / 100000 -> near a b.
Proof.
  intros X Y Z. unfold near, near1. pose proof (Rabs_pos (vx b)). pose proof (Rabs_pos (vy b)). pose proof (Rabs_pos (vz b)). lra.
Qed.

Lemma coons_ok (n e s w : path R) gn ge gs gw :
  evaluates n gn -> evaluates e ge -> evaluates s gs -> evaluates w gw ->
  near (gs 0) (gw 0) -> near (gs 1) (ge 0) -> near (gn 0) (gw 1) -> near (gn 1) (ge 1) ->
  exists u, CoonsPatch n e s w = Ok u.
Proof.
  intros Hn He Hs Hw A B C D. unfold CoonsPatch.
  rewrite (coons_edges_ok n e s w gn ge gs gw Hn He Hs Hw zero_offset) by (repeat split; assumption || apply A || apply B || apply C || apply D).
  eexists; reflexivity.
Qed.
Lemma coons_ok_exact (n e s w : path R) gn ge gs gw :
  evaluates n gn -> evaluates e ge -> evaluates s gs -> evaluates w gw ->
  gs 0 = gw 0 -> gs 1 = ge 0 -> gn 0 = gw 1 -> gn 1 = ge 1 ->
  exists u, CoonsPatch n e s w = Ok u.
Proof.
  intros Hn He Hs Hw A B C D.
  apply (coons_ok n e s w gn ge gs gw Hn He Hs Hw); [rewrite A|rewrite B|rewrite C|rewrite D]; apply near_refl.
Qed.

Lemma mte_ok mean te gm gt L a sd : evaluates mean gm -> evaluates te gt -> sd = "top"%string \/ sd = "bot"%string ->
  exists u, MeanTrailingEdgePatch mean te L a sd = Ok u.
Proof.
  intros Hm Ht S. unfold MeanTrailingEdgePatch. numR. rewrite (Hm 0), (Hm 1).
  destruct S as [-> | ->]; cbn [bind String.eqb Ascii.eqb Bool.eqb];
    rewrite !(line_evaluates _ _ _), !(Ht _); cbn [bind]; rewrite !lerp_0, !lerp_1;
    (eapply coons_ok_exact; [exact Ht || apply line_evaluates|apply line_evaluates|exact Ht || apply line_evaluates|apply line_evaluates|..];
     cbv beta; rewrite ?lerp_0, ?lerp_1; reflexivity).
Qed.

Section Ok.
  Variable bisect : (R -> res R) -> R -> R -> res R.
  Variables (w : wing R) (g : R -> pt) (ft fb : R -> R -> R).
  Hypothesis Hline : evaluates (w_line w) g.
  Hypothesis Hg0 : g 0 = w_B0 w.
  Hypothesis Hg1 : g 1 = w_TT w.
  Hypothesis Htop : vertical (w_top w) ft.
  Hypothesis Hbot : vertical (w_bot w) fb.
  Hypothesis Hbez : lower (w_line_type w) = "bezier"%string.
  Hypothesis Hflap : w_tail w = "FLAP"%string.

  Lemma planform_ok t1 t2 : exists p, wing_planform w t1 (Some t2) = Ok p.
  Proof using Hline Hg0 Hg1 Hbez.
    unfold wing_planform. rewrite Hbez. cbn [String.eqb Ascii.eqb Bool.eqb sub_to]. rewrite (Hline t1). cbn [bind].
    pose proof (sub_evaluates (w_line w) g 0 t1 Hline) as S01.
    pose proof (sub_evaluates (w_line w) g t1 t2 Hline) as S12.
    pose proof (sub_evaluates (w_line w) g 1 t2 Hline) as ST2.
    numR.
    destruct (coons_ok_exact _ _ _ _ _ _ _ _ S01 (line_evaluates (w_A1 w) (g t1)) (line_evaluates (w_A0 w) (w_A1 w)) (line_evaluates (w_A0 w) (w_B0 w)))
      as [p0 ->]; rewrite ?lerp_0, ?lerp_1; auto.
    { rewrite <- Hg0. f_equal. ring. } { f_equal. ring. } cbn [bind].
    destruct (coons_ok_exact _ _ _ _ _ _ _ _ S12 ST2 (line_evaluates (w_A1 w) (w_TT w)) (line_evaluates (w_A1 w) (g t1)))
      as [p1 ->]; rewrite ?lerp_0, ?lerp_1; auto.
    { rewrite <- Hg1. f_equal. ring. } { f_equal. ring. } { f_equal. ring. } cbn [bind].
    destruct (coons_ok_exact _ _ _ _ _ _ _ _ (sub_evaluates _ _ 1 0 S01) (line_evaluates (w_A0 w) (w_B0 w)) (line_evaluates (w_A1 w) (w_A0 w)) (line_evaluates (w_A1 w) (g t1)))
      as [f0 ->]; rewrite ?lerp_0, ?lerp_1; auto.
    { f_equal. ring. } { rewrite <- Hg0. f_equal. ring. } cbn [bind].
    destruct (coons_ok_exact _ _ _ _ _ _ _ _ (sub_evaluates _ _ 1 0 S12) (line_evaluates (w_A1 w) (g t1)) (line_evaluates (w_TT w) (w_A1 w)) ST2)
      as [f1 ->]; rewrite ?lerp_0, ?lerp_1; auto.
    { rewrite <- Hg1. f_equal. ring. } { f_equal. ring. } { f_equal. ring. } cbn [bind].
    eexists; reflexivity.
  Qed.

  Notation L := (w_flap_length w).
  Notation a := (w_flap_angle w).
  Notation half p := (half_h ft fb (vx p) (vy p)).
  Notation mid p := (lift (mid_h ft fb) p).

  (** an ellipse whose end gap passes the corner test of CoonsPatch *)
  Definition small (b k : R) : Prop :=
    0 < b /\ 0 < k /\ b / tan_big <= 1 / 100000 /\
    b * (b * b) / (2 * (k * k) * (tan_big * tan_big)) <= 1 / 100000.

  Lemma small_ends m b k : small b k ->
    el_pt m b k "top" (el_u b k "top" 1) = el_pt m (- b) k "bot" (el_u (- b) k "bot" 0) /\
    near (V3 (vx m) (vy m) (vz m - b)) (el_pt m b k "top" (el_u b k "top" 0)) /\
    near (el_pt m b k "top" (el_u b k "top" 0)) (V3 (vx m) (vy m) (vz m - b)) /\
    near (V3 (vx m) (vy m) (vz m + b)) (el_pt m (- b) k "bot" (el_u (- b) k "bot" 1)) /\
    near (el_pt m (- b) k "bot" (el_u (- b) k "bot" 1)) (V3 (vx m) (vy m) (vz m + b)).
  Proof using.
    intros (Hb & Hk & H1 & H2).
    destruct (el_u_ends b k "top") as [-> ->]; [lra|lra|auto|].
    destruct (el_u_ends (- b) k "bot") as [-> ->]; [lra|lra|auto|].
    destruct (el_pt_ends m b k) as (-> & -> & _ & _); [lra|lra|].
    destruct (el_pt_ends m (- b) k) as (_ & _ & -> & ->); [lra|lra|].
    rewrite Rabs_Ropp. rewrite !Rabs_pos_eq by lra.
    destruct (gap_bounds k b) as [[G1 G2] [G3 G4]]; [lra|lra|].
    split; [reflexivity|]. repeat split; apply near_small; cbn [vx vy vz];
      match goal with |- Rabs ?x <= _ => apply Rabs_le; ring_simplify x; lra end.
  Qed.

  Lemma mid_top p : V3 (vx (mid p)) (vy (mid p)) (vz (mid p) - half p) = lift ft p.
  Proof using. unfold lift, mid_h, half_h. apply vec_ext; cbn [vx vy vz]; field. Qed.
  Lemma mid_bot p : V3 (vx (mid p)) (vy (mid p)) (vz (mid p) + half p) = lift fb p.
  Proof using. unfold lift, mid_h, half_h. apply vec_ext; cbn [vx vy vz]; field. Qed.

  Lemma trailing_ok :
    wing_flat w = true \/ (exists k, wing_width w 0 = Ok k /\ small (half (w_B0 w)) k) ->
    exists p, wing_trailing_edge w = Ok p.
  Proof using Htop Hbot Hflap.
    intros H. unfold wing_trailing_edge. rewrite Hflap. cbn [String.eqb Ascii.eqb Bool.eqb].
    pose proof (te_path (w_A0 w) (w_B0 w) _ ft Htop) as PT. pose proof (te_path (w_A0 w) (w_B0 w) _ fb Hbot) as PB.
    pose proof (te_mean_ev w ft fb Htop Hbot) as PM.
    destruct (mte_ok _ _ _ _ L a "top" PM PT) as [tet Et]; [auto|]. unfold wing_TE_top at 1. rewrite Et. cbn [bind].
    destruct (mte_ok _ _ _ _ L a "bot" PM PB) as [teb Eb]; [auto|]. unfold wing_TE_bot at 1. rewrite Eb. cbn [bind].
    unfold wing_TE_top, wing_TE_bot. numR. rewrite (PT 1), (PM 1), (PB 1). cbn [bind]. rewrite !lerp_1.
    change (V3 (vx (mid (w_B0 w))) (vy (mid (w_B0 w))) (vz (lift ft (w_B0 w)))) with (lift ft (w_B0 w)).
    change (V3 (vx (mid (w_B0 w))) (vy (mid (w_B0 w))) (vz (lift fb (w_B0 w)))) with (lift fb (w_B0 w)).
    change (flap_tip w (mid (w_B0 w))) with (tip L a (mid (w_B0 w))).
    destruct (wing_flat w) eqn:F.
    - cbn [bind].
      destruct (coons_ok_exact _ _ _ _ _ _ _ _ (line_evaluates (mid (w_B0 w)) (lift fb (w_B0 w)))
        (line_evaluates (tip L a (mid (w_B0 w))) (lift fb (w_B0 w)))
        (line_evaluates (lift ft (w_B0 w)) (tip L a (mid (w_B0 w)))) (line_evaluates (lift ft (w_B0 w)) (mid (w_B0 w)))) as [u ->];
        rewrite ?lerp_0, ?lerp_1; auto.
      cbn [bind]. eexists; reflexivity.
    - destruct H as [H|(k & Ek & Hs)]; [discriminate|].
      assert (X1 : vz (mid (w_B0 w)) - vz (lift ft (w_B0 w)) = half (w_B0 w)) by (unfold lift, mid_h, half_h; cbn [vz]; field).
      assert (X2 : vz (mid (w_B0 w)) - vz (lift fb (w_B0 w)) = - half (w_B0 w)) by (unfold lift, mid_h, half_h; cbn [vz]; field).
      rewrite X1, X2. pose proof Hs as (Hb & _).
      rewrite (proj2 (Reqb_false _ _)) by lra. rewrite (proj2 (Reqb_false _ _)) by lra. cbn [orb].
      rewrite Ek. cbn [bind].
      destruct (elipse_arc (mid (w_B0 w)) (half (w_B0 w)) k "top") as (et & E1 & V1); [auto|]. rewrite E1. cbn [bind].
      destruct (elipse_arc (mid (w_B0 w)) (- half (w_B0 w)) k "bot") as (eb & E2 & V2); [auto|]. rewrite E2. cbn [bind].
      destruct (small_ends (mid (w_B0 w)) _ _ Hs) as (S1 & S2 & _ & _ & S5). rewrite mid_top in S2. rewrite mid_bot in S5.
      destruct (coons_ok _ _ _ _ _ _ _ _ V2 (line_evaluates (tip L a (mid (w_B0 w))) (lift fb (w_B0 w)))
        (line_evaluates (lift ft (w_B0 w)) (tip L a (mid (w_B0 w)))) V1) as [u ->]; rewrite ?lerp_0, ?lerp_1; auto using near_refl.
      { rewrite S1. apply near_refl. }
      cbn [bind]. eexists; reflexivity.
  Qed.

  Lemma closing_ok (top0 bot0 : surf R) :
    top0 0 0 = Ok (lift ft (w_A1 w)) -> bot0 1 0 = Ok (lift fb (w_A1 w)) ->
    (exists k, wing_width w 1 = Ok k /\ small (half (w_TT w)) k) ->
    exists p, wing_closing w top0 bot0 = Ok p.
  Proof using Htop Hbot.
    intros E0 E1 (k & Ek & Hs). unfold wing_closing. numR.
    rewrite (Htop _ _ _), (Hbot _ _ _). cbn [bind].
    unfold wing_TE_top at 1, wing_TE_bot at 1.
    rewrite (te_path (w_A0 w) (w_B0 w) _ ft Htop 0), (te_path (w_A0 w) (w_B0 w) _ fb Hbot 0), (te_mean_ev w ft fb Htop Hbot 0).
    cbn [bind]. rewrite E0. cbn [bind]. rewrite E1. cbn [bind]. rewrite !lerp_0.
    assert (X1 : forall h, vadd (w_TT w) (V3 0 0 (h (vx (w_TT w)) (vy (w_TT w)))) = lift h (w_TT w))
        by (intros h; unfold lift, vadd; numR; apply vec_ext; cbn [vx vy vz]; ring).
    rewrite !X1.
    assert (X2 : vscale (vadd (lift ft (w_TT w)) (lift fb (w_TT w))) (1 / 2) = mid (w_TT w))
      by (unfold lift, vadd, vscale, mid_h; numR; apply vec_ext; cbn [vx vy vz]; field).
    rewrite X2.
    assert (X3 : V3 (vx (lift fb (w_A1 w))) (vy (lift fb (w_A1 w))) ((vz (lift fb (w_A1 w)) + vz (lift ft (w_A1 w))) / 2) = mid (w_A1 w))
      by (unfold lift, mid_h; apply vec_ext; cbn [vx vy vz]; field).
    rewrite X3.
    assert (X4 : vz (mid (w_TT w)) - vz (lift ft (w_TT w)) = half (w_TT w)) by (unfold lift, mid_h, half_h; cbn [vz]; field).
    assert (X5 : vz (mid (w_TT w)) - vz (lift fb (w_TT w)) = - half (w_TT w)) by (unfold lift, mid_h, half_h; cbn [vz]; field).
    rewrite X4, X5. change (flap_tip w (mid (w_A0 w))) with (tip L a (mid (w_A0 w))).
    assert (C : forall p q r s : pt, exists u, CoonsPatch (Line p q) (Line r q) (Line s r) (Line s p) = Ok u).
    { intros p q r s. eapply coons_ok_exact; [apply line_evaluates|apply line_evaluates|apply line_evaluates|apply line_evaluates|..];
        cbv beta; rewrite ?lerp_0, ?lerp_1; reflexivity. }
    repeat (match goal with |- context [CoonsPatch (Line ?p ?q) (Line ?r ?q) (Line ?s ?r) (Line ?s ?p)] =>
      let u := fresh "u" in destruct (C p q r s) as [u ->] end; cbn [bind]).
    rewrite Ek. cbn [bind].
    destruct (elipse_arc (mid (w_TT w)) (half (w_TT w)) k "top") as (et & F1 & V1); [auto|]. rewrite F1. cbn [bind].
    destruct (elipse_arc (mid (w_TT w)) (- half (w_TT w)) k "bot") as (eb & F2 & V2); [auto|]. rewrite F2. cbn [bind].
    destruct (small_ends (mid (w_TT w)) _ _ Hs) as (S1 & S2 & _ & _ & S5). rewrite mid_top in S2. rewrite mid_bot in S5.
    destruct (coons_ok _ _ _ _ _ _ _ _ (sub_evaluates _ _ 1 0 V2) V1 (line_evaluates (mid (w_TT w)) (lift ft (w_TT w)))
      (line_evaluates (mid (w_TT w)) (lift fb (w_TT w)))) as [ue ->]; rewrite ?lerp_0, ?lerp_1; auto using near_refl.
    { replace (1 + 0 * (0 - 1)) with 1 by ring. exact S5. }
    { replace (1 + 1 * (0 - 1)) with 0 by ring. rewrite S1. apply near_refl. }
    cbn [bind].
    eexists; reflexivity.
  Qed.

  (** an undefined width stops the closing *)
  Lemma closing_raise (top0 bot0 : surf R) e :
    top0 0 0 = Ok (lift ft (w_A1 w)) -> bot0 1 0 = Ok (lift fb (w_A1 w)) ->
    wing_width w 1 = Raise e -> wing_closing w top0 bot0 = Raise e.
  Proof using Htop Hbot.
    intros E0 E1 Ek. unfold wing_closing. numR.
    rewrite (Htop _ _ _), (Hbot _ _ _). cbn [bind].
    unfold wing_TE_top at 1, wing_TE_bot at 1.
    rewrite (te_path (w_A0 w) (w_B0 w) _ ft Htop 0), (te_path (w_A0 w) (w_B0 w) _ fb Hbot 0), (te_mean_ev w ft fb Htop Hbot 0).
    cbn [bind]. rewrite E0. cbn [bind]. rewrite E1. cbn [bind].
    assert (C : forall p q r s : pt, exists u, CoonsPatch (Line p q) (Line r q) (Line s r) (Line s p) = Ok u).
    { intros p q r s. eapply coons_ok_exact; [apply line_evaluates|apply line_evaluates|apply line_evaluates|apply line_evaluates|..];
        cbv beta; rewrite ?lerp_0, ?lerp_1; reflexivity. }
    repeat (match goal with |- context [CoonsPatch (Line ?p ?q) (Line ?r ?q) (Line ?s ?r) (Line ?s ?p)] =>
      let u := fresh "u" in destruct (C p q r s) as [u ->] end; cbn [bind]).
    rewrite Ek. reflexivity.
  Qed.

  (** everything but the closing patches *)
  Lemma wing_open t1 t2 : wing_t_B1 bisect w = Ok t1 -> wing_t_B2 w t1 = Some t2 ->
    wing_flat w = true \/ (exists k, wing_width w 0 = Ok k /\ small (half (w_B0 w)) k) ->
    exists top0 bot0 pre, top0 0 0 = Ok (lift ft (w_A1 w)) /\ bot0 1 0 = Ok (lift fb (w_A1 w)) /\
      wing_patches bisect w =
        let! cl := (if w_close w then wing_closing w top0 bot0 else Ok []) in Ok (pre ++ cl)%list.
  Proof using Hline Hg0 Hg1 Htop Hbot Hbez Hflap.
    intros E1 E2 HB. unfold wing_patches. rewrite E1. cbn [bind]. rewrite E2. cbn [bind].
    unfold wing_planform. rewrite Hbez. cbn [String.eqb Ascii.eqb Bool.eqb sub_to]. rewrite (Hline t1). cbn [bind].
    pose proof (sub_evaluates (w_line w) g 0 t1 Hline) as S01.
    pose proof (sub_evaluates (w_line w) g t1 t2 Hline) as S12.
    pose proof (sub_evaluates (w_line w) g 1 t2 Hline) as ST2.
    numR.
    destruct (coons_ok_exact _ _ _ _ _ _ _ _ S01 (line_evaluates (w_A1 w) (g t1)) (line_evaluates (w_A0 w) (w_A1 w)) (line_evaluates (w_A0 w) (w_B0 w)))
      as [p0 P0]; rewrite ?lerp_0, ?lerp_1; auto.
    { rewrite <- Hg0. f_equal. ring. } { f_equal. ring. }
    destruct (coons_ok_exact _ _ _ _ _ _ _ _ S12 ST2 (line_evaluates (w_A1 w) (w_TT w)) (line_evaluates (w_A1 w) (g t1)))
      as [p1 P1]; rewrite ?lerp_0, ?lerp_1; auto.
    { rewrite <- Hg1. f_equal. ring. } { f_equal. ring. } { f_equal. ring. }
    destruct (coons_ok_exact _ _ _ _ _ _ _ _ (sub_evaluates _ _ 1 0 S01) (line_evaluates (w_A0 w) (w_B0 w)) (line_evaluates (w_A1 w) (w_A0 w)) (line_evaluates (w_A1 w) (g t1)))
      as [f0 F0]; rewrite ?lerp_0, ?lerp_1; auto.
    { f_equal. ring. } { rewrite <- Hg0. f_equal. ring. }
    destruct (coons_ok_exact _ _ _ _ _ _ _ _ (sub_evaluates _ _ 1 0 S12) (line_evaluates (w_A1 w) (g t1)) (line_evaluates (w_TT w) (w_A1 w)) ST2)
      as [f1 F1]; rewrite ?lerp_0, ?lerp_1; auto.
    { rewrite <- Hg1. f_equal. ring. } { f_equal. ring. } { f_equal. ring. }
    rewrite P0. cbn [bind]. rewrite P1. cbn [bind]. rewrite F0. cbn [bind]. rewrite F1. cbn [bind].
    destruct (trailing_ok HB) as [tr ->]. cbn [bind].
    destruct (coons_surf_w _ _ _ _ _ _ _ _ f0 (sub_evaluates _ _ 1 0 S01) (line_evaluates (w_A0 w) (w_B0 w)) (line_evaluates (w_A1 w) (w_A0 w)) (line_evaluates (w_A1 w) (g t1)) F0) as (A & _).
    destruct (coons_surf_w _ _ _ _ _ _ _ _ p0 S01 (line_evaluates (w_A1 w) (g t1)) (line_evaluates (w_A0 w) (w_A1 w)) (line_evaluates (w_A0 w) (w_B0 w)) P0) as (_ & B & _).
    exists (OffsetPatchFunction f0 (w_top w)), (OffsetPatchFunction p0 (w_bot w)).
    exists ([("top_patch_0", OffsetPatchFunction f0 (w_top w)); ("top_patch_1", OffsetPatchFunction f1 (w_top w));
             ("bot_patch_0", OffsetPatchFunction p0 (w_bot w)); ("bot_patch_1", OffsetPatchFunction p1 (w_bot w))]%string
             ++ wing_leading_edge w t1 t2 ++ tr)%list.
    split; [rewrite (offset_patch f0 _ ft 0 0 _ Htop (A 0)), lerp_0; reflexivity|].
    split; [rewrite (offset_patch p0 _ fb 1 0 _ Hbot (B 0)), lerp_0; reflexivity|].
    cbn [dget String.eqb Ascii.eqb Bool.eqb].
    destruct (w_close w); [destruct (wing_closing w _ _) as [cl|]|]; cbn [bind]; try reflexivity;
      rewrite <- !app_assoc; reflexivity.
  Qed.

  (** every requested patch is built *)
  Theorem wing_ok t1 t2 : wing_t_B1 bisect w = Ok t1 -> wing_t_B2 w t1 = Some t2 ->
    wing_flat w = true \/ (exists k, wing_width w 0 = Ok k /\ small (half (w_B0 w)) k) ->
    (w_close w = true -> exists k, wing_width w 1 = Ok k /\ small (half (w_TT w)) k) ->
    exists d, wing_patches bisect w = Ok d.
  Proof using Hline Hg0 Hg1 Htop Hbot Hbez Hflap.
    intros E1 E2 HB HT. destruct (wing_open t1 t2 E1 E2 HB) as (top0 & bot0 & pre & A & B & ->).
    destruct (w_close w); [|eexists; reflexivity].
    destruct (closing_ok top0 bot0 A B (HT eq_refl)) as [cl ->]. eexists; reflexivity.
  Qed.
  Theorem wing_close_raise t1 t2 e : wing_t_B1 bisect w = Ok t1 -> wing_t_B2 w t1 = Some t2 ->
    wing_flat w = true \/ (exists k, wing_width w 0 = Ok k /\ small (half (w_B0 w)) k) ->
    w_close w = true -> wing_width w 1 = Raise e -> wing_patches bisect w = Raise e.
  Proof using Hline Hg0 Hg1 Htop Hbot Hbez Hflap.
    intros E1 E2 HB HC HT. destruct (wing_open t1 t2 E1 E2 HB) as (top0 & bot0 & pre & A & B & ->).
    rewrite HC, (closing_raise top0 bot0 e A B HT). reflexivity.
  Qed.
End Ok.
