(** The patches of a wing can be evaluated everywhere on the unit square, also
    when the thickness functions are defined only over the planform. *)
From Coq Require Import Reals Lra String List Lia ZArith Bool FunctionalExtensionality.
From Verif Require Import Num NumR Py M_Vector SpecR3 M_Path M_Surface M_Geometry M_Component M_Common M_Wing
  SpecPath SpecPoly SpecSurf SpecWing SpecHtv L_Vector L_Line L_Coons L_ArcLength L_Curves L_Ellipse L_Wing L_WingOk.
Import ListNotations.
Local Open Scope R_scope.
Local Opaque el_u el_pt MeanLeadingEdgePatchFunction ArcLengthParameterizedPath ElipsePath CoonsPatch Line flap_tip.
Local Transparent CoonsPatch.


(** value of a Coons patch *)
Definition blend (gn ge gs gw : R -> pt) (r s : R) (c : pt -> R) : R :=
  c (gs r) * (1 - s) + c (gn r) * s + c (gw s) * (1 - r) + c (ge s) * r
  - (c (gs 0) * (1 - r) * (1 - s) + c (gn 0) * (1 - r) * s + c (gs 1) * r * (1 - s) + c (gn 1) * r * s).
Lemma coons_value (n e s w : path R) gn ge gs gw u :
  evaluates n gn -> evaluates e ge -> evaluates s gs -> evaluates w gw -> CoonsPatch n e s w = Ok u ->
  forall r q, u r q = Ok (V3 (blend gn ge gs gw r q vx) (blend gn ge gs gw r q vy) (blend gn ge gs gw r q vz)).
Proof.
  intros Hn He Hs Hw. unfold CoonsPatch, Coons_edges. numR.
  rewrite (Hs 0), (Hs 1), (Hn 0), (Hn 1), (Hw 0), (Hw 1), (He 0), (He 1). cbn [bind].
  destruct (negb _); [discriminate|]. destruct (negb _); [discriminate|]. destruct (negb _); [discriminate|]. destruct (negb _); [discriminate|].
  cbn [bind]. intros H. injection H as <-. intros r q. unfold Coons_call; cbn [c_south c_north c_west c_east c_p00 c_p01 c_p10 c_p11 c_offset].
  rewrite (Hs r), (Hn r), (Hw q), (He q). cbn [bind]. f_equal. unfold blend, vadd, vsub, vscale, zero_offset. numR.
  apply vec_ext; cbn [vx vy vz]; ring.
Qed.
Lemma coons_square (n e s w : path R) gn ge gs gw u :
  evaluates n gn -> evaluates e ge -> evaluates s gs -> evaluates w gw -> CoonsPatch n e s w = Ok u -> on_square u.
Proof. intros A B C D E r q _ _. rewrite (coons_value _ _ _ _ _ _ _ _ _ A B C D E). eexists; reflexivity. Qed.
Lemma offset_square (u : surf R) f h : vertical f h -> on_square u -> on_square (OffsetPatchFunction u f).
Proof. intros V O r s Hr Hs. destruct (O r s Hr Hs) as [p E]. rewrite (offset_patch u f h r s p V E). eexists; reflexivity. Qed.
Lemma mte_square mean te gm gt L a sd u : evaluates mean gm -> evaluates te gt -> sd = "top"%string \/ sd = "bot"%string ->
  MeanTrailingEdgePatch mean te L a sd = Ok u -> on_square u.
Proof.
  intros Hm Ht S. unfold MeanTrailingEdgePatch. numR. rewrite (Hm 0), (Hm 1).
  destruct S as [-> | ->]; cbn [bind String.eqb Ascii.eqb Bool.eqb];
    rewrite !(line_evaluates _ _ _), !(Ht _); cbn [bind]; intros H;
    (eapply coons_square; [| | | |exact H]); first [exact Ht|apply line_evaluates].
Qed.
Lemma arc_evaluates m b k sd et : sd = "top"%string \/ sd = "bot"%string ->
  ArcLengthParameterizedPath (ElipsePath m b k sd) = Ok et -> exists g, evaluates et g.
Proof. intros S E. destruct (elipse_arc m b k sd ltac:(tauto)) as (et' & E' & V). rewrite E' in E. injection E as <-. eauto. Qed.

Lemma rotated_square u a m : on_square u -> on_square (RotatedPatch u a "z" m).
Proof.
  intros O r s Hr Hs. destruct (O r s Hr Hs) as [p E]. unfold RotatedPatch. rewrite E. cbn [bind].
  destruct (rotate_vec a (lower_axis "z") (vsub p m)) eqn:Q; [eexists; reflexivity|discriminate Q].
Qed.

Section Total.
  Variable bisect : (R -> res R) -> R -> R -> res R.
  Hypothesis Hbis : forall f a b t, bisect f a b = Ok t -> a <= t <= b.
  Variables (w : wing R) (g : R -> pt) (ft fb : R -> R -> R) (d : dict (surf R)).
  Hypothesis Hline : evaluates (w_line w) g.
  Hypothesis Hg0 : g 0 = w_B0 w.
  Hypothesis Hg1 : g 1 = w_TT w.
  Hypothesis Htop : vertical (w_top w) ft.
  Hypothesis Hbot : vertical (w_bot w) fb.
  Hypothesis HB1 : forall t, w_tB1 w = Some t -> 0 <= t <= 1.
  Hypothesis Hd : wing_patches bisect w = Ok d.

  Lemma trailing_square tr : wing_trailing_edge w = Ok tr -> forall u, In u (dvals tr) -> on_square u.
  Proof using Htop Hbot.
    intros ET. pose proof (te_path (w_A0 w) (w_B0 w) _ ft Htop) as PT. pose proof (te_path (w_A0 w) (w_B0 w) _ fb Hbot) as PB.
    pose proof (te_mean_ev w ft fb Htop Hbot) as PM.
    destruct (trailing_inv w tr ET) as (te1 & te2 & q1 & m1 & b1 & west & north & tele & T1 & T2 & _ & _ & _ & EW & TC & ->).
    assert (exists gw gn, evaluates west gw /\ evaluates north gn) as (gw & gn & Vw & Vn).
    { destruct (wing_flat w); [destruct EW as [-> ->]; eexists _, _; split; apply line_evaluates|].
      destruct EW as (_ & _ & k & _ & EW & EN).
      destruct (arc_evaluates _ _ _ _ _ (or_introl eq_refl) EW) as [gw Vw]. destruct (arc_evaluates _ _ _ _ _ (or_intror eq_refl) EN) as [gn Vn]. eauto. }
    intros u [<-|[<-|[<-|[]]]].
    - eapply mte_square; [| | |exact T1]; [exact PM|exact PT|auto].
    - eapply mte_square; [| | |exact T2]; [exact PM|exact PB|auto].
    - eapply coons_square; [| | | |exact TC]; [exact Vn|apply line_evaluates|apply line_evaluates|exact Vw].
  Qed.
  Lemma closing_square top0 bot0 cl : wing_closing w top0 bot0 = Ok cl ->
    top0 0 0 = Ok (lift ft (w_A1 w)) -> bot0 1 0 = Ok (lift fb (w_A1 w)) -> forall u, In u (dvals cl) -> on_square u.
  Proof using Htop Hbot.
    intros C E0 E1. destruct (closing_inv w ft fb Htop Hbot top0 bot0 cl C E0 E1)
      as (c0 & c1 & c2 & c3 & e & f & k & et & eb & _ & C0 & C1 & C2 & C3 & Et & Eb & Ce & Cf & ->).
    destruct (arc_evaluates _ _ _ _ _ (or_introl eq_refl) Et) as [gt Vt]. destruct (arc_evaluates _ _ _ _ _ (or_intror eq_refl) Eb) as [gb Vb].
    intros u [<-|[<-|[<-|[<-|[<-|[<-|[]]]]]]]; cbn [snd].
    5:{ apply rotated_square. eapply coons_square; [| | | |exact Ce]; first [eassumption|apply line_evaluates|apply sub_evaluates; eassumption]. }
    all: eapply coons_square; [| | | |eassumption]; apply line_evaluates.
  Qed.

  (** every patch of a wing can be evaluated on the whole unit square *)
  Theorem wing_square :
    (forall t, 0 <= t <= 1 -> exists k, wing_width w t = Ok k) \/ wing_flat w = true ->
    forall u, In u (dvals d) -> on_square u.
  Proof using Hbis Hline Hg0 Hg1 Htop Hbot HB1 Hd.
    intros Hwf.
    destruct (wing_inv bisect w d Hd) as (t1 & t2 & B1 & f0 & f1 & p0 & p1 & tr & cl & E1 & E2 & _ & EB & (C0 & C1 & C2 & C3) & ET & EC & ED).
    pose proof (t_B1_range bisect Hbis w HB1 t1 E1) as R1. pose proof (t_B2_range bisect Hbis w HB1 t1 t2 E1 E2) as R2.
    pose proof (sub_evaluates (w_line w) g 0 t1 Hline) as S01.
    pose proof (sub_evaluates (w_line w) g t1 t2 Hline) as S12.
    pose proof (sub_evaluates (w_line w) g 1 t2 Hline) as ST2.
    destruct (panels bisect Hbis w g ft fb d Hline Hg0 Hg1 Htop Hbot HB1 Hd) as (t1' & t2' & top0 & top1 & bot0 & bot1 & tr' & rest & _ & _ & E1' & E2' & ED' & ET' & PP).
    assert (Pl : forall u, In u [OffsetPatchFunction f0 (w_top w); OffsetPatchFunction f1 (w_top w); OffsetPatchFunction p0 (w_bot w); OffsetPatchFunction p1 (w_bot w)] -> on_square u).
    { intros u [<-|[<-|[<-|[<-|[]]]]]; (eapply offset_square; [eassumption|]; eapply coons_square; [| | | |eassumption];
           first [eassumption|apply line_evaluates|apply sub_evaluates; eassumption]). }
    assert (Le : forall u, In u (dvals (wing_leading_edge w t1 t2)) -> on_square u).
    { unfold wing_leading_edge. destruct (wing_flat w) eqn:F.
      - assert (FL : forall ta tb, on_square (FlatLeadingEdgePatchFunction (OffsetPathFunction (w_line w) (w_top w)) (OffsetPathFunction (w_line w) (w_bot w)) ta tb)).
        { intros ta tb r s _ _. unfold FlatLeadingEdgePatchFunction. rewrite (offset_path _ _ _ _ Htop Hline _). cbn [bind].
          rewrite (offset_path _ _ _ _ Hbot Hline _). eexists; reflexivity. }
        intros u [<-|[<-|[<-|[]]]]; apply FL.
      - destruct Hwf as [Hwf|]; [|discriminate].
        pose proof (mean_path _ _ _ _ _ (offset_path _ _ _ _ Htop Hline) (offset_path _ _ _ _ Hbot Hline)) as PM.
        assert (LE : forall guide gg ta tb sd, evaluates guide gg -> sd = "bot"%string \/ sd = "top"%string -> 0 <= ta <= 1 -> 0 <= tb <= 1 ->
          on_square (MeanLeadingEdgePatchFunction (GeometricMeanPathFunction (OffsetPathFunction (w_line w) (w_top w)) (OffsetPathFunction (w_line w) (w_bot w)))
             guide (wing_width w) ta tb sd)).
        { intros guide gg ta tb sd Vg Sd Ha Hb r s Hr Hs. destruct (Hwf _ (range ta tb r Ha Hb Hr)) as [k Ek].
          destruct (le_angle_ok _ _ (tb - r * (tb - ta)) PM) as [al Eal].
          erewrite (le_value _ guide _ _ (wing_width w) sd ta tb r s PM Vg Sd _ eq_refl k al Ek Eal). eexists; reflexivity. }
        pose proof (offset_path _ _ _ _ Htop Hline) as LT. pose proof (offset_path _ _ _ _ Hbot Hline) as LB.
        assert (I0 : 0 <= 0 <= 1) by lra. assert (I1 : 0 <= 1 <= 1) by lra. assert (I2 : 0 <= t2 <= 1) by lra.
        intros u [<-|[<-|[<-|[<-|[<-|[<-|[]]]]]]].
        + exact (LE _ _ 0 t1 "top"%string LT (or_intror eq_refl) I0 R1).
        + exact (LE _ _ t1 t2 "top"%string LT (or_intror eq_refl) R1 I2).
        + exact (LE _ _ t2 1 "top"%string LT (or_intror eq_refl) I2 I1).
        + exact (LE _ _ 0 t1 "bot"%string LB (or_introl eq_refl) I0 R1).
        + exact (LE _ _ t1 t2 "bot"%string LB (or_introl eq_refl) R1 I2).
        + exact (LE _ _ t2 1 "bot"%string LB (or_introl eq_refl) I2 I1). }
    subst d. intros u Hu. unfold dvals in Hu. rewrite !map_app in Hu. repeat (apply in_app_or in Hu as [Hu|Hu]).
    - apply Pl, Hu.
    - apply Le, Hu.
    - exact (trailing_square tr ET u Hu).
    - destruct (w_close w); [|subst cl; destruct Hu].
      eapply closing_square; [exact EC| | |exact Hu].
      + assert (Q : forall p, f0 0 0 = Ok p -> OffsetPatchFunction f0 (w_top w) 0 0 = Ok (lift ft p)) by (intros p E; exact (offset_patch f0 _ ft 0 0 p Htop E)).
        rewrite (Hline t1) in EB. injection EB as <-.
        destruct (coons_surf_w _ _ _ _ _ _ _ _ f0 (sub_evaluates _ _ 1 0 S01) (line_evaluates (w_A0 w) (w_B0 w)) (line_evaluates (w_A1 w) (w_A0 w)) (line_evaluates (w_A1 w) (g t1)) C2) as (A & _).
        rewrite (Q _ (A 0)), lerp_0. reflexivity.
      + assert (Q : forall p, p0 1 0 = Ok p -> OffsetPatchFunction p0 (w_bot w) 1 0 = Ok (lift fb p)) by (intros p E; exact (offset_patch p0 _ fb 1 0 p Hbot E)).
        rewrite (Hline t1) in EB. injection EB as <-.
        destruct (coons_surf_w _ _ _ _ _ _ _ _ p0 S01 (line_evaluates (w_A1 w) (g t1)) (line_evaluates (w_A0 w) (w_A1 w)) (line_evaluates (w_A0 w) (w_B0 w)) C0) as (_ & B & _).
        rewrite (Q _ (B 0)), lerp_0. reflexivity.
  Qed.
End Total.

Definition open_wing_keys : list string :=
  ["top_patch_0"; "top_patch_1"; "bot_patch_0"; "bot_patch_1"; "LE_top_patch_0"; "LE_top_patch_1"; "LE_top_patch_2";
   "LE_bot_patch_0"; "LE_bot_patch_1"; "LE_bot_patch_2"; "TE_top_patch"; "TE_bot_patch"; "TELE_patch"]%string.
Lemma wing_keys bisect (w : wing R) d : wing_patches bisect w = Ok d -> wing_flat w = false -> w_close w = false -> dkeys d = open_wing_keys.
Proof.
  intros Hd F C. destruct (wing_inv bisect w d Hd) as (t1 & t2 & B1 & f0 & f1 & p0 & p1 & tr & cl & _ & _ & _ & _ & _ & ET & EC & ->).
  rewrite C in EC. subst cl. destruct (trailing_inv w tr ET) as (te1 & te2 & q1 & m1 & b1 & west & north & tele & _ & _ & _ & _ & _ & _ & _ & ->).
  rewrite (leading_ell w F). reflexivity.
Qed.
