(** Every patch of a fin can be evaluated on the whole unit square. *)
From Coq Require Import String Reals Lra ZArith List Lia Bool.
From Verif Require Import Num NumR Py M_Vector SpecR3 M_Path M_Surface M_Geometry M_Mesh M_Component M_Common M_Fin
  SpecPath SpecPoly SpecSurf SpecWing SpecFin SpecHtv
  L_Vector L_Coons L_Curves L_Ellipse L_Wing L_WingTotal L_Fin L_FinSeams.
Import ListNotations.
Local Open Scope R_scope.

Lemma turn_square u a axis m : is_axis axis -> on_square u -> on_square (RotatedPatch u a axis m).
Proof.
  intros B O r s Hr Hs. destruct (O r s Hr Hs) as [p E]. unfold RotatedPatch. rewrite E. cbn [bind].
  destruct B as [-> | [-> | ->]]; unfold rotate_vec, lower_axis; cbn [String.eqb Ascii.eqb Bool.eqb bind]; eexists; reflexivity.
Qed.
Lemma shift_square (u : surf R) (f : tfun R) : (forall x y z, is_ok (f x y z)) -> on_square u -> on_square (OffsetPatchFunction u f).
Proof.
  intros V O r s Hr Hs. destruct (O r s Hr Hs) as [p E]. unfold OffsetPatchFunction. rewrite E. cbn [bind].
  destruct (V (vx p) (vy p) (Some (vz p))) as [q ->]. eexists; reflexivity.
Qed.
Lemma dmap_square (F : surf R -> surf R) d : (forall u, on_square u -> on_square (F u)) ->
  (forall u, In u (dvals d) -> on_square u) -> forall u, In u (dvals (dmap F d)) -> on_square u.
Proof.
  intros H A u Hu. unfold dvals, dmap in Hu. rewrite map_map in Hu. apply in_map_iff in Hu as ([k w] & <- & I). cbn.
  apply H, A. unfold dvals. apply (in_map snd) in I. exact I.
Qed.
Lemma dmap_keys (F : surf R -> surf R) d : dkeys (dmap F d) = dkeys d.
Proof. unfold dkeys, dmap. rewrite map_map. reflexivity. Qed.
Lemma le_square (q : path R) g top bot ft fb width guide gg ta tb sd : evaluates q g -> vertical top ft -> vertical bot fb ->
  (forall t, 0 <= t <= 1 -> exists k, width t = Ok k) -> evaluates guide gg -> sd = "bot"%string \/ sd = "top"%string -> 0 <= ta <= 1 -> 0 <= tb <= 1 ->
  on_square (MeanLeadingEdgePatchFunction (GeometricMeanPathFunction (OffsetPathFunction q top) (OffsetPathFunction q bot)) guide width ta tb sd).
Proof.
  intros Hq Vt Vb Hw Vg Sd Ha Hb r s Hr Hs.
  pose proof (mean_path _ _ _ _ _ (offset_path _ _ _ _ Vt Hq) (offset_path _ _ _ _ Vb Hq)) as PM.
  assert (K : 0 <= tb - r * (tb - ta) <= 1) by nra. destruct (Hw _ K) as [k Ek].
  destruct (le_angle_ok _ _ (tb - r * (tb - ta)) PM) as [al Eal].
  erewrite (le_value _ guide _ _ width sd ta tb r s PM Vg Sd _ eq_refl k al Ek Eal). eexists; reflexivity.
Qed.
Lemma tep_square A0 B0 te g l a sd u : evaluates te g -> TrailingEdgePatch A0 B0 te l a sd = Ok u -> on_square u.
Proof.
  intros He. unfold TrailingEdgePatch. numR. destruct (String.eqb sd "top"); [|destruct (String.eqb sd "bot"); [|discriminate]];
    rewrite !(line_evaluates _ _ _), !(He _); cbn [bind]; intros Hu;
    eapply coons_square; try exact Hu; first [exact He|apply line_evaluates].
Qed.

Section Total.
  Variable bisect : (R -> res R) -> R -> R -> res R.
  Hypothesis Hbis : in_interval bisect.
  Variables (f : fin R) (ft fb : R -> R -> R) (d : dict (surf R)).
  Hypothesis H12 : f_p1 f <> f_p2 f.
  Hypothesis H23 : f_p2 f <> f_p3 f.
  Hypothesis Htop : vertical (f_top f) ft.
  Hypothesis Hbot : vertical (f_bot f) fb.
  Hypothesis Hwf : forall t, 0 <= t <= 1 -> exists k, fin_width f t = Ok k.
  Hypothesis Hoff : forall o, f_offset f = Some o -> forall x y z, is_ok (o x y z).
  Hypothesis Hd : fin_patches bisect f = Ok d.

  Lemma ellipses_total p t et eb : fin_ellipses f p t = Ok (et, eb) -> exists gt gb, evaluates et gt /\ evaluates eb gb.
  Proof using Htop Hbot.
    unfold fin_ellipses. rewrite Htop, Hbot. cbn [bind vz]. destruct (fin_width f t) as [k|]; [|discriminate]. cbn [bind].
    destruct (elipse_arc p (ft (vx p) (vy p)) k "top") as (q & -> & Vt); [auto|]. cbn [bind].
    destruct (elipse_arc p (fb (vx p) (vy p)) k "bot") as (q' & -> & Vb); [auto|]. cbn [bind].
    intros H. injection H as <- <-. eauto.
  Qed.
  Lemma fin_bottom_square bo : fin_bottom f = Ok bo -> dkeys bo = ["bot_ellip"; "bot_1"; "bot_2"]%string /\ forall u, In u (dvals bo) -> on_square u.
  Proof using Htop Hbot.
    unfold fin_bottom. intros H. destruct (fin_ellipses f (f_p3 f) n1) as [[et eb]|] eqn:El; [|discriminate H]. cbn [bind] in H.
    destruct (ellipses_total _ _ _ _ El) as (gt & gb & Vt & Vb).
    destruct (CoonsPatch _ eb et _) as [e|] eqn:C0; [|discriminate H]. cbn [bind] in H.
    destruct (CoonsPatch (Line (fin_above f (f_p3 f)) (fin_above f (f_p0 f))) _ _ _) as [b1|] eqn:C1; [|discriminate H]. cbn [bind] in H.
    destruct (CoonsPatch (Line (f_p3 f) (f_p0 f)) _ _ _) as [b2|] eqn:C2; [|discriminate H]. cbn [bind] in H.
    injection H as <-. split; [reflexivity|]. intros u [<-|[<-|[<-|[]]]]; cbn [snd].
    - apply turn_square; [right; right; reflexivity|]. eapply coons_square; [| | | |exact C0]; first [eassumption|apply line_evaluates].
    - eapply coons_square; [| | | |exact C1]; first [apply line_evaluates|exact (sub_evaluates _ _ 1 0 (line_evaluates _ _))].
    - eapply coons_square; [| | | |exact C2]; first [apply line_evaluates|exact (sub_evaluates _ _ 1 0 (line_evaluates _ _))].
  Qed.
  Lemma fin_sharp_square tr : fin_sharp f = Ok tr -> dkeys tr = ["TE_top"; "TE_bot"; "TE_ellipse"; "TE_triangle"]%string /\ forall u, In u (dvals tr) -> on_square u.
  Proof using Htop Hbot.
    unfold fin_sharp. intros H.
    destruct (TrailingEdgePatch _ _ _ _ _ "top") as [te1|] eqn:T1; [|discriminate H]. cbn [bind] in H.
    destruct (TrailingEdgePatch _ _ _ _ _ "bot") as [te2|] eqn:T2; [|discriminate H]. cbn [bind] in H.
    rewrite Htop, Hbot in H. cbn [bind] in H.
    destruct (fin_ellipses f (f_p1 f) n0) as [[et eb]|] eqn:El; [|discriminate H]. cbn [bind] in H.
    destruct (ellipses_total _ _ _ _ El) as (gt & gb & Vt & Vb).
    destruct (CoonsPatch eb _ _ et) as [e|] eqn:C0; [|discriminate H]. cbn [bind] in H.
    destruct (CoonsPatch _ _ _ _) as [b1|] eqn:C1 in H; [|discriminate H]. cbn [bind] in H.
    injection H as <-. split; [reflexivity|]. intros u [<-|[<-|[<-|[<-|[]]]]]; cbn [snd].
    - eapply tep_square; [|exact T1]. apply te_path, Htop.
    - eapply tep_square; [|exact T2]. apply te_path, Hbot.
    - eapply coons_square; [| | | |exact C0]; first [eassumption|apply line_evaluates].
    - eapply coons_square; [| | | |exact C1]; apply line_evaluates.
  Qed.
  Lemma fin_flat_square tr : fin_flat f = Ok tr -> dkeys tr = ["TE_ellip"; "TE_1"; "TE_2"]%string /\ forall u, In u (dvals tr) -> on_square u.
  Proof using Htop Hbot.
    unfold fin_flat. intros H.
    destruct (fin_ellipses f (f_p1 f) n0) as [[et eb]|] eqn:El; [|discriminate H]. cbn [bind] in H.
    destruct (ellipses_total _ _ _ _ El) as (gt & gb & Vt & Vb).
    destruct (CoonsPatch (Line (f_p1 f) (fin_above f (f_p1 f))) _ _ _) as [e|] eqn:C0; [|discriminate H]. cbn [bind] in H.
    destruct (CoonsPatch (Line (fin_above f (f_p0 f)) (fin_above f (f_p1 f))) _ _ _) as [b1|] eqn:C1; [|discriminate H]. cbn [bind] in H.
    destruct (CoonsPatch (Line (f_p0 f) (f_p1 f)) _ _ _) as [b2|] eqn:C2; [|discriminate H]. cbn [bind] in H.
    injection H as <-. split; [reflexivity|]. intros u [<-|[<-|[<-|[]]]]; cbn [snd].
    - eapply coons_square; [| | | |exact C0]; first [apply line_evaluates|apply sub_evaluates; eassumption].
    - eapply coons_square; [| | | |exact C1]; apply line_evaluates.
    - eapply coons_square; [| | | |exact C2]; apply line_evaluates.
  Qed.

  Definition fin_keys : list string :=
    ["top_patch"; "bot_patch"; "LE_top_patch_0"; "LE_top_patch_1"; "LE_bot_patch_0"; "LE_bot_patch_1"; "bot_ellip"; "bot_1"; "bot_2"]%string ++
    (if String.eqb (f_rudder f) "sharp" then ["TE_top"; "TE_bot"; "TE_ellipse"; "TE_triangle"] else ["TE_ellip"; "TE_1"; "TE_2"])%string.
  Theorem fin_square : dkeys d = fin_keys /\ forall u, In u (dvals d) -> on_square u.
  Proof using Hbis H12 H23 Htop Hbot Hwf Hoff Hd.
    unfold fin_patches in Hd.
    destruct (fin_edge f) as [q|] eqn:E1; [|discriminate Hd]. cbn [bind] in Hd.
    destruct (fin_panels f) as [pa|] eqn:E2; [|discriminate Hd]. cbn [bind] in Hd.
    destruct (fin_t_B1 bisect f q) as [t1|] eqn:E3; [|discriminate Hd]. cbn [bind] in Hd.
    destruct (fin_bottom f) as [bo|] eqn:E4; [|discriminate Hd]. cbn [bind] in Hd.
    destruct (if String.eqb (f_rudder f) "sharp" then fin_sharp f else fin_flat f) as [tr|] eqn:E5; [|discriminate Hd].
    cbn [bind] in Hd.
    pose proof (edge_evaluates f q H12 H23 E1) as Vq.
    assert (R1 : 0 <= t1 <= 1).
    { unfold fin_t_B1 in E3. numR. destruct (bisect _ _ _) as [t|] eqn:B in E3; [|discriminate E3]. cbn [bind] in E3. injection E3 as <-.
      apply Rround_unit; [exact (Hbis _ _ _ _ B)|lia]. }
    assert (P : dkeys pa = ["top_patch"; "bot_patch"]%string /\ forall u, In u (dvals pa) -> on_square u).
    { unfold fin_panels in E2.
      destruct (CoonsPatch (Line (f_p1 f) (f_p2 f)) _ _ _) as [b|] eqn:B; [|discriminate E2]. cbn [bind] in E2.
      destruct (CoonsPatch (Line (f_p3 f) (f_p2 f)) _ _ _) as [a|] eqn:A; [|discriminate E2]. cbn [bind] in E2. injection E2 as <-.
      split; [reflexivity|]. intros u [<-|[<-|[]]]; cbn [snd]; (eapply offset_square; [eassumption|]; eapply coons_square; [| | | |eassumption]; apply line_evaluates). }
    destruct (fin_bottom_square bo E4) as [K4 S4].
    assert (K5 : dkeys tr = (if String.eqb (f_rudder f) "sharp" then ["TE_top"; "TE_bot"; "TE_ellipse"; "TE_triangle"] else ["TE_ellip"; "TE_1"; "TE_2"])%string /\
      forall u, In u (dvals tr) -> on_square u).
    { destruct (String.eqb (f_rudder f) "sharp"); [apply fin_sharp_square, E5|apply fin_flat_square, E5]. }
    destruct P as [KP SP]. destruct K5 as [K5 S5].
    pose proof (offset_path _ _ _ _ Htop Vq) as LT. pose proof (offset_path _ _ _ _ Hbot Vq) as LB.
    assert (I0 : 0 <= 0 <= 1) by lra. assert (I1 : 0 <= 1 <= 1) by lra.
    set (raw := (pa ++ fin_leading_edge f q t1 ++ bo ++ tr)%list) in *.
    assert (SR : forall u, In u (dvals raw) -> on_square u).
    { intros u Hu. unfold raw, dvals in Hu. rewrite !map_app in Hu. apply in_app_or in Hu as [Hu|Hu]; [apply SP, Hu|].
      apply in_app_or in Hu as [Hu|Hu].
      - unfold fin_leading_edge in Hu. cbn [map snd In] in Hu. destruct Hu as [<-|[<-|[<-|[<-|[]]]]].
        + exact (le_square q _ _ _ ft fb _ _ _ 0 t1 "top"%string Vq Htop Hbot Hwf LT (or_intror eq_refl) I0 R1).
        + exact (le_square q _ _ _ ft fb _ _ _ t1 1 "top"%string Vq Htop Hbot Hwf LT (or_intror eq_refl) R1 I1).
        + exact (le_square q _ _ _ ft fb _ _ _ 0 t1 "bot"%string Vq Htop Hbot Hwf LB (or_introl eq_refl) I0 R1).
        + exact (le_square q _ _ _ ft fb _ _ _ t1 1 "bot"%string Vq Htop Hbot Hwf LB (or_introl eq_refl) R1 I1).
      - apply in_app_or in Hu as [Hu|Hu]; [apply S4, Hu|apply S5, Hu]. }
    assert (KR : dkeys raw = fin_keys).
    { unfold raw, dkeys. rewrite !map_app. fold (dkeys pa) (dkeys bo) (dkeys tr). rewrite KP, K4, K5. reflexivity. }
    assert (S2 : forall u, In u (dvals (dmap (fun u => RotatedPatch u (f_angle f) "x" default_point) (dmap (fun u => RotatedPatch u (f_pivot_angle f) "y" (f_pivot_point f)) raw))) -> on_square u).
    { apply dmap_square; [intros u; apply turn_square; left; reflexivity|]. apply dmap_square; [intros u; apply turn_square; right; left; reflexivity|exact SR]. }
    destruct (f_offset f) as [o|]; injection Hd as <-.
    - rewrite !dmap_keys. split; [exact KR|]. apply dmap_square; [|exact S2]. intros u. apply shift_square. exact (Hoff o eq_refl).
    - rewrite !dmap_keys. split; [exact KR|exact S2].
  Qed.
End Total.
