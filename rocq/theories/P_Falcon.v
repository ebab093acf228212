(** C94: the parametric Falcon 9 end to end. *)
From Coq Require Import String Reals Lra ZArith List Permutation Lia Bool.
From Verif Require Import Num NumR Py M_Vector SpecR3 M_Path M_Surface M_Geometry M_Mesh M_Component M_Vehicle M_VecHeap M_Sens M_Gen M_Inertia M_Hangar M_Falcon
  SpecPath SpecPoly SpecSurf SpecMesh SpecComp SpecVehicle SpecAdd SpecFiles SpecInertia SpecPrism SpecHangar L_Vector L_Component
  L_RevolvedComp L_Heap L_Pipeline L_Generate L_Files L_Prism L_Hangar L_Lathe L_Finner P_Ogive P_Lathe P_Vehicle L_Block L_Study P_Gen P_Inertia P_Hangar.
From Verif Require Import SpecLathe SpecProfile L_Profile P_Profile L_Falcon P_Cylinder.
Import ListNotations.
Local Open Scope R_scope.

Definition falcon_keywords (kw : dict (pval R)) (D Lb hh rn ro fl : R) : Prop := plain_keywords kw /\
  given kw "D" (375 / 100) = PNum D /\ given kw "L_b" 60 = PNum Lb /\ given kw "h" (5 / 2) = PNum hh /\
  given kw "r_n" (75 / 100) = PNum rn /\ given kw "r_o" 7 = PNum ro /\ given kw "f_L" 6 = PNum fl.
Lemma falcon_program call kw D Lb hh rn ro fl : falcon_keywords kw D Lb hh rn ro fl ->
  make_vehicle call ParametricFalcon9 kw = Ok (falcon9_vehicle D Lb hh rn ro fl).
Proof.
  intros ((Nd & S1 & S2) & H1 & H2 & H3 & H4 & H5 & H6). unfold make_vehicle, instantiate. rewrite no_key by exact S1.
  cbn [g_init ParametricFalcon9 run_init bind g_classes]. unfold create_instance. rewrite generator_init_get by exact Nd.
  destruct (dget kw "create_instance") as [v|] eqn:E.
  { exfalso. apply S2. apply dget_in in E. apply (in_map fst) in E. exact E. }
  cbn [dget dset String.eqb]. cbn [g_create ParametricFalcon9 g_classes].
  unfold number, getattr. rewrite !generator_init_get by exact Nd. unfold given in *.
  destruct (dget kw "D"); cbn in H1 |- *; subst; try (injection H1 as <-); cbn [bind];
  destruct (dget kw "L_b"); cbn in H2 |- *; subst; try (injection H2 as <-); cbn [bind];
  destruct (dget kw "h"); cbn in H3 |- *; subst; try (injection H3 as <-); cbn [bind];
  destruct (dget kw "r_n"); cbn in H4 |- *; subst; try (injection H4 as <-); cbn [bind];
  destruct (dget kw "r_o"); cbn in H5 |- *; subst; try (injection H5 as <-); cbn [bind];
  destruct (dget kw "f_L"); cbn in H6 |- *; subst; try (injection H6 as <-); reflexivity.
Qed.

(** C94: ParametricFalcon9 on any heap, for all radii with r_n < h < r_o: a
    fairing and a body, both closed and both inside out; the tail of the fairing
    reaches into the body; the edges of the body are cut off unless they lie on
    the grid of 50 steps *)
Theorem C94_falcon call (h : heap R) kw D Lb hh rn ro fl : separate h -> falcon_keywords kw D Lb hh rn ro fl ->
  0 < D -> 0 < Lb -> 0 < rn -> rn < hh < ro -> 0 < fl ->
  let tip := sqrt ((ro - rn) * (ro - rn) - (ro - hh) * (ro - hh)) + rn in let tail := - (13 / 10 * fl) in let aft := - fl - Lb in
  exists v h2 fairing body, flies call ParametricFalcon9 kw h v h2 /\
    v_name v = "SpaceX Falcon 9"%string /\ dkeys (v_named v) = ["revolved_1"; "revolved_2"]%string /\ v_components v = map snd (v_named v) /\
    (forall i, dget (v_named v) "revolved_1" = Some i -> mesh_of h2 i = Ok fairing) /\
    (forall i, dget (v_named v) "revolved_2" = Some i -> mesh_of h2 i = Ok body) /\
    watertight fairing /\ length fairing = (4 * (4 * 100 * 100))%nat /\
    - (ngon 400 * (Rmax hh (D / 2) * Rmax hh (D / 2)) * (tip - tail)) <= signed_volume fairing < 0 /\
    vertex_of fairing (V3 tip 0 0) /\ vertex_of fairing (V3 tail 0 0) /\
    (forall p, vertex_of fairing p -> tail <= vx p <= tip /\ radius_x p <= Rmax hh (D / 2)) /\
    watertight body /\ length body = (4 * (4 * 50 * 50))%nat /\
    - (ngon 200 * (D / 2 * (D / 2)) * Lb) <= signed_volume body < 0 /\
    (signed_volume body = - (ngon 200 * (D / 2 * (D / 2)) * Lb) <-> exists k, 50 * (D / 2) = INR k * (D + Lb)) /\
    vertex_of body (V3 (- fl) 0 0) /\ vertex_of body (V3 aft 0 0) /\
    (forall p, vertex_of body p -> aft <= vx p <= - fl /\ radius_x p <= D / 2) /\
    forall prefix fs0, exists h3 fs, to_stl (mark_generated v) prefix h2 fs0 = (h3, fs, Ok tt) /\
      let named k := ((match text prefix with Some p => p | None => "SpaceX Falcon 9" end) ++ "-revolved-" ++ k ++ ".stl")%string in
      dget fs (named "0"%string) = Some fairing /\ dget fs (named "1"%string) = Some body /\
      forall s, s <> named "0"%string -> s <> named "1"%string -> dget fs s = dget fs0 s.
Proof.
  intros SP K HD HLb Hn Hh Hf tip tail aft.
  destruct (fairing_draws D hh rn ro fl HD Hn Hh Hf) as (p & Ep & Dp). destruct (body_draws D Lb hh fl HD HLb) as (q & Eq & Dq).
  pose proof (og_X hh rn ro Hh) as HX. fold tip in Dp. fold tail in Dp. fold aft in Dq.
  destruct (drawn_mesh _ p _ _ 98 Dp) as (gp & Evp & Wp & Lp & Vp & P0 & P1 & Ip).
  { split; reflexivity. } { split; reflexivity. } { cbn. unfold tip, tail. lra. }
  destruct (drawn_mesh _ q _ _ 48 Dq) as (gq & Evq & Wq & Lq & Vq & Q0 & Q1 & Iq).
  { split; reflexivity. } { split; reflexivity. } { cbn. unfold aft. lra. }
  cbn [vx] in Vp, Ip, Vq, Iq.
  pose proof (falcon_run D Lb hh rn ro fl p q h Ep Eq) as RUN.
  destruct (falcon_generates h p q gp gq SP Evp Evq) as (h2 & A & L & OP & M0 & M1).
  set (c0 := length (comps h)) in *. exists (falcon_made c0), h2, (profile_mesh 99 gp), (profile_mesh 49 gq).
  split; [eexists _, _; split; [apply falcon_program, K|]; split; [exact RUN|exact A]|].
  split; [reflexivity|]. split; [reflexivity|]. split; [reflexivity|].
  split; [intros i Hi; cbn in Hi; injection Hi as <-; exact M0|]. split; [intros i Hi; cbn in Hi; injection Hi as <-; exact M1|].
  split; [exact Wp|]. split; [exact Lp|]. split; [exact Vp|]. split; [exact P0|]. split; [exact P1|]. split; [exact Ip|].
  split; [exact Wq|]. split; [exact Lq|]. split; [unfold aft in Vq; replace (- fl - (- fl - Lb)) with Lb in Vq by ring; exact Vq|].
  split.
  { destruct (C95_cylinder (- fl) aft (D / 2) 49) as (q' & m & Eq' & Em & _ & _ & I & _); [unfold aft; lra|lra|].
    rewrite body_parts in Eq. unfold cylinder_line in Eq'. unfold aft in Eq'. rewrite Eq in Eq'. apply ok_inj in Eq'. subst q'.
    rewrite (profile_turned 49 q gq Evq) in Em. apply ok_inj in Em. subst m.
    assert (AB : aft - - fl = - Lb) by (unfold aft; ring). rewrite AB in I. rewrite Rabs_Ropp, (Rabs_right Lb) in I by lra.
    replace (INR 50) with 50 in I by (cbn; ring). replace (2 * (D / 2) + Lb) with (D + Lb) in I by field.
    rewrite <- I. change (4 * 50)%nat with 200%nat. split; intros E; rewrite E; ring. }
  split; [exact Q0|]. split; [exact Q1|]. split; [exact Iq|].
  intros prefix fs0. set (v := mark_generated _). cbv zeta.
  destruct (OP 0%nat ltac:(lia)) as (G0 & T0 & N0). destruct (OP 1%nat ltac:(lia)) as (G1 & T1 & N1). rewrite Nat.add_0_r in G0, T0, N0.
  destruct (C55_files v prefix h2 fs0) as (h3 & fs & E & F).
  { intros i [<-|[<-|[]]]; rewrite L; lia. }
  { intros i [<-|[<-|[]]] _; [rewrite M0|rewrite M1]; eexists; reflexivity. }
  exists h3, fs. split; [exact E|].
  set (stem := match text prefix with Some p => p | None => "SpaceX Falcon 9"%string end).
  assert (FI : files v prefix h2 [] (v_components v) =
    [((stem ++ "-revolved-" ++ "0" ++ ".stl")%string, c0); ((stem ++ "-revolved-" ++ "1" ++ ".stl")%string, (c0 + 1)%nat)]).
  { cbn [v mark_generated falcon_made v_components files app]. rewrite G0, G1. unfold file_name, earlier, stem. rewrite N0, N1, T0, T1. cbn [filter length].
    rewrite T0. cbn [String.eqb Ascii.eqb Bool.eqb length]. destruct (text prefix); reflexivity. }
  rewrite FI in F.
  assert (NE : forall (s a b : string), a <> b -> (s ++ a)%string <> (s ++ b)%string).
  { induction s as [|ch s IH]; intros a b H; [exact H|]. intros C. injection C as C. exact (IH a b H C). }
  assert (D01 : String.eqb (stem ++ "-revolved-" ++ "0" ++ ".stl") (stem ++ "-revolved-" ++ "1" ++ ".stl") = false).
  { apply String.eqb_neq. apply NE. discriminate. }
  split; [|split].
  - specialize (F (stem ++ "-revolved-" ++ "0" ++ ".stl")%string). unfold last_named in F. cbn [rev app filter fst snd] in F.
    rewrite D01, String.eqb_refl in F. destruct F as (m & F1 & F2). cbn [snd] in F1. rewrite M0 in F1. apply ok_inj in F1. rewrite F1. exact F2.
  - specialize (F (stem ++ "-revolved-" ++ "1" ++ ".stl")%string). unfold last_named in F. cbn [rev app filter fst snd] in F.
    rewrite String.eqb_refl in F. destruct F as (m & F1 & F2). cbn [snd] in F1. rewrite M1 in F1. apply ok_inj in F1. rewrite F1. exact F2.
  - intros s H0 H1. specialize (F s). unfold last_named in F. cbn [rev app filter fst snd] in F.
    rewrite (proj2 (String.eqb_neq _ _) H0), (proj2 (String.eqb_neq _ _) H1) in F. exact F.
Qed.

(** what numpy-stl documents: the volume is the signed one, the mass its
    product with the density *)
Definition weighs (mp : list (tri R) -> R -> R * R * vec R * mat R) : Prop :=
  forall m rho, exists cog moi, mp m rho = (signed_volume m, signed_volume m * rho, cog, moi).

(** C94: with positive densities its volume and its mass come out negative *)
Theorem C94_mass mp areas call (h : heap R) kw D Lb hh rn ro fl densities : weighs mp -> separate h -> falcon_keywords kw D Lb hh rn ro fl ->
  0 < D -> 0 < Lb -> 0 < rn -> rn < hh < ro -> 0 < fl ->
  (forall k, In k ["revolved_1"; "revolved_2"]%string -> exists rho, dget densities k = Some rho /\ 0 < rho) ->
  exists v h2 h3 volume mass cog moi, flies call ParametricFalcon9 kw h v h2 /\
    analyse mp areas (mark_generated v) densities h2 = (h3, mark_generated v, Ok (volume, mass, cog, moi)) /\ volume < 0 /\ mass < 0.
Proof.
  intros MP SP K HD HLb Hn Hh Hf Den.
  destruct (C94_falcon call h kw D Lb hh rn ro fl SP K HD HLb Hn Hh Hf) as (v & h2 & m1 & m2 & FL & _ & Kv & _ & A1 & A2 & _ & _ & V1 & _ & _ & _ & _ & _ & V2 & _).
  destruct (v_named v) as [|[k1 i1] [|[k2 i2] [|]]] eqn:Ev; try discriminate. cbn in Kv. injection Kv as -> ->.
  specialize (A1 i1 eq_refl). specialize (A2 i2 eq_refl).
  destruct (Den "revolved_1"%string) as (r1 & D1 & P1); [left; reflexivity|]. destruct (Den "revolved_2"%string) as (r2 & D2 & P2); [right; left; reflexivity|].
  destruct (MP m1 r1) as (cg1 & mo1 & E1). destruct (MP m2 r2) as (cg2 & mo2 & E2).
  destruct (C59_totals mp areas (mark_generated v) densities h2) as (h3 & P & cs & _ & AN & FF & SM & SV & _).
  - reflexivity.
  - cbn [mark_generated v_named]. rewrite Ev. discriminate.
  - cbn [mark_generated v_named]. rewrite Ev. constructor; [|constructor; [|constructor]].
    + eexists (mkMeasures _ _ _ _ _). exists m1, r1. split; [exact A1|]. split; [exact D1|]. split; [exact E1|reflexivity].
    + eexists (mkMeasures _ _ _ _ _). exists m2, r2. split; [exact A2|]. split; [exact D2|]. split; [exact E2|reflexivity].
  - exists v, h2, h3, (p_volume P), (p_mass P), (p_cog P), (p_moi P). split; [exact FL|]. split; [exact AN|].
    cbn [mark_generated v_named] in FF. rewrite Ev in FF.
    inversion FF as [|x y l l' [_ (m & rho & B1 & B2 & B3 & _)] FF' X Y]; subst. inversion FF' as [|x' y' l0 l0' [_ (m' & rho' & B1' & B2' & B3' & _)] FF'' X' Y']; subst. inversion FF''; subst.
    cbn [snd fst] in *. rewrite A1 in B1. apply ok_inj in B1. subst m. rewrite A2 in B1'. apply ok_inj in B1'. subst m'.
    rewrite D1 in B2. injection B2 as <-. rewrite D2 in B2'. injection B2' as <-. rewrite E1 in B3. rewrite E2 in B3'.
    injection B3 as Q1 Q2 _ _. injection B3' as Q3 Q4 _ _. rewrite SM, SV. cbn [rsum snd]. rewrite <- Q1, <- Q2, <- Q3, <- Q4.
    assert (signed_volume m1 * r1 < 0) by (rewrite <- (Rmult_0_l r1); apply Rmult_lt_compat_r; lra).
    assert (signed_volume m2 * r2 < 0) by (rewrite <- (Rmult_0_l r2); apply Rmult_lt_compat_r; lra). lra.
Qed.
(** the nominal parameters, with a longer body *)
Example C94_meets : separate (mkHeap [] []) /\ falcon_keywords [("L_b"%string, PNum 70)] (375 / 100) 70 (5 / 2) (75 / 100) 7 6 /\
  75 / 100 < 5 / 2 < 7 /\ weighs (fun m rho => (signed_volume m, signed_volume m * rho, origin, M3 origin origin origin)).
Proof.
  split; [|split; [|split]].
  - split; [intros j Hj; cbn in Hj; lia|]. intros j k c c' H. destruct j; discriminate.
  - split; [split; [repeat constructor; tauto|split; intros [H|[]]; discriminate]|]. repeat split.
  - lra.
  - intros m rho. eauto.
Qed.

Print Assumptions C94_falcon.
Print Assumptions C94_mass.
