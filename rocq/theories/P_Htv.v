(** C103: the parametric hypersonic technology vehicle end to end
    (hangar/htv.py). *)
From Coq Require Import String Reals Lra ZArith List Permutation Lia Bool.
From Verif Require Import Num NumR Py M_Vector SpecR3 M_Path M_Surface M_Geometry M_Mesh M_Component M_Stl M_Common M_Wing M_Vehicle M_VecHeap M_Sens M_Gen M_Inertia M_Hangar M_Htv
  SpecPath SpecPoly SpecSurf SpecMesh SpecComp SpecVehicle SpecAdd SpecFiles SpecInertia SpecPrism SpecHangar SpecWing SpecFin SpecPair SpecHalf SpecHtv
  L_Vector L_Edges L_Component L_Heap L_Pipeline L_Generate L_Files L_Prism L_Reflect L_Volume L_Hangar L_Finner L_Study L_Block L_Wing L_Fin L_Pair L_Half L_Htv
  P_Component P_Vehicle P_Gen P_Inertia P_Hangar P_Falcon P_Half P_Planform.
Import ListNotations.
Local Open Scope R_scope.

Definition htv_keywords (kw : dict (pval R)) (L bw hh t a Ln bn : R) : Prop := plain_keywords kw /\
  given kw "L" 1 = PNum L /\ given kw "body_width" (1 / 2) = PNum bw /\ given kw "h" (1 / 10) = PNum hh /\
  given kw "t_LE" (1 / 100) = PNum t /\ given kw "flap_angle" 15 = PNum a /\ given kw "L_nom" 1 = PNum Ln /\ given kw "body_width_nom" (8 / 10) = PNum bn.
Lemma htv_program bisect call kw L bw hh t a Ln bn : htv_keywords kw L bw hh t a Ln bn ->
  make_vehicle call (ParametricHTV bisect) kw = Ok (htv_vehicle bisect L bw hh t a Ln bn).
Proof.
  intros ((Nd & S1 & S2) & H1 & H2 & H3 & H4 & H5 & H6 & H7). unfold make_vehicle, instantiate. rewrite no_key by exact S1.
  cbn [g_init ParametricHTV run_init bind g_classes]. unfold create_instance. rewrite generator_init_get by exact Nd.
  destruct (dget kw "create_instance") as [v|] eqn:E.
  { exfalso. apply S2. apply dget_in in E. apply (in_map fst) in E. exact E. }
  cbn [dget dset String.eqb]. cbn [g_create ParametricHTV g_classes].
  unfold number, getattr. rewrite !generator_init_get by exact Nd. unfold given in *.
  destruct (dget kw "L"); cbn in H1 |- *; subst; try (injection H1 as <-); cbn [bind];
  destruct (dget kw "body_width"); cbn in H2 |- *; subst; try (injection H2 as <-); cbn [bind];
  destruct (dget kw "h"); cbn in H3 |- *; subst; try (injection H3 as <-); cbn [bind];
  destruct (dget kw "t_LE"); cbn in H4 |- *; subst; try (injection H4 as <-); cbn [bind];
  destruct (dget kw "flap_angle"); cbn in H5 |- *; subst; try (injection H5 as <-); cbn [bind];
  destruct (dget kw "L_nom"); cbn in H6 |- *; subst; try (injection H6 as <-); cbn [bind];
  destruct (dget kw "body_width_nom"); cbn in H7 |- *; subst; try (injection H7 as <-); reflexivity.
Qed.

(** an edge of the half in the plane appears twice, in the same direction, when
    the mirror image is appended *)
Lemma reflected_open axis (m : list (tri R)) e : is_axis axis -> In e (mesh_edges m) -> in_plane axis e ->
  let whole := m ++ map_mesh (reflect (axis_vec axis)) m in stl_check whole (mesh_normals whole) false true = Ok false.
Proof.
  intros B I [P1 P2] whole. destruct (C45_decides whole) as (b & EB & HB).
  rewrite EB. f_equal. destruct b; [exfalso|reflexivity]. destruct (proj1 HB eq_refl) as [ND _]. clear HB EB.
  unfold whole in ND. rewrite edges_app, map_mesh_edges in ND.
  assert (I2 : In e (map (fun e => (reflect (axis_vec axis) (fst e), reflect (axis_vec axis) (snd e))) (mesh_edges m))).
  { apply in_map_iff. exists e. split; [|exact I]. rewrite !L_Half.reflect_fix by assumption. destruct e; reflexivity. }
  destruct (in_split _ _ I) as (l1 & l2 & S1). rewrite S1 in ND at 1. rewrite <- app_assoc in ND. cbn [app] in ND.
  apply NoDup_remove_2 in ND. apply ND. apply in_or_app. right. apply in_or_app. right. exact I2.
Qed.

Section Htv.
  Variable bisect : (R -> res R) -> R -> R -> res R.

  (** what is claimed of a vehicle with halves body and flap *)
  Definition htv_parts (v : vehicle R) (h2 : heap R) (body flap : list (tri R)) : Prop :=
    let mirrored := map_mesh (reflect (axis_vec "y")) in
    v_name v = "Hypersonic Technology Vehicle"%string /\ dkeys (v_named v) = ["wing_1"; "wing_2"; "wing_3"]%string /\
    v_components v = map snd (v_named v) /\
    (forall i, dget (v_named v) "wing_1" = Some i -> mesh_of h2 i = Ok (body ++ mirrored body)) /\
    (forall i, dget (v_named v) "wing_2" = Some i -> mesh_of h2 i = Ok flap) /\
    (forall i, dget (v_named v) "wing_3" = Some i -> mesh_of h2 i = Ok (flap ++ mirrored flap)) /\
    forall prefix fs0, exists h3 fs, to_stl (mark_generated v) prefix h2 fs0 = (h3, fs, Ok tt) /\
      let named k := ((match text prefix with Some p => p | None => "Hypersonic Technology Vehicle" end) ++ "-wing-" ++ k ++ ".stl")%string in
      dget fs (named "0"%string) = Some (body ++ mirrored body) /\ dget fs (named "1"%string) = Some flap /\
      dget fs (named "2"%string) = Some (flap ++ mirrored flap) /\
      forall s, s <> named "0"%string -> s <> named "1"%string -> s <> named "2"%string -> dget fs s = dget fs0 s.

  (** C103: ParametricHTV on any heap.  The vehicle has three components of 2600,
      1300 and 2600 triangles: the body with its mirror image, one flap, and the
      same flap with its mirror image, so one flap is there twice.  The flap does
      not depend on the height h.  The checker never accepts the body: the
      edges in the plane of symmetry come twice in the same direction *)
  Theorem C103_htv L bw t a Ln bn : in_interval bisect -> answers bisect ->
    0 < L -> 0 < t -> t <= 1000000 -> Ln <> 0 -> bn <> 0 ->
    exists flap, length flap = 1300%nat /\
    forall hh, 0 < hh -> (hh + t) * (L + 1) <= 1000000 ->
    exists body, length body = 1300%nat /\
      (let whole := body ++ map_mesh (reflect (axis_vec "y")) body in stl_check whole (mesh_normals whole) false true = Ok false) /\
    forall call kw h, separate h -> htv_keywords kw L bw hh t a Ln bn ->
    exists v h2, flies call (ParametricHTV bisect) kw h v h2 /\ htv_parts v h2 body flap.
  Proof.
    intros Hin Han HL Ht Ht6 _ _.
    destruct (flap_ok bisect Hin Han L bw t a Ln bn HL Ht Ht6) as (wf & Ef & Pf).
    pose proof Pf as (gf & Egf & Kgf & _ & t2 & Et2).
    exists (wing_grid 4 gf). split.
    { rewrite wing_grid_length, <- (map_length fst). change (map fst gf) with (dkeys gf). rewrite Kgf. reflexivity. }
    intros hh Hh Hs.
    destruct (htv_line_ok L bw HL) as (line & El & Ev).
    pose proof (body_ok bisect Hin Han L bw hh t line HL Hh Ht Hs El) as Pb. set (wb := htv_body bisect line L bw hh t) in *.
    pose proof Pb as (gb & Egb & Kgb & Sgb & t1 & Et1).
    exists (wing_grid 4 gb). split.
    { rewrite wing_grid_length, <- (map_length fst). change (map fst gb) with (dkeys gb). rewrite Kgb. reflexivity. }
    split.
    { destruct (bent_apart (V3 0 (bw / 2) 0) (V3 (15 / 100 * L) (bw / 2) 0) (V3 L 0 0)) as [N1 N2]; [cbn; lra|cbn; lra|].
      destruct (bent_ends _ _ _ N1 N2) as (E0 & _ & E1).
      destruct (root_chord bisect wb gb (htv_edge L bw) 0 L (tf_value (htv_top bisect line L hh t)) Egb Ev E0) as (u & rest & -> & Hu).
      - intros x y z Hx. destruct (htv_top_value bisect Hin Han line L bw hh t x y None HL Hh Ht Ev Hx) as (w & Ew & _).
        change (htv_top bisect line L hh t x y None = Ok (V3 0 0 (tf_value (htv_top bisect line L hh t) x y))).
        unfold tf_value. rewrite Ew. reflexivity.
      - cbn. lra.
      - cbn. lra.
      - unfold wing_grid. cbn [dvals map snd values_of flat_map].
        set (v := fun r s => match u r s with Ok p => p | Raise _ => origin end).
        destruct (south_edge 4 v) as (e & Ie & He).
        apply (reflected_open "y" _ e); [right; left; reflexivity|unfold mesh_edges; rewrite flat_map_app; apply in_or_app; left; exact Ie|].
        assert (X : forall i, (i <= 5)%nat -> on_plane "y" (grid_of 4 v i 0)).
        { intros i Hi. unfold grid_of, v. replace (INR 0 / INR 5) with 0 by (cbn; field).
          destruct (Hu (INR i / INR 5)) as [z Ez]; [apply ratio01; lia|]. rewrite Ez.
          unfold on_plane, coord, inner, wb, htv_body, vec2, lerp. cbn. ring. }
        unfold in_plane. destruct He as [[-> ->]|[-> ->]]; split; apply X; lia. }
    intros call kw h SP K.
    pose proof (htv_run bisect L bw hh t a Ln bn h line wf t1 t2 El Et1 Ef Et2) as RUN. fold wb in RUN.
    destruct (htv_generates bisect wb wf h SP Pb Pf) as (gb' & gf' & Eb' & Ef' & h2 & A & LN & OP & M0 & M1 & M2 & _).
    rewrite Egb in Eb'. injection Eb' as <-. rewrite Egf in Ef'. injection Ef' as <-.
    set (c0 := length (comps h)) in *. exists (htv_made c0), h2.
    split; [eexists _, _; split; [apply htv_program, K|]; split; [exact RUN|exact A]|].
    set (body := wing_grid 4 gb) in *. set (flap := wing_grid 4 gf) in *.
    split; [reflexivity|]. split; [reflexivity|]. split; [reflexivity|].
    split; [intros i Hi; cbn in Hi; injection Hi as <-; exact M0|]. split; [intros i Hi; cbn in Hi; injection Hi as <-; exact M1|].
    split; [intros i Hi; cbn in Hi; injection Hi as <-; exact M2|].
    intros prefix fs0. set (v := mark_generated _). cbv zeta.
    destruct (OP 0%nat ltac:(lia)) as (G0 & T0 & N0). destruct (OP 1%nat ltac:(lia)) as (G1 & T1 & N1). destruct (OP 2%nat ltac:(lia)) as (G2 & T2 & N2).
    destruct (C55_files v prefix h2 fs0) as (h3 & fs & E & F).
    { intros i [<-|[<-|[<-|[]]]]; rewrite LN; lia. }
    { intros i [<-|[<-|[<-|[]]]] _; [rewrite M0|rewrite M1|rewrite M2]; eexists; reflexivity. }
    exists h3, fs. split; [exact E|].
    set (stem := match text prefix with Some p => p | None => "Hypersonic Technology Vehicle"%string end).
    assert (FI : files v prefix h2 [] (v_components v) =
      [((stem ++ "-wing-" ++ "0" ++ ".stl")%string, (c0 + 0)%nat); ((stem ++ "-wing-" ++ "1" ++ ".stl")%string, (c0 + 2)%nat);
       ((stem ++ "-wing-" ++ "2" ++ ".stl")%string, (c0 + 1)%nat)]).
    { cbn [v mark_generated htv_made v_components files app]. rewrite G0, G1, G2. unfold file_name, earlier, stem. rewrite N0, N1, N2, T0, T1, T2. cbn [filter length].
      rewrite T0, ?T2. cbn [String.eqb Ascii.eqb Bool.eqb length]. destruct (text prefix); reflexivity. }
    rewrite FI in F.
    assert (NE : forall (s a b : string), a <> b -> (s ++ a)%string <> (s ++ b)%string).
    { induction s as [|ch s IH]; intros x y H; [exact H|]. intros C. injection C as C. exact (IH x y H C). }
    assert (D01 : String.eqb (stem ++ "-wing-" ++ "0" ++ ".stl") (stem ++ "-wing-" ++ "1" ++ ".stl") = false) by (apply String.eqb_neq, NE; discriminate).
    assert (D02 : String.eqb (stem ++ "-wing-" ++ "0" ++ ".stl") (stem ++ "-wing-" ++ "2" ++ ".stl") = false) by (apply String.eqb_neq, NE; discriminate).
    assert (D12 : String.eqb (stem ++ "-wing-" ++ "1" ++ ".stl") (stem ++ "-wing-" ++ "2" ++ ".stl") = false) by (apply String.eqb_neq, NE; discriminate).
    split; [|split; [|split]].
    - specialize (F (stem ++ "-wing-" ++ "0" ++ ".stl")%string). unfold last_named in F. cbn [rev app filter fst snd] in F.
      rewrite D01, D02, String.eqb_refl in F. destruct F as (m & F1 & F2). cbn [snd] in F1. rewrite M0 in F1. apply ok_inj in F1. rewrite F1. exact F2.
    - specialize (F (stem ++ "-wing-" ++ "1" ++ ".stl")%string). unfold last_named in F. cbn [rev app filter fst snd] in F.
      rewrite D12, String.eqb_refl in F. destruct F as (m & F1 & F2). cbn [snd] in F1. rewrite M1 in F1. apply ok_inj in F1. rewrite F1. exact F2.
    - specialize (F (stem ++ "-wing-" ++ "2" ++ ".stl")%string). unfold last_named in F. cbn [rev app filter fst snd] in F.
      rewrite String.eqb_refl in F. destruct F as (m & F1 & F2). cbn [snd] in F1. rewrite M2 in F1. apply ok_inj in F1. rewrite F1. exact F2.
    - intros s H0 H1 H2. specialize (F s). unfold last_named in F. cbn [rev app filter fst snd] in F.
      rewrite (proj2 (String.eqb_neq _ _) H0), (proj2 (String.eqb_neq _ _) H1), (proj2 (String.eqb_neq _ _) H2) in F. exact F.
  Qed.

  (** C103: the analysed volume and mass are those of one flap: body and mirrored
      flap contribute nothing.  In particular they are the same for every height
      h and every density of the body *)
  Theorem C103_mass mp areas L bw t a Ln bn : in_interval bisect -> answers bisect -> weighs mp ->
    0 < L -> 0 < t -> t <= 1000000 -> Ln <> 0 -> bn <> 0 ->
    exists flap, forall hh call kw h densities rho, 0 < hh -> (hh + t) * (L + 1) <= 1000000 -> separate h -> htv_keywords kw L bw hh t a Ln bn ->
      (forall k, In k ["wing_1"; "wing_3"]%string -> exists r, dget densities k = Some r) -> dget densities "wing_2" = Some rho ->
      exists v h2 h3 cog moi, flies call (ParametricHTV bisect) kw h v h2 /\
        (forall i, dget (v_named v) "wing_2" = Some i -> mesh_of h2 i = Ok flap) /\
        analyse mp areas (mark_generated v) densities h2 = (h3, mark_generated v, Ok (signed_volume flap, rho * signed_volume flap, cog, moi)).
  Proof.
    intros Hin Han MP HL Ht Ht6 HLn Hbn.
    destruct (C103_htv L bw t a Ln bn Hin Han HL Ht Ht6 HLn Hbn) as (flap & _ & H). exists flap.
    intros hh call kw h densities rho Hh Hs SP K Den D2.
    destruct (H hh Hh Hs) as (body & _ & _ & H'). destruct (H' call kw h SP K) as (v & h2 & FL & _ & Kv & _ & A1 & A2 & A3 & _). clear H H'.
    destruct (v_named v) as [|[k1 i1] [|[k2 i2] [|[k3 i3] [|]]]] eqn:Evn; try discriminate. cbn in Kv. injection Kv as -> -> ->.
    specialize (A1 i1 eq_refl). specialize (A2 i2 eq_refl). specialize (A3 i3 eq_refl).
    destruct (Den "wing_1"%string) as (r1 & D1); [left; reflexivity|]. destruct (Den "wing_3"%string) as (r3 & D3); [right; left; reflexivity|].
    assert (Z : forall m, signed_volume (m ++ map_mesh (reflect (axis_vec "y")) m) = 0).
    { intros m. rewrite signed_volume_app, reflect_volume by (apply axis_cases; right; left; reflexivity). ring. }
    set (m1 := body ++ _) in *. set (m3 := flap ++ _) in *.
    destruct (MP m1 r1) as (cg1 & mo1 & E1). destruct (MP flap rho) as (cg2 & mo2 & E2). destruct (MP m3 r3) as (cg3 & mo3 & E3).
    destruct (C59_totals mp areas (mark_generated v) densities h2) as (h3 & P & cs & _ & AN & FF & SM & SV & _).
    - reflexivity.
    - cbn [mark_generated v_named]. rewrite Evn. discriminate.
    - cbn [mark_generated v_named]. rewrite Evn. constructor; [|constructor; [|constructor; [|constructor]]].
      + eexists (mkMeasures _ _ _ _ _). exists m1, r1. split; [exact A1|]. split; [exact D1|]. split; [exact E1|reflexivity].
      + eexists (mkMeasures _ _ _ _ _). exists flap, rho. split; [exact A2|]. split; [exact D2|]. split; [exact E2|reflexivity].
      + eexists (mkMeasures _ _ _ _ _). exists m3, r3. split; [exact A3|]. split; [exact D3|]. split; [exact E3|reflexivity].
    - exists v, h2, h3, (p_cog P), (p_moi P). split; [exact FL|]. split; [intros i Hi; rewrite Evn in Hi; cbn in Hi; injection Hi as <-; exact A2|].
      rewrite AN.
      cbn [mark_generated v_named] in FF. rewrite Evn in FF.
      inversion FF as [|x y l l' [_ (n1 & rho1 & B1 & B2 & B3 & _)] FF' X Y]; subst.
      inversion FF' as [|x' y' l0 l0' [_ (n2 & rho2 & B1' & B2' & B3' & _)] FF'' X' Y']; subst.
      inversion FF'' as [|x'' y'' l1 l1' [_ (n3 & rho3 & B1'' & B2'' & B3'' & _)] FF3 X'' Y'']; subst. inversion FF3; subst.
      cbn [snd fst] in *. rewrite A1 in B1. apply ok_inj in B1. subst n1. rewrite A2 in B1'. apply ok_inj in B1'. subst n2.
      rewrite A3 in B1''. apply ok_inj in B1''. subst n3.
      rewrite D1 in B2. injection B2 as <-. rewrite D2 in B2'. injection B2' as <-. rewrite D3 in B2''. injection B2'' as <-.
      rewrite E1 in B3. rewrite E2 in B3'. rewrite E3 in B3''.
      injection B3 as Q1 Q2 _ _. injection B3' as Q3 Q4 _ _. injection B3'' as Q5 Q6 _ _.
      assert (V1 : p_volume P = signed_volume flap).
      { rewrite SV. cbn [rsum snd]. rewrite <- Q1, <- Q3, <- Q5. unfold m1, m3. rewrite !Z. ring. }
      assert (V2 : p_mass P = rho * signed_volume flap).
      { rewrite SM. cbn [rsum snd]. rewrite <- Q2, <- Q4, <- Q6. unfold m1, m3. rewrite !Z. ring. }
      rewrite V1, V2. reflexivity.
  Qed.
End Htv.

(** a longer vehicle with a root finder that takes the middle *)
Example C103_meets : in_interval sign_bisect /\ answers sign_bisect /\ separate (mkHeap [] []) /\
  htv_keywords [("L"%string, PNum 3)] 3 (1 / 2) (1 / 10) (1 / 100) 15 1 (8 / 10) /\ (1 / 10 + 1 / 100) * (3 + 1) <= 1000000 /\
  weighs (fun m rho => (signed_volume m, signed_volume m * rho, origin, M3 origin origin origin)).
Proof.
  split; [exact sign_in|]. split; [exact sign_answers|]. split; [|split; [|split; [lra|]]].
  - split; [intros j Hj; cbn in Hj; lia|]. intros j k c c' H. destruct j; discriminate.
  - split; [split; [repeat constructor; tauto|split; intros [H|[]]; discriminate]|]. repeat split.
  - intros m rho. eauto.
Qed.

Print Assumptions C103_htv.
Print Assumptions C103_mass.
