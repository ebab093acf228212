(** C106: the parametric D-21 end to end (hangar/d21.py). *)
From Coq Require Import String Reals Lra ZArith List Permutation Lia Bool.
From Verif Require Import Num NumR Py M_Vector SpecR3 M_Path M_Surface M_Geometry M_Mesh M_Component M_Stl M_Common M_Wing M_Fin M_Vehicle M_VecHeap M_Sens M_Gen M_Inertia M_Hangar M_Htv M_X43 M_D21
  SpecPath SpecPoly SpecSurf SpecMesh SpecComp SpecVehicle SpecAdd SpecFiles SpecInertia SpecPrism SpecHangar SpecWing SpecFin SpecPair SpecHalf SpecHtv SpecX43 SpecD21
  L_Vector L_Edges L_Component L_Heap L_Pipeline L_Generate L_Files L_Prism L_Reflect L_Volume L_Hangar L_Finner L_Study L_Block L_Wing L_Fin L_FinTotal L_Pair L_Half L_Htv L_Parts L_Falcon L_Parts2 L_D21
  P_Component P_Vehicle P_Gen P_Inertia P_Hangar P_Falcon P_Half P_Planform P_Htv P_Ledger P_X43 P_Cylinder.
From Verif Require Import SpecLathe SpecProfile.
Import ListNotations.
Local Open Scope R_scope.

Definition d21_keywords (kw : dict (pval R)) (Rb Lb Lw W fa : R) : Prop := plain_keywords kw /\
  given kw "R_b" 1 = PNum Rb /\ given kw "L_b" 20 = PNum Lb /\ given kw "L_w" 16 = PNum Lw /\ given kw "W_w" 5 = PNum W /\ given kw "flap_angle" 0 = PNum fa.
Lemma d21_program bisect nw nt call kw Rb Lb Lw W fa : d21_keywords kw Rb Lb Lw W fa ->
  make_vehicle call (ParametricD21 bisect nw nt) kw = Ok (d21_vehicle bisect nw nt Rb Lb Lw W fa).
Proof.
  intros ((Nd & S1 & S2) & H1 & H2 & H3 & H4 & H5). unfold make_vehicle, instantiate. rewrite no_key by exact S1.
  cbn [g_init ParametricD21 run_init bind g_classes]. unfold create_instance. rewrite generator_init_get by exact Nd.
  destruct (dget kw "create_instance") as [v|] eqn:E.
  { exfalso. apply S2. apply dget_in in E. apply (in_map fst) in E. exact E. }
  cbn [dget dset String.eqb]. cbn [g_create ParametricD21 g_classes].
  set (d := dset _ "flap_angle"%string _).
  rewrite (read_given kw d "R_b" Rb 1 Nd eq_refl H1). cbn [bind].
  rewrite (read_given kw d "L_b" Lb 20 Nd eq_refl H2). cbn [bind].
  rewrite (read_given kw d "L_w" Lw 16 Nd eq_refl H3). cbn [bind].
  rewrite (read_given kw d "W_w" W 5 Nd eq_refl H4). cbn [bind].
  rewrite (read_given kw d "flap_angle" fa 0 Nd eq_refl H5). cbn [bind].
  reflexivity.
Qed.

Section D21.
  Variable bisect : (R -> res R) -> R -> R -> res R.

  (** the six components, from the fuselage, the nose, one half of the wing, the
      tail and one of the two small wings, and the files they go to *)
  Definition d21_meshes (fuse nose wing tail tew : list (tri R)) : list (string * list (tri R)) :=
    [("revolved_1", fuse); ("revolved_2", nose); ("wing_1", (wing ++ map_mesh (reflect (axis_vec "y")) wing)%list);
     ("fin_1", tail); ("fin_2", tew); ("fin_3", map_mesh half_turn tew)]%string.
  Definition d21_file (prefix : option string) (k : string) : string :=
    ((match text prefix with Some p => p | None => "Lockhead Martin D-21" end) ++ "-" ++
     (match dget [("revolved_1", "revolved-0"); ("revolved_2", "revolved-1"); ("wing_1", "wing-0"); ("fin_1", "fin-0"); ("fin_2", "fin-1"); ("fin_3", "fin-2")] k with
      | Some s => s | None => "" end) ++ ".stl")%string.
  Definition d21_parts (v : vehicle R) (h2 : heap R) (ms : list (string * list (tri R))) : Prop :=
    v_name v = "Lockhead Martin D-21"%string /\ v_components v = map snd (v_named v) /\
    map (fun ki => (fst ki, mesh_of h2 (snd ki))) (v_named v) = map (fun km => (fst km, Ok (snd km))) ms /\
    forall prefix fs0, exists h3 fs, to_stl (mark_generated v) prefix h2 fs0 = (h3, fs, Ok tt) /\
      (forall k m, In (k, m) ms -> dget fs (d21_file prefix k) = Some m) /\
      forall s, (forall k m, In (k, m) ms -> s <> d21_file prefix k) -> dget fs s = dget fs0 s.

  Definition d21_shapes (nw nt : nat) (Rb Lb Lw W fa : R) (fuse nose wing tail tew : list (tri R)) : Prop :=
    watertight fuse /\ length fuse = 6400%nat /\
    - (ngon 80 * (Rb * Rb) * Lb) <= signed_volume fuse < 0 /\
    (signed_volume fuse = - (ngon 80 * (Rb * Rb) * Lb) <-> exists k, 20 * Rb = INR k * (2 * Rb + Lb)) /\
    vertex_of fuse (V3 0 0 0) /\ vertex_of fuse (V3 (- Lb) 0 0) /\
    (forall p, vertex_of fuse p -> - Lb <= vx p <= 0 /\ radius_x p <= Rb) /\
    watertight nose /\ length nose = 6400%nat /\
    - (ngon 80 * (Rb * Rb) * (15 / 100 * Lb + 1 / 2)) <= signed_volume nose < 0 /\
    vertex_of nose (V3 (15 / 100 * Lb - 1 / 10) 0 0) /\ vertex_of nose (V3 (- (6 / 10)) 0 0) /\
    (forall p, vertex_of nose p -> - (6 / 10) <= vx p <= 15 / 100 * Lb - 1 / 10 /\ radius_x p <= Rb) /\
    length wing = (52 * (S nw * S nw))%nat /\
    (let whole := wing ++ map_mesh (reflect (axis_vec "y")) wing in stl_check whole (mesh_normals whole) false true = Ok false) /\
    vertex_of wing (d21_flap_inner Lw fa) /\ vertex_of wing (d21_flap_outer Lw W fa) /\
    length tail = (48 * (S nt * S nt))%nat /\ length tew = (48 * (S nt * S nt))%nat /\
    forall s, (s = 75 / 1000 * Rb \/ s = - (75 / 1000 * Rb)) ->
      vertex_of tail (V3 (- Lb) s (- (95 / 100 * Rb) - 15 / 100 * W)) /\ vertex_of tail (V3 (- Lw) s (- (95 / 100 * Rb))) /\
      vertex_of tew (V3 (- Lb) (45 / 100 * W) s) /\ vertex_of tew (V3 (- Lb + 13 / 10 * (Lb - Lw)) 0 s).
  (** a vertex of the wing far off its plane: 1000 y is taken for the fraction of
      the local half span *)
  Definition d21_spike (nw : nat) (Rb W : R) (wing : list (tri R)) : Prop :=
    exists y, 24 / 100 * W / INR (S nw) <= y <= 15 / 100 * W /\ vertex_of wing (V3 (- (3 / 10)) y (500 * y - 1 / 2 - 75 / 1000 * Rb)).

  Lemma suffix_apart prefix k k' a b : dget [("revolved_1", "revolved-0"); ("revolved_2", "revolved-1"); ("wing_1", "wing-0"); ("fin_1", "fin-0"); ("fin_2", "fin-1"); ("fin_3", "fin-2")]%string k = Some a ->
    dget [("revolved_1", "revolved-0"); ("revolved_2", "revolved-1"); ("wing_1", "wing-0"); ("fin_1", "fin-0"); ("fin_2", "fin-1"); ("fin_3", "fin-2")]%string k' = Some b ->
    (a ++ ".stl")%string <> (b ++ ".stl")%string -> d21_file prefix k <> d21_file prefix k'.
  Proof using.
    intros A B H. unfold d21_file. rewrite A, B.
    assert (NE : forall (s a b : string), a <> b -> (s ++ a)%string <> (s ++ b)%string).
    { induction s as [|ch s IH]; intros x y Hxy; [exact Hxy|]. intros C. injection C as C. exact (IH x y Hxy C). }
    apply NE, NE, H.
  Qed.

  Lemma d21_all tol nw nt Rb Lb Lw W fa : bisects tol bisect -> 0 < Rb <= 1000000 -> 3 / 4 < Lw < Lb -> 0 < W ->
    exists fuse nose wing tail tew, d21_shapes nw nt Rb Lb Lw W fa fuse nose wing tail tew /\
      (tol <= 1 / 1000000 -> Lw <= 1000 * W -> 41 * Lw + 51 * W <= 30 * W * INR (S nw) -> d21_spike nw Rb W wing) /\
      forall call kw h, separate h -> d21_keywords kw Rb Lb Lw W fa ->
      exists v h2, flies call (ParametricD21 bisect (S nw) (S nt)) kw h v h2 /\ d21_parts v h2 (d21_meshes fuse nose wing tail tew).
  Proof using.
    intros HB HR HL HW. pose proof HB as (Hi & Hbr & Hx). pose proof (brackets_answers _ _ Hbr) as Han.
    destruct (d21_fuse_draws Rb Lb Lw HR HL) as (p & Ep & Dp). destruct (d21_nose_draws Rb Lb Lw HR HL) as (q & Eq & Dq).
    destruct (drawn_mesh _ p _ _ 18 Dp) as (gp & Evp & Wp & Lp & Vp & P0 & P1 & Ip).
    { split; reflexivity. } { split; reflexivity. } { cbn. lra. }
    destruct (drawn_mesh _ q _ _ 18 Dq) as (gq & Evq & Wq & Lq & Vq & Q0 & Q1 & Iq).
    { split; reflexivity. } { split; reflexivity. } { unfold nose_tip, nose_back. cbn. lra. }
    unfold nose_tip, nose_back in Vq, Q0, Q1, Iq. cbn [vx] in Vp, Ip, Vq, Iq.
    destruct (d21_edge_ok Lb Lw W HL HW) as (line & g & l1 & l2 & EF).
    destruct (d21_wing_ok bisect Rb Lb Lw W fa HR HL HW tol line g l1 l2 HB EF) as (gw & t1 & Ew & Et & Kw & Sw & Ow & Fw & Spk).
    destruct (d21_tail_ok bisect Rb Lb Lw W HR HL HW Hi Han) as (g1 & E1 & K1 & S1 & V1).
    destruct (d21_tew_ok bisect Rb Lb Lw W HR HL HW 0 (fun p => p) Hi Han) as (g2 & E2 & K2 & S2 & V2).
    { intros x. change (ndeg2rad 0) with (0 * (PI / 180)). rewrite Rmult_0_l. symmetry. apply rodrigues_0. }
    destruct (d21_tew_ok bisect Rb Lb Lw W HR HL HW 180 half_turn Hi Han) as (g3 & E3 & K3 & S3 & _).
    { intros x. change (ndeg2rad 180) with (180 * (PI / 180)). replace (180 * (PI / 180)) with PI by field. symmetry. apply rodrigues_PI. }
    assert (G3 : wing_grid nt g3 = map_mesh half_turn (wing_grid nt g2)).
    { destruct (fin_turned bisect (d21_tew Rb Lb Lw W 0)) as (base & HB').
      assert (B2 := HB' (0 * (PI / 180)) None). change (turned_fin _ (0 * (PI / 180)) None) with (d21_tew Rb Lb Lw W 0) in B2.
      assert (B3 := HB' (180 * (PI / 180)) None). change (turned_fin _ (180 * (PI / 180)) None) with (d21_tew Rb Lb Lw W 180) in B3.
      rewrite E2 in B2. rewrite E3 in B3. destruct base as [d|]; [|discriminate]. cbn [bind] in B2, B3. apply ok_inj in B2, B3. subst g2 g3.
      rewrite Rmult_0_l. replace (180 * (PI / 180)) with PI by field. apply turned_grid. }
    assert (LN : forall n (g : dict (surf R)) ks, dkeys g = ks -> length (wing_grid n g) = (length ks * (4 * (S n * S n)))%nat).
    { intros n gg ks K. rewrite wing_grid_length, <- (map_length fst). change (map fst gg) with (dkeys gg). rewrite K. lia. }
    exists (profile_mesh 19 gp), (profile_mesh 19 gq), (wing_grid nw gw), (wing_grid nt g1), (wing_grid nt g2).
    split; [|split].
    { unfold d21_shapes.
      split; [exact Wp|]. split; [rewrite Lp; reflexivity|]. split; [replace (0 - - Lb) with Lb in Vp by ring; exact Vp|].
      split.
      { destruct (C95_cylinder 0 (- Lb) Rb 19) as (q' & m & Eq' & Em & _ & _ & I & _); [lra|lra|].
        rewrite d21_fuse_parts in Ep. rewrite Ep in Eq'. apply ok_inj in Eq'. subst q'.
        rewrite (profile_turned 19 p gp Evp) in Em. apply ok_inj in Em. subst m.
        assert (AB : - Lb - 0 = - Lb) by ring. rewrite AB in I. rewrite Rabs_Ropp, (Rabs_right Lb) in I by lra.
        replace (INR 20) with 20 in I by (cbn; ring).
        rewrite <- I. change (4 * 20)%nat with 80%nat. split; intros E; rewrite E; ring. }
      split; [exact P0|]. split; [exact P1|]. split; [exact Ip|].
      split; [exact Wq|]. split; [rewrite Lq; reflexivity|].
      split; [replace (15 / 100 * Lb - 1 / 10 - - (6 / 10)) with (15 / 100 * Lb + 1 / 2) in Vq by field; exact Vq|].
      split; [exact Q0|]. split; [exact Q1|]. split; [exact Iq|].
      split; [rewrite (LN _ _ _ Kw); cbn; lia|]. split.
      { destruct (Ow nw) as (e & I & P). apply (reflected_open "y" _ e); [right; left; reflexivity|exact I|exact P]. }
      split; [apply Fw|]. split; [apply Fw|].
      split; [rewrite (LN _ _ _ K1); cbn; lia|]. split; [rewrite (LN _ _ _ K2); cbn; lia|].
      intros s Hs. split; [apply V1, Hs|]. split; [apply V1, Hs|]. split; apply V2, Hs. }
    { intros A B C. apply Spk; assumption. }
    intros call kw h SP K.
    pose proof (d21_run bisect nw nt Rb Lb Lw W fa h p q line t1 Ep Eq (proj1 EF) Et) as RUN.
    destruct (d21_generates bisect nw nt p q _ _ _ _ gp gq gw g1 g2 g3 h SP Evp Evq Ew Kw Sw (conj E1 (conj K1 S1)) (conj E2 (conj K2 S2)) (conj E3 (conj K3 S3))) as (h2 & A & LC & OP & Q).
    rewrite G3 in Q. set (c0 := length (comps h)) in *. exists (d21_made c0), h2.
    split; [eexists _, _; split; [apply d21_program, K|]; split; [exact RUN|exact A]|].
    set (fuse := profile_mesh 19 gp) in *. set (nose := profile_mesh 19 gq) in *. set (wing := wing_grid nw gw) in *. set (tail := wing_grid nt g1) in *. set (tew := wing_grid nt g2) in *.
    pose proof (Q 0%nat ltac:(lia)) as M0. pose proof (Q 1%nat ltac:(lia)) as M1. pose proof (Q 2%nat ltac:(lia)) as M2.
    pose proof (Q 3%nat ltac:(lia)) as M3. pose proof (Q 4%nat ltac:(lia)) as M4. pose proof (Q 5%nat ltac:(lia)) as M5.
    cbn [d21_piece grid_y] in M0, M1, M2, M3, M4, M5. clear Q.
    split; [reflexivity|]. split; [reflexivity|].
    split; [cbn [d21_made v_named map fst snd]; rewrite M0, M1, M2, M3, M4, M5; reflexivity|].
    intros prefix fs0. set (v := mark_generated _).
    set (m := fun i => match mesh_of h2 i with Ok t => t | Raise _ => [] end).
    destruct (filed v prefix h2 fs0 [(d21_file prefix "revolved_1", c0 + 0); (d21_file prefix "revolved_2", c0 + 1); (d21_file prefix "wing_1", c0 + 2);
      (d21_file prefix "fin_1", c0 + 3); (d21_file prefix "fin_2", c0 + 4); (d21_file prefix "fin_3", c0 + 5)]%nat%string m) as (h3 & fs & WR & F1 & F2).
    { intros i Hc. unfold m. cbn [v mark_generated d21_made v_components In] in Hc.
      destruct Hc as [<-|[<-|[<-|[<-|[<-|[<-|[]]]]]]]; (split; [rewrite LC; lia|]); [rewrite M0|rewrite M1|rewrite M2|rewrite M3|rewrite M4|rewrite M5]; reflexivity. }
    { destruct (OP 0%nat _ eq_refl) as (X0 & T0 & N0). destruct (OP 1%nat _ eq_refl) as (X1 & T1 & N1). destruct (OP 2%nat _ eq_refl) as (X2 & T2 & N2).
      destruct (OP 3%nat _ eq_refl) as (X3 & T3 & N3). destruct (OP 4%nat _ eq_refl) as (X4 & T4 & N4). destruct (OP 5%nat _ eq_refl) as (X5 & T5 & N5).
      cbn [v mark_generated d21_made v_components files]. rewrite X0, X1, X2, X3, X4, X5. cbn [with_options wing_comp L_Parts.fin_comp rev_comp default_add mirrored_add c_ghost a_ghost app].
      unfold file_name, earlier. rewrite N0, N1, N2, N3, N4, N5. cbn [filter]. rewrite T0, T1, T2, T3, T4, T5. unfold d21_file.
      cbn [with_options default_add mirrored_add a_name over c_name c_type wing_comp L_Parts.fin_comp rev_comp text truthy String.eqb Ascii.eqb Bool.eqb negb length dget].
      destruct (text prefix); reflexivity. }
    { cbn [map fst]. repeat constructor; cbn [In]; intros H; repeat (destruct H as [H|H]; [revert H; eapply suffix_apart; [reflexivity|reflexivity|discriminate]|]); exact H. }
    { intros s i Hc. cbn [v mark_generated d21_made v_components In] in *.
      repeat (destruct Hc as [Hc|Hc]; [injection Hc as _ <-; tauto|]). destruct Hc. }
    exists h3, fs. split; [exact WR|]. split.
    - intros k t I. unfold d21_meshes in I. cbn [In] in I.
      destruct I as [I|[I|[I|[I|[I|[I|[]]]]]]]; injection I as <- <-.
      + rewrite (F1 (d21_file prefix "revolved_1") (c0 + 0)%nat) by (left; reflexivity). unfold m. rewrite M0. reflexivity.
      + rewrite (F1 (d21_file prefix "revolved_2") (c0 + 1)%nat) by (do 1 right; left; reflexivity). unfold m. rewrite M1. reflexivity.
      + rewrite (F1 (d21_file prefix "wing_1") (c0 + 2)%nat) by (do 2 right; left; reflexivity). unfold m. rewrite M2. reflexivity.
      + rewrite (F1 (d21_file prefix "fin_1") (c0 + 3)%nat) by (do 3 right; left; reflexivity). unfold m. rewrite M3. reflexivity.
      + rewrite (F1 (d21_file prefix "fin_2") (c0 + 4)%nat) by (do 4 right; left; reflexivity). unfold m. rewrite M4. reflexivity.
      + rewrite (F1 (d21_file prefix "fin_3") (c0 + 5)%nat) by (do 5 right; left; reflexivity). unfold m. rewrite M5. reflexivity.
    - intros s H. apply F2. cbn [map fst In]. intros I. unfold d21_meshes in H. cbn [In] in H.
      destruct I as [I|[I|[I|[I|[I|[I|[]]]]]]]; symmetry in I; revert I; eapply H.
      + left; reflexivity.
      + right; left; reflexivity.
      + do 2 right; left; reflexivity.
      + do 3 right; left; reflexivity.
      + do 4 right; left; reflexivity.
      + do 5 right; left; reflexivity.
  Qed.

  (** C106: ParametricD21 on any heap: fuselage and nose are closed and inside
      out; the checker never accepts the wing; the fins are where they are said
      to be, one small wing being the other turned over; each component goes to
      its own file *)
  Theorem C106_d21 tol nw nt Rb Lb Lw W fa : bisects tol bisect -> 0 < Rb <= 1000000 -> 3 / 4 < Lw < Lb -> 0 < W ->
    exists fuse nose wing tail tew, d21_shapes nw nt Rb Lb Lw W fa fuse nose wing tail tew /\
      forall call kw h, separate h -> d21_keywords kw Rb Lb Lw W fa ->
      exists v h2, flies call (ParametricD21 bisect (S nw) (S nt)) kw h v h2 /\ d21_parts v h2 (d21_meshes fuse nose wing tail tew).
  Proof using.
    intros HB HR HL HW. destruct (d21_all tol nw nt Rb Lb Lw W fa HB HR HL HW) as (fuse & nose & wing & tail & tew & A & _ & B).
    exists fuse, nose, wing, tail, tew. auto.
  Qed.

  (** C106: at a resolution of the wing that is fine enough for its span the wing
      has a vertex about 500 y off its plane, y at least 0.24 W_w / resolution *)
  Theorem C106_spike tol nw nt Rb Lb Lw W fa call kw (h : heap R) : bisects tol bisect -> tol <= 1 / 1000000 -> 0 < Rb <= 1000000 -> 3 / 4 < Lw < Lb -> 0 < W ->
    Lw <= 1000 * W -> 41 * Lw + 51 * W <= 30 * W * INR (S nw) -> separate h -> d21_keywords kw Rb Lb Lw W fa ->
    exists v h2 i m y, flies call (ParametricD21 bisect (S nw) (S nt)) kw h v h2 /\ dget (v_named v) "wing_1" = Some i /\ mesh_of h2 i = Ok m /\
      24 / 100 * W / INR (S nw) <= y <= 15 / 100 * W /\ vertex_of m (V3 (- (3 / 10)) y (500 * y - 1 / 2 - 75 / 1000 * Rb)).
  Proof using.
    intros HB HT HR HL HW H1 H2 SP K. destruct (d21_all tol nw nt Rb Lb Lw W fa HB HR HL HW) as (fuse & nose & wing & tail & tew & _ & SPK & B).
    destruct (SPK HT H1 H2) as (y & Y & V). destruct (B call kw h SP K) as (v & h2 & FL & _ & _ & MM & _).
    unfold d21_meshes in MM. destruct (v_named v) as [|[k1 i1] [|[k2 i2] [|[k3 i3] [|[k4 i4] [|[k5 i5] [|[k6 i6] [|]]]]]]] eqn:Evn; try discriminate MM.
    cbn [map fst snd] in MM. injection MM as -> A1 -> A2 -> A3 -> A4 -> A5 -> A6.
    exists v, h2, i3. eexists. exists y. split; [exact FL|]. split; [rewrite Evn; reflexivity|]. split; [exact A3|]. split; [exact Y|].
    destruct V as (t & I & C). exists t. split; [apply in_or_app; left; exact I|exact C].
  Qed.

  (** C106: volume and mass are those of the bodies of revolution, of the tail and
      of the two small wings; the wing contributes nothing *)
  Theorem C106_mass mp areas tol nw nt Rb Lb Lw W fa : bisects tol bisect -> weighs mp -> 0 < Rb <= 1000000 -> 3 / 4 < Lw < Lb -> 0 < W ->
    exists fuse nose wing tail tew, d21_shapes nw nt Rb Lb Lw W fa fuse nose wing tail tew /\
      forall call kw h densities, separate h -> d21_keywords kw Rb Lb Lw W fa ->
      (forall k, In k ["revolved_1"; "revolved_2"; "wing_1"; "fin_1"; "fin_2"; "fin_3"]%string -> exists r, dget densities k = Some r) ->
      let rho k := match dget densities k with Some r => r | None => 0 end in
      exists v h2 h3 cog moi, flies call (ParametricD21 bisect (S nw) (S nt)) kw h v h2 /\
        analyse mp areas (mark_generated v) densities h2 = (h3, mark_generated v,
          Ok (signed_volume fuse + signed_volume nose + signed_volume tail + 2 * signed_volume tew,
              rho "revolved_1"%string * signed_volume fuse + rho "revolved_2"%string * signed_volume nose + rho "fin_1"%string * signed_volume tail +
              (rho "fin_2"%string + rho "fin_3"%string) * signed_volume tew, cog, moi)).
  Proof using.
    intros HB MP HR HL HW. destruct (d21_all tol nw nt Rb Lb Lw W fa HB HR HL HW) as (fuse & nose & wing & tail & tew & SH & _ & H).
    exists fuse, nose, wing, tail, tew. split; [exact SH|]. intros call kw h densities SP K Den rho. destruct (H call kw h SP K) as (v & h2 & FL & _ & _ & MM & _). clear H.
    unfold d21_meshes in MM.
    destruct (v_named v) as [|[k1 i1] [|[k2 i2] [|[k3 i3] [|[k4 i4] [|[k5 i5] [|[k6 i6] [|]]]]]]] eqn:Evn; try discriminate MM.
    cbn [map fst snd] in MM. injection MM as -> A1 -> A2 -> A3 -> A4 -> A5 -> A6.
    assert (Z : forall m, signed_volume (m ++ map_mesh (reflect (axis_vec "y")) m) = 0).
    { intros m. rewrite signed_volume_app, reflect_volume by (apply axis_cases; right; left; reflexivity). ring. }
    set (m := fun i => match mesh_of h2 i with Ok t => t | Raise _ => [] end).
    destruct (weighed mp areas (mark_generated v) h2 densities m MP eq_refl) as (h3 & cog & moi & AN).
    - cbn [mark_generated v_named]. rewrite Evn. discriminate.
    - cbn [mark_generated v_named]. rewrite Evn. intros k i I. cbn [In] in I. unfold m.
      destruct I as [I|[I|[I|[I|[I|[I|[]]]]]]]; injection I as <- <-;
        (split; [first [rewrite A1|rewrite A2|rewrite A3|rewrite A4|rewrite A5|rewrite A6]; reflexivity|apply Den; cbn; tauto]).
    - exists v, h2, h3, cog, moi. split; [exact FL|].
      rewrite AN. cbn [mark_generated v_named]. rewrite Evn. cbn [rsum fst snd]. unfold m. rewrite A1, A2, A3, A4, A5, A6, Z, half_turn_volume.
      change (match dget densities "revolved_1" with Some r => r | None => 0 end) with (rho "revolved_1"%string).
      change (match dget densities "revolved_2" with Some r => r | None => 0 end) with (rho "revolved_2"%string).
      change (match dget densities "fin_1" with Some r => r | None => 0 end) with (rho "fin_1"%string).
      change (match dget densities "fin_2" with Some r => r | None => 0 end) with (rho "fin_2"%string).
      change (match dget densities "fin_3" with Some r => r | None => 0 end) with (rho "fin_3"%string).
      match goal with |- (_, _, Ok (?a, ?b, _, _)) = (_, _, Ok (?c, ?d, _, _)) => replace a with c by ring; replace b with d by ring end. reflexivity.
  Qed.
End D21.

(** bisection with a fixed number of steps bisects *)
Fixpoint halve (k : nat) (f : R -> res R) (a b : R) : res R :=
  match k with
  | 0%nat => Ok a
  | S k => let m := (a + b) / 2 in let! fm := f m in if Rleb fm 0 then halve k f m b else halve k f a m
  end.
Definition loop_bisect (k : nat) (f : R -> res R) (a b : R) : res R :=
  if Rleb a b then
    let! fa := f a in if Reqb fa 0 then Ok a else
    let! fb := f b in if Reqb fb 0 then Ok b else halve k f a b
  else Raise ValueError.
Lemma halve_in k f : forall a b t, a <= b -> halve k f a b = Ok t -> a <= t <= b.
Proof.
  induction k as [|k IH]; intros a b t AB H; cbn [halve] in H; [apply ok_inj in H; lra|]. cbv zeta in H.
  destruct (f _) as [fm|]; [|discriminate]. cbn [bind] in H. destruct (Rleb fm 0); apply IH in H; lra.
Qed.
Lemma halve_brackets k f phi : (forall t, 0 <= t <= 1 -> f t = Ok (phi t)) -> forall a b, 0 <= a <= b -> b <= 1 -> phi a <= 0 <= phi b ->
  exists t a' b', halve k f a b = Ok t /\ 0 <= a' <= t /\ t <= b' <= 1 /\ b' - a' <= (b - a) / 2 ^ k /\ phi a' <= 0 <= phi b'.
Proof.
  intros E. induction k as [|k IH]; intros a b Ha Hb Hp; cbn [halve].
  - exists a, a, b. split; [reflexivity|]. cbn [pow]. repeat split; lra.
  - cbv zeta. rewrite E by lra. cbn [bind]. assert (Q : forall x, x / 2 / 2 ^ k = x / 2 ^ S k) by (intros x; cbn [pow]; field; apply pow_nonzero; lra).
    destruct (Rleb (phi ((a + b) / 2)) 0) eqn:C.
    + apply Rleb_true in C. destruct (IH ((a + b) / 2) b) as (t & a' & b' & H1 & H2 & H3 & H4 & H5); [lra..|]. exists t, a', b'. split; [exact H1|].
      rewrite <- Q. replace (b - (a + b) / 2) with ((b - a) / 2) in H4 by field. auto.
    + apply Rleb_false in C. destruct (IH a ((a + b) / 2)) as (t & a' & b' & H1 & H2 & H3 & H4 & H5); [lra..|]. exists t, a', b'. split; [exact H1|].
      rewrite <- Q. replace ((a + b) / 2 - a) with ((b - a) / 2) in H4 by field. auto.
Qed.
Lemma loop_bisects k : bisects (1 / 2 ^ k) (loop_bisect k).
Proof.
  assert (P : 0 < 1 / 2 ^ k) by (apply Rdiv_lt_0_compat; [lra|apply pow_lt; lra]).
  split; [|split].
  - intros f a b t H. unfold loop_bisect in H. destruct (Rleb a b) eqn:AB; [|discriminate]. apply Rleb_true in AB.
    destruct (f a) as [fa|]; [|discriminate]. cbn [bind] in H. destruct (Reqb fa 0); [apply ok_inj in H; lra|].
    destruct (f b) as [fb|]; [|discriminate]. cbn [bind] in H. destruct (Reqb fb 0); [apply ok_inj in H; lra|]. exact (halve_in k f a b t AB H).
  - intros f phi E S. unfold loop_bisect. rewrite (proj2 (Rleb_true 0 1)) by lra. rewrite !E by lra. cbn [bind].
    destruct (Reqb (phi 0) 0) eqn:E0; [apply Reqb_true in E0; exists 0, 0, 0; split; [reflexivity|]; repeat split; lra|].
    destruct (Reqb (phi 1) 0) eqn:E1; [apply Reqb_true in E1; exists 1, 1, 1; split; [reflexivity|]; repeat split; lra|].
    destruct (halve_brackets k f phi E 0 1 ltac:(lra) ltac:(lra) S) as (t & a' & b' & H1 & H2 & H3 & H4 & H5). rewrite Rminus_0_r in H4. exists t, a', b'. auto.
  - intros f a b AB. unfold loop_bisect. rewrite (proj2 (Rleb_true a b)) by exact AB. split.
    + intros -> _. cbn [bind]. rewrite (proj2 (Reqb_true 0 0)) by reflexivity. reflexivity.
    + intros fa -> N ->. cbn [bind]. rewrite (proj2 (Reqb_false fa 0)) by exact N. rewrite (proj2 (Reqb_true 0 0)) by reflexivity. reflexivity.
Qed.
(** the nominal shape, its flap turned by 10 degrees, with the wing at resolution
    7: the vertex lies more than 80 m off the wing *)
Example C106_meets : bisects (1 / 2 ^ 20) (loop_bisect 20) /\ 1 / 2 ^ 20 <= 1 / 1000000 /\ separate (mkHeap [] []) /\
  d21_keywords [("flap_angle"%string, PNum 10)] 1 20 16 5 10 /\ 16 <= 1000 * 5 /\ 41 * 16 + 51 * 5 <= 30 * 5 * INR 7 /\
  80 < 500 * (24 / 100 * 5 / INR 7) - 1 / 2 - 75 / 1000 * 1 /\
  weighs (fun m rho => (signed_volume m, signed_volume m * rho, origin, M3 origin origin origin)).
Proof.
  split; [apply loop_bisects|]. split; [cbn [pow]; lra|]. split; [|split; [|split; [lra|split; [cbn; lra|split; [cbn; lra|]]]]].
  - split; [intros j Hj; cbn in Hj; lia|]. intros j k c c' H. destruct j; discriminate.
  - split; [split; [repeat constructor; cbn; intuition discriminate|split; cbn; intuition discriminate]|]. repeat split.
  - intros m rho. eauto.
Qed.

Print Assumptions C106_d21.
Print Assumptions C106_spike.
Print Assumptions C106_mass.
