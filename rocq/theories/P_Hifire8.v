(** C112: the parametric HIFiRE 8 end to end (hangar/hifire8.py). *)
From Coq Require Import String Reals Lra ZArith List Permutation Lia Bool.
From Verif Require Import Num NumR Py M_Vector SpecR3 M_Path M_Surface M_Geometry M_Mesh M_Component M_Stl M_Common M_Wing M_Fin M_Vehicle M_VecHeap M_Sens M_Gen M_Inertia M_Hangar M_Htv M_X43 M_D21 M_Hifire8
  SpecPath SpecPoly SpecSurf SpecMesh SpecComp SpecVehicle SpecAdd SpecFiles SpecInertia SpecPrism SpecHangar SpecWing SpecFin SpecPair SpecHalf SpecHtv SpecX43 SpecD21 SpecLathe SpecHifire8
  L_Vector L_Edges L_Component L_Heap L_Pipeline L_Generate L_Files L_Prism L_Reflect L_Volume L_Hangar L_Finner L_Study L_Block L_Wing L_WingTotal L_Fin L_FinTotal L_Lathe L_Pair L_Half L_Htv L_Parts L_Falcon L_Closed L_Parts2 L_Parts3 L_D21 L_Hifire4 L_Hifire8 L_Hifire8b L_Hifire8c
  P_Component P_Vehicle P_Gen P_Inertia P_Hangar P_Falcon P_Half P_Planform P_Htv P_Ledger P_X43 P_Cylinder P_D21.
Import ListNotations.
Local Open Scope R_scope.

Definition h8_keywords (kw : dict (pval R)) (L Rb Rn nl : R) : Prop := plain_keywords kw /\
  given kw "L" (12 / 10) = PNum L /\ given kw "R_base" (175 / 1000) = PNum Rb /\ given kw "R_nose" (1 / 10) = PNum Rn /\ given kw "nozzle_length" (1 / 10) = PNum nl.
Lemma h8_program bisect call kw L Rb Rn nl : h8_keywords kw L Rb Rn nl ->
  make_vehicle call (ParametricHIFiRE8 bisect) kw = Ok (h8_vehicle bisect L Rb Rn nl).
Proof.
  intros ((Nd & S1 & S2) & H1 & H2 & H3 & H4). unfold make_vehicle, instantiate. rewrite no_key by exact S1.
  cbn [g_init ParametricHIFiRE8 run_init bind g_classes]. unfold create_instance. rewrite generator_init_get by exact Nd.
  destruct (dget kw "create_instance") as [v|] eqn:E.
  { exfalso. apply S2. apply dget_in in E. apply (in_map fst) in E. exact E. }
  cbn [dget dset String.eqb]. cbn [g_create ParametricHIFiRE8 g_classes].
  set (d := dset _ "nozzle_length"%string _).
  rewrite (read_given kw d "L" L (12 / 10) Nd eq_refl H1). cbn [bind].
  rewrite (read_given kw d "R_base" Rb (175 / 1000) Nd eq_refl H2). cbn [bind].
  rewrite (read_given kw d "R_nose" Rn (1 / 10) Nd eq_refl H3). cbn [bind].
  rewrite (read_given kw d "nozzle_length" nl (1 / 10) Nd eq_refl H4). cbn [bind].
  reflexivity.
Qed.

(** the six components, from the fuselage, halves of the wing and the nose, and two fins *)
Definition h8_meshes (fuse wing nose fin1 fin3 : list (tri R)) : list (string * list (tri R)) :=
  [("fuselage", fuse); ("wing", (wing ++ map_mesh (reflect (axis_vec "y")) wing)%list); ("nose", (nose ++ map_mesh (reflect (axis_vec "y")) nose)%list);
   ("fin1", fin1); ("fin2", map_mesh (rolled (PI / 2)) fin1); ("fin3", fin3)]%string.
Definition h8_file (prefix : option string) (k : string) : string :=
  ((match text prefix with Some p => p ++ "-" | None => "" end) ++ k ++ ".stl")%string.
Definition h8_parts (v : vehicle R) (h2 : heap R) (ms : list (string * list (tri R))) : Prop :=
  v_name v = "HIFiRE-8"%string /\ v_components v = map snd (v_named v) /\
  map (fun ki => (fst ki, mesh_of h2 (snd ki))) (v_named v) = map (fun km => (fst km, Ok (snd km))) ms /\
  forall prefix fs0, exists h3 fs, to_stl (mark_generated v) prefix h2 fs0 = (h3, fs, Ok tt) /\
    (forall k m, In (k, m) ms -> dget fs (h8_file prefix k) = Some m) /\
    forall s, (forall k m, In (k, m) ms -> s <> h8_file prefix k) -> dget fs s = dget fs0 s.

Definition unaccepted (half : list (tri R)) : Prop :=
  let whole := (half ++ map_mesh (reflect (axis_vec "y")) half)%list in stl_check whole (mesh_normals whole) false true = Ok false.
Definition h8_wing_shape (wing : list (tri R)) : Prop :=
  length wing = 832%nat /\ unaccepted wing /\ vertex_of wing (V3 0 0 0) /\ vertex_of wing (V3 0 (4 / 10) 0) /\
  forall s, s = 2 / 100 \/ s = - (2 / 100) -> vertex_of wing (V3 (2 / 10) (4 / 10) s) /\ vertex_of wing (V3 (15 / 10) 0 s).
Definition h8_shapes (L Rb Rn nl : R) (fuse nose fin1 fin3 : list (tri R)) : Prop :=
  let r := tapered L Rb Rn in
  (length fuse = 2048%nat /\ watertight fuse /\ - (PI * (Rmax Rb Rn * Rmax Rb Rn) * (L + nl)) < signed_volume fuse < 0 /\
   vertex_of fuse (V3 L 0 0) /\ vertex_of fuse (V3 L Rn 0) /\ vertex_of fuse (V3 (- nl) 0 0) /\ (forall p, vertex_of fuse p -> - nl <= vx p <= L) /\
   ((forall p, vertex_of fuse p -> vx p = - nl -> on_axis p) <-> 7 * Rb < sqrt (L * L + (Rb - Rn) * (Rb - Rn)) + nl)) /\
  (length nose = 640%nat /\ unaccepted nose /\
   (forall j z, (j <= 4)%nat -> let y := INR j / 4 * Rn in (z = sqrt (Rn * Rn - y * y) \/ z = - sqrt (Rn * Rn - y * y)) -> vertex_of nose (V3 L y z)) /\
   vertex_of nose (V3 (L + 1 / 2) 0 (1 / 200)) /\ vertex_of nose (V3 (L + 1 / 2) 0 (- (1 / 200)))) /\
  (length fin1 = 432%nat /\ length fin3 = 432%nat /\ forall s, s = 4 / 1000 \/ s = - (4 / 1000) ->
   vertex_of fin1 (rolled (PI / 4) (V3 0 (r 0) s)) /\ vertex_of fin1 (rolled (PI / 4) (V3 (8 / 100) (r (8 / 100) + 16 / 100) s)) /\ vertex_of fin1 (rolled (PI / 4) (V3 (4 / 10) (r (4 / 10)) s)) /\
   vertex_of fin3 (V3 0 s (- r 0)) /\ vertex_of fin3 (V3 (4 / 100) s (- ((r (8 / 100) + 16 / 100) / 2))) /\ vertex_of fin3 (V3 (4 / 10) s (- r (4 / 10)))).

Lemma h8_apart prefix k k' : (k ++ ".stl")%string <> (k' ++ ".stl")%string -> h8_file prefix k <> h8_file prefix k'.
Proof.
  intros H. unfold h8_file.
  assert (NE : forall (s a b : string), a <> b -> (s ++ a)%string <> (s ++ b)%string).
  { induction s as [|ch s IH]; intros x y Hxy; [exact Hxy|]. intros C. injection C as C. exact (IH x y Hxy C). }
  apply NE, H.
Qed.

Section Hifire8.
  Variable bisect : (R -> res R) -> R -> R -> res R.

  (** C112: ParametricHIFiRE8 on any heap.  There is one wing, whatever the
      keywords; the fuselage is closed and inside out, and its flat base is drawn
      flat only when 7 R_base is at least the length of its side; the checker never
      accepts the wing or the nose; two of the fins are one fin turned by a right
      angle; each component goes to its own file *)
  Theorem C112_hifire8 : in_interval bisect -> answers bisect -> exists wing, h8_wing_shape wing /\
    forall L Rb Rn nl, 0 < L -> 0 < Rb -> 3 / 40 <= Rn -> 0 < nl ->
    exists fuse nose fin1 fin3, h8_shapes L Rb Rn nl fuse nose fin1 fin3 /\
      forall call kw h, separate h -> h8_keywords kw L Rb Rn nl ->
      exists v h2, flies call (ParametricHIFiRE8 bisect) kw h v h2 /\ h8_parts v h2 (h8_meshes fuse wing nose fin1 fin3).
  Proof using.
    intros Hi Han. destruct (h8_wing_ok bisect Hi Han) as (line & gw & t1 & El & Ew & Et & Kw & Sw & Ow & Fw).
    assert (LN : forall n (g : dict (surf R)) ks, dkeys g = ks -> length (wing_grid n g) = (length ks * (4 * (S n * S n)))%nat).
    { intros n gg ks K. rewrite wing_grid_length, <- (map_length fst). change (map fst gg) with (dkeys gg). rewrite K. lia. }
    exists (wing_grid 3 gw). split.
    { split; [rewrite (LN _ _ _ Kw); reflexivity|]. split.
      { destruct (Ow 3%nat) as (e & I & P). apply (reflected_open "y" _ e); [right; left; reflexivity|exact I|exact P]. }
      exact (Fw 3%nat). }
    intros L Rb Rn nl HL HB HN HZ. assert (HN' : 0 < Rn) by lra.
    destruct (h8_eval L Rb Rn nl HL HB HZ) as (p & Ep & Evp). pose proof (h8_cap_eval L Rb Rn HL) as Evq.
    destruct (h8_nose_ok bisect L Rb Rn HL HN Hi Han) as (nline & gn & t2 & En & Enw & Etn & Kn & Sn & On & Fn).
    pose proof (h8_fin_pts L Rb Rn) as (P0 & P1 & P2 & P3). cbv zeta in P0, P1, P2, P3.
    assert (X1 : vx (h8_p1 L Rb Rn) < vx (h8_p2 L Rb Rn) < vx (h8_p3 L Rb Rn)) by (rewrite P1, P2, P3; cbn [vx]; lra).
    assert (H3 : vscale (h8_p1 L Rb Rn) nhalf = V3 (4 / 100) ((tapered L Rb Rn (8 / 100) + 16 / 100) / 2) 0) by (rewrite P1; unfold vscale, nhalf, tapered; numR; apply vec_ext; cbn; field; lra).
    assert (H4 : vscale (h8_p2 L Rb Rn) nhalf = V3 (14 / 100) ((tapered L Rb Rn (28 / 100) + 16 / 100) / 2) 0) by (rewrite P2; unfold vscale, nhalf, tapered; numR; apply vec_ext; cbn; field; lra).
    destruct (h8_fin_ok bisect (h8_p0 L Rb Rn) (h8_p1 L Rb Rn) (h8_p2 L Rb Rn) (h8_p3 L Rb Rn) h8_fin_angle Hi Han X1) as (g1 & D1 & V1); [rewrite P0; reflexivity|rewrite P1; reflexivity|rewrite P3; reflexivity|].
    destruct (h8_fin_ok bisect (h8_p0 L Rb Rn) (h8_p1 L Rb Rn) (h8_p2 L Rb Rn) (h8_p3 L Rb Rn) (nadd h8_fin_angle (ndeg2rad (nZ 90))) Hi Han X1) as (g2 & D2 & _); [rewrite P0; reflexivity|rewrite P1; reflexivity|rewrite P3; reflexivity|].
    destruct (h8_fin_ok bisect (h8_p0 L Rb Rn) (vscale (h8_p1 L Rb Rn) nhalf) (vscale (h8_p2 L Rb Rn) nhalf) (h8_p3 L Rb Rn) (ndeg2rad (nneg (nZ 90))) Hi Han) as (g3 & D3 & V3');
      [rewrite H3, H4, P3; cbn [vx]; lra|rewrite P0; reflexivity|rewrite H3; reflexivity|rewrite P3; reflexivity|].
    pose proof (h8_fin_turned bisect L Rb Rn 2 g1 g2 (proj1 D1) (proj1 D2) (proj2 (proj2 D1))) as G2.
    exists (h8_fuse L Rb Rn nl 7), (wing_grid 3 gn), (wing_grid 2 g1), (wing_grid 2 g3). split.
    { unfold h8_shapes. cbv zeta. split; [|split].
      - split; [reflexivity|]. split; [apply h8_watertight; assumption|]. split; [apply h8_negative; try assumption; lia|]. split; [apply h8_cap_centre|].
        split; [pose proof (h8_ring L Rb Rn nl 0 ltac:(lia)) as V; replace (INR 0 / 8) with 0 in V by (cbn; field); rewrite h8_at_0 in V by assumption; exact V|].
        split; [pose proof (h8_ring L Rb Rn nl 8 ltac:(lia)) as V; replace (INR 8 / 8) with 1 in V by (cbn; field); rewrite h8_at_1 in V by assumption; exact V|].
        split; [intros q; apply h8_extent; assumption|]. apply h8_base; assumption.
      - split; [rewrite (LN _ _ _ Kn); reflexivity|]. split.
        { destruct (On 3%nat) as (e & I & P). apply (reflected_open "y" _ e); [right; left; reflexivity|exact I|exact P]. }
        destruct (Fn 3%nat) as (VJ & VA & VB). split; [|split; [exact VB|exact VA]]. intros j z Hj Hz. destruct (VJ j Hj) as [VT VBo]. cbv zeta in VT, VBo.
        replace (INR 4) with 4 in VT, VBo by (cbn; lra). destruct Hz as [-> | ->]; assumption.
      - split; [rewrite (LN _ _ _ (proj1 (proj2 D1))); reflexivity|]. split; [rewrite (LN _ _ _ (proj1 (proj2 D3))); reflexivity|]. intros s Hs.
        assert (A1 : h8_fin_angle (T := R) = PI / 4) by (unfold h8_fin_angle; change (90 - 45)%Z with 45%Z; numR; field).
        assert (A3 : forall q, rolled (ndeg2rad (nneg (nZ 90))) q = V3 (vx q) (vz q) (- vy q)).
        { intros q. destruct quarter as [C1 C2]. unfold rolled. rewrite C1, C2. apply vec_ext; cbn; ring. }
        rewrite A1 in V1.
        pose proof (V1 2%nat s _ Hs (or_introl eq_refl)) as Q0. pose proof (V1 2%nat s _ Hs (or_intror (or_introl eq_refl))) as Q1. pose proof (V1 2%nat s _ Hs (or_intror (or_intror eq_refl))) as Q3.
        pose proof (V3' 2%nat s _ Hs (or_introl eq_refl)) as S0. pose proof (V3' 2%nat s _ Hs (or_intror (or_introl eq_refl))) as S1. pose proof (V3' 2%nat s _ Hs (or_intror (or_intror eq_refl))) as S3.
        rewrite P0 in Q0, S0. rewrite P1 in Q1. rewrite H3 in S1. rewrite P3 in Q3, S3. rewrite A3 in S0, S1, S3. cbn [vx vy vz] in *.
        assert (T0 : Rb = tapered L Rb Rn 0) by (unfold tapered; ring). rewrite T0 in Q0, S0 at 1. repeat split; assumption. }
    intros call kw h SP K.
    pose proof (h8_run bisect L Rb Rn nl h p line nline t1 t2 Ep El En Et Etn) as RUN.
    destruct (h8_generates bisect p _ _ _ _ _ _ _ _ g1 g2 g3 gw gn h SP Evp Evq D1 D2 D3 Ew Kw Sw Enw Kn Sn) as (h2 & A & LC & OP & Q).
    rewrite G2 in Q. set (c0 := length (comps h)) in *. exists (h8_made c0), h2.
    split; [eexists _, _; split; [apply h8_program, K|]; split; [exact RUN|exact A]|].
    change (lathe_mesh 7 [h8_at L Rb Rn nl; h8_cap L Rn]) with (h8_fuse L Rb Rn nl 7) in Q.
    set (fuse := h8_fuse L Rb Rn nl 7) in *. set (wing := wing_grid 3 gw) in *. set (nose := wing_grid 3 gn) in *. set (fin1 := wing_grid 2 g1) in *. set (fin3 := wing_grid 2 g3) in *.
    pose proof (Q 2%nat ltac:(cbn; tauto)) as M2. pose proof (Q 3%nat ltac:(cbn; tauto)) as M3. pose proof (Q 4%nat ltac:(cbn; tauto)) as M4.
    pose proof (Q 5%nat ltac:(cbn; tauto)) as M5. pose proof (Q 6%nat ltac:(cbn; tauto)) as M6. pose proof (Q 7%nat ltac:(cbn; tauto)) as M7.
    cbn [h8_piece] in M2, M3, M4, M5, M6, M7. clear Q.
    split; [reflexivity|]. split; [reflexivity|].
    split; [cbn [h8_made v_named map fst snd]; rewrite M2, M3, M4, M5, M6, M7; reflexivity|].
    intros prefix fs0. set (v := mark_generated _).
    set (m := fun i => match mesh_of h2 i with Ok t => t | Raise _ => [] end).
    destruct (filed v prefix h2 fs0 [(h8_file prefix "fuselage", c0 + 2); (h8_file prefix "wing", c0 + 6); (h8_file prefix "nose", c0 + 7);
      (h8_file prefix "fin1", c0 + 3); (h8_file prefix "fin2", c0 + 4); (h8_file prefix "fin3", c0 + 5)]%nat%string m) as (h3 & fs & WR & F1 & F2).
    { intros i Hc. unfold m. cbn [v mark_generated h8_made v_components In] in Hc.
      destruct Hc as [<-|[<-|[<-|[<-|[<-|[<-|[]]]]]]]; (split; [rewrite LC; lia|]); [rewrite M2|rewrite M6|rewrite M7|rewrite M3|rewrite M4|rewrite M5]; reflexivity. }
    { destruct (OP 2%nat _ eq_refl) as (X2 & T2 & N2). destruct (OP 3%nat _ eq_refl) as (X3 & T3 & N3).
      destruct (OP 4%nat _ eq_refl) as (X4 & T4 & N4). destruct (OP 5%nat _ eq_refl) as (X5 & T5 & N5). destruct (OP 6%nat _ eq_refl) as (X6 & T6 & N6). destruct (OP 7%nat _ eq_refl) as (X7 & T7 & N7).
      cbn [v mark_generated h8_made v_components files]. rewrite X2, X3, X4, X5, X6, X7. cbn [with_options wing_comp L_Parts.fin_comp h8_body h8_add c_ghost a_ghost app].
      unfold file_name, earlier. rewrite N2, N3, N4, N5, N6, N7. unfold h8_file.
      cbn [with_options h8_add a_name over c_name c_type wing_comp L_Parts.fin_comp h8_body text truthy String.eqb Ascii.eqb Bool.eqb negb].
      destruct (text prefix) as [pr|]; [|reflexivity].
      assert (AS : forall a b c : string, ((a ++ b) ++ c)%string = (a ++ b ++ c)%string) by (induction a as [|ch a IH]; intros; cbn; [reflexivity|rewrite IH; reflexivity]).
      rewrite !AS. reflexivity. }
    { cbn [map fst]. repeat constructor; cbn [In]; intros H; repeat (destruct H as [H|H]; [revert H; apply h8_apart; discriminate|]); exact H. }
    { intros s i Hc. cbn [v mark_generated h8_made v_components In] in *.
      repeat (destruct Hc as [Hc|Hc]; [injection Hc as _ <-; tauto|]). destruct Hc. }
    exists h3, fs. split; [exact WR|]. split.
    - intros k t I. unfold h8_meshes in I. cbn [In] in I.
      destruct I as [I|[I|[I|[I|[I|[I|[]]]]]]]; injection I as <- <-.
      + rewrite (F1 (h8_file prefix "fuselage") (c0 + 2)%nat) by (left; reflexivity). unfold m. rewrite M2. reflexivity.
      + rewrite (F1 (h8_file prefix "wing") (c0 + 6)%nat) by (do 1 right; left; reflexivity). unfold m. rewrite M6. reflexivity.
      + rewrite (F1 (h8_file prefix "nose") (c0 + 7)%nat) by (do 2 right; left; reflexivity). unfold m. rewrite M7. reflexivity.
      + rewrite (F1 (h8_file prefix "fin1") (c0 + 3)%nat) by (do 3 right; left; reflexivity). unfold m. rewrite M3. reflexivity.
      + rewrite (F1 (h8_file prefix "fin2") (c0 + 4)%nat) by (do 4 right; left; reflexivity). unfold m. rewrite M4. reflexivity.
      + rewrite (F1 (h8_file prefix "fin3") (c0 + 5)%nat) by (do 5 right; left; reflexivity). unfold m. rewrite M5. reflexivity.
    - intros s H. apply F2. cbn [map fst In]. intros I. unfold h8_meshes in H. cbn [In] in H.
      destruct I as [I|[I|[I|[I|[I|[I|[]]]]]]]; symmetry in I; revert I; eapply H.
      + left; reflexivity.
      + right; left; reflexivity.
      + do 2 right; left; reflexivity.
      + do 3 right; left; reflexivity.
      + do 4 right; left; reflexivity.
      + do 5 right; left; reflexivity.
  Qed.

  Lemma rolled_volume m : signed_volume (map_mesh (rolled (PI / 2)) m) = signed_volume m.
  Proof using.
    clear. unfold signed_volume, map_mesh. rewrite map_map. f_equal. f_equal. apply map_ext. intros t.
    unfold vol6, det3, map_tri, rolled, inner, crossR. rewrite cos_PI2, sin_PI2. cbn [t0 t1 t2 vx vy vz]. ring.
  Qed.
  (** C112: the wing and the nose are weightless, and the fuselage counts as negative *)
  Theorem C112_mass mp areas : in_interval bisect -> answers bisect -> weighs mp ->
    forall L Rb Rn nl, 0 < L -> 0 < Rb -> 3 / 40 <= Rn -> 0 < nl ->
    exists fuse nose fin1 fin3, h8_shapes L Rb Rn nl fuse nose fin1 fin3 /\
      forall call kw h densities, separate h -> h8_keywords kw L Rb Rn nl ->
      (forall k, In k ["fuselage"; "wing"; "nose"; "fin1"; "fin2"; "fin3"]%string -> exists r, dget densities k = Some r) ->
      let rho k := match dget densities k with Some r => r | None => 0 end in
      exists v h2 h3 cog moi, flies call (ParametricHIFiRE8 bisect) kw h v h2 /\
        analyse mp areas (mark_generated v) densities h2 = (h3, mark_generated v,
          Ok (signed_volume fuse + 2 * signed_volume fin1 + signed_volume fin3,
              rho "fuselage"%string * signed_volume fuse + (rho "fin1"%string + rho "fin2"%string) * signed_volume fin1 + rho "fin3"%string * signed_volume fin3, cog, moi)).
  Proof using.
    intros Hi Han MP L Rb Rn nl HL HB HN HZ. destruct (C112_hifire8 Hi Han) as (wing & _ & H0).
    destruct (H0 L Rb Rn nl HL HB HN HZ) as (fuse & nose & fin1 & fin3 & SH & H). clear H0.
    exists fuse, nose, fin1, fin3. split; [exact SH|]. intros call kw h densities SP K Den rho. destruct (H call kw h SP K) as (v & h2 & FL & _ & _ & MM & _). clear H.
    unfold h8_meshes in MM.
    destruct (v_named v) as [|[k1 i1] [|[k2 i2] [|[k3 i3] [|[k4 i4] [|[k5 i5] [|[k6 i6] [|]]]]]]] eqn:Evn; try discriminate MM.
    cbn [map fst snd] in MM. injection MM as -> A1 -> A2 -> A3 -> A4 -> A5 -> A6.
    assert (Z : forall m, signed_volume (m ++ map_mesh (reflect (axis_vec "y")) m) = 0).
    { intros m. rewrite signed_volume_app, reflect_volume by (apply axis_cases; right; left; reflexivity). ring. }
    set (m := fun i => match mesh_of h2 i with Ok t => t | Raise _ => [] end).
    destruct (weighed mp areas (mark_generated v) h2 densities m MP eq_refl) as (h3 & cog & moi & AN).
    - cbn [mark_generated v_named]. rewrite Evn. discriminate.
    - cbn [mark_generated v_named]. rewrite Evn. intros k i I. cbn [In] in I. unfold m.
      destruct I as [I|[I|[I|[I|[I|[I|[]]]]]]]; injection I as <- <-;
        (split; [first [rewrite A1|rewrite A2|rewrite A3|rewrite A4|rewrite A5|rewrite A6]; reflexivity|apply Den; cbn; tauto]).
    - exists v, h2, h3, cog, moi. split; [exact FL|].
      rewrite AN. cbn [mark_generated v_named]. rewrite Evn. cbn [rsum fst snd]. unfold m. rewrite A1, A2, A3, A4, A5, A6, !Z, rolled_volume.
      change (match dget densities "fuselage" with Some r => r | None => 0 end) with (rho "fuselage"%string).
      change (match dget densities "fin1" with Some r => r | None => 0 end) with (rho "fin1"%string).
      change (match dget densities "fin2" with Some r => r | None => 0 end) with (rho "fin2"%string).
      change (match dget densities "fin3" with Some r => r | None => 0 end) with (rho "fin3"%string).
      match goal with |- (_, _, Ok (?a, ?b, _, _)) = (_, _, Ok (?c, ?d, _, _)) => replace a with c by ring; replace b with d by ring end. reflexivity.
  Qed.
End Hifire8.

(** C112: the outer front corner of the first fin stands 0.16 above the body; that
    of the third, obtained by halving the whole point and not its height above the
    body, is inside the body exactly when R_base is above 0.16 *)
Theorem C112_fins L Rb Rn nl fuse nose fin1 fin3 : h8_shapes L Rb Rn nl fuse nose fin1 fin3 ->
  forall s, s = 4 / 1000 \/ s = - (4 / 1000) ->
  vertex_of fin1 (rolled (PI / 4) (V3 (8 / 100) (tapered L Rb Rn (8 / 100) + 16 / 100) s)) /\
  exists z, vertex_of fin3 (V3 (4 / 100) s (- z)) /\ (z < tapered L Rb Rn (4 / 100) <-> 16 / 100 < Rb).
Proof.
  intros (_ & _ & _ & _ & H) s Hs. destruct (H s Hs) as (_ & V1 & _ & _ & V3' & _). split; [exact V1|]. eexists. split; [exact V3'|]. unfold tapered. lra.
Qed.
(** C112: the wing's front corner is ahead of the whole fuselage exactly when L is
    below 1.5, and ahead of the point of the nose exactly when L is below 1 *)
Theorem C112_wing_fixed L Rb Rn nl fuse nose fin1 fin3 wing : h8_wing_shape wing -> h8_shapes L Rb Rn nl fuse nose fin1 fin3 ->
  exists p q, vertex_of wing p /\ vertex_of nose q /\ ((forall u, vertex_of fuse u -> vx u < vx p) <-> L < 15 / 10) /\ (vx q < vx p <-> L < 1).
Proof.
  intros (_ & _ & _ & _ & W) ((_ & _ & _ & F1 & _ & _ & F2 & _) & (_ & _ & _ & N1 & _) & _). destruct (W (2 / 100) (or_introl eq_refl)) as [_ V].
  exists (V3 (15 / 10) 0 (2 / 100)), (V3 (L + 1 / 2) 0 (1 / 200)). split; [exact V|]. split; [exact N1|]. cbn [vx]. split; [|lra]. split.
  - intros H. specialize (H _ F1). exact H.
  - intros HL u Hu. apply F2 in Hu. lra.
Qed.
(** C112: with the default attributes the base is a cone, the third fin's corner is
    inside the body, and the wing starts behind the nose's point *)
Theorem C112_default fuse nose fin1 fin3 : h8_shapes (12 / 10) (175 / 1000) (1 / 10) (1 / 10) fuse nose fin1 fin3 ->
  (forall p, vertex_of fuse p -> vx p = - (1 / 10) -> on_axis p) /\
  exists z, vertex_of fin3 (V3 (4 / 100) (4 / 1000) (- z)) /\ z < tapered (12 / 10) (175 / 1000) (1 / 10) (4 / 100).
Proof.
  intros H. split.
  - pose proof H as ((_ & _ & _ & _ & _ & _ & _ & B) & _). apply B.
    assert (12 / 10 < sqrt (12 / 10 * (12 / 10) + (175 / 1000 - 1 / 10) * (175 / 1000 - 1 / 10))).
    { rewrite <- (sqrt_square (12 / 10)) at 1 by lra. apply sqrt_lt_1; lra. } lra.
  - destruct (C112_fins _ _ _ _ _ _ _ _ H (4 / 1000) (or_introl eq_refl)) as (_ & z & V & E). exists z. split; [exact V|]. apply E. lra.
Qed.

(** the default vehicle; and one with a base wide enough to be drawn flat *)
Example C112_meets : in_interval (loop_bisect 20) /\ answers (loop_bisect 20) /\ separate (mkHeap [] []) /\
  h8_keywords [] (12 / 10) (175 / 1000) (1 / 10) (1 / 10) /\ 3 / 40 <= 1 / 10 /\
  h8_keywords [("L"%string, PNum (9 / 10)); ("R_base"%string, PNum (1 / 2)); ("R_nose"%string, PNum (1 / 2))] (9 / 10) (1 / 2) (1 / 2) (1 / 10) /\
  ~ 7 * (1 / 2) < sqrt (9 / 10 * (9 / 10) + (1 / 2 - 1 / 2) * (1 / 2 - 1 / 2)) + 1 / 10 /\
  weighs (fun m rho => (signed_volume m, signed_volume m * rho, origin, M3 origin origin origin)).
Proof.
  destruct (loop_bisects 20) as (A & B & _). split; [exact A|]. split.
  { intros f phi E S. destruct (B f phi E S) as (t & _ & _ & H & _). eauto. }
  split; [split; [intros j Hj; cbn in Hj; lia|]; intros j k c c' H; destruct j; discriminate|].
  split; [split; [split; [constructor|split; cbn; intuition discriminate]|]; repeat split|].
  split; [lra|].
  split; [split; [split; [repeat constructor; cbn; intuition discriminate|split; cbn; intuition discriminate]|]; repeat split|].
  split. { replace (9 / 10 * (9 / 10) + (1 / 2 - 1 / 2) * (1 / 2 - 1 / 2)) with (9 / 10 * (9 / 10)) by field. rewrite sqrt_square by lra. lra. }
  intros m rho. eauto.
Qed.

Print Assumptions C112_hifire8.
Print Assumptions C112_mass.
Print Assumptions C112_fins.
Print Assumptions C112_wing_fixed.
Print Assumptions C112_default.
