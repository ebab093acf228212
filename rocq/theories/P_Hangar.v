(** C88, C89 (and C61): prisms, and the parametric wedge end to end. *)
From Coq Require Import String Reals Lra ZArith List Permutation Lia Bool.
From Verif Require Import Num NumR Py M_Vector SpecR3 M_Path M_Surface M_Geometry M_Mesh M_Component M_Vehicle M_VecHeap M_Sens M_Gen M_Hangar
  SpecPath SpecPoly SpecSurf SpecMesh SpecComp SpecVehicle SpecAdd SpecFiles SpecSens SpecPrism SpecHangar L_Vector L_Edges L_Mesh L_Volume
  L_Component L_Coons L_SweptComp L_Heap L_Rigid L_Pipeline L_Generate L_Cache L_Files L_Prism L_Hangar L_Block L_Wedge
  L_Sens L_Study L_StudyOk P_Sens P_Study P_Gen P_Component P_Vehicle.
Import ListNotations.
Local Open Scope R_scope.

(** C88: a closed SweptComponent whose sections are translates of the first
    one encloses the area of the (possibly non-planar) chord polygon times the
    displacement; its sign is opposite to that of the right-hand rule *)
Theorem C88_prism m sections g w n : length sections = S (S m) -> sections_are 4 sections g ->
  loops_close 4 (S (S m)) g ->
  (forall k e t, (k <= S m)%nat -> (e < 4)%nat -> 0 <= t <= 1 -> g k e t = translate (g 0%nat e t) (w k)) ->
  exists l mesh, swept_patches sections 4 true (ResInt (S n)) = Ok l /\
    fresh_mesh (sized_patches l) (ResInt (S n)) (sized_res_r l) (sized_res_s l) no_clustering = Ok mesh /\
    signed_volume mesh = - inner (w (S m)) (vector_area (loop4 (S n) (g 0%nat))).
Proof. exact (swept_prism m sections g w n). Qed.
(** C88: with straight edges, at every resolution *)
Theorem C88_straight q n w : (forall e, (e < 4)%nat -> q 1%nat e = translate (q 0%nat e) w) ->
  let corner k e := q k e in
  let sections := map (fun k => map (fun e => Line (corner k e) (corner k (next_edge 4 e))) [0; 1; 2; 3])%nat [0; 1]%nat in
  exists l mesh, swept_patches sections 4 true (ResInt (S n)) = Ok l /\
    fresh_mesh (sized_patches l) (ResInt (S n)) (sized_res_r l) (sized_res_s l) no_clustering = Ok mesh /\
    watertight mesh /\
    signed_volume mesh = - inner w (vector_area (quad (q 0 0) (q 0 1) (q 0 2) (q 0 3)))%nat.
Proof.
  intros H corner sections. change sections with (block q).
  destruct (swept_mesh 0 (block q) (block_edge q) n eq_refl (block_are q) (block_close q 2)) as (l & E1 & _ & E2).
  exists l, (block_mesh q n). split; [exact E1|]. split; [exact E2|]. split; [apply block_watertight|apply block_volume, H].
Qed.
(** the box of P_Component, swept along x from a section that is
    counter-clockwise about x: volume -5 *)
Example C88_meets : (forall e, (e < 4)%nat -> box_corner 1 e = translate (box_corner 0 e) (V3 5 0 0)) /\
  - inner (V3 5 0 0) (vector_area (quad (box_corner 0 0) (box_corner 0 1) (box_corner 0 2) (box_corner 0 3))) = -5.
Proof.
  split.
  - intros [|[|[|[|e]]]] He; [..|lia]; unfold box_corner, translate; apply vec_ext; cbn; lra.
  - unfold vector_area, quad, box_corner, inner, scaled. cbn. lra.
Qed.

(** ** C89: keywords of the wedge *)
Definition plain_keywords (kw : dict (pval R)) : Prop :=
  NoDup (dkeys kw) /\ ~ In "self"%string (dkeys kw) /\ ~ In "create_instance"%string (dkeys kw).
Definition wedge_keywords (kw : dict (pval R)) (w c t : R) : Prop := plain_keywords kw /\
  given kw "wingspan" 1 = PNum w /\ given kw "chord" 1 = PNum c /\ given kw "thickness" (1 / 10) = PNum t.

Lemma no_key {A} (kw : dict A) k : ~ In k (dkeys kw) -> existsb (String.eqb k) (dkeys kw) = false.
Proof.
  intros H. destruct (existsb (String.eqb k) (dkeys kw)) eqn:E; [|reflexivity]. apply existsb_exists in E.
  destruct E as (x & Hx & Ex). apply String.eqb_eq in Ex. subst. contradiction.
Qed.
Lemma wedge_program call kw w c t : wedge_keywords kw w c t -> make_vehicle call ParametricWedge kw = Ok (wedge_vehicle w c t).
Proof.
  intros ((Nd & S1 & S2) & W & C & H). unfold make_vehicle, instantiate. rewrite no_key by exact S1.
  cbn [g_init ParametricWedge run_init bind g_classes]. unfold create_instance. rewrite generator_init_get by exact Nd.
  destruct (dget kw "create_instance") as [v|] eqn:E.
  { exfalso. apply S2. apply dget_in in E. apply (in_map fst) in E. exact E. }
  cbn [dget dset String.eqb]. cbn [g_create ParametricWedge g_classes]. unfold number, getattr. 
  rewrite !generator_init_get by exact Nd. unfold given in W, C, H.
  destruct (dget kw "wingspan"), (dget kw "chord"), (dget kw "thickness"); 
    cbn in W, C, H |- *; subst; try (injection W as <-); try (injection C as <-); try (injection H as <-); reflexivity.
Qed.

(** the program of a generator builds and generates the vehicle v on the heap h *)
Definition flies (call : pval R -> res (M (T := R) (vehicle R))) g kw (h : heap R) (v : vehicle R) (h2 : heap R) : Prop :=
  exists program h1, make_vehicle call g kw = Ok program /\ program h = (h1, Ok v) /\ generate v h1 = (h2, mark_generated v, Ok tt).

(** C89: ParametricWedge on any heap, for all values of the parameters: one
    closed component of 2400 triangles with all its normals pointing inwards
    (for positive parameters); the mesh is the one of the unit wedge stretched
    by chord, thickness and wingspan; it is written to Wedge-swept-0.stl *)
Theorem C89_wedge call (h : heap R) kw w c t : separate h -> wedge_keywords kw w c t ->
  exists v h2 mesh, flies call ParametricWedge kw h v h2 /\
    v_name v = "Wedge"%string /\ v_components v = [length (comps h)] /\ v_named v = [("swept_1"%string, length (comps h))] /\
    mesh_of h2 (length (comps h)) = Ok mesh /\
    watertight mesh /\ length mesh = 2400%nat /\ signed_volume mesh = - (w * c * t / 2) /\
    (0 <= w -> 0 <= c -> 0 <= t -> forall p, vertex_of mesh p -> in_wedge w c t p) /\
    (forall k e, (k < 2)%nat -> (e < 4)%nat -> vertex_of mesh (wedge_corner w c t k e)) /\
    (forall kw1 v1 h1 m1, wedge_keywords kw1 1 1 1 -> flies call ParametricWedge kw1 h v1 h1 ->
       mesh_of h1 (length (comps h)) = Ok m1 -> mesh = map_mesh (stretch c t w) m1) /\
    forall fs0, exists h3 fs, to_stl (mark_generated v) None h2 fs0 = (h3, fs, Ok tt) /\
      dget fs "Wedge-swept-0.stl" = Some mesh /\ forall s, s <> "Wedge-swept-0.stl"%string -> dget fs s = dget fs0 s.
Proof.
  intros SP K. pose proof (wedge_generates h w c t SP) as G. pose proof (wedge_run h w c t) as RUN.
  cbv zeta in G. rewrite !Nat.add_0_r in G, RUN. destruct G as (h2 & A & L & G1 & G2 & G3 & G4).
  eexists _, h2, (wedge_mesh w c t).
  split; [eexists _, _; split; [apply wedge_program, K|]; split; [exact RUN|exact A]|].
  split; [reflexivity|]. split; [reflexivity|]. split; [reflexivity|].
  split; [exact G4|]. split; [apply wedge_closed|]. split; [apply wedge_closed|].
  split; [apply wedge_volume|]. split; [apply wedge_inside|]. split; [apply wedge_reaches|].
  split.
  { intros kw1 v1 h1 m1 K1 (p1 & h0 & P1 & P2 & P3) M1. rewrite (wedge_program call kw1 1 1 1 K1) in P1. injection P1 as <-.
    pose proof (wedge_run h 1 1 1) as RUN1. rewrite !Nat.add_0_r in RUN1. rewrite RUN1 in P2. apply pair_equal_spec in P2.
    destruct P2 as [<- P2]. apply ok_inj in P2. subst v1.
    pose proof (wedge_generates h 1 1 1 SP) as Q. cbv zeta in Q. rewrite !Nat.add_0_r in Q. destruct Q as (h2' & A' & _ & _ & _ & _ & Q4).
    rewrite A' in P3. injection P3 as ->. rewrite Q4 in M1. apply ok_inj in M1. rewrite <- M1. apply wedge_scales. }
  intros fs0. set (v := mark_generated _).
  destruct (C55_files v None h2 fs0) as (h3 & fs & E & F).
  - intros i [<-|[]]. rewrite L. lia.
  - intros i [<-|[]] _. rewrite G4. eexists. reflexivity.
  - exists h3, fs. split; [exact E|].
    assert (FI : files v None h2 [] (v_components v) = [("Wedge-swept-0.stl"%string, length (comps h))]).
    { cbn [v mark_generated wedge_made v_components files app]. rewrite G1. unfold file_name. rewrite G3, G2. reflexivity. }
    rewrite FI in F. split.
    + specialize (F "Wedge-swept-0.stl"%string). cbn in F. destruct F as (m & F1 & F2). rewrite F2. congruence.
    + intros s Hs. specialize (F s). unfold last_named in F. cbn [rev app filter fst snd] in F.
      rewrite (proj2 (String.eqb_neq _ _) Hs) in F. exact F.
Qed.
Example C89_meets : separate (mkHeap [] []) /\ wedge_keywords [("chord"%string, PNum 3)] 1 3 (1 / 10).
Proof.
  split.
  - split; [intros j Hj; cbn in Hj; lia|]. intros j k c c' H. destruct j; discriminate.
  - split; [split; [repeat constructor; tauto|split; intros [H|[]]; discriminate]|]. repeat split.
Qed.

(** C61: a study with a constructor that does not touch Vector3 objects
    succeeds if all its vehicles can be built, without analysis and
    properties, with the same component names in the same order and meshes of
    the same size *)
Theorem C61_succeeds mk d (D o : dict (pval R)) pert s nominal :
  nth_error (s_dicts s) d = Some D -> D <> [] -> NoDup (dkeys D) -> numbers D -> disjoint_keys D o ->
  mk (D ++ o)%list = Ok nominal -> i_analysis nominal = None -> i_props nominal = [] -> NoDup (dkeys (i_meshes nominal)) ->
  (forall p, In p (dkeys D) -> exists inst, mk (changed_at p (times_factor pert) D ++ o)%list = Ok inst /\
     dkeys (i_meshes inst) = dkeys (i_meshes nominal) /\
     map (fun cm => length (snd cm)) (i_meshes inst) = map (fun cm => length (snd cm)) (i_meshes nominal)) ->
  exists s' out, dvdp (fun kw hv => (hv, mk kw)) d o pert s = (s', Ok out).
Proof.
  intros E NE Nd Nu Dj En A P NM H.
  destruct (dvdp_succeeds mk d D o pert nominal Nd Dj s E NE Nu En) as (s' & out & R & _); [|eauto].
  intros p x Hp. destruct (H p) as (inst & K1 & K2 & K3); [apply (in_map fst) in Hp; exact Hp|].
  exists inst. unfold outcome. rewrite A, P. cbn [bind].
  assert (is_ok (mesh_sens (PNum (nsub (nmul x (factor pert)) x)) (i_meshes nominal) (i_meshes inst))) as [ms Em].
  { unfold mesh_sens. apply mapM_is_ok, Forall_forall. intros [c m] Hc. cbn [fst snd].
    assert (Q : exists m', In (c, m') (i_meshes inst) /\ length m' = length m).
    { clear -Hc K2 K3. revert K2 K3 Hc. generalize (i_meshes nominal) as l. unfold dkeys. induction (i_meshes inst) as [|[a b] l' IH]; intros [|[a' b'] l] K2 K3 Hc; try discriminate; [destruct Hc|].
      cbn in K2, K3. injection K2 as -> K2. injection K3 as K K3. destruct Hc as [Hc|Hc].
      - injection Hc as -> ->. exists b. split; [left; reflexivity|exact K].
      - destruct (IH l K2 K3 Hc) as (m' & I1 & I2). exists m'. split; [right; exact I1|exact I2]. }
    destruct Q as (m' & I1 & I2). unfold dlookup. rewrite (dget_nodup _ _ _ (eq_ind_r (fun l => NoDup l) NM K2) I1). cbn [bind].
    destruct (proj1 (C62_comparable m m' (nsub (nmul x (factor pert)) x))) as [rows ->]; [auto|]. cbn [bind]. eexists. reflexivity. }
  rewrite Em. cbn [bind]. eexists. split; [exact K1|reflexivity].
Qed.

(** ** C89: a study of the wedge *)
Definition wedge_rate (p : string) (w c t : R) (x : pt) : pt :=
  if String.eqb p "wingspan" then V3 0 0 (vz x / w)
  else if String.eqb p "chord" then V3 (vx x / c) 0 0 else V3 0 (vy x / t) 0.

Lemma wedge_instance call h kw w c t : separate h -> wedge_keywords kw w c t ->
  study_instance call ParametricWedge h kw = Ok (mkInst [("swept_1"%string, wedge_mesh w c t)] None [] None).
Proof.
  intros SP K. pose proof (wedge_generates h w c t SP) as G. cbv zeta in G. destruct G as (h2 & A & _ & _ & _ & _ & G4).
  unfold study_instance. rewrite (wedge_program call kw w c t K). cbn [bind]. rewrite wedge_run, A.
  cbn [v_named mark_generated wedge_made named_meshes]. unfold bindM. unfold mesh_of in G4.
  destruct (comp_mesh _ h2) as [h3 r]. cbn [snd] in G4. subst r. reflexivity.
Qed.
Lemma given_changed D o p x pert w k dflt : NoDup (dkeys (D ++ o)%list) -> In (p, PNum x) D -> given (D ++ o)%list k dflt = PNum w ->
  given (changed_at p (scale_num (factor pert)) D ++ o)%list k dflt = if String.eqb k p then PNum (w * (1 + pert / 100)) else PNum w.
Proof.
  intros Nd Hp G. destruct (String.eqb_spec k p) as [->|NE].
  - unfold given in *.
    assert (E1 : dget (D ++ o)%list p = Some (PNum x)) by (apply dget_nodup; [exact Nd|apply in_or_app; auto]).
    rewrite E1 in G. injection G as <-.
    rewrite (dget_nodup _ p (PNum (x * (1 + pert / 100)))); [reflexivity| |].
    + rewrite dkeys_app, changed_at_keys, <- dkeys_app. exact Nd.
    + apply in_or_app. left. unfold changed_at. apply in_map_iff. exists (p, PNum x). split; [|exact Hp].
      cbn. rewrite String.eqb_refl. reflexivity.
  - unfold given in *. rewrite (dget_app_l _ D o k); [exact G|]. apply changed_at_get, NE.
Qed.

Lemma corner_map f m i : f origin = origin -> corner_of (map_mesh f m) i = f (corner_of m i).
Proof.
  intros H. unfold corner_of, map_mesh. rewrite nth_error_map. destruct (nth_error m (i / 3)) as [t|]; cbn [option_map]; [|symmetry; exact H].
  unfold map_tri. destruct (i mod 3)%nat as [|[|]]; reflexivity.
Qed.
Lemma vertex_corner m p : vertex_of m p <-> exists i, (i < 3 * length m)%nat /\ corner_of m i = p.
Proof.
  unfold vertex_of, corner_of. split.
  - intros (t & Ht & Hp). apply In_nth_error in Ht. destruct Ht as [k Hk]. assert (k < length m)%nat by (apply nth_error_Some; congruence).
    assert (D : forall r, (r < 3)%nat -> ((3 * k + r) / 3 = k /\ (3 * k + r) mod 3 = r)%nat).
    { intros r Hr. split; [symmetry; apply (Nat.div_unique _ _ _ r); lia|symmetry; apply (Nat.mod_unique _ _ k); lia]. }
    destruct Hp as [Hp|[Hp|Hp]]; [exists (3 * k + 0)%nat|exists (3 * k + 1)%nat|exists (3 * k + 2)%nat];
      (split; [lia|]); [destruct (D 0%nat) as [-> ->]|destruct (D 1%nat) as [-> ->]|destruct (D 2%nat) as [-> ->]]; try lia; rewrite Hk; symmetry; exact Hp.
  - intros (i & Hi & Hc). destruct (nth_error m (i / 3)) as [t|] eqn:E.
    + exists t. split; [eapply nth_error_In, E|]. destruct (i mod 3)%nat as [|[|]]; auto.
    + exfalso. apply nth_error_None in E. assert (i / 3 < length m)%nat by (apply Nat.div_lt_upper_bound; lia). lia.
Qed.
Lemma study_rows (F : R -> list (tri R)) (a b : nat -> pt) p dp n (rate : pt -> pt) :
  dp <> 0 -> (forall x, length (F x) = n) ->
  (forall x i, (i < 3 * n)%nat -> corner_of (F x) i = plus_scaled (a i) x (b i)) ->
  (forall i, (i < 3 * n)%nat -> b i = rate (plus_scaled (a i) p (b i))) ->
  exists rows, compare_meshes (F p) (F (p + dp)) dp = Ok rows /\
    (forall r, In r rows -> vertex_of (F p) (r_loc r) /\ r_sens r = rate (r_loc r)) /\
    (forall v, vertex_of (F p) v -> exists r, In r rows /\ r_loc r = v).
Proof.
  intros D L A B. destruct (C62_affine F a b p dp n D L A) as (rows & E & R1 & R2). exists rows. split; [exact E|]. split.
  - intros r Hr. destruct (R1 r Hr) as (I & V & W). split.
    + apply vertex_corner. exists (r_index r). rewrite L. split; [exact I|]. rewrite A by exact I. symmetry. exact V.
    + rewrite W, V. apply B, I.
  - intros v Hv. apply vertex_corner in Hv. destruct Hv as (i & Hi & <-). rewrite L in Hi. destruct (R2 i Hi) as (r & Hr & V & _).
    exists r. split; [exact Hr|]. rewrite V, A by exact Hi. reflexivity.
Qed.
Definition wedge_parameter (p : string) : Prop := In p ["wingspan"; "chord"; "thickness"]%string.
Lemma wedge_rows p w c t pert : wedge_parameter p -> w <> 0 -> c <> 0 -> t <> 0 -> pert <> 0 ->
  let f q y := if String.eqb q p then y * (1 + pert / 100) else y in
  let x := if String.eqb "wingspan" p then w else if String.eqb "chord" p then c else t in
  exists rows, compare_meshes (wedge_mesh w c t) (wedge_mesh (f "wingspan"%string w) (f "chord"%string c) (f "thickness"%string t))
                 (nsub (nmul x (factor pert)) x) = Ok rows /\
    (forall r, In r rows -> vertex_of (wedge_mesh w c t) (r_loc r) /\ r_sens r = wedge_rate p w c t (r_loc r)) /\
    (forall v, vertex_of (wedge_mesh w c t) v -> exists r, In r rows /\ r_loc r = v).
Proof.
  intros Hp Hw Hc Ht Hq f x.
  assert (X : x <> 0) by (unfold x; destruct (String.eqb _ _); [|destruct (String.eqb _ _)]; assumption).
  assert (E : nsub (nmul x (factor pert)) x = x * pert / 100) by (unfold factor; numR; field).
  rewrite E. assert (DP : x * pert / 100 <> 0).
  { intros H. assert (Q : x * pert = 0) by lra. apply Rmult_integral in Q. destruct Q; contradiction. }
  assert (L : forall w c t, length (wedge_mesh w c t) = 2400%nat) by (intros; apply wedge_closed).
  assert (CO : forall w c t i, corner_of (wedge_mesh w c t) i = stretch c t w (corner_of (wedge_mesh 1 1 1) i)).
  { intros w' c' t' i. rewrite wedge_scales, corner_map; [reflexivity|]. unfold stretch, origin. apply vec_ext; cbn; ring. }
  assert (N1 : forall y, y * (1 + pert / 100) = y + y * pert / 100) by (intros; field).
  destruct Hp as [<-|[<-|[<-|[]]]]; unfold f, x in *; cbn [String.eqb Ascii.eqb Bool.eqb] in *; rewrite N1.
  - apply (study_rows (fun y => wedge_mesh y c t) (fun i => V3 (c * vx (corner_of (wedge_mesh 1 1 1) i)) (t * vy (corner_of (wedge_mesh 1 1 1) i)) 0)
             (fun i => V3 0 0 (vz (corner_of (wedge_mesh 1 1 1) i))) w _ 2400); [exact DP|intros; apply L| |].
    + intros y i _. rewrite CO. unfold stretch, plus_scaled. apply vec_ext; cbn [vx vy vz]; ring.
    + intros i _. unfold wedge_rate, plus_scaled. cbn [String.eqb Ascii.eqb Bool.eqb]. apply vec_ext; cbn [vx vy vz]; [reflexivity|reflexivity|field; exact Hw].
  - apply (study_rows (fun y => wedge_mesh w y t) (fun i => V3 0 (t * vy (corner_of (wedge_mesh 1 1 1) i)) (w * vz (corner_of (wedge_mesh 1 1 1) i)))
             (fun i => V3 (vx (corner_of (wedge_mesh 1 1 1) i)) 0 0) c _ 2400); [exact DP|intros; apply L| |].
    + intros y i _. rewrite CO. unfold stretch, plus_scaled. apply vec_ext; cbn [vx vy vz]; ring.
    + intros i _. unfold wedge_rate, plus_scaled. cbn [String.eqb Ascii.eqb Bool.eqb]. apply vec_ext; cbn [vx vy vz]; [field; exact Hc|reflexivity|reflexivity].
  - apply (study_rows (fun y => wedge_mesh w c y) (fun i => V3 (c * vx (corner_of (wedge_mesh 1 1 1) i)) 0 (w * vz (corner_of (wedge_mesh 1 1 1) i)))
             (fun i => V3 0 (vy (corner_of (wedge_mesh 1 1 1) i)) 0) t _ 2400); [exact DP|intros; apply L| |].
    + intros y i _. rewrite CO. unfold stretch, plus_scaled. apply vec_ext; cbn [vx vy vz]; ring.
    + intros i _. unfold wedge_rate, plus_scaled. cbn [String.eqb Ascii.eqb Bool.eqb]. apply vec_ext; cbn [vx vy vz]; [reflexivity|field; exact Ht|reflexivity].
Qed.

(** C89: a study of any of its parameters succeeds and reports, at every vertex
    of the nominal mesh, the exact derivative of the vertex position *)
Theorem C89_study call (h : heap R) s d (D o : dict (pval R)) pert w c t : separate h ->
  nth_error (s_dicts s) d = Some D -> D <> [] -> numbers D -> (forall p, In p (dkeys D) -> wedge_parameter p) ->
  wedge_keywords (D ++ o)%list w c t -> w <> 0 -> c <> 0 -> t <> 0 -> pert <> 0 ->
  exists s' out mesh, dvdp (fun kw hv => (hv, study_instance call ParametricWedge h kw)) d o pert s = (s', Ok out) /\
    study_instance call ParametricWedge h (D ++ o)%list = Ok (mkInst [("swept_1"%string, mesh)] None [] None) /\
    dkeys (o_sens out) = dkeys D /\
    forall p ts, In (p, ts) (o_sens out) -> exists rows, ts = [("swept_1"%string, rows)] /\
      (forall r, In r rows -> vertex_of mesh (r_loc r) /\ r_sens r = wedge_rate p w c t (r_loc r)) /\
      (forall v, vertex_of mesh v -> exists r, In r rows /\ r_loc r = v).
Proof.
  intros SP E NE Nu WP K Hw Hc Ht Hq.
  pose proof K as ((ND & S1 & S2) & GW & GC & GT).
  assert (Nd : NoDup (dkeys D)) by (rewrite dkeys_app in ND; apply (NoDup_front _ _ ND)).
  assert (Dj : disjoint_keys D o).
  { intros k H1 H2. rewrite dkeys_app in ND. clear -ND H1 H2. induction (dkeys D) as [|a l IH]; [destruct H2|].
    cbn in ND. inversion ND; subst. destruct H2 as [->|H2]; [apply H3, in_or_app; auto|auto]. }
  set (mk := study_instance call ParametricWedge h).
  assert (V : forall p x, In (p, PNum x) D -> let f q y := if String.eqb q p then y * (1 + pert / 100) else y in
      x = (if String.eqb "wingspan" p then w else if String.eqb "chord" p then c else t) /\
      mk (kw_of D o pert p) = Ok (mkInst [("swept_1"%string, wedge_mesh (f "wingspan"%string w) (f "chord"%string c) (f "thickness"%string t))] None [] None)).
  { intros p x Hp f. pose proof (WP p (in_map fst _ _ Hp)) as P.
    assert (GX : dget (D ++ o)%list p = Some (PNum x)) by (apply dget_nodup; [exact ND|apply in_or_app; auto]).
    split.
    - unfold given in GW, GC, GT. destruct P as [<-|[<-|[<-|[]]]]; cbn [String.eqb Ascii.eqb Bool.eqb];
        [rewrite GX in GW; injection GW|rewrite GX in GC; injection GC|rewrite GX in GT; injection GT]; auto.
    - apply wedge_instance; [exact SP|]. split.
      + unfold plain_keywords, kw_of. rewrite dkeys_app, changed_at_keys, <- dkeys_app. auto.
      + unfold kw_of. rewrite (given_changed D o p x pert w _ _ ND Hp GW), (given_changed D o p x pert c _ _ ND Hp GC), (given_changed D o p x pert t _ _ ND Hp GT).
        unfold f. destruct (String.eqb "wingspan" p), (String.eqb "chord" p), (String.eqb "thickness" p); repeat split. }
  destruct (dvdp_succeeds mk d D o pert (mkInst [("swept_1"%string, wedge_mesh w c t)] None [] None) Nd Dj s E NE Nu) as (s' & out & R & KS & Q).
  - apply wedge_instance; assumption.
  - intros p x Hp. destruct (V p x Hp) as [Ex Em]. cbv zeta in Em. destruct (wedge_rows p w c t pert (WP p (in_map fst _ _ Hp)) Hw Hc Ht Hq) as (rows & C & _).
    cbv zeta in C. rewrite <- Ex in C. eexists. exists ([("swept_1"%string, rows)], None, None). split; [exact Em|].
    unfold outcome. cbn [i_analysis i_props i_meshes bind]. unfold mesh_sens. cbn [mapM fst snd]. unfold dlookup. cbn [dget].
    rewrite String.eqb_refl. cbn [bind]. rewrite C. reflexivity.
  - exists s', out, (wedge_mesh w c t). split; [exact R|]. split; [apply wedge_instance; assumption|]. split; [exact KS|].
    intros p ts Hp. destruct (Q p ts Hp) as (x & inst & Hx & Em & MS). destruct (V p x Hx) as [Ex Em']. cbv zeta in Em'.
    assert (inst = mkInst [("swept_1"%string, wedge_mesh (if String.eqb "wingspan" p then w * (1 + pert / 100) else w)
      (if String.eqb "chord" p then c * (1 + pert / 100) else c) (if String.eqb "thickness" p then t * (1 + pert / 100) else t))] None [] None) as ->.
    { apply ok_inj. rewrite <- Em, <- Em'. reflexivity. }
    destruct (wedge_rows p w c t pert (WP p (in_map fst _ _ Hx)) Hw Hc Ht Hq) as (rows & C & R1 & R2).
    cbv zeta in C. rewrite <- Ex in C. cbn [i_meshes] in MS. unfold mesh_sens in MS. cbn [mapM fst snd] in MS. unfold dlookup in MS. cbn [dget] in MS.
    rewrite String.eqb_refl in MS. cbn [bind] in MS. rewrite C in MS. cbn [bind] in MS. injection MS as <-.
    exists rows. auto.
Qed.
Example C89_study_meets : let D := [("chord"%string, PNum 3); ("thickness"%string, PNum 1)] in
  D <> [] /\ numbers D /\ (forall p, In p (dkeys D) -> wedge_parameter p) /\ wedge_keywords (D ++ [("wingspan"%string, PNum 2)])%list 2 3 1.
Proof.
  cbv zeta. split; [discriminate|]. split; [intros k v [H|[H|[]]]; injection H as <- <-; eauto|]. split.
  - intros p [<-|[<-|[]]]; unfold wedge_parameter; cbn; auto.
  - split; [split; [repeat constructor; cbn; intuition discriminate|split; cbn; intuition discriminate]|]. repeat split.
Qed.

Print Assumptions C88_prism.
Print Assumptions C88_straight.
Print Assumptions C61_succeeds.
Print Assumptions C89_wedge.
Print Assumptions C89_study.
