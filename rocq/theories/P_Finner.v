(** C91 (and C61): studies of affine vehicles, and the parametric finner end to end. *)
From Coq Require Import String Reals Lra ZArith List Permutation Lia Bool FunctionalExtensionality.
From Verif Require Import Num NumR Py M_Vector SpecR3 M_Path M_Surface M_Geometry M_Mesh M_Component M_Vehicle M_VecHeap M_Sens M_Gen M_Hangar
  SpecPath SpecPoly SpecSurf SpecMesh SpecComp SpecVehicle SpecAdd SpecFiles SpecSens SpecPrism SpecLathe SpecHangar L_Vector L_Edges L_Mesh L_Volume
  L_Component L_Coons L_SweptComp L_RevolvedComp L_Heap L_Rigid L_Pipeline L_Generate L_Cache L_Files L_Prism L_Hangar L_Block L_Wedge L_Lathe L_Finner L_Drift
  L_Sens L_Study L_StudyOk P_Sens P_Study P_Gen P_Component P_Vehicle P_Hangar.
From Verif Require L_Inertia.
Import ListNotations.
Local Open Scope R_scope.

Lemma changed_number (D : dict (pval R)) p x (f : R -> R) : NoDup (dkeys D) -> In (p, PNum x) D ->
  changed_at p (fun v => match v with PNum y => PNum (f y) | _ => v end) D = changed_at p (fun _ => PNum (f x)) D.
Proof.
  intros Nd H. unfold changed_at. apply map_ext_in. intros [k v] Hk. cbn [fst snd]. destruct (String.eqb_spec k p) as [->|_]; [|reflexivity].
  pose proof (dget_nodup _ _ _ Nd H) as E1. rewrite (dget_nodup _ _ _ Nd Hk) in E1. injection E1 as ->. reflexivity.
Qed.
Lemma changed_same (D : dict (pval R)) p x : NoDup (dkeys D) -> In (p, PNum x) D -> changed_at p (fun _ => PNum x) D = D.
Proof.
  intros Nd H. unfold changed_at. rewrite <- (map_id D) at 2. apply map_ext_in. intros [k v] Hk. cbn [fst snd].
  destruct (String.eqb_spec k p) as [->|_]; [|reflexivity].
  pose proof (dget_nodup _ _ _ Nd H) as E1. rewrite (dget_nodup _ _ _ Nd Hk) in E1. injection E1 as ->. reflexivity.
Qed.
Lemma named_in c m ms : NoDup (dkeys ms) -> In (c, m) ms -> mesh_named c ms = m.
Proof. intros Nd H. unfold mesh_named. rewrite (dget_nodup _ _ _ Nd H). reflexivity. Qed.

Section Exact.
  Variable names : list string.
  Hypothesis Nn : NoDup names.
  Variable fam : R -> dict (list (tri R)).
  Hypothesis K : forall y, dkeys (fam y) = names.
  Hypothesis A : forall c, In c names -> drifts (fun y => mesh_named c (fam y)).
  Definition exact_rows (x : R) (c : string) (rows : list (row R)) : Prop := let F y := mesh_named c (fam y) in
    (forall r, In r rows -> (r_index r < 3 * length (F x))%nat /\ r_loc r = corner_of (F x) (r_index r) /\ velocity F (r_index r) x (r_sens r)) /\
    forall v, vertex_of (F x) v -> exists r, In r rows /\ r_loc r = v.
  Lemma exact_sens x dp : dp <> 0 -> exists ts, mesh_sens (PNum dp) (fam x) (fam (x + dp)) = Ok ts /\ dkeys ts = names /\
    forall c rows, In (c, rows) ts -> exact_rows x c rows.
  Proof using Nn K A.
    intros Hd. unfold mesh_sens.
    assert (Q : forall c m, In (c, m) (fam x) -> exists rows,
      (let! m' := dlookup (fam (x + dp)) c in let! rows := compare_meshes m m' dp in Ok (c, rows)) = Ok (c, rows) /\ exact_rows x c rows).
    { intros c m Hc. assert (Ic : In c names) by (rewrite <- (K x); apply (in_map fst) in Hc; exact Hc).
      assert (Nx : forall y, NoDup (dkeys (fam y))) by (intros y; rewrite K; exact Nn).
      assert (I' : In c (dkeys (fam (x + dp)))) by (rewrite K; exact Ic). unfold dkeys in I'. apply in_map_iff in I'.
      destruct I' as ([c' m'] & E & I'). cbn [fst] in E. subst c'.
      unfold dlookup. rewrite (dget_nodup _ _ _ (Nx _) I'). cbn [bind].
      destruct (A c Ic) as [Le Af].
      set (F y := mesh_named c (fam y)) in *. assert (Em : m = F x) by (symmetry; apply named_in; auto). assert (Em' : m' = F (x + dp)) by (symmetry; apply named_in; auto).
      subst m m'.
      destruct (C62_affine F (fun i => corner_of (F 0) i) (fun i => diff (corner_of (F 1) i) (corner_of (F 0) i)) x dp (length (F 0)) Hd Le) as (rows & R0 & R1 & R2).
      { intros y i _. apply (Af i). }
      rewrite R0. cbn [bind]. exists rows. split; [reflexivity|]. unfold exact_rows. cbv zeta. fold F. split.
      - intros r Hr. destruct (R1 r Hr) as (B1 & B2 & B3). rewrite Le. split; [exact B1|]. split; [rewrite B2; symmetry; apply (Af (r_index r))|].
        rewrite B3. apply affine1_velocity, Af.
      - intros v Hv. apply vertex_corner in Hv. destruct Hv as (i & Hi & <-). rewrite Le in Hi. destruct (R2 i Hi) as (r & Hr & V & _).
        exists r. split; [exact Hr|]. rewrite V. symmetry. apply (Af i). }
    rewrite <- (K x). revert Q. generalize (fam x) as l. induction l as [|[c m] l IH]; intros Q.
    - eexists. split; [reflexivity|]. split; [reflexivity|]. intros c rows [].
    - destruct IH as (ts & E & Kt & Ht). { intros c' m' H. apply (Q c' m'). right. exact H. }
      destruct (Q c m (or_introl eq_refl)) as (rows & R0 & R1). exists ((c, rows) :: ts). split.
      + cbn [mapM fst snd]. rewrite R0. cbn [bind]. rewrite E. reflexivity.
      + split; [unfold dkeys in *; cbn; rewrite Kt; reflexivity|]. intros c' rows' [H|H]; [injection H as <- <-; exact R1|apply Ht, H].
  Qed.
End Exact.

(** C61: a study of a vehicle whose vertices depend affinely on each single
    parameter succeeds, for any perturbation, and reports exactly the
    derivatives of the vertex positions *)
Theorem C61_exact mk d (D o : dict (pval R)) pert s names (fam : string -> R -> dict (list (tri R))) :
  nth_error (s_dicts s) d = Some D -> D <> [] -> NoDup (dkeys D) -> disjoint_keys D o -> pert <> 0 ->
  (forall p v, In (p, v) D -> exists x, v = PNum x /\ x <> 0) -> NoDup names ->
  (forall p y, In p (dkeys D) -> mk (changed_at p (fun _ => PNum y) D ++ o)%list = Ok (mkInst (fam p y) None [] None)) ->
  (forall p y, In p (dkeys D) -> dkeys (fam p y) = names) ->
  (forall p c, In p (dkeys D) -> In c names -> drifts (fun y => mesh_named c (fam p y))) ->
  exists s' out, dvdp (fun kw hv => (hv, mk kw)) d o pert s = (s', Ok out) /\ dkeys (o_sens out) = dkeys D /\
    forall p ts x, In (p, ts) (o_sens out) -> In (p, PNum x) D -> dkeys ts = names /\
      forall c rows, In (c, rows) ts -> let F y := mesh_named c (fam p y) in
        (forall r, In r rows -> (r_index r < 3 * length (F x))%nat /\ r_loc r = corner_of (F x) (r_index r) /\ velocity F (r_index r) x (r_sens r)) /\
        forall v, vertex_of (F x) v -> exists r, In r rows /\ r_loc r = v.
Proof.
  intros E NE Nd Dj Hp Nu Nn M K A.
  assert (Nu' : numbers D) by (intros k v H; destruct (Nu k v H) as (x & -> & _); eauto).
  assert (Nom : exists ms, mk (D ++ o)%list = Ok (mkInst ms None [] None)).
  { destruct D as [|[p v] D']; [congruence|]. destruct (Nu p v (or_introl eq_refl)) as (x & -> & _).
    exists (fam p x). rewrite <- (M p x (or_introl eq_refl)). rewrite (changed_same _ p x Nd); [reflexivity|left; reflexivity]. }
  destruct Nom as [ms Nom].
  assert (P1 : forall p x, In (p, PNum x) D -> ms = fam p x /\ let dp := nsub (nmul x (factor pert)) x in dp <> 0 /\
     mk (kw_of D o pert p) = Ok (mkInst (fam p (x + dp)) None [] None)).
  { intros p x Hx. assert (Ip : In p (dkeys D)) by (apply (in_map fst) in Hx; exact Hx). split.
    - rewrite <- (changed_same D p x Nd Hx), (M p x Ip) in Nom. apply ok_inj in Nom. injection Nom as <-. reflexivity.
    - cbv zeta. assert (X : x <> 0) by (destruct (Nu p _ Hx) as (x' & Q & X); injection Q as <-; exact X).
      assert (Ed : nsub (nmul x (factor pert)) x = x * pert / 100) by (unfold factor; numR; field). split.
      + rewrite Ed. intros H0. assert (Q : x * pert = 0) by lra. apply Rmult_integral in Q. destruct Q; contradiction.
      + unfold kw_of. rewrite <- (M p _ Ip). f_equal. f_equal.
        transitivity (changed_at p (fun v => match v with PNum y => PNum (nmul y (factor pert)) | _ => v end) D); [reflexivity|].
        rewrite (changed_number D p x (fun y => nmul y (factor pert)) Nd Hx). f_equal. rewrite Ed. unfold factor. numR.
        assert (EE : x * (1 + pert / 100) = x + x * pert / 100) by field. rewrite EE. reflexivity. }
  destruct (dvdp_succeeds mk d D o pert (mkInst ms None [] None) Nd Dj s E NE Nu' Nom) as (s' & out & R0 & KS & Q).
  - intros p x Hx. destruct (P1 p x Hx) as (-> & Hd & Em). assert (Ip : In p (dkeys D)) by (apply (in_map fst) in Hx; exact Hx).
    destruct (exact_sens names Nn (fam p) (fun y => K p y Ip) (fun c => A p c Ip) x _ Hd) as (ts & T0 & _).
    eexists. exists (ts, None, None). split; [exact Em|]. unfold outcome. cbn [i_analysis i_props i_meshes bind]. rewrite T0. reflexivity.
  - exists s', out. split; [exact R0|]. split; [exact KS|]. intros p ts x Ht Hx.
    destruct (Q p ts Ht) as (x' & inst & Hx' & Em & MS).
    assert (x' = x) as ->.
    { pose proof (dget_nodup _ _ _ Nd Hx) as E1. rewrite (dget_nodup _ _ _ Nd Hx') in E1. injection E1 as <-. reflexivity. }
    destruct (P1 p x Hx) as (-> & Hd & Em'). cbv zeta in Hd, Em'. rewrite Em' in Em. apply ok_inj in Em. subst inst.
    assert (Ip : In p (dkeys D)) by (apply (in_map fst) in Hx; exact Hx).
    destruct (exact_sens names Nn (fam p) (fun y => K p y Ip) (fun c => A p c Ip) x _ Hd) as (ts' & T0 & T1 & T2).
    cbn [i_meshes] in MS. rewrite T0 in MS. apply ok_inj in MS. subst ts'. split; [exact T1|]. intros c rows Hc. apply (T2 c rows Hc).
Qed.
(** a vehicle of one triangle (0,0,0), (x,0,0), (0,y,0) *)
Definition triangle_meshes (x y : R) : dict (list (tri R)) := [("sail"%string, [Tri (V3 0 0 0) (V3 x 0 0) (V3 0 y 0)])].
Definition make_triangle (kw : dict (pval R)) : res (instance R) :=
  match dget kw "x", dget kw "y" with Some (PNum x), Some (PNum y) => Ok (mkInst (triangle_meshes x y) None [] None) | _, _ => Raise KeyError end.
Example C61_exact_meets : let D := [("x"%string, PNum 2)] in let o := [("y"%string, PNum 3)] in let fam (p : string) y := triangle_meshes y 3 in
  NoDup (dkeys D) /\ disjoint_keys D o /\ (forall p v, In (p, v) D -> exists x, v = PNum x /\ x <> 0) /\
  (forall p y, In p (dkeys D) -> make_triangle (changed_at p (fun _ => PNum y) D ++ o)%list = Ok (mkInst (fam p y) None [] None)) /\
  (forall p y, In p (dkeys D) -> dkeys (fam p y) = ["sail"%string]) /\
  (forall p c, In p (dkeys D) -> In c ["sail"%string] -> drifts (fun y => mesh_named c (fam p y))).
Proof.
  cbv zeta. split; [repeat constructor; intros []|]. split; [intros k [<-|[]] [H|[]]; discriminate|].
  split; [intros p v [H|[]]; injection H as <- <-; exists 2; split; [reflexivity|lra]|].
  split; [intros p y [<-|[]]; reflexivity|]. split; [reflexivity|].
  intros p c _ [<-|[]]. cbn. apply drifts_tri; intros x; unfold plus_scaled, diff; apply vec_ext; cbn; ring.
Qed.

(** ** the finner *)
Definition finner_keywords (kw : dict (pval R)) (d l n fh fl t : R) : Prop := plain_keywords kw /\
  given kw "diameter" 1 = PNum d /\ given kw "total_length" 10 = PNum l /\ given kw "nose_length" (284 / 100) = PNum n /\
  given kw "fin_height" 1 = PNum fh /\ given kw "fin_length" 1 = PNum fl /\ given kw "max_fin_thickness" (8 / 100) = PNum t.
Lemma finner_program call kw d l n fh fl t : finner_keywords kw d l n fh fl t ->
  make_vehicle call ParametricFinner kw = Ok (finner_vehicle d l n fh fl t).
Proof.
  intros ((Nd & S1 & S2) & H1 & H2 & H3 & H4 & H5 & H6). unfold make_vehicle, instantiate. rewrite no_key by exact S1.
  cbn [g_init ParametricFinner run_init bind g_classes]. unfold create_instance. rewrite generator_init_get by exact Nd.
  destruct (dget kw "create_instance") as [v|] eqn:E.
  { exfalso. apply S2. apply dget_in in E. apply (in_map fst) in E. exact E. }
  cbn [dget dset String.eqb]. cbn [g_create ParametricFinner g_classes].
  unfold number, getattr. rewrite !generator_init_get by exact Nd. unfold given in *.
  destruct (dget kw "diameter"); cbn in H1 |- *; subst; try (injection H1 as <-); cbn [bind];
  destruct (dget kw "total_length"); cbn in H2 |- *; subst; try (injection H2 as <-); cbn [bind];
  destruct (dget kw "nose_length"); cbn in H3 |- *; subst; try (injection H3 as <-); cbn [bind];
  destruct (dget kw "fin_height"); cbn in H4 |- *; subst; try (injection H4 as <-); cbn [bind];
  destruct (dget kw "fin_length"); cbn in H5 |- *; subst; try (injection H5 as <-); cbn [bind];
  destruct (dget kw "max_fin_thickness"); cbn in H6 |- *; subst; try (injection H6 as <-); reflexivity.
Qed.

Lemma body_inside d l n p : 0 <= d -> 0 <= n <= l -> vertex_of (fuselage_mesh d l n) p -> 0 <= vx p <= l /\ radius_x p <= d / 2.
Proof.
  intros Hd Hn Hp.
  assert (G : forall g, In g (profile_curves (finner_profile d l n)) -> forall r, 0 <= r <= 1 -> 0 <= vx (g r) <= l /\ 0 <= vy (g r) <= d / 2 /\ vz (g r) = 0).
  { intros g Hg r Hr. unfold profile_curves, finner_profile in Hg. cbn [legs map fst snd] in Hg.
    destruct Hg as [<-|[<-|[<-|[]]]]; unfold straight; cbn [vx vy vz]; repeat split; try nra. }
  assert (H : forall a b, (forall g i r s, In g (profile_curves (finner_profile d l n)) -> 0 <= r <= 1 -> in_half a b (rev_val g i r s)) -> in_half a b p).
  { intros a b K. apply (vertex_in 7 a b (flat_map four (profile_curves (finner_profile d l n)))); [|exact Hp].
    intros v Hv r s Hr _. apply in_flat_map in Hv. destruct Hv as (g & Hg & Hv). unfold four in Hv. apply in_map_iff in Hv. destruct Hv as (i & <- & _).
    apply K; assumption. }
  clear Hp. unfold in_half, inner, rev_val, turn in H. cbn [vx vy vz] in H.
  pose proof (H (V3 1 0 0) l) as X1. pose proof (H (V3 (-1) 0 0) 0) as X2. cbn [vx vy vz] in X1, X2.
  assert (1 * vx p + 0 * vy p + 0 * vz p <= l) by (apply X1; intros g i r s Hg Hr; destruct (G g Hg r Hr) as (? & _); nra).
  assert (-1 * vx p + 0 * vy p + 0 * vz p <= 0) by (apply X2; intros g i r s Hg Hr; destruct (G g Hg r Hr) as (? & _); nra).
  split; [lra|]. clear X1 X2.
  destruct (Req_dec (radius_x p) 0) as [Z|Z]; [lra|].
  assert (P : 0 < radius_x p) by (pose proof (sqrt_pos (vy p * vy p + vz p * vz p)); unfold radius_x in *; lra).
  assert (Sq : radius_x p * radius_x p = vy p * vy p + vz p * vz p) by (unfold radius_x; apply sqrt_sqrt; nra).
  specialize (H (V3 0 (vy p) (vz p)) (d / 2 * radius_x p)). cbn [vx vy vz] in H.
  assert (Q : 0 * vx p + vy p * vy p + vz p * vz p <= d / 2 * radius_x p).
  { apply H. intros g i r s Hg Hr. destruct (G g Hg r Hr) as (_ & Y & ->).
    set (a := INR i * PI / 2 * (1 - s) + INR (i + 1) * PI / 2 * s). pose proof (sin2_cos2 a) as SC. unfold Rsqr in SC.
    set (X := vy p * cos a - vz p * sin a).
    assert (C : X * X <= radius_x p * radius_x p).
    { rewrite Sq. pose proof (Rle_0_sqr (vy p * sin a + vz p * cos a)) as N0. unfold Rsqr in N0. unfold X.
      replace (vy p * vy p + vz p * vz p) with ((vy p * vy p + vz p * vz p) * (sin a * sin a + cos a * cos a)) by (rewrite SC; ring). lra. }
    assert (C' : X <= radius_x p) by (destruct (Rle_dec X (radius_x p)) as [?|?]; [assumption|nra]).
    replace (0 * vx (g r) + vy p * (vy (g r) * cos a + 0 * sin a) + vz p * (0 * cos a - vy (g r) * sin a)) with (vy (g r) * X) by (unfold X; ring).
    apply Rle_trans with (vy (g r) * radius_x p); [apply Rmult_le_compat_l; lra|apply Rmult_le_compat_r; lra]. }
  apply (Rmult_le_reg_r (radius_x p)); [exact P|]. rewrite Sq. lra.
Qed.
Lemma body_reaches d l n : vertex_of (fuselage_mesh d l n) (V3 l 0 (d / 2)) /\ vertex_of (fuselage_mesh d l n) (V3 0 0 0).
Proof.
  assert (I : forall v p, In v (flat_map four (profile_curves (finner_profile d l n))) -> vertex_of (patch_grid 7 v) p -> vertex_of (fuselage_mesh d l n) p).
  { intros v p Hv (t & Ht & Hp). exists t. split; [|exact Hp]. unfold fuselage_mesh, lathe_mesh. apply in_flat_map. exists v. auto. }
  unfold profile_curves, finner_profile in I. cbn [legs map fst snd flat_map four seq app] in I. split.
  - eapply (I (rev_val (straight (V3 l (d / 2) 0) (V3 l 0 0)) 3)); [do 11 right; left; reflexivity|].
    replace (V3 l 0 (d / 2)) with (rev_val (straight (V3 l (d / 2) 0) (V3 l 0 0)) 3 0 0); [apply grid_corner|].
    unfold rev_val, turn, straight. cbn [vx vy vz].
    replace (INR 3 * PI / 2 * (1 - 0) + INR (3 + 1) * PI / 2 * 0) with (3 * (PI / 2)) by (cbn; field).
    rewrite cos_3PI2, sin_3PI2. apply vec_ext; cbn; ring.
  - eapply (I (rev_val (straight (V3 0 0 0) (V3 n (d / 2) 0)) 0)); [left; reflexivity|].
    assert (Q : rev_val (straight (V3 0 0 0) (V3 n (d / 2) 0)) 0 0 0 = V3 0 0 0).
    { unfold rev_val, turn, straight. cbn [vx vy vz]. apply vec_ext; cbn [vx vy vz]; ring. }
    pose proof (grid_corner 7 (rev_val (straight (V3 0 0 0) (V3 n (d / 2) 0)) 0)) as C. rewrite Q in C. exact C.
Qed.
Lemma fin_reaches d l fh fl t k e : (k < 2)%nat -> (e < 4)%nat -> vertex_of (fin_mesh d l fh fl t 0) (fin_corner d l fh fl t k e).
Proof.
  intros Hk He. unfold fin_mesh. destruct (block_corner (fin_corner d l fh fl t) 3 k e Hk He) as (s & Hs & Hp).
  exists (map_tri (quarters 0) s). split; [apply in_map; exact Hs|]. destruct s. exact Hp.
Qed.
Lemma fin_turned d l fh fl t i : fin_mesh d l fh fl t i = map_mesh (quarters i) (fin_mesh d l fh fl t 0).
Proof.
  unfold fin_mesh. unfold map_mesh. rewrite map_map. apply map_ext. intros [a b c]. reflexivity.
Qed.

(** the fins and the body of the vehicle that the generator builds *)
Definition fin_names : list string := ["fin_1"; "fin_2"; "fin_3"; "fin_4"]%string.

(** C91: ParametricFinner on any heap, for all values of the parameters: a
    closed body and four closed fins, all normals outwards (for positive
    parameters), each fin the one before turned by 90 degrees about the x axis;
    the volume of the body is that of the cone and cylinder with a regular
    32-gon in place of the circle; the fins stand on planes that touch the body *)
Theorem C91_finner call (h : heap R) kw d l n fh fl t : separate h -> finner_keywords kw d l n fh fl t ->
  exists v h2 body fin, flies call ParametricFinner kw h v h2 /\
    v_name v = "Finner"%string /\ dkeys (v_named v) = "fuselage"%string :: fin_names /\ v_components v = map snd (v_named v) /\
    (forall i, dget (v_named v) "fuselage" = Some i -> mesh_of h2 i = Ok body) /\
    (forall k s i, nth_error fin_names k = Some s -> dget (v_named v) s = Some i -> mesh_of h2 i = Ok (map_mesh (quarters k) fin)) /\
    watertight body /\ signed_volume body = ngon 32 * ((d / 2) ^ 2 * (n / 3 + (l - n))) /\
    (0 <= d -> 0 <= n <= l -> forall p, vertex_of body p -> 0 <= vx p <= l /\ radius_x p <= d / 2) /\
    watertight fin /\ length fin = 384%nat /\ signed_volume fin = fh * fl * t / 2 /\
    (forall k, watertight (map_mesh (quarters k) fin) /\ signed_volume (map_mesh (quarters k) fin) = fh * fl * t / 2) /\
    (0 <= fh -> 0 <= fl -> 0 <= t -> forall p, vertex_of fin p ->
       l - fl <= vx p <= l /\ d / 2 <= vz p <= d / 2 + fh /\ Rabs (2 * vy p) <= t) /\
    (0 <= d -> 0 <= fh -> 0 <= fl -> 0 <= t -> forall p, vertex_of fin p -> d / 2 <= radius_x p /\ (radius_x p = d / 2 -> vy p = 0 /\ vz p = d / 2)) /\
    (forall k e, (k < 2)%nat -> (e < 4)%nat -> vertex_of fin (fin_corner d l fh fl t k e)) /\
    vertex_of body (V3 l 0 (d / 2)) /\ vertex_of fin (V3 l 0 (d / 2)) /\
    forall fs0, exists h3 fs, to_stl (mark_generated v) None h2 fs0 = (h3, fs, Ok tt) /\
      dget fs "fuselage.stl" = Some body /\
      (forall k s, nth_error fin_names k = Some s -> dget fs (s ++ ".stl")%string = Some (map_mesh (quarters k) fin)) /\
      forall s, ~ In s (map (fun c => c ++ ".stl")%string ("fuselage"%string :: fin_names)) -> dget fs s = dget fs0 s.
Proof.
  intros SP KW. pose proof (finner_run d l n fh fl t h) as RUN. destruct (finner_generates d l n fh fl t h SP) as (h2 & A & L & SO & MB & MF).
  set (c0 := length (comps h)) in *.
  assert (MF' : forall k, (k < 4)%nat -> mesh_of h2 (c0 + (5 + k)) = Ok (map_mesh (quarters k) (fin_mesh d l fh fl t 0))).
  { intros k Hk. rewrite (MF k Hk), (fin_turned d l fh fl t k). reflexivity. }
  exists (finner_made c0), h2, (fuselage_mesh d l n), (fin_mesh d l fh fl t 0).
  split; [eexists _, _; split; [apply finner_program, KW|]; split; [exact RUN|exact A]|].
  split; [reflexivity|]. split; [reflexivity|]. split; [reflexivity|].
  split; [intros i Hi; cbn in Hi; injection Hi as <-; exact MB|].
  split.
  { intros k s i Hs Hi. destruct k as [|[|[|[|k]]]]; cbn in Hs; [..|destruct k; discriminate]; injection Hs as <-; cbn in Hi; injection Hi as <-.
    - exact (MF' 0%nat ltac:(lia)).
    - exact (MF' 1%nat ltac:(lia)).
    - exact (MF' 2%nat ltac:(lia)).
    - exact (MF' 3%nat ltac:(lia)). }
  split; [apply fuselage_watertight|]. split; [apply fuselage_volume|]. split; [intros Hd Hn p; apply body_inside; assumption|].
  split; [apply fin_watertight|]. split; [apply fin_watertight|]. split; [apply fin_volume|].
  split; [intros k; rewrite <- fin_turned; split; [apply fin_watertight|apply fin_volume]|].
  split; [intros Hh Hl Ht p; apply fin_inside; assumption|].
  split.
  { intros Hd Hh Hl Ht p Hp. destruct (fin_inside d l fh fl t p Hh Hl Ht Hp) as (_ & Z & _). unfold radius_x.
    assert (Q : d / 2 = sqrt (d / 2 * (d / 2))) by (symmetry; apply sqrt_square; lra).
    split; [rewrite Q; apply sqrt_le_1; nra|]. intros E. rewrite Q in E. apply sqrt_inj in E; [|nra|nra]. assert (vz p = d / 2) by nra. split; [|assumption]. nra. }
  split; [intros k e; apply fin_reaches|]. split; [apply body_reaches|].
  split.
  { replace (V3 l 0 (d / 2)) with (fin_corner d l fh fl t 0 2) by (unfold fin_corner; apply vec_ext; cbn; ring). apply fin_reaches; lia. }
  intros fs0. set (v := mark_generated _).
  assert (OP : forall k c, nth_error (finner_comps d l n fh fl t c0 (length (dicts h))) k = Some c ->
     ghost_at h2 (c0 + k) = c_ghost c /\ tag_at h2 (c0 + k) = c_name c).
  { intros k c Hk. destruct (SO k c Hk) as (c' & E & O). unfold ghost_at, tag_at. rewrite E. unfold same_options, options in O.
    destruct c, c'. cbn in O |- *. injection O. intros. subst. auto. }
  pose proof (OP 3%nat _ eq_refl) as [G3 T3]. pose proof (OP 5%nat _ eq_refl) as [G5 T5]. pose proof (OP 6%nat _ eq_refl) as [G6 T6].
  pose proof (OP 7%nat _ eq_refl) as [G7 T7]. pose proof (OP 8%nat _ eq_refl) as [G8 T8].
  destruct (C55_files v None h2 fs0) as (h3 & fs & E & F).
  { intros i Hi. rewrite L. cbn [v mark_generated v_components finner_made finner_named map snd] in Hi.
    destruct Hi as [<-|[<-|[<-|[<-|[<-|[]]]]]]; lia. }
  { intros i Hi _. cbn [v mark_generated v_components finner_made finner_named map snd] in Hi.
    destruct Hi as [<-|[<-|[<-|[<-|[<-|[]]]]]]; [rewrite MB|pose proof (MF' 0%nat ltac:(lia)) as Q|pose proof (MF' 1%nat ltac:(lia)) as Q|pose proof (MF' 2%nat ltac:(lia)) as Q|pose proof (MF' 3%nat ltac:(lia)) as Q];
      [eexists; reflexivity|cbn [Nat.add] in Q; rewrite Q; eexists; reflexivity..]. }
  exists h3, fs. split; [exact E|].
  assert (FI : files v None h2 [] (v_components v) =
    [("fuselage.stl", c0 + 3); ("fin_1.stl", c0 + 5); ("fin_2.stl", c0 + 6); ("fin_3.stl", c0 + 7); ("fin_4.stl", c0 + 8)]%string%nat).
  { cbn [v mark_generated v_components finner_made finner_named map snd files app]. unfold file_name.
    rewrite G3, G5, G6, G7, G8, T3, T5, T6, T7, T8. reflexivity. }
  rewrite FI in F. split; [|split].
  - specialize (F "fuselage.stl"%string). cbn in F. destruct F as (m & F1 & F2). rewrite F2. congruence.
  - intros k s Hs. destruct k as [|[|[|[|k]]]]; cbn in Hs; [..|destruct k; discriminate]; injection Hs as <-.
    + specialize (F "fin_1.stl"%string). cbn in F. destruct F as (m & F1 & F2). pose proof (MF' 0%nat ltac:(lia)) as Q. cbn [Nat.add] in Q.
      rewrite Q in F1. apply ok_inj in F1. rewrite F1. exact F2.
    + specialize (F "fin_2.stl"%string). cbn in F. destruct F as (m & F1 & F2). pose proof (MF' 1%nat ltac:(lia)) as Q. cbn [Nat.add] in Q.
      rewrite Q in F1. apply ok_inj in F1. rewrite F1. exact F2.
    + specialize (F "fin_3.stl"%string). cbn in F. destruct F as (m & F1 & F2). pose proof (MF' 2%nat ltac:(lia)) as Q. cbn [Nat.add] in Q.
      rewrite Q in F1. apply ok_inj in F1. rewrite F1. exact F2.
    + specialize (F "fin_4.stl"%string). cbn in F. destruct F as (m & F1 & F2). pose proof (MF' 3%nat ltac:(lia)) as Q. cbn [Nat.add] in Q.
      rewrite Q in F1. apply ok_inj in F1. rewrite F1. exact F2.
  - intros s Hs. specialize (F s). unfold last_named in F. cbn [rev app filter fst snd] in F.
    assert (N0 : forall c, In c ["fuselage.stl"; "fin_1.stl"; "fin_2.stl"; "fin_3.stl"; "fin_4.stl"]%string -> String.eqb s c = false).
    { intros c Hc. apply String.eqb_neq. intros ->. apply Hs. exact Hc. }
    rewrite !N0 in F by (cbn; tauto). exact F.
Qed.
Example C91_meets : separate (mkHeap [] []) /\ finner_keywords [("nose_length"%string, PNum 3); ("fin_length"%string, PNum 2)] 1 10 3 1 2 (8 / 100).
Proof.
  split.
  - split; [intros j Hj; cbn in Hj; lia|]. intros j k c c' H. destruct j; discriminate.
  - split; [split; [repeat constructor; cbn; intuition discriminate|split; cbn; intuition discriminate]|]. repeat split.
Qed.

(** ** a study of the finner *)
Definition finner_parameters : list string :=
  ["diameter"; "total_length"; "nose_length"; "fin_height"; "fin_length"; "max_fin_thickness"]%string.
Definition finner_meshes (d l n fh fl t : R) : dict (list (tri R)) :=
  [("fuselage", fuselage_mesh d l n); ("fin_1", fin_mesh d l fh fl t 0); ("fin_2", fin_mesh d l fh fl t 1);
   ("fin_3", fin_mesh d l fh fl t 2); ("fin_4", fin_mesh d l fh fl t 3)]%string.
Lemma named_ok ms : forall (l : list (string * nat)) (h : heap R), Forall2 (fun ki cm => fst ki = fst cm /\ mesh_of h (snd ki) = Ok (snd cm)) l ms ->
  exists h', named_meshes l h = (h', Ok ms).
Proof.
  induction ms as [|[c m] ms IH]; intros l h H; inversion H as [|[k i] ? l' ? [E M] H' E1 E2]; subst; [eexists; reflexivity|].
  cbn [fst snd] in E, M. subst k. cbn [named_meshes]. unfold bindM at 1. unfold mesh_of in M. destruct (comp_mesh i h) as [h1 r] eqn:C. cbn [snd] in M. subst r.
  destruct (IH l' h1) as [h' Q].
  { eapply L_Inertia.Forall2_impl; [|exact H']. intros [k j] [c' m'] [E M]. split; [exact E|]. cbn [fst snd] in *. rewrite (mesh_stable j i h h1 m C). exact M. }
  unfold bindM. rewrite Q. unfold ret. eexists. reflexivity.
Qed.
Lemma finner_instance call h kw d l n fh fl t : separate h -> finner_keywords kw d l n fh fl t ->
  study_instance call ParametricFinner h kw = Ok (mkInst (finner_meshes d l n fh fl t) None [] None).
Proof.
  intros SP KW. destruct (finner_generates d l n fh fl t h SP) as (h2 & A & _ & _ & MB & MF).
  unfold study_instance. rewrite (finner_program call kw d l n fh fl t KW). cbn [bind]. rewrite finner_run, A.
  cbn [v_named mark_generated finner_made]. destruct (named_ok (finner_meshes d l n fh fl t) (finner_named (length (comps h))) h2) as [h3 Q].
  { unfold finner_meshes, finner_named.
    constructor; [split; [reflexivity|exact MB]|]. constructor; [split; [reflexivity|exact (MF 0%nat ltac:(lia))]|].
    constructor; [split; [reflexivity|exact (MF 1%nat ltac:(lia))]|]. constructor; [split; [reflexivity|exact (MF 2%nat ltac:(lia))]|].
    constructor; [split; [reflexivity|exact (MF 3%nat ltac:(lia))]|constructor]. }
  rewrite Q. reflexivity.
Qed.
Lemma given_set D o p y x w k dflt : NoDup (dkeys (D ++ o)%list) -> In (p, PNum x) D -> given (D ++ o)%list k dflt = PNum w ->
  given (changed_at p (fun _ => PNum y) D ++ o)%list k dflt = PNum (if String.eqb k p then y else w).
Proof.
  intros Nd Hp G. destruct (String.eqb_spec k p) as [->|NE].
  - unfold given. rewrite (dget_nodup _ p (PNum y)); [reflexivity| |].
    + rewrite dkeys_app, changed_at_keys, <- dkeys_app. exact Nd.
    + apply in_or_app. left. unfold changed_at. apply in_map_iff. exists (p, PNum x). split; [|exact Hp].
      cbn. rewrite String.eqb_refl. reflexivity.
  - unfold given in *. rewrite (dget_app_l _ D o k); [exact G|]. apply changed_at_get, NE.
Qed.

Definition unit_fin := block_mesh (fin_corner 0 0 1 1 1) 3.
Definition fin_shape (d l fh fl t : R) (p : pt) : pt := V3 (l + fl * vx p) (t * vy p) (d / 2 + fh * vz p).
Lemma fin_scales d l fh fl t i : fin_mesh d l fh fl t i = map_mesh (fun p => quarters i (fin_shape d l fh fl t p)) unit_fin.
Proof.
  unfold fin_mesh, unit_fin.
  rewrite <- (faces_affine (fun p => quarters i (fin_shape d l fh fl t p))), <- faces_affine.
  - f_equal. extensionality k. extensionality e. f_equal. unfold fin_shape, fin_corner. destruct k, e as [|[|[|e]]]; apply vec_ext; cbn; field.
  - apply quarters_affine.
  - intros p. destruct (quarters_form i) as (a & b & _ & H). unfold fin_shape, delta, diff, translate, scaled, ex, ey, ez, origin. rewrite !H.
    apply vec_ext; cbn; field.
Qed.
Lemma fin_drifts (d l fh fl t : R -> R) i : (forall p, affine1 (fun x => fin_shape (d x) (l x) (fh x) (fl x) (t x) p)) ->
  drifts (fun x => fin_mesh (d x) (l x) (fh x) (fl x) (t x) i).
Proof.
  intros H. apply (drifts_eq _ (fun x => map_mesh (fun p => quarters i (fin_shape (d x) (l x) (fh x) (fl x) (t x) p)) unit_fin)); [intros x; apply fin_scales|].
  apply (drifts_moved (fun x p => quarters i (fin_shape (d x) (l x) (fh x) (fl x) (t x) p))). intros p x. destruct (quarters_form i) as (a & b & _ & Q). rewrite !Q.
  rewrite (H p x). unfold plus_scaled, diff. apply vec_ext; cbn [vx vy vz]; ring.
Qed.
Lemma four_drifts m (g : R -> R -> pt) : (forall r, affine1 (fun x => g x r)) -> drifts (fun x => flat_map (patch_grid m) (four (g x))).
Proof.
  intros A.
  assert (P : forall i, drifts (fun x => patch_grid m (rev_val (g x) i))).
  { intros i. apply (drifts_patch m (fun x => rev_val (g x) i)). intros r s x. unfold rev_val. rewrite (A r x). unfold turn, plus_scaled, diff. apply vec_ext; cbn [vx vy vz]; ring. }
  apply (drifts_eq _ (fun x => flat_map (fun i => patch_grid m (rev_val (g x) i)) (seq 0 4))).
  - intros x. unfold four. rewrite flat_map_concat_map, map_map, <- flat_map_concat_map. reflexivity.
  - apply (drifts_flat (fun x i => patch_grid m (rev_val (g x) i))). exact P.
Qed.
Lemma lathe_drifts m (gs : list (R -> R -> pt)) : (forall g r, In g gs -> affine1 (fun x => g x r)) -> drifts (fun x => lathe_mesh m (map (fun g => g x) gs)).
Proof.
  unfold lathe_mesh. induction gs as [|g gs IH]; intros H; [apply drifts_nil|].
  apply (drifts_eq _ (fun x => flat_map (patch_grid m) (four (g x)) ++ flat_map (patch_grid m) (flat_map four (map (fun g => g x) gs)))).
  - intros x. cbn [map flat_map]. apply flat_map_app.
  - apply drifts_app; [apply four_drifts; intros r; apply H; left; reflexivity|apply IH; intros g' r Hg; apply H; right; exact Hg].
Qed.

(** C91: a study of any of its parameters, all of them numbers other than 0,
    succeeds with any perturbation and reports at every vertex of the body and
    of the fins the exact derivative of its position *)
Theorem C91_study call (h : heap R) s i (D o : dict (pval R)) pert d l n fh fl t : separate h ->
  nth_error (s_dicts s) i = Some D -> D <> [] -> pert <> 0 ->
  (forall p v, In (p, v) D -> In p finner_parameters /\ exists x, v = PNum x /\ x <> 0) ->
  finner_keywords (D ++ o)%list d l n fh fl t ->
  exists s' out fam, dvdp (fun kw hv => (hv, study_instance call ParametricFinner h kw)) i o pert s = (s', Ok out) /\
    (forall p y, In p (dkeys D) -> study_instance call ParametricFinner h (changed_at p (fun _ => PNum y) D ++ o)%list = Ok (mkInst (fam p y) None [] None)) /\
    dkeys (o_sens out) = dkeys D /\
    forall p ts x, In (p, ts) (o_sens out) -> In (p, PNum x) D -> dkeys ts = "fuselage"%string :: fin_names /\
      forall c rows, In (c, rows) ts -> let F y := mesh_named c (fam p y) in
        (forall r, In r rows -> (r_index r < 3 * length (F x))%nat /\ r_loc r = corner_of (F x) (r_index r) /\ velocity F (r_index r) x (r_sens r)) /\
        forall v, vertex_of (F x) v -> exists r, In r rows /\ r_loc r = v.
Proof.
  intros SP E NE Hp PD KW. pose proof KW as ((ND & S1 & S2) & G1 & G2 & G3 & G4 & G5 & G6).
  assert (Nd : NoDup (dkeys D)) by (rewrite dkeys_app in ND; apply (NoDup_front _ _ ND)).
  assert (Dj : disjoint_keys D o).
  { intros k H1 H2. rewrite dkeys_app in ND. clear -ND H1 H2. induction (dkeys D) as [|a l IH]; [destruct H2|].
    cbn in ND. inversion ND; subst. destruct H2 as [->|H2]; [apply H3, in_or_app; auto|auto]. }
  set (at_ (p : string) (y : R) (k : string) (w : R) := if String.eqb k p then y else w).
  set (fam p y := finner_meshes (at_ p y "diameter"%string d) (at_ p y "total_length"%string l) (at_ p y "nose_length"%string n)
                    (at_ p y "fin_height"%string fh) (at_ p y "fin_length"%string fl) (at_ p y "max_fin_thickness"%string t)).
  assert (IN : forall p y, In p (dkeys D) -> study_instance call ParametricFinner h (changed_at p (fun _ => PNum y) D ++ o)%list = Ok (mkInst (fam p y) None [] None)).
  { intros p y Hk. unfold dkeys in Hk. apply in_map_iff in Hk. destruct Hk as ([q v] & <- & Hv). destruct (PD q v Hv) as (_ & x & -> & _). cbn [fst].
    assert (X : finner_keywords (changed_at q (fun _ => PNum y) D ++ o)%list (at_ q y "diameter"%string d) (at_ q y "total_length"%string l) (at_ q y "nose_length"%string n)
                    (at_ q y "fin_height"%string fh) (at_ q y "fin_length"%string fl) (at_ q y "max_fin_thickness"%string t)).
    { split.
      - unfold plain_keywords. rewrite dkeys_app, changed_at_keys, <- dkeys_app. auto.
      - unfold at_. split; [exact (given_set D o q y x _ _ _ ND Hv G1)|]. split; [exact (given_set D o q y x _ _ _ ND Hv G2)|].
        split; [exact (given_set D o q y x _ _ _ ND Hv G3)|]. split; [exact (given_set D o q y x _ _ _ ND Hv G4)|].
        split; [exact (given_set D o q y x _ _ _ ND Hv G5)|exact (given_set D o q y x _ _ _ ND Hv G6)]. }
    unfold fam. exact (finner_instance call h _ _ _ _ _ _ _ SP X). }
  destruct (C61_exact (study_instance call ParametricFinner h) i D o pert s ("fuselage"%string :: fin_names) fam E NE Nd Dj Hp) as (s' & out & R0 & R1 & R2).
  - intros p v Hv. apply (PD p v Hv).
  - repeat constructor; cbn; intuition discriminate.
  - exact IN.
  - reflexivity.
  - intros p c Hk Hc. unfold dkeys in Hk. apply in_map_iff in Hk. destruct Hk as ([q v] & <- & Hv). destruct (PD q v Hv) as (Hq & _). cbn [fst].
    destruct Hc as [<-|Hc].
    + set (nose x := V3 (at_ q x "nose_length"%string n) (at_ q x "diameter"%string d / 2) 0).
      set (tail x := V3 (at_ q x "total_length"%string l) (at_ q x "diameter"%string d / 2) 0).
      set (base x := V3 (at_ q x "total_length"%string l) 0 0).
      apply (drifts_eq _ (fun x => lathe_mesh 7 (map (fun g => g x) [fun x => straight (V3 0 0 0) (nose x); fun x => straight (nose x) (tail x); fun x => straight (tail x) (base x)]))); [reflexivity|].
      apply lathe_drifts.
      assert (A1 : affine1 nose) by (intros x; unfold nose, at_, plus_scaled, diff; destruct (String.eqb "nose_length" q), (String.eqb "diameter" q); apply vec_ext; cbn [vx vy vz]; field).
      assert (A2 : affine1 tail) by (intros x; unfold tail, at_, plus_scaled, diff; destruct (String.eqb "total_length" q), (String.eqb "diameter" q); apply vec_ext; cbn [vx vy vz]; field).
      assert (A3 : affine1 base) by (intros x; unfold base, at_, plus_scaled, diff; destruct (String.eqb "total_length" q); apply vec_ext; cbn [vx vy vz]; ring).
      clearbody nose tail base.
      assert (ST : forall P Q r, affine1 P -> affine1 Q -> affine1 (fun x => straight (P x) (Q x) r)).
      { intros P Q r HP HQ x. rewrite (HP x), (HQ x). unfold straight, plus_scaled, diff. apply vec_ext; cbn [vx vy vz]; ring. }
      intros g r [<-|[<-|[<-|[]]]]; [apply (ST (fun _ => V3 0 0 0)); [apply affine1_const|exact A1]|apply ST; assumption|apply ST; assumption].
    + assert (FD : forall k, drifts (fun y => fin_mesh (at_ q y "diameter"%string d) (at_ q y "total_length"%string l) (at_ q y "fin_height"%string fh)
          (at_ q y "fin_length"%string fl) (at_ q y "max_fin_thickness"%string t) k)).
      { intros k. apply (fin_drifts (fun y => at_ q y "diameter"%string d) (fun y => at_ q y "total_length"%string l) (fun y => at_ q y "fin_height"%string fh)
          (fun y => at_ q y "fin_length"%string fl) (fun y => at_ q y "max_fin_thickness"%string t)).
        intros p x. unfold at_, fin_shape, plus_scaled, diff. clear -Hq.
        destruct Hq as [<-|[<-|[<-|[<-|[<-|[<-|[]]]]]]]; cbn [String.eqb Ascii.eqb Bool.eqb]; apply vec_ext; cbn [vx vy vz]; field. }
      unfold fam, mesh_named, finner_meshes. destruct Hc as [<-|[<-|[<-|[<-|[]]]]]; cbn [dget String.eqb Ascii.eqb Bool.eqb]; apply FD.
  - exists s', out, fam. auto.
Qed.
Example C91_study_meets : let D := [("diameter"%string, PNum 2); ("fin_height"%string, PNum 3)] in
  D <> [] /\ (forall p v, In (p, v) D -> In p finner_parameters /\ exists x, v = PNum x /\ x <> 0) /\
  finner_keywords (D ++ [("total_length"%string, PNum 20)])%list 2 20 (284 / 100) 3 1 (8 / 100).
Proof.
  cbv zeta. split; [discriminate|]. split.
  - intros p v [H|[H|[]]]; injection H as <- <-; (split; [cbn; tauto|]); eexists; (split; [reflexivity|lra]).
  - split; [split; [repeat constructor; cbn; intuition discriminate|split; cbn; intuition discriminate]|]. repeat split.
Qed.

Print Assumptions C61_exact.
Print Assumptions C91_finner.
Print Assumptions C91_study.
