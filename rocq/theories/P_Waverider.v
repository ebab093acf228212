(** C110: the parametric waverider end to end (hangar/waverider.py). *)
From Coq Require Import String Reals Lra ZArith List Permutation Lia Bool.
From Verif Require Import Num NumR Py M_Vector SpecR3 M_Path M_Surface M_Geometry M_Mesh M_Component M_Stl M_Common M_Wing M_Fin M_Vehicle M_VecHeap M_Sens M_Gen M_Inertia M_Hangar M_Htv M_X43 M_D21 M_Hifire4 M_Transform M_Waverider
  SpecPath SpecPoly SpecSurf SpecMesh SpecComp SpecVehicle SpecAdd SpecFiles SpecInertia SpecPrism SpecHangar SpecWing SpecFin SpecPair SpecHalf SpecHtv SpecX43 SpecD21 SpecHifire4 SpecCluster SpecWaverider
  L_Vector L_Edges L_Component L_Heap L_Pipeline L_Generate L_Files L_Prism L_Reflect L_Volume L_Hangar L_Finner L_Study L_Block L_Wing L_Fin L_FinTotal L_Pair L_Half L_Htv L_Parts L_Falcon L_Closed L_Parts2 L_Parts3 L_D21 L_Hifire4 L_Parts4 L_Waverider
  P_Component P_Vehicle P_Gen P_Inertia P_Hangar P_Falcon P_Half P_Planform P_Htv P_Ledger P_X43 P_Cylinder P_D21 P_Hifire4.
Import ListNotations.
Local Open Scope R_scope.

(** the attributes, with the defaults of the class and of __init__: those of f1x,
    p2x, p2y, p3x, p3y, u2x, u3x and u3y come from the default length, width and
    u1y, not from the ones given *)
Definition wr_attributes (P : wr_params R) : list (string * R * R) :=
  [("length", 1, wr_length P); ("width", 35 / 100, wr_width P); ("le_width", 3 / 1000, wr_le_width P); ("LE_thickness", 3 / 1000, wr_LE_thickness P);
   ("aoa", 3, wr_aoa P); ("f1x", 1 / 4, wr_f1x P); ("f1y", 75 / 1000, wr_f1y P); ("f2y", 75 / 1000, wr_f2y P);
   ("p2x", 1 / 3, wr_p2x P); ("p2y", 35 / 300, wr_p2y P); ("p3x", 11 / 12, wr_p3x P); ("p3y", 35 / 400, wr_p3y P);
   ("u1y", 1 / 10, wr_u1y P); ("u2x", 35 / 600, wr_u2x P); ("u3x", 35 / 300, wr_u3x P); ("u3y", 1 / 100, wr_u3y P);
   ("flap_angle", 0, wr_flap_angle P); ("flap_height", 1 / 10, wr_flap_height P); ("a0_t", 65 / 1000, wr_a0_t P); ("tt_t", 35 / 100, wr_tt_t P);
   ("w1x", 1 / 10, wr_w1x P); ("w1y", 1, wr_w1y P); ("w2x", 1 / 10, wr_w2x P); ("w2y", 1, wr_w2y P);
   ("x_curve_mult", 5001 / 1000, wr_x_mult P); ("y_curve_mult", 5001 / 1000, wr_y_mult P); ("zero_offset", 1, wr_zero_offset P); ("curve_zero", 5, wr_curve_zero P)]%string.
Definition wr_keywords (kw : dict (pval R)) (P : wr_params R) : Prop := plain_keywords kw /\
  forall k default x, In (k, default, x) (wr_attributes P) -> SpecHangar.given kw k default = PNum x.
Lemma read_attr (kw : dict (pval R)) c d k x v dv : NoDup (dkeys kw) ->
  match dget d k with Some a => Ok a | None => class_attr [c] k end = Ok (PNum v) -> SpecHangar.given kw k dv = PNum x -> v = dv -> number (getattr [c] (generator_init kw d)) k = Ok x.
Proof.
  intros Nd D H ->. unfold number, getattr. rewrite generator_init_get by exact Nd. unfold SpecHangar.given in H.
  destruct (dget kw k); cbn [bind] in H |- *; [subst; reflexivity|]. rewrite D. injection H as <-. reflexivity.
Qed.
(** what __init__ has stored when it calls the base class *)
Definition wr_defaults : dict (pval R) :=
  [("length", PNum (1)); ("width", PNum (35 / 100)); ("le_width", PNum (3 / 1000)); ("LE_thickness", PNum (3 / 1000)); ("aoa", PNum (3));
   ("f1x", PNum (25 / 100 * 1)); ("f1y", PNum (75 / 1000)); ("f2y", PNum (75 / 1000)); ("p2x", PNum (1 * 1 / 3)); ("p2y", PNum (2 * (35 / 100) / 2 / 3));
   ("p3x", PNum (275 / 100 * 1 / 3)); ("p3y", PNum (15 / 10 * (35 / 100) / 2 / 3)); ("u1y", PNum (1 / 10)); ("u2x", PNum (35 / 100 / 2 / 3)); ("u3x", PNum (2 * (35 / 100) / 2 / 3));
   ("u3y", PNum (1 / 10 / 10)); ("flap_angle", PNum (0)); ("flap_height", PNum (1 / 10)); ("a0_t", PNum (65 / 1000)); ("tt_t", PNum (35 / 100));
   ("w1x", PNum (1 / 10)); ("w1y", PNum (0 + 1)); ("w2x", PNum (1 / 10)); ("w2y", PNum (0 + 1)); ("x_curve_mult", PNum (1 / 1000 + 5));
   ("y_curve_mult", PNum (1 / 1000 + 5))]%string.
Lemma wr_init bisect nf nw nt kw : run_init (g_classes (ParametricWaverider (T := R) bisect nf nw nt)) kw (g_init (ParametricWaverider bisect nf nw nt)) [] = Ok (generator_init kw wr_defaults).
Proof. reflexivity. Qed.
Lemma bind_eq {A B} {e : res A} {x} : e = Ok x -> forall f : A -> res B, bind e f = f x.
Proof. intros ->. reflexivity. Qed.
Lemma wr_program bisect nf nw nt call kw P : wr_keywords kw P ->
  make_vehicle call (ParametricWaverider bisect nf nw nt) kw = Ok (wr_vehicle bisect nf nw nt P).
Proof.
  intros ((Nd & S1 & S2) & HK). unfold make_vehicle, instantiate. rewrite no_key by exact S1.
  rewrite wr_init. unfold bind at 1. unfold create_instance. rewrite generator_init_get by exact Nd.
  destruct (dget kw "create_instance") as [v|] eqn:E.
  { exfalso. apply S2. apply dget_in in E. apply (in_map fst) in E. exact E. }
  change (dget wr_defaults "create_instance") with (@None (pval R)). cbv iota beta.
  set (d := wr_defaults). change (g_classes (ParametricWaverider (T := R) bisect nf nw nt)) with [[("zero_offset"%string, PNum 1); ("curve_zero"%string, PNum 5)]].
  unfold g_create, ParametricWaverider. cbv beta iota.
  match goal with |- context [getattr ?e (generator_init kw d)] => change e with [[("zero_offset"%string, PNum 1); ("curve_zero"%string, PNum 5)]] end.
  refine (eq_trans (bind_eq (read_attr kw [("zero_offset"%string, PNum 1); ("curve_zero"%string, PNum 5)] d "length" _ _ (1) Nd eq_refl (HK "length"%string _ _ ltac:(cbn; tauto)) ltac:(lra)) _) _). cbv beta.
  refine (eq_trans (bind_eq (read_attr kw [("zero_offset"%string, PNum 1); ("curve_zero"%string, PNum 5)] d "width" _ _ (35 / 100) Nd eq_refl (HK "width"%string _ _ ltac:(cbn; tauto)) ltac:(lra)) _) _). cbv beta.
  refine (eq_trans (bind_eq (read_attr kw [("zero_offset"%string, PNum 1); ("curve_zero"%string, PNum 5)] d "le_width" _ _ (3 / 1000) Nd eq_refl (HK "le_width"%string _ _ ltac:(cbn; tauto)) ltac:(lra)) _) _). cbv beta.
  refine (eq_trans (bind_eq (read_attr kw [("zero_offset"%string, PNum 1); ("curve_zero"%string, PNum 5)] d "LE_thickness" _ _ (3 / 1000) Nd eq_refl (HK "LE_thickness"%string _ _ ltac:(cbn; tauto)) ltac:(lra)) _) _). cbv beta.
  refine (eq_trans (bind_eq (read_attr kw [("zero_offset"%string, PNum 1); ("curve_zero"%string, PNum 5)] d "aoa" _ _ (3) Nd eq_refl (HK "aoa"%string _ _ ltac:(cbn; tauto)) ltac:(lra)) _) _). cbv beta.
  refine (eq_trans (bind_eq (read_attr kw [("zero_offset"%string, PNum 1); ("curve_zero"%string, PNum 5)] d "f1x" _ _ (1 / 4) Nd eq_refl (HK "f1x"%string _ _ ltac:(cbn; tauto)) ltac:(lra)) _) _). cbv beta.
  refine (eq_trans (bind_eq (read_attr kw [("zero_offset"%string, PNum 1); ("curve_zero"%string, PNum 5)] d "f1y" _ _ (75 / 1000) Nd eq_refl (HK "f1y"%string _ _ ltac:(cbn; tauto)) ltac:(lra)) _) _). cbv beta.
  refine (eq_trans (bind_eq (read_attr kw [("zero_offset"%string, PNum 1); ("curve_zero"%string, PNum 5)] d "f2y" _ _ (75 / 1000) Nd eq_refl (HK "f2y"%string _ _ ltac:(cbn; tauto)) ltac:(lra)) _) _). cbv beta.
  refine (eq_trans (bind_eq (read_attr kw [("zero_offset"%string, PNum 1); ("curve_zero"%string, PNum 5)] d "p2x" _ _ (1 / 3) Nd eq_refl (HK "p2x"%string _ _ ltac:(cbn; tauto)) ltac:(lra)) _) _). cbv beta.
  refine (eq_trans (bind_eq (read_attr kw [("zero_offset"%string, PNum 1); ("curve_zero"%string, PNum 5)] d "p2y" _ _ (35 / 300) Nd eq_refl (HK "p2y"%string _ _ ltac:(cbn; tauto)) ltac:(lra)) _) _). cbv beta.
  refine (eq_trans (bind_eq (read_attr kw [("zero_offset"%string, PNum 1); ("curve_zero"%string, PNum 5)] d "p3x" _ _ (11 / 12) Nd eq_refl (HK "p3x"%string _ _ ltac:(cbn; tauto)) ltac:(lra)) _) _). cbv beta.
  refine (eq_trans (bind_eq (read_attr kw [("zero_offset"%string, PNum 1); ("curve_zero"%string, PNum 5)] d "p3y" _ _ (35 / 400) Nd eq_refl (HK "p3y"%string _ _ ltac:(cbn; tauto)) ltac:(lra)) _) _). cbv beta.
  refine (eq_trans (bind_eq (read_attr kw [("zero_offset"%string, PNum 1); ("curve_zero"%string, PNum 5)] d "u1y" _ _ (1 / 10) Nd eq_refl (HK "u1y"%string _ _ ltac:(cbn; tauto)) ltac:(lra)) _) _). cbv beta.
  refine (eq_trans (bind_eq (read_attr kw [("zero_offset"%string, PNum 1); ("curve_zero"%string, PNum 5)] d "u2x" _ _ (35 / 600) Nd eq_refl (HK "u2x"%string _ _ ltac:(cbn; tauto)) ltac:(lra)) _) _). cbv beta.
  refine (eq_trans (bind_eq (read_attr kw [("zero_offset"%string, PNum 1); ("curve_zero"%string, PNum 5)] d "u3x" _ _ (35 / 300) Nd eq_refl (HK "u3x"%string _ _ ltac:(cbn; tauto)) ltac:(lra)) _) _). cbv beta.
  refine (eq_trans (bind_eq (read_attr kw [("zero_offset"%string, PNum 1); ("curve_zero"%string, PNum 5)] d "u3y" _ _ (1 / 100) Nd eq_refl (HK "u3y"%string _ _ ltac:(cbn; tauto)) ltac:(lra)) _) _). cbv beta.
  refine (eq_trans (bind_eq (read_attr kw [("zero_offset"%string, PNum 1); ("curve_zero"%string, PNum 5)] d "flap_angle" _ _ (0) Nd eq_refl (HK "flap_angle"%string _ _ ltac:(cbn; tauto)) ltac:(lra)) _) _). cbv beta.
  refine (eq_trans (bind_eq (read_attr kw [("zero_offset"%string, PNum 1); ("curve_zero"%string, PNum 5)] d "flap_height" _ _ (1 / 10) Nd eq_refl (HK "flap_height"%string _ _ ltac:(cbn; tauto)) ltac:(lra)) _) _). cbv beta.
  refine (eq_trans (bind_eq (read_attr kw [("zero_offset"%string, PNum 1); ("curve_zero"%string, PNum 5)] d "a0_t" _ _ (65 / 1000) Nd eq_refl (HK "a0_t"%string _ _ ltac:(cbn; tauto)) ltac:(lra)) _) _). cbv beta.
  refine (eq_trans (bind_eq (read_attr kw [("zero_offset"%string, PNum 1); ("curve_zero"%string, PNum 5)] d "tt_t" _ _ (35 / 100) Nd eq_refl (HK "tt_t"%string _ _ ltac:(cbn; tauto)) ltac:(lra)) _) _). cbv beta.
  refine (eq_trans (bind_eq (read_attr kw [("zero_offset"%string, PNum 1); ("curve_zero"%string, PNum 5)] d "w1x" _ _ (1 / 10) Nd eq_refl (HK "w1x"%string _ _ ltac:(cbn; tauto)) ltac:(lra)) _) _). cbv beta.
  refine (eq_trans (bind_eq (read_attr kw [("zero_offset"%string, PNum 1); ("curve_zero"%string, PNum 5)] d "w1y" _ _ (1) Nd eq_refl (HK "w1y"%string _ _ ltac:(cbn; tauto)) ltac:(lra)) _) _). cbv beta.
  refine (eq_trans (bind_eq (read_attr kw [("zero_offset"%string, PNum 1); ("curve_zero"%string, PNum 5)] d "w2x" _ _ (1 / 10) Nd eq_refl (HK "w2x"%string _ _ ltac:(cbn; tauto)) ltac:(lra)) _) _). cbv beta.
  refine (eq_trans (bind_eq (read_attr kw [("zero_offset"%string, PNum 1); ("curve_zero"%string, PNum 5)] d "w2y" _ _ (1) Nd eq_refl (HK "w2y"%string _ _ ltac:(cbn; tauto)) ltac:(lra)) _) _). cbv beta.
  refine (eq_trans (bind_eq (read_attr kw [("zero_offset"%string, PNum 1); ("curve_zero"%string, PNum 5)] d "x_curve_mult" _ _ (5001 / 1000) Nd eq_refl (HK "x_curve_mult"%string _ _ ltac:(cbn; tauto)) ltac:(lra)) _) _). cbv beta.
  refine (eq_trans (bind_eq (read_attr kw [("zero_offset"%string, PNum 1); ("curve_zero"%string, PNum 5)] d "y_curve_mult" _ _ (5001 / 1000) Nd eq_refl (HK "y_curve_mult"%string _ _ ltac:(cbn; tauto)) ltac:(lra)) _) _). cbv beta.
  refine (eq_trans (bind_eq (read_attr kw [("zero_offset"%string, PNum 1); ("curve_zero"%string, PNum 5)] d "zero_offset" _ _ (1) Nd eq_refl (HK "zero_offset"%string _ _ ltac:(cbn; tauto)) ltac:(lra)) _) _). cbv beta.
  refine (eq_trans (bind_eq (read_attr kw [("zero_offset"%string, PNum 1); ("curve_zero"%string, PNum 5)] d "curve_zero" _ _ (5) Nd eq_refl (HK "curve_zero"%string _ _ ltac:(cbn; tauto)) ltac:(lra)) _) _). cbv beta.
  destruct P. reflexivity.
Qed.

(** what the theorems ask of the attributes *)
Definition wr_fair (P : wr_params R) : Prop :=
  0 < wr_length P /\ 0 <= wr_p2x P /\ wr_p2x P <= wr_p3x P /\ wr_p3x P <= wr_length P /\ wr_u1y P <> 0 /\
  0 < wr_LE_thickness P <= 1000 /\ 1 / 1000 <= wr_le_width P /\ 0 <= wr_a0_t P /\ wr_a0_t P <= wr_tt_t P /\ wr_tt_t P <= 1.

(** the bend of the whole vehicle *)
Definition bend (P : wr_params R) : pt -> pt :=
  hifire4_curved (5 * (wr_x_mult P - wr_curve_zero P)) (5 * (wr_y_mult P - wr_curve_zero P)).
(** the angle by which the nose is raised *)
Definition incidence (P : wr_params R) : R := degrees (wr_aoa P) + (wr_x_mult P - wr_curve_zero P) * wr_length P / 2.
(** the trailing edge of the right flap before the vehicle is bent, at a height y
    above its hinge line, h being the height of the fuselage at p2x: the flap
    turns about its hinge at x = l with l as its chord *)
Definition flap_edge (P : wr_params R) (h y : R) : pt :=
  let l := cubic 0 (wr_p2x P) (wr_p3x P) (wr_length P) (wr_a0_t P) in
  V3 (l - l * cos (wr_flap_angle P))
     (cubic (wr_width P / 2) (Rmax (wr_p2y P) h) (Rmax (wr_p3y P) h) 0 (wr_a0_t P) + y) (l * sin (wr_flap_angle P)).

Definition wr_shapes (tol : R) (P : wr_params R) (nf nw nt : nat) (fuse wing flap fin : list (tri R)) : Prop :=
  let L := wr_length P in let k := wr_x_mult P - wr_curve_zero P in
  watertight fuse /\ length fuse = (4 * (4 * (nf * nf)))%nat /\
  vertex_of fuse (V3 0 0 0) /\ vertex_of fuse (V3 L 0 (k / 4 * (L * L))) /\
  (k = 0 -> wr_y_mult P = wr_curve_zero P -> forall p, vertex_of fuse p -> vz p <= 0) /\
  length wing = (13 * (4 * (nw * nw)))%nat /\ vertex_of wing (V3 0 0 0) /\ vertex_of wing (bend P (V3 0 (wr_width P / 2) 0)) /\
  (let whole := map_mesh (wind (incidence P)) (wing ++ map_mesh (reflect (axis_vec "y")) wing) in
   stl_check whole (mesh_normals whole) false true = Ok false) /\
  (forall i, (i <= nw)%nat -> let x := INR i / INR nw * (L / 2) in
   exists h, ordinate_near (quartic 0 (wr_f1x P) (L / 2) (L - wr_f1x P) L) (quartic 0 (wr_f1y P) (wr_f2y P) (wr_f1y P) 0) x tol h /\
     vertex_of wing (bend P (V3 x 0 (- (Rabs h + wr_LE_thickness P / 2))))) /\
  length flap = (19 * (4 * (nw * nw)))%nat /\
  (exists h, ordinate_near (quartic 0 (wr_f1x P) (L / 2) (L - wr_f1x P) L) (quartic 0 (wr_f1y P) (wr_f2y P) (wr_f1y P) 0) (wr_p2x P) tol h /\
     vertex_of flap (bend P (flap_edge P h 0)) /\ vertex_of flap (bend P (flap_edge P h (wr_flap_height P)))) /\
  length fin = (12 * (4 * (nt * nt)))%nat /\
  forall s, (s = 25 / 10000 \/ s = - (25 / 10000)) ->
    vertex_of fin (bend P (V3 0 s 0)) /\ vertex_of fin (bend P (V3 (3 / 100) s (- (7 / 100)))) /\ vertex_of fin (bend P (V3 (3 / 10) s 0)).

(** the five components in the wind frame; the left flap is the mirror image of
    the right one *)
Definition wr_components (P : wr_params R) (fuse wing flap fin : list (tri R)) : list (string * list (tri R)) :=
  let final := map_mesh (wind (incidence P)) in
  [("fuselage", final fuse); ("wings", final (wing ++ map_mesh (reflect (axis_vec "y")) wing)%list); ("right_flap", final flap);
   ("left_flap", map_mesh (reflect (axis_vec "z")) (final flap)); ("fin", final fin)]%string.
Definition wr_parts (v : vehicle R) (h2 : heap R) (ms : list (string * list (tri R))) : Prop :=
  v_name v = "waverider"%string /\ v_components v = map snd (v_named v) /\
  map (fun ki => (fst ki, mesh_of h2 (snd ki))) (v_named v) = map (fun km => (fst km, Ok (snd km))) ms /\
  forall prefix fs0, exists h3 fs, to_stl (mark_generated v) prefix h2 fs0 = (h3, fs, Ok tt) /\
    (forall k m, In (k, m) ms -> dget fs (x43_file prefix k) = Some m) /\
    forall s, (forall k m, In (k, m) ms -> s <> x43_file prefix k) -> dget fs s = dget fs0 s.

Section Waverider.
  Variable bisect : (R -> res R) -> R -> R -> res R.

  (** C110: ParametricWaverider on any heap: a closed fuselage with (unless bent) a
      flat underside, wings the checker never accepts, two flaps that are mirror
      images, and a fin; every component, the fuselage included, goes to its own
      file *)
  Theorem C110_waverider tol P mf mw mt : bisects tol bisect -> wr_fair P -> let nf := S mf in let nw := S mw in let nt := S mt in
    exists fuse wing flap fin, wr_shapes tol P nf nw nt fuse wing flap fin /\
      forall call kw h, separate h -> wr_keywords kw P ->
      exists v h2, flies call (ParametricWaverider bisect nf nw nt) kw h v h2 /\ wr_parts v h2 (wr_components P fuse wing flap fin).
  Proof using.
    intros HB (HL & H2 & H23 & H3 & HU & HT & HK & HA & HAT & HTT) nf nw nt. pose proof HB as (Hi & Br & _). pose proof (brackets_answers _ _ Br) as Han.
    destruct (wr_height_ok bisect tol P HB HL (wr_p2x P)) as (hh & Eh & Near); [lra|].
    pose proof (wr_line_is bisect P hh Eh) as El. pose proof (wr_flap_is P hh) as Ef.
    destruct (wr_wings_ok bisect tol P HB HL H2 H23 H3 HT HK hh) as (gw & ta & Ew & T1 & Kw & Sw & Ow & Vw & Rw).
    destruct (wr_flap_ok bisect tol P HB H2 H23 H3 HT HK HA HAT HTT hh) as (gl & tb & Efl & T2 & Kl & Sl & Vl).
    destruct (wr_fin_ok bisect Hi Han) as (gt & Dt & Vt). destruct wr_spacing as (gi & Pg & Kg).
    set (F := wr_F P).
    assert (LN : forall G n (g : dict (surf R)) ks, dkeys g = ks -> length (moved_grid G n g) = (length ks * (4 * (S n * S n)))%nat).
    { intros G n g ks K. rewrite moved_length, <- (map_length fst). change (map fst g) with (dkeys g). rewrite K. reflexivity. }
    exists (moved_grid (fun p => F (lidded p)) mf (spaced gi (fun t => t) (revolved_patches (wr_fuseline P)))), (moved_grid F mw gw), (moved_grid F mw gl), (moved_grid F mt gt).
    split.
    { destruct (wr_fuse_ok P (fun p => F (lidded p)) mf gi Kg) as (W & V0 & V1). unfold F in V0 at 2. unfold F in V1 at 2. rewrite wr_F_lid in V0, V1.
      unfold wr_shapes. cbv zeta. split; [exact W|]. split; [rewrite spaced_length; reflexivity|].
      split; [match type of V0 with vertex_of _ ?q => replace (V3 0 0 0) with q; [exact V0|] end; apply vec_ext; cbn [vx vy vz]; ring|]. split; [exact V1|].
      split; [intros X Y; apply wr_lid; unfold wr_mx, wr_my; lra|].
      split; [apply (LN _ _ _ _ Kw)|]. destruct (Vw F mw) as [VA VB].
      split; [unfold F in VA at 2; rewrite wr_F_line in VA; match type of VA with vertex_of _ ?q => replace (V3 0 0 0) with q; [exact VA|] end; apply vec_ext; cbn [vx vy vz]; ring|].
      split; [exact VB|]. split.
      { destruct (Ow F mw) as (e & I & PL); [intros q; apply curved_middle|]. exact (reflected_open_moved (wind (incidence P)) "y" _ e (or_intror (or_introl eq_refl)) I PL). }
      split.
      { intros i Hn. set (x := INR i / INR nw * (wr_length P / 2)). assert (Hr : 0 <= INR i / INR nw <= 1) by (apply ratio01; exact Hn).
        destruct (wr_up_root bisect tol P HB HL hh x) as (k & Nk & Uk); [unfold x; nra|exact HU|]. exists k. split; [exact Nk|].
        rewrite <- Uk. exact (Rw F mw i Hn). }
      split; [apply (LN _ _ _ _ Kl)|]. split; [exists hh; split; [exact Near|apply (Vl F mw)]|].
      split; [apply (LN _ _ _ _ (proj1 (proj2 Dt)))|].
      intros s Hs. split; [|split]; apply (Vt F mt s _ Hs); tauto. }
    intros call kw h SP K.
    pose proof (wr_run bisect P nf nw nt h (wr_edge P hh) (wr_flap_at P hh) ta tb El Ef T1 T2) as RUN.
    destruct (wr_generates bisect P nf nw nt mf mw mt (wr_wing bisect P (wr_edge P hh)) (wr_flap_at P hh) gw gl gt h gi eq_refl eq_refl eq_refl SP Pg Kg Ew Kw Sw Efl Kl Sl Dt) as (h2 & A & LC & OP & Q).
    fold F in Q. set (c0 := length (comps h)) in *. exists (wr_made P c0), h2.
    split; [eexists _, _; split; [apply wr_program, K|]; split; [exact RUN|exact A]|].
    set (fuse := moved_grid (fun p => F (lidded p)) mf _) in *. set (wing := moved_grid F mw gw) in *. set (flap := moved_grid F mw gl) in *. set (fin := moved_grid F mt gt) in *.
    pose proof (Q 0%nat ltac:(lia)) as M0. pose proof (Q 1%nat ltac:(lia)) as M1. pose proof (Q 2%nat ltac:(lia)) as M2.
    pose proof (Q 3%nat ltac:(lia)) as M3. pose proof (Q 4%nat ltac:(lia)) as M4. clear Q.
    unfold wr_meshes in M0, M1, M2, M3, M4. cbn [hf4_piece] in M0, M1, M2, M3, M4.
    change (wr_alpha P) with (incidence P) in M0, M1, M2, M3, M4.
    assert (MI : map_mesh (wind (incidence P)) (map_mesh (reflect (axis_vec "y")) flap) = map_mesh (reflect (axis_vec "z")) (map_mesh (wind (incidence P)) flap)).
    { unfold map_mesh. rewrite !map_map. apply map_ext. intros t. unfold map_tri. cbn [t0 t1 t2]. rewrite !wind_mirror. reflexivity. }
    rewrite MI in M3.
    split; [reflexivity|]. split; [reflexivity|].
    split; [cbn [wr_made v_named map fst snd]; rewrite M0, M1, M2, M3, M4; reflexivity|].
    intros prefix fs0. set (v := mark_generated _).
    set (m := fun i => match mesh_of h2 i with Ok t => t | Raise _ => [] end).
    destruct (filed v prefix h2 fs0 [(x43_file prefix "fuselage", c0 + 0); (x43_file prefix "wings", c0 + 1);
      (x43_file prefix "right_flap", c0 + 2); (x43_file prefix "left_flap", c0 + 3); (x43_file prefix "fin", c0 + 4)]%nat%string m) as (h3 & fs & WR & F1 & F2).
    { intros i Hc. unfold m. cbn [v mark_generated wr_made v_components In] in Hc.
      destruct Hc as [<-|[<-|[<-|[<-|[<-|[]]]]]]; (split; [rewrite LC; lia|]); [rewrite M0|rewrite M1|rewrite M2|rewrite M3|rewrite M4]; reflexivity. }
    { destruct (OP 0%nat _ eq_refl) as (X0 & _ & N0). destruct (OP 1%nat _ eq_refl) as (X1 & _ & N1). destruct (OP 2%nat _ eq_refl) as (X2 & _ & N2).
      destruct (OP 3%nat _ eq_refl) as (X3 & _ & N3). destruct (OP 4%nat _ eq_refl) as (X4 & _ & N4).
      cbn [v mark_generated wr_made v_components files]. rewrite X0, X1, X2, X3, X4. cbn [with_options set_patches wing_comp L_Parts.fin_comp rev_comp wr_add_fuselage wr_add_wings wr_add_right wr_add_left wr_add_fin c_ghost a_ghost app].
      unfold file_name. rewrite N0, N1, N2, N3, N4. unfold x43_file.
      cbn [with_options set_patches wr_add_fuselage wr_add_wings wr_add_right wr_add_left wr_add_fin a_name over c_name text truthy String.eqb Ascii.eqb Bool.eqb negb].
      destruct (text prefix); reflexivity. }
    { cbn [map fst]. repeat constructor; cbn [In]; intros H; repeat (destruct H as [H|H]; [revert H; apply file_apart; discriminate|]); exact H. }
    { intros s i Hc. cbn [v mark_generated wr_made v_components In] in *.
      repeat (destruct Hc as [Hc|Hc]; [injection Hc as _ <-; tauto|]). destruct Hc. }
    exists h3, fs. split; [exact WR|]. split.
    - intros k t I. unfold wr_components in I. cbn [In] in I.
      destruct I as [I|[I|[I|[I|[I|[]]]]]]; injection I as <- <-.
      + rewrite (F1 _ (c0 + 0)%nat) by (left; reflexivity). unfold m. rewrite M0. reflexivity.
      + rewrite (F1 _ (c0 + 1)%nat) by (do 1 right; left; reflexivity). unfold m. rewrite M1. reflexivity.
      + rewrite (F1 _ (c0 + 2)%nat) by (do 2 right; left; reflexivity). unfold m. rewrite M2. reflexivity.
      + rewrite (F1 _ (c0 + 3)%nat) by (do 3 right; left; reflexivity). unfold m. rewrite M3. reflexivity.
      + rewrite (F1 _ (c0 + 4)%nat) by (do 4 right; left; reflexivity). unfold m. rewrite M4. reflexivity.
    - intros s H. apply F2. cbn [map fst In]. intros I. unfold wr_components in H. cbn [In] in H.
      destruct I as [I|[I|[I|[I|[I|[]]]]]]; symmetry in I; revert I; eapply H.
      + left; reflexivity.
      + right; left; reflexivity.
      + do 2 right; left; reflexivity.
      + do 3 right; left; reflexivity.
      + do 4 right; left; reflexivity.
  Qed.

  (** C110: the planform point p2x must be on the fuselage.  Its default is a third
      of the default length, so a length below 1/3 needs a p2x as well *)
  Theorem C110_short P nf nw nt call kw (h : heap R) : refuses bisect -> 0 < wr_length P -> wr_keywords kw P ->
    (wr_p2x P < 0 \/ wr_length P < wr_p2x P) ->
    exists program, make_vehicle call (ParametricWaverider bisect nf nw nt) kw = Ok program /\ snd (program h) = Raise ValueError.
  Proof using.
    intros Rf HL K Off. eexists. split; [apply wr_program, K|]. apply wr_run_off. unfold wr_line.
    rewrite (wr_height_off bisect P HL (wr_p2x P) Rf Off). reflexivity.
  Qed.
  Theorem C110_length_only kw P : wr_keywords kw P -> ~ In "p2x"%string (dkeys kw) -> wr_length P < 1 / 3 -> wr_length P < wr_p2x P.
  Proof using.
    intros [_ H] N L. assert (E : wr_p2x P = 1 / 3); [|lra].
    specialize (H "p2x"%string (1 / 3) (wr_p2x P) ltac:(cbn; tauto)). unfold SpecHangar.given in H. destruct (dget kw "p2x") as [v|] eqn:D.
    - exfalso. apply N. apply dget_in in D. apply (in_map fst) in D. exact D.
    - injection H as H. lra.
  Qed.

  (** C110: the volume is that of the fuselage and the fin; the mass has a share
      of the flaps exactly when their densities differ *)
  Theorem C110_mass mp areas tol P mf mw mt : bisects tol bisect -> weighs mp -> wr_fair P -> let nf := S mf in let nw := S mw in let nt := S mt in
    exists fuse wing flap fin, wr_shapes tol P nf nw nt fuse wing flap fin /\
      forall call kw h densities, separate h -> wr_keywords kw P ->
      (forall k, In k ["fuselage"; "wings"; "right_flap"; "left_flap"; "fin"]%string -> exists r, dget densities k = Some r) ->
      let rho k := match dget densities k with Some r => r | None => 0 end in
      exists v h2 h3 cog moi, flies call (ParametricWaverider bisect nf nw nt) kw h v h2 /\
        analyse mp areas (mark_generated v) densities h2 = (h3, mark_generated v,
          Ok (signed_volume fuse + signed_volume fin,
              rho "fuselage"%string * signed_volume fuse + rho "fin"%string * signed_volume fin + (rho "right_flap"%string - rho "left_flap"%string) * signed_volume flap, cog, moi)).
  Proof using.
    intros HB MP HP nf nw nt. destruct (C110_waverider tol P mf mw mt HB HP) as (fuse & wing & flap & fin & SH & H).
    exists fuse, wing, flap, fin. split; [exact SH|]. intros call kw h densities SP K Den rho. destruct (H call kw h SP K) as (v & h2 & FL & _ & _ & MM & _). clear H.
    unfold wr_components in MM. cbv zeta in MM.
    destruct (v_named v) as [|[k1 i1] [|[k2 i2] [|[k3 i3] [|[k4 i4] [|[k5 i5] [|]]]]]] eqn:Evn; try discriminate MM.
    cbn [map fst snd] in MM. injection MM as -> A1 -> A2 -> A3 -> A4 -> A5.
    assert (Z : forall m, signed_volume (m ++ map_mesh (reflect (axis_vec "y")) m) = 0).
    { intros m. rewrite signed_volume_app, reflect_volume by (apply axis_cases; right; left; reflexivity). ring. }
    assert (W : forall a m, signed_volume (map_mesh (wind a) m) = signed_volume m).
    { intros a m. rewrite volume_fix0 by (apply wind_affine || apply wind_origin). rewrite wind_det. ring. }
    set (m := fun i => match mesh_of h2 i with Ok t => t | Raise _ => [] end).
    destruct (weighed mp areas (mark_generated v) h2 densities m MP eq_refl) as (h3 & cog & moi & AN).
    - cbn [mark_generated v_named]. rewrite Evn. discriminate.
    - cbn [mark_generated v_named]. rewrite Evn. intros k i I. cbn [In] in I. unfold m.
      destruct I as [I|[I|[I|[I|[I|[]]]]]]; injection I as <- <-;
        (split; [first [rewrite A1|rewrite A2|rewrite A3|rewrite A4|rewrite A5]; reflexivity|apply Den; cbn; tauto]).
    - exists v, h2, h3, cog, moi. split; [exact FL|].
      rewrite AN. cbn [mark_generated v_named]. rewrite Evn. cbn [rsum fst snd]. unfold m. rewrite A1, A2, A3, A4, A5.
      rewrite (reflect_volume (axis_vec "z")) by (apply axis_cases; right; right; reflexivity). rewrite !W, Z.
      change (match dget densities "fuselage" with Some r => r | None => 0 end) with (rho "fuselage"%string).
      change (match dget densities "fin" with Some r => r | None => 0 end) with (rho "fin"%string).
      change (match dget densities "right_flap" with Some r => r | None => 0 end) with (rho "right_flap"%string).
      change (match dget densities "left_flap" with Some r => r | None => 0 end) with (rho "left_flap"%string).
      match goal with |- (_, _, Ok (?a, ?b, _, _)) = (_, _, Ok (?c, ?d, _, _)) => replace a with c by ring; replace b with d by ring end. reflexivity.
  Qed.
End Waverider.

(** C110: the correction for the bend uses its slope as if it were an angle.  At
    the rear end (x = length) the centre line makes the angle t with the wind,
    which is aoa exactly when the vehicle is not bent lengthwise *)
Theorem C110_incidence P : wr_length P <> 0 ->
  let s := (wr_x_mult P - wr_curve_zero P) * wr_length P / 2 in let t := degrees (wr_aoa P) + (s - atan s) in
  let centre := fun x => wind (incidence P) (bend P (V3 x 0 0)) in
  derivable_pt_lim (fun x => vx (centre x)) (wr_length P) (- (sqrt (1 + s * s) * cos t)) /\
  derivable_pt_lim (fun x => vy (centre x)) (wr_length P) (sqrt (1 + s * s) * sin t) /\
  (forall x, vz (centre x) = 0) /\
  (t = degrees (wr_aoa P) <-> wr_x_mult P = wr_curve_zero P).
Proof.
  intros HL s t centre. set (k := wr_x_mult P - wr_curve_zero P) in *. set (L := wr_length P) in *.
  assert (C : forall x, centre x = V3 (- x * cos (incidence P) - k / 4 * (x * x) * sin (incidence P)) (x * sin (incidence P) - k / 4 * (x * x) * cos (incidence P)) 0).
  { intros x. unfold centre. change (bend P) with (wr_F P). rewrite wr_F_line. unfold wind. cbn [vx vy vz]. fold k. apply vec_ext; cbn [vx vy vz]; [reflexivity|reflexivity|ring]. }
  assert (SQ : sqrt (1 + s * s) <> 0) by (pose proof (sqrt1_pos s); lra).
  assert (TR : forall a, sqrt (1 + s * s) * cos (a - atan s) = cos a + s * sin a /\ sqrt (1 + s * s) * sin (a - atan s) = sin a - s * cos a).
  { intros a. assert (CA : cos (atan s) = 1 / sqrt (1 + s * s)) by (rewrite cos_atan; unfold Rsqr; reflexivity). assert (SA : sin (atan s) = s / sqrt (1 + s * s)) by (rewrite sin_atan; unfold Rsqr; reflexivity).
    rewrite cos_minus, sin_minus, CA, SA. split; field; exact SQ. }
  assert (TE : t = incidence P - atan s) by (unfold t, incidence; fold k; fold L; fold s; ring).
  assert (PO : forall u w, derivable_pt_lim (fun x => u * x + w * (x * x)) L (u + w * (2 * L))).
  { intros u w. replace (u + w * (2 * L)) with (u * 1 + w * (1 * L + L * 1)) by ring.
    apply (derivable_pt_lim_plus (fun x => u * x) (fun x => w * (x * x))).
    - apply (derivable_pt_lim_scal (fun x => x)), derivable_pt_lim_id.
    - apply (derivable_pt_lim_scal (fun x => x * x)). apply (derivable_pt_lim_mult (fun x => x) (fun x => x)); apply derivable_pt_lim_id. }
  assert (EX : forall f g l, (forall x, f x = g x) -> derivable_pt_lim g L l -> derivable_pt_lim f L l).
  { intros f g l E D eps He. destruct (D eps He) as [d Hd]. exists d. intros h Hn Hh. rewrite !E. apply Hd; assumption. }
  destruct (TR (incidence P)) as [T1 T2]. split; [|split; [|split]].
  - rewrite TE, T1. apply (EX _ (fun x => - cos (incidence P) * x + - (k / 4 * sin (incidence P)) * (x * x))); [intros x; rewrite C; cbn [vx]; ring|].
    replace (- (cos (incidence P) + s * sin (incidence P))) with (- cos (incidence P) + - (k / 4 * sin (incidence P)) * (2 * L)) by (unfold s; field). apply PO.
  - rewrite TE, T2. apply (EX _ (fun x => sin (incidence P) * x + - (k / 4 * cos (incidence P)) * (x * x))); [intros x; rewrite C; cbn [vy]; ring|].
    replace (sin (incidence P) - s * cos (incidence P)) with (sin (incidence P) + - (k / 4 * cos (incidence P)) * (2 * L)) by (unfold s; field). apply PO.
  - intros x. rewrite C. reflexivity.
  - unfold t. split.
    + intros H. assert (A : atan s = s) by lra. assert (S0 : s = 0).
      { destruct (Req_dec s 0) as [|N]; [assumption|exfalso].
        assert (U : forall u, 0 < u -> atan u < u).
        { intros u Hu. destruct (MVT_cor2 atan (fun x => / (1 + x ^ 2)) 0 u Hu) as (c & E & Hc); [intros x _; apply derivable_pt_lim_atan|].
          rewrite atan_0 in E. assert (I : / (1 + c ^ 2) < 1) by (rewrite <- Rinv_1; apply Rinv_lt_contravar; nra). nra. }
        destruct (Rlt_le_dec 0 s) as [S|S]; [specialize (U s S); lra|]. specialize (U (- s) ltac:(lra)). rewrite atan_opp in U. lra. }
      assert (k = 0); [|unfold k in *; lra]. apply (Rmult_eq_reg_r (L / 2)); [unfold s in S0; lra|]. lra.
    + intros H. assert (s = 0) as -> by (unfold s, k; rewrite H; field). rewrite atan_0. ring.
Qed.

(** bisection that refuses two ends of the same sign *)
Lemma sign_bisects_all k : bisects (1 / 2 ^ k) (sign_bisect k).
Proof.
  destruct (sign_bisects k) as (A & _ & _). destruct (loop_bisects k) as (_ & B & C). split; [exact A|]. split.
  - intros f phi E S. unfold sign_bisect. rewrite !E by lra. rewrite (proj2 (Rleb_true _ 0)) by nra. exact (B f phi E S).
  - intros f a b Hab. destruct (C f a b Hab) as [C1 C2]. unfold sign_bisect. split.
    + intros H [fb Hb]. rewrite H, Hb. rewrite (proj2 (Rleb_true _ 0)) by lra. apply C1; [exact H|eexists; exact Hb].
    + intros fa Ha N Hb. rewrite Ha, Hb. rewrite (proj2 (Rleb_true _ 0)) by nra. exact (C2 fa Ha N Hb).
Qed.
(** the waverider with its default attributes but for its length *)
Definition wr_nominal (L : R) : wr_params R :=
  mkWr R L (35 / 100) (3 / 1000) (3 / 1000) 3 (1 / 4) (75 / 1000) (75 / 1000) (1 / 3) (35 / 300) (11 / 12) (35 / 400)
    (1 / 10) (35 / 600) (35 / 300) (1 / 100) 0 (1 / 10) (65 / 1000) (35 / 100) (1 / 10) 1 (1 / 10) 1 (5001 / 1000) (5001 / 1000) 1 5.
(** the default vehicle, which is bent; and one with a length of 1/4 *)
Example C110_meets : bisects (1 / 2 ^ 20) (sign_bisect 20) /\ refuses (sign_bisect 20) /\ separate (mkHeap [] []) /\
  wr_keywords [] (wr_nominal 1) /\ wr_fair (wr_nominal 1) /\ wr_x_mult (wr_nominal 1) <> wr_curve_zero (wr_nominal 1) /\
  wr_keywords [("length"%string, PNum (1 / 4))] (wr_nominal (1 / 4)) /\ ~ In "p2x"%string (dkeys [("length"%string, PNum (1 / 4))]) /\
  wr_length (wr_nominal (1 / 4)) < 1 / 3 /\
  weighs (fun m rho => (signed_volume m, signed_volume m * rho, origin, M3 origin origin origin)).
Proof.
  split; [apply sign_bisects_all|]. split; [apply sign_bisects|].
  split; [split; [intros j Hj; cbn in Hj; lia|]; intros j k c c' H; destruct j; discriminate|].
  split; [split; [split; [constructor|split; cbn; intuition discriminate]|]|].
  { intros k d x I. cbn [wr_attributes In] in I. repeat (destruct I as [I|I]; [injection I as <- <- <-; reflexivity|]). destruct I. }
  split; [unfold wr_fair, wr_nominal; cbn; lra|]. split; [cbn; lra|].
  split; [split; [split; [repeat constructor; cbn; intuition discriminate|split; cbn; intuition discriminate]|]|].
  { intros k d x I. cbn [wr_attributes In] in I. repeat (destruct I as [I|I]; [injection I as <- <- <-; reflexivity|]). destruct I. }
  split; [cbn; intuition discriminate|]. split; [cbn; lra|]. intros m rho. eauto.
Qed.

Print Assumptions C110_waverider.
Print Assumptions C110_short.
Print Assumptions C110_length_only.
Print Assumptions C110_mass.
Print Assumptions C110_incidence.
