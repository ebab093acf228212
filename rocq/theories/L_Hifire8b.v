(** The parametric HIFiRE 8: its parts, and the vehicle. *)
From Coq Require Import String Reals Lra ZArith List Permutation Lia Bool.
From Verif Require Import Num NumR Py M_Vector SpecR3 M_Path M_Surface M_Geometry M_Mesh M_Component M_Common M_Wing M_Fin M_Vehicle M_VecHeap M_Sens M_Gen M_Hangar M_Htv M_X43 M_D21 M_Hifire8
  SpecPath SpecPoly SpecSurf SpecMesh SpecComp SpecVehicle SpecAdd SpecPrism SpecHangar SpecWing SpecFin SpecPair SpecFiles SpecHtv SpecHalf SpecX43 SpecLathe SpecHifire8
  L_Vector L_Line L_Polyline L_Coons L_Curves L_Ellipse L_Wing L_WingOk L_WingTotal L_Fin L_FinSeams L_FinTotal L_Component L_RevolvedComp L_Mesh L_Heap L_Volume L_Rigid L_Reflect L_Pipeline L_Generate L_Cache L_Files L_Closed L_Edges L_Prism L_Lathe L_Hangar L_Block L_Pair L_Half L_Htv L_Parts L_Finner L_Falcon L_Parts2 L_Parts3 L_D21 L_Hifire4 L_Hifire8 M_Wing.
Import ListNotations.
Local Open Scope R_scope.

(** ** wings *)
Definition flat_wing_keys : list string :=
  ["top_patch_0"; "top_patch_1"; "bot_patch_0"; "bot_patch_1"; "LE_patch0"; "LE_patch1"; "LE_patch2"; "TE_top_patch"; "TE_bot_patch"; "TELE_patch"]%string.
(** a wing with a flat leading edge *)
Lemma flat_made bisect w g ft fb : in_interval bisect -> answers bisect -> evaluates (w_line w) g -> g 0 = w_B0 w -> g 1 = w_TT w ->
  vertical (w_top w) ft -> vertical (w_bot w) fb -> lower (w_line_type w) = "bezier"%string -> w_tail w = "FLAP"%string ->
  w_tB1 w = None -> w_tB2 w = None -> wing_flat w = true -> w_close w = false -> vx (w_B0 w) <= vx (w_A1 w) <= vx (w_TT w) ->
  exists d t1, wing_patches bisect w = Ok d /\ wing_t_B1 bisect w = Ok t1 /\ dkeys d = flat_wing_keys /\ (forall u, In u (dvals d) -> on_square u).
Proof.
  intros Hin Han Hl G0 G1 Vt Vb Bz Fl N1 N2 FL CL A1.
  assert (exists t1, wing_t_B1 bisect w = Ok t1) as [t1 T1].
  { unfold wing_t_B1. rewrite N1. numR.
    destruct (Han (fun t => let! p := p_call (w_line w) t in Ok (vx p - vx (w_A1 w))) (fun t => vx (g t) - vx (w_A1 w))) as [t Et].
    - intros t _. rewrite (Hl t). reflexivity.
    - rewrite G0, G1. lra.
    - rewrite Et. eexists; reflexivity. }
  assert (exists t2, wing_t_B2 w t1 = Some t2) as [t2 T2] by (unfold wing_t_B2; rewrite N2; eexists; reflexivity).
  destruct (wing_ok bisect w g ft fb Hl G0 G1 Vt Vb Bz Fl t1 t2 T1 T2) as [d Ed].
  { left. exact FL. }
  { intros C. congruence. }
  exists d, t1. split; [exact Ed|]. split; [exact T1|].
  assert (B1 : forall t, w_tB1 w = Some t -> 0 <= t <= 1) by (rewrite N1; discriminate).
  destruct (wing_inv bisect w d Ed) as (t1' & t2' & B1' & f0 & f1 & p0 & p1 & tr & cl & E1 & E2 & _ & EB & (C0 & C1 & C2 & C3) & ET & EC & ED).
  pose proof (trailing_patches w ft fb Vt Vb tr ET) as (tet & teb & tele & west & north & Etr & _).
  split.
  - rewrite ED, Etr. rewrite CL in EC. subst cl. unfold wing_leading_edge. rewrite FL. reflexivity.
  - apply (wing_square bisect Hin w g ft fb d Hl G0 G1 Vt Vb B1 Ed). right. exact FL.
Qed.
(** points of the panels: the rear edge and the tip *)
Lemma panel_points bisect w g ft fb d n : in_interval bisect -> evaluates (w_line w) g -> g 0 = w_B0 w -> g 1 = w_TT w ->
  vertical (w_top w) ft -> vertical (w_bot w) fb -> w_tB1 w = None -> wing_patches bisect w = Ok d ->
  (forall j, (j <= S n)%nat -> let p := lerp (INR j / INR (S n)) (w_A0 w) (w_B0 w) in
     vertex_of (wing_grid n d) (SpecWing.lift ft p) /\ vertex_of (wing_grid n d) (SpecWing.lift fb p)) /\
  vertex_of (wing_grid n d) (SpecWing.lift ft (w_TT w)) /\ vertex_of (wing_grid n d) (SpecWing.lift fb (w_TT w)).
Proof.
  intros Hin Hl G0 G1 Vt Vb N1 Ed.
  assert (B1 : forall t, w_tB1 w = Some t -> 0 <= t <= 1) by (rewrite N1; discriminate).
  destruct (panels bisect Hin w g ft fb d Hl G0 G1 Vt Vb B1 Ed) as (t1 & t2 & top0 & top1 & bot0 & bot1 & tr & rest & _ & _ & _ & _ & ED & _ &
    _ & _ & T0 & _ & _ & _ & _ & T1 & _ & S0 & _ & _ & _ & _ & _ & S1 & _).
  assert (I1 : In ("top_patch_0"%string, top0) d) by (rewrite ED; left; reflexivity).
  assert (I2 : In ("top_patch_1"%string, top1) d) by (rewrite ED; right; left; reflexivity).
  assert (I3 : In ("bot_patch_0"%string, bot0) d) by (rewrite ED; do 2 right; left; reflexivity).
  assert (I4 : In ("bot_patch_1"%string, bot1) d) by (rewrite ED; do 3 right; left; reflexivity).
  assert (N0 : INR 0 / INR (S n) = 0) by (cbn [INR]; unfold Rdiv; ring).
  assert (NN : INR (S n) / INR (S n) = 1) by (field; apply not_0_INR; lia).
  split.
  - intros j Hj p. split.
    + apply (node_vertex n d _ top0 (S n) j _ I1); [lia|exact Hj|]. rewrite NN. apply T0.
    + apply (node_vertex n d _ bot0 0 j _ I3); [lia|exact Hj|]. rewrite N0. apply S0.
  - split.
    + apply (node_vertex n d _ top1 0 0 _ I2); [lia|lia|]. rewrite N0. rewrite T1, lerp_0. reflexivity.
    + apply (node_vertex n d _ bot1 (S n) 0 _ I4); [lia|lia|]. rewrite NN, N0. rewrite S1, lerp_1. reflexivity.
Qed.

(** ** generation, with composite components *)
Theorem kit_generates (v : vehicle R) h ds cs ks (part : nat -> dict (surf R)) (vals : nat -> list (R -> R -> pt)) (res : nat -> nat) (pl : nat -> plan) (f f2 : nat -> pt -> pt) :
  separate (ext h ds cs) -> v_components v = map (fun k => length (comps h) + k)%nat ks -> NoDup (flat_map (with_children (ext h ds cs)) (v_components v)) -> v_transformations v = [] ->
  (forall k, In k ks -> ready (ext h ds cs) (length (comps h) + k) (part k) (pl k) /\ unmeshed (ext h ds cs) (length (comps h) + k) (res k) /\ part k <> [] /\ values01 (dvals (part k)) (vals k)) ->
  (forall k, In k ks -> maps_of (pl k) (v_angle v) (f k) (f2 k)) ->
  exists h2, generate v (ext h ds cs) = (h2, mark_generated v, Ok tt) /\ length (comps h2) = (length (comps h) + length cs)%nat /\
    (forall k c, nth_error cs k = Some c -> ghost_at h2 (length (comps h) + k) = c_ghost c /\ type_at h2 (length (comps h) + k) = c_type c /\ tag_at h2 (length (comps h) + k) = c_name c) /\
    forall k, In k ks -> mesh_of h2 (length (comps h) + k) = Ok (
      match p_axis (pl k) with
      | None => flat_map (patch_grid (res k)) (map (fun u r s => f k (u r s)) (vals k))
      | Some _ => (if p_append (pl k) then flat_map (patch_grid (res k)) (map (fun u r s => f k (u r s)) (vals k)) else []) ++
          flat_map (patch_grid (res k)) (map (fun u r s => f2 k (u r s)) (vals k))
      end).
Proof.
  intros SP VC ND VT H HM. set (C := length (comps h)) in *. set (h1 := ext h ds cs) in *.
  assert (NE : forall k, nth_error (comps h1) (C + k) = nth_error cs k) by (intros k; unfold h1, ext, C; cbn [comps]; apply nth_ext).
  assert (RD' : forall i, In i (v_components v) -> exists g p, ready h1 i g p).
  { intros i Hi. rewrite VC in Hi. apply in_map_iff in Hi as (k & <- & Hk). eexists _, _. exact (proj1 (H k Hk)). }
  destruct (generated_meshes v h1 [] SP ND RD' VT ltac:(constructor)) as (h2 & A & LN & SO & Q).
  pose proof (reflected_meshes v h1 [] SP ND RD' VT ltac:(constructor) h2 A) as RM.
  exists h2. split; [exact A|]. split; [rewrite LN; unfold h1, ext, C; cbn [comps]; apply app_length|]. split.
  - intros k c E. rewrite <- NE in E. destruct (SO _ _ E) as (c' & E' & S). destruct (so_inv _ _ S) as (O1 & _ & _ & _ & _ & _ & _ & _ & _ & O2 & O3).
    unfold ghost_at, type_at, tag_at. rewrite E', O1, O2, O3. auto.
  - intros k Hk. destruct (H k Hk) as (Rk & Uk & NG & V).
    assert (I : In (C + k)%nat (v_components v)) by (rewrite VC; apply in_map_iff; eauto).
    destruct (HM k Hk) as [M1 M2]. destruct (p_axis (pl k)) as [axis|] eqn:AX.
    + exact (RM _ _ _ _ (vals k) axis (f k) (f2 k) I Rk Uk NG V AX M1 (M2 axis eq_refl)).
    + exact (Q _ _ _ _ (vals k) (f k) I Rk Uk NG V AX M1).
Qed.

(** ** rolling about the x axis *)
Lemma rolled_rodrigues a p : rodrigues (axis_vec "x"%string) origin a p = rolled a p.
Proof. unfold rolled, rodrigues, axis_vec, crossR, inner, translate, plus_scaled, scaled, diff, origin. apply vec_ext; cbn; ring. Qed.
Lemma rolled_affine a : affine (rolled a).
Proof. intros p. unfold rolled, plus_scaled, scaled, diff, translate. apply vec_ext; cbn; ring. Qed.
Lemma rolled_sum a b p : rolled (a + b) p = rolled b (rolled a p).
Proof. unfold rolled. rewrite cos_plus, sin_plus. apply vec_ext; cbn; ring. Qed.
Lemma rolled_grid n a b d : (forall u, In u (dvals (dmap (fun u => RotatedPatch u a "x"%string default_point) d)) -> on_square u) ->
  wing_grid n (dmap (fun u => RotatedPatch u (a + b) "x"%string default_point) d) = map_mesh (rolled b) (wing_grid n (dmap (fun u => RotatedPatch u a "x"%string default_point) d)).
Proof.
  unfold wing_grid, values_of, dvals, dmap, map_mesh. induction d as [|[k u] d IH]; intros SQ; [reflexivity|]. cbn [map flat_map fst snd] in *. rewrite map_app, <- IH by (intros w Hw; apply SQ; right; exact Hw).
  f_equal. etransitivity; [|apply patch_grid_affine, rolled_affine]. apply patch_grid_same. intros r s Hr Hs.
  destruct (SQ _ (or_introl eq_refl) r s Hr Hs) as [p Ep]. unfold RotatedPatch in Ep |- *. destruct (u r s) as [q|]; [|discriminate]. cbn [bind].
  unfold rotate_vec, lower_axis. cbn [String.eqb Ascii.eqb Bool.eqb bind].
  transitivity (rolled (a + b) q); [|rewrite rolled_sum; f_equal]; unfold rolled, vadd, vsub, default_point; numR; apply vec_ext; cbn; ring.
Qed.

Section Shapes.
  Variable bisect : (R -> res R) -> R -> R -> res R.
  Lemma h8_width_default : forall t, h8_width (T := R) t = leading_edge_width_function t.
  Proof using. reflexivity. Qed.
  Lemma h8_width_ok : (forall t, 0 <= t <= 1 -> exists k, h8_width (T := R) t = Ok k) /\ h8_width (T := R) 0 = Ok (1 / 100) /\ h8_width (T := R) 1 = Ok (1 / 100).
  Proof using.
    split; [|split].
    - intros t Ht. rewrite h8_width_default. destruct (default_width t Ht) as (k & Ek & _). eauto.
    - rewrite h8_width_default. apply default_0.
    - unfold h8_width. cbn. f_equal. field.
  Qed.

  (** ** the wing *)
  Lemma h8_pts : h8_A0 (T := R) = V3 (2 / 10) 0 0 /\ h8_A1 (T := R) = V3 (85 / 100) 0 0 /\ h8_TT (T := R) = V3 (15 / 10) 0 0 /\ h8_B0 (T := R) = V3 (2 / 10) (4 / 10) 0 /\
    h8_B1 (T := R) = V3 (33 / 100) (4 / 10) 0 /\ h8_B2 (T := R) = V3 (85 / 100) (2 / 10) 0 /\ h8_B3 (T := R) = V3 (15 / 10) (52 / 1000) 0.
  Proof using.
    unfold h8_B3, h8_B2, h8_B1, h8_B0, h8_TT, h8_A1, h8_A0, h8_wing_L, h8_wing_width, h8_wing_origin, vec2, nhalf. numR. cbn [vx vy vz]. repeat split; apply vec_ext; cbn; field.
  Qed.
  Lemma h8_edge_ok : exists q g, h8_edge (T := R) = Ok q /\ evaluates q g /\ g 0 = V3 (2 / 10) (4 / 10) 0 /\ g 1 = V3 (15 / 10) 0 0.
  Proof using.
    destruct h8_pts as (A0 & A1 & TT & B0 & B1 & B2 & B3). unfold h8_edge. rewrite B0, B1, B2, B3, TT.
    destruct (chain_evaluates [(V3 (2 / 10) (4 / 10) 0, V3 (33 / 100) (4 / 10) 0); (V3 (33 / 100) (4 / 10) 0, V3 (85 / 100) (2 / 10) 0);
      (V3 (85 / 100) (2 / 10) 0, V3 (15 / 10) (52 / 1000) 0); (V3 (15 / 10) (52 / 1000) 0, V3 (15 / 10) 0 0)] (origin, origin)) as (q & g & E & V & G0 & G1).
    - discriminate.
    - repeat constructor; cbn [fst snd]; intros E; first [apply (f_equal vx) in E; cbn in E; lra|apply (f_equal vy) in E; cbn in E; lra].
    - exists q, g. auto.
  Qed.
  Lemma h8_wing_ok : in_interval bisect -> answers bisect -> exists q d t1, h8_edge (T := R) = Ok q /\ wing_patches bisect (h8_wing q) = Ok d /\ wing_t_B1 bisect (h8_wing q) = Ok t1 /\
    dkeys d = open_wing_keys /\ (forall u, In u (dvals d) -> on_square u) /\
    (forall n, exists e, In e (mesh_edges (wing_grid n d)) /\ in_plane "y" e) /\
    forall n, vertex_of (wing_grid n d) (V3 0 0 0) /\ vertex_of (wing_grid n d) (V3 0 (4 / 10) 0) /\
      (forall s, s = 2 / 100 \/ s = - (2 / 100) -> vertex_of (wing_grid n d) (V3 (2 / 10) (4 / 10) s) /\ vertex_of (wing_grid n d) (V3 (15 / 10) 0 s)).
  Proof using.
    intros Hi Han. destruct h8_edge_ok as (q & g & Eq & Ev & G0 & G1). destruct h8_pts as (A0 & A1 & TT & B0 & _). set (w := h8_wing q).
    destruct h8_width_ok as (W & W0 & _). destruct (uniform_up (h8_wing_thickness (T := R))) as [Vt Vb].
    assert (G0' : g 0 = w_B0 w) by (unfold w; cbn [w_B0 h8_wing]; rewrite B0; exact G0).
    assert (G1' : g 1 = w_TT w) by (unfold w; cbn [w_TT h8_wing]; rewrite TT; exact G1).
    destruct (wing_made bisect Hi Han w g (fun _ _ => - (h8_wing_thickness / 2)) (fun _ _ => h8_wing_thickness / 2) (1 / 100) (1 / 100) Ev G0' G1' Vt Vb) as (d & Ed & [t1 T1] & Kd & Sd & (u & Iu & U0 & U1)).
    - reflexivity.
    - reflexivity.
    - reflexivity.
    - reflexivity.
    - reflexivity.
    - unfold w; cbn [w_B0 w_A1 w_TT h8_wing]. rewrite B0, A1, TT. cbn [vx]. lra.
    - intros t Ht. exact (W t Ht).
    - exact W0.
    - apply small_of; [|lra]. unfold half_h, h8_wing_thickness. numR. lra.
    - discriminate.
    - exists q, d, t1. split; [exact Eq|]. split; [exact Ed|]. split; [exact T1|]. split; [rewrite Kd; apply app_nil_r|]. split; [exact Sd|]. split.
      + intros n. rewrite <- moved_id. apply (chord_moved (fun p => p) bisect w d g (fun _ _ => - (h8_wing_thickness / 2)) n (fun _ H => H) Ed Ev G0' Vt).
        * unfold w; cbn [w_A0 h8_wing]. rewrite A0. reflexivity.
        * unfold w; cbn [w_A1 h8_wing]. rewrite A1. reflexivity.
      + intros n. assert (R1 : INR 0 / INR (S n) = 0) by (cbn [INR]; unfold Rdiv; ring).
        assert (R2 : INR (S n) / INR (S n) = 1) by (field; apply not_0_INR; lia).
        assert (TP : forall p, vz p = 0 -> tip (w_flap_length w) (w_flap_angle w) (SpecWing.lift (mid_h (fun _ _ => - (h8_wing_thickness / 2)) (fun _ _ => h8_wing_thickness / 2)) p) = V3 (vx p - 2 / 10) (vy p) 0).
        { intros p Z. unfold w, tip, SpecWing.lift, mid_h. cbn [w_flap_length w_flap_angle h8_wing]. unfold h8_flap_length. numR. rewrite cos_0, sin_0.
          apply vec_ext; cbn [vx vy vz]; rewrite ?Z; field. }
        rewrite !TP in U0, U1 by (unfold w; cbn [w_A0 w_B0 h8_wing]; rewrite ?A0, ?B0; reflexivity).
        unfold w in U0, U1. cbn [w_A0 w_B0 h8_wing] in U0, U1. rewrite A0 in U0. rewrite B0 in U1. cbn [vx vy] in U0, U1.
        replace (2 / 10 - 2 / 10) with 0 in U0, U1 by field.
        destruct (panel_points bisect w g _ _ d n Hi Ev G0' G1' Vt Vb eq_refl Ed) as (PJ & PT & PB).
        destruct (PJ (S n) (le_n _)) as [QT QB]. rewrite R2, lerp_1 in QT, QB. unfold w in PT, PB, QT, QB. cbn [w_TT w_B0 h8_wing] in PT, PB, QT, QB. rewrite TT in PT, PB. rewrite B0 in QT, QB.
        unfold SpecWing.lift, h8_wing_thickness in PT, PB, QT, QB. cbn [vx vy vz] in PT, PB, QT, QB.
        assert (E1 : 0 + - (nlit (Num := NumR) 4 100 / 2) = - (2 / 100)) by (numR; field).
        assert (E2 : 0 + nlit (Num := NumR) 4 100 / 2 = 2 / 100) by (numR; field).
        rewrite E1 in PT, QT. rewrite E2 in PB, QB.
        split; [|split].
        * eapply (node_vertex n d _ u 0 0 _ Iu); [lia|lia|]. rewrite R1. exact U0.
        * eapply (node_vertex n d _ u (S n) 0 _ Iu); [lia|lia|]. rewrite R1, R2. exact U1.
        * intros s [-> | ->]; split; assumption.
  Qed.

  Variables L Rb Rn : R.
  Hypothesis HL : 0 < L.
  (** ** the nose *)
  Hypothesis Hn : 3 / 40 <= Rn.
  Lemma h8_nose_pts : h8_A0n L = V3 L 0 0 /\ h8_A1n L = V3 (L + 1 / 4) 0 0 /\ h8_TTn L = V3 (L + 1 / 2) 0 0 /\ h8_B0n L Rb Rn = V3 L Rn 0 /\
    h8_B1n L Rb Rn = V3 (L + 1 / 4) ((Rn + 3 / 40) / 2) 0 /\ h8_B2n L = V3 (L + 1 / 2) (3 / 40) 0.
  Proof using HL.
    destruct (h8_ends L Rb Rn HL) as (E & _). unfold h8_B2n, h8_B1n, h8_B0n, h8_TTn, h8_A1n, h8_A0n, h8_side_theta. rewrite E.
    change (n1 (T := R)) with 1. rewrite tan_ratio. unfold h8_L_n, h8_w_n, vec2, nhalf. numR. cbn [vx vy vz]. repeat split; apply vec_ext; cbn; field.
  Qed.
  Definition nose_z (x y : R) : R := (1 - 2 * (x - L)) * sqrt (Rn * Rn - y * y) + 2 * (x - L) * (1 / 200).
  Lemma h8_nose_z_eq x y : h8_nose_z L Rb Rn x y = nose_z x y.
  Proof using HL.
    destruct (h8_ends L Rb Rn HL) as (E & _). unfold h8_nose_z, nose_z, nsq, h8_L_n, h8_t_n. rewrite E. numR. match goal with |- context [sqrt ?a] => set (q := sqrt a) end. field.
  Qed.
  Lemma h8_nose_edge_ok : exists q g, h8_nose_edge L Rb Rn = Ok q /\ evaluates q g /\ g 0 = V3 L Rn 0 /\ g 1 = V3 (L + 1 / 2) 0 0.
  Proof using HL Hn.
    destruct h8_nose_pts as (A0 & A1 & TT & B0 & B1 & B2). unfold h8_nose_edge. rewrite B0, B1, B2, TT.
    destruct (chain_evaluates [(V3 L Rn 0, V3 (L + 1 / 4) ((Rn + 3 / 40) / 2) 0); (V3 (L + 1 / 4) ((Rn + 3 / 40) / 2) 0, V3 (L + 1 / 2) (3 / 40) 0);
      (V3 (L + 1 / 2) (3 / 40) 0, V3 (L + 1 / 2) 0 0)] (origin, origin)) as (q & g & E & V & G0 & G1).
    - discriminate.
    - repeat constructor; cbn [fst snd]; intros E; first [apply (f_equal vx) in E; cbn in E; lra|apply (f_equal vy) in E; cbn in E; lra].
    - exists q, g. auto.
  Qed.
  Lemma h8_nose_ok : in_interval bisect -> answers bisect -> exists q d t1, h8_nose_edge L Rb Rn = Ok q /\ wing_patches bisect (h8_nose L Rb Rn q) = Ok d /\
    wing_t_B1 bisect (h8_nose L Rb Rn q) = Ok t1 /\ dkeys d = flat_wing_keys /\ (forall u, In u (dvals d) -> on_square u) /\
    (forall n, exists e, In e (mesh_edges (wing_grid n d)) /\ in_plane "y" e) /\
    forall n, (forall j, (j <= S n)%nat -> let y := INR j / INR (S n) * Rn in
        vertex_of (wing_grid n d) (V3 L y (- sqrt (Rn * Rn - y * y))) /\ vertex_of (wing_grid n d) (V3 L y (sqrt (Rn * Rn - y * y)))) /\
      vertex_of (wing_grid n d) (V3 (L + 1 / 2) 0 (- (1 / 200))) /\ vertex_of (wing_grid n d) (V3 (L + 1 / 2) 0 (1 / 200)).
  Proof using HL Hn.
    intros Hi Han. destruct h8_nose_edge_ok as (q & g & Eq & Ev & G0 & G1). destruct h8_nose_pts as (A0 & A1 & TT & B0 & _). set (w := h8_nose L Rb Rn q).
    assert (Vt : vertical (w_top w) (fun x y => - nose_z x y)) by (intros x y z; unfold w; cbn [w_top h8_nose]; unfold h8_nose_top; rewrite h8_nose_z_eq; numR; reflexivity).
    assert (Vb : vertical (w_bot w) nose_z) by (intros x y z; unfold w; cbn [w_bot h8_nose]; unfold h8_nose_bot; rewrite h8_nose_z_eq; reflexivity).
    assert (G0' : g 0 = w_B0 w) by (unfold w; cbn [w_B0 h8_nose]; rewrite B0; exact G0).
    assert (G1' : g 1 = w_TT w) by (unfold w; cbn [w_TT h8_nose]; rewrite TT; exact G1).
    destruct (flat_made bisect w g _ _ Hi Han Ev G0' G1' Vt Vb) as (d & t1 & Ed & T1 & Kd & Sd); try reflexivity.
    { unfold w; cbn [w_B0 w_A1 w_TT h8_nose]. rewrite B0, A1, TT. cbn [vx]. lra. }
    exists q, d, t1. split; [exact Eq|]. split; [exact Ed|]. split; [exact T1|]. split; [exact Kd|]. split; [exact Sd|]. split.
    - intros n. rewrite <- moved_id. apply (chord_moved (fun p => p) bisect w d g _ n (fun _ H => H) Ed Ev G0' Vt).
      * unfold w; cbn [w_A0 h8_nose]. rewrite A0. reflexivity.
      * unfold w; cbn [w_A1 h8_nose]. rewrite A1. reflexivity.
    - intros n. destruct (panel_points bisect w g _ _ d n Hi Ev G0' G1' Vt Vb eq_refl Ed) as (PJ & PT & PB). split.
      + intros j Hj y. destruct (PJ j Hj) as [QT QB]. unfold w in QT, QB. cbn [w_A0 w_B0 h8_nose] in QT, QB. rewrite A0, B0 in QT, QB.
        set (t := INR j / INR (S n)) in *.
        assert (E : lerp t (V3 L 0 0) (V3 L Rn 0) = V3 L y 0) by (unfold lerp, y; apply vec_ext; cbn; ring). rewrite E in QT, QB.
        unfold SpecWing.lift, nose_z in QT, QB. cbn [vx vy vz] in QT, QB. replace (L - L) with 0 in QT, QB by ring. split.
        * replace (- sqrt (Rn * Rn - y * y)) with (0 + - ((1 - 2 * 0) * sqrt (Rn * Rn - y * y) + 2 * 0 * (1 / 200))) by ring. exact QT.
        * replace (sqrt (Rn * Rn - y * y)) with (0 + ((1 - 2 * 0) * sqrt (Rn * Rn - y * y) + 2 * 0 * (1 / 200))) by ring. exact QB.
      + unfold w in PT, PB. cbn [w_TT h8_nose] in PT, PB. rewrite TT in PT, PB. unfold SpecWing.lift, nose_z in PT, PB. cbn [vx vy vz] in PT, PB.
        replace (L + 1 / 2 - L) with (1 / 2) in PT, PB by ring. replace (1 - 2 * (1 / 2)) with 0 in PT, PB by field. rewrite Rmult_0_l in PT, PB. split.
        * replace (- (1 / 200)) with (0 + - (0 + 2 * (1 / 2) * (1 / 200))) by field. exact PT.
        * replace (0 + (0 + 2 * (1 / 2) * (1 / 200))) with (1 / 200) in PB by field. exact PB.
  Qed.

  (** ** the fins *)
  Let k := (Rb - Rn) / L.
  Lemma h8_fin_pts : h8_p0 L Rb Rn = V3 0 Rb 0 /\ h8_p1 L Rb Rn = V3 (8 / 100) (Rb - 8 / 100 * k + 16 / 100) 0 /\
    h8_p2 L Rb Rn = V3 (28 / 100) (Rb - 28 / 100 * k + 16 / 100) 0 /\ h8_p3 L Rb Rn = V3 (4 / 10) (Rb - 4 / 10 * k) 0.
  Proof using.
    unfold h8_p0, h8_p1, h8_p2, h8_p3. rewrite !h8_radius. fold k. unfold h8_fin_height, h8_fin_length, vec2. numR. repeat split; apply vec_ext; cbn; field.
  Qed.
  Lemma h8_fin_ok p0 p1 p2 p3 angle : in_interval bisect -> answers bisect -> vx p1 < vx p2 < vx p3 -> vz p0 = 0 -> vz p1 = 0 -> vz p3 = 0 ->
    let f := h8_fin p0 p1 p2 p3 angle in
    exists d, d21_fin_done bisect f d /\ forall n s p, (s = 4 / 1000 \/ s = - (4 / 1000)) -> p = p0 \/ p = p1 \/ p = p3 ->
      vertex_of (wing_grid n d) (rolled angle (V3 (vx p) (vy p) s)).
  Proof using.
    intros Hi Han HX Z0 Z1 Z3 f. set (h := 4 / 1000). destruct h8_width_ok as (W & W0 & W1).
    assert (Vt : vertical (f_top f) (fun _ _ => - h)).
    { intros x y z. unfold f, h8_fin, h8_fin_thickness, h8_fin_length, uniform_thickness_function, h. numR. cbn. f_equal. apply vec_ext; cbn; field. }
    assert (Vb : vertical (f_bot f) (fun _ _ => h)).
    { intros x y z. unfold f, h8_fin, h8_fin_thickness, h8_fin_length, uniform_thickness_function, h. numR. cbn. f_equal. apply vec_ext; cbn; field. }
    destruct (fin_built bisect f h (1 / 100) (1 / 100) Hi Han) as (d & Ed & Kd & Sd); try assumption.
    - unfold f, h8_fin, h8_fin_thickness, h8_fin_length, h. cbn [f_thickness]. numR. field.
    - unfold f; cbn [f_p1 f_p2 h8_fin]. intros Q. rewrite Q in HX. lra.
    - unfold f; cbn [f_p2 f_p3 h8_fin]. intros Q. rewrite Q in HX. lra.
    - unfold f; cbn [f_p1 f_p2 f_p3 h8_fin]. lra.
    - apply small_of; unfold h; lra.
    - apply small_of; unfold h; lra.
    - discriminate.
    - exists d. split; [split; [exact Ed|split; [exact Kd|exact Sd]]|]. intros n s p Hs Hp.
      destruct (fin_faces bisect f h d Ed Vt Vb eq_refl) as (top & bot & It & Ib & FF).
      assert (Val : forall q z, vz q = 0 -> (let q := rodrigues (axis_vec "x") origin (f_angle f) (V3 (vx q) (vy q) (vz q + z)) in
          match f_offset f with Some o => let! v := o (vx q) (vy q) (Some (vz q)) in Ok (vadd q v) | None => Ok q end) = Ok (rolled angle (V3 (vx q) (vy q) z))).
      { intros q z Q. rewrite rolled_rodrigues, Q, Rplus_0_l. reflexivity. }
      assert (N0 : INR 0 / INR (S n) = 0) by (cbn [INR]; unfold Rdiv; ring).
      assert (N1 : INR (S n) / INR (S n) = 1) by (field; apply not_0_INR; lia).
      fold h in Hs. destruct Hs as [-> | ->]; destruct Hp as [-> | [-> | ->]].
      + apply (node_vertex n d "bot_patch" bot 0 0); [exact Ib|lia|lia|]. rewrite N0. rewrite (FF h bot (f_p0 f)) by tauto. apply Val, Z0.
      + apply (node_vertex n d "bot_patch" bot 0 (S n)); [exact Ib|lia|lia|]. rewrite N0, N1. rewrite (FF h bot (f_p1 f)) by tauto. apply Val, Z1.
      + apply (node_vertex n d "bot_patch" bot (S n) 0); [exact Ib|lia|lia|]. rewrite N0, N1. rewrite (FF h bot (f_p3 f)) by tauto. apply Val, Z3.
      + apply (node_vertex n d "top_patch" top 0 0); [exact It|lia|lia|]. rewrite N0. rewrite (FF (- h) top (f_p0 f)) by tauto. apply Val, Z0.
      + apply (node_vertex n d "top_patch" top (S n) 0); [exact It|lia|lia|]. rewrite N0, N1. rewrite (FF (- h) top (f_p1 f)) by tauto. apply Val, Z1.
      + apply (node_vertex n d "top_patch" top 0 (S n)); [exact It|lia|lia|]. rewrite N0, N1. rewrite (FF (- h) top (f_p3 f)) by tauto. apply Val, Z3.
  Qed.
  (** the second fin is the first turned by a right angle *)
  Lemma h8_fin_turned n d1 d2 : fin_patches bisect (h8_fin1 L Rb Rn) = Ok d1 -> fin_patches bisect (h8_fin2 L Rb Rn) = Ok d2 ->
    (forall u, In u (dvals d1) -> on_square u) -> wing_grid n d2 = map_mesh (rolled (PI / 2)) (wing_grid n d1).
  Proof using.
    intros E1 E2 SQ. destruct (fin_turned bisect (h8_fin1 L Rb Rn)) as (base & HB).
    pose proof (HB (h8_fin_angle (T := R)) None) as B1. pose proof (HB (nadd h8_fin_angle (ndeg2rad (nZ 90))) None) as B2.
    change (turned_fin _ (h8_fin_angle (T := R)) None) with (h8_fin1 L Rb Rn) in B1.
    change (turned_fin _ (nadd h8_fin_angle (ndeg2rad (nZ 90))) None) with (h8_fin2 L Rb Rn) in B2.
    rewrite E1 in B1. rewrite E2 in B2. destruct base as [b|]; [|discriminate]. cbn [bind] in B1, B2. apply ok_inj in B1, B2. subst d1 d2.
    replace (nadd h8_fin_angle (ndeg2rad (nZ 90))) with (h8_fin_angle + PI / 2) by (numR; field). apply rolled_grid, SQ.
  Qed.
End Shapes.
