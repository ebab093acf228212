(** The parametric ReFEX: its fins, wing, nose and body. *)
From Coq Require Import String Reals Lra ZArith List Permutation Lia Bool.
From Verif Require Import Num NumR Py M_Vector SpecR3 M_Path M_Surface M_Geometry M_Mesh M_Component M_Common M_Wing M_Fin M_Vehicle M_VecHeap M_Sens M_Gen M_Hangar M_Htv M_X43 M_D21 M_Refex
  SpecPath SpecPoly SpecSurf SpecMesh SpecComp SpecVehicle SpecAdd SpecPrism SpecHangar SpecWing SpecFin SpecPair SpecFiles SpecHtv SpecHalf SpecX43 SpecLathe SpecProfile SpecHifire8 SpecRefex
  L_Vector L_Line L_Polyline L_Coons L_Curves L_Ellipse L_Wing L_WingOk L_WingTotal L_Fin L_FinSeams L_FinTotal L_Component L_RevolvedComp L_Mesh L_Heap L_Volume L_Rigid L_Reflect L_Pipeline L_Generate L_Cache L_Files L_Wedge L_SweptComp L_Closed L_Edges L_Prism L_Lathe L_Hangar L_Block L_Pair L_Half L_Htv L_Parts L_Finner L_Profile L_Falcon L_Parts2 L_Parts3 L_D21 L_Hifire4 L_Hifire8 L_Hifire8b L_Cluster L_Parts4 P_Profile L_Refex M_Wing.
Import ListNotations.
Local Open Scope R_scope.

Lemma pitched_affine x a : affine (pitched x a).
Proof. intros p. unfold pitched, plus_scaled, scaled, diff, translate. apply vec_ext; cbn; ring. Qed.
Lemma pitched_sum x a b p : pitched x (a + b) p = pitched x a (pitched x b p).
Proof. unfold pitched. rewrite cos_plus, sin_plus. apply vec_ext; cbn; ring. Qed.
Lemma pitched_0 x p : pitched x 0 p = p.
Proof. unfold pitched. rewrite cos_0, sin_0. apply vec_ext; cbn; ring. Qed.
Lemma rolled_0 p : rolled 0 p = p.
Proof. unfold rolled. rewrite cos_0, sin_0. apply vec_ext; cbn; ring. Qed.
(** two fins that differ in their angles only *)
Definition angled (f : fin R) (a pa : R) : fin R :=
  mkFin (f_p0 f) (f_p1 f) (f_p2 f) (f_p3 f) (f_thickness f) a (f_top f) (f_bot f) (f_width f) (f_rudder f) (f_rudder_length f) (f_rudder_angle f) pa (f_pivot_point f) None.
Lemma fin_angled bisect f : exists base, forall a pa, fin_patches bisect (angled f a pa) =
  let! d := base in Ok (dmap (fun u => RotatedPatch u a "x" default_point) (dmap (fun u => RotatedPatch u pa "y" (f_pivot_point f)) d)).
Proof.
  eexists (let! p1p3 := fin_edge f in let! panels := fin_panels f in let! t_B1 := fin_t_B1 bisect f p1p3 in
    let! bottom := fin_bottom f in let! trailing := (if String.eqb (f_rudder f) "sharp" then fin_sharp f else fin_flat f) in
    Ok (panels ++ fin_leading_edge f p1p3 t_B1 ++ bottom ++ trailing)).
  intros a pa. unfold fin_patches. change (fin_edge (angled f a pa)) with (fin_edge f). destruct (fin_edge f) as [q|]; [|reflexivity]. cbn [bind].
  change (fin_panels (angled f a pa)) with (fin_panels f). destruct (fin_panels f); [|reflexivity]. cbn [bind].
  change (fin_t_B1 bisect (angled f a pa) q) with (fin_t_B1 bisect f q). destruct (fin_t_B1 bisect f q); [|reflexivity]. cbn [bind].
  change (fin_bottom (angled f a pa)) with (fin_bottom f). destruct (fin_bottom f); [|reflexivity]. cbn [bind].
  change (f_rudder (angled f a pa)) with (f_rudder f).
  destruct (String.eqb (f_rudder f) "sharp"); [change (fin_sharp (angled f a pa)) with (fin_sharp f); destruct (fin_sharp f)|change (fin_flat (angled f a pa)) with (fin_flat f); destruct (fin_flat f)]; reflexivity.
Qed.
Lemma angled_grid n c a pa pb d : vz c = 0 ->
  (forall u, In u (dvals (dmap (fun u => RotatedPatch u 0 "x"%string default_point) (dmap (fun u => RotatedPatch u pa "y"%string c) d))) -> on_square u) ->
  wing_grid n (dmap (fun u => RotatedPatch u a "x"%string default_point) (dmap (fun u => RotatedPatch u pb "y"%string c) d)) =
  map_mesh (fun p => rolled a (pitched (vx c) (pb - pa) p)) (wing_grid n (dmap (fun u => RotatedPatch u 0 "x"%string default_point) (dmap (fun u => RotatedPatch u pa "y"%string c) d))).
Proof.
  intros Zc. unfold wing_grid, values_of, dvals, dmap. rewrite !map_map. cbn [snd fst].
  induction d as [|[k u] d IH]; intros SQ; [reflexivity|]. cbn [map flat_map fst snd] in *. unfold map_mesh in *. rewrite map_app, <- IH by (intros w Hw; apply SQ; right; exact Hw).
  f_equal. assert (AF : affine (fun p => rolled a (pitched (vx c) (pb - pa) p))).
  { intros p. unfold rolled, pitched, plus_scaled, scaled, diff, translate. apply vec_ext; cbn; ring. }
  etransitivity; [|apply patch_grid_affine, AF]. apply patch_grid_same. intros r s Hr Hs.
  destruct (SQ _ (or_introl eq_refl) r s Hr Hs) as [p Ep].
  destruct (u r s) as [q|e] eqn:Eu; [|unfold RotatedPatch in Ep; rewrite Eu in Ep; discriminate Ep].
  rewrite (rolled_patch _ a r s _ (turned_patch u pb c r s q Zc Eu)), (rolled_patch _ 0 r s _ (turned_patch u pa c r s q Zc Eu)).
  rewrite rolled_0, <- pitched_sum. f_equal. f_equal. ring.
Qed.

Section Shapes.
  Variable bisect : (R -> res R) -> R -> R -> res R.
  Variable cs : pt.
  Variable P : rx_params R.
  Hypothesis Zs : vz cs = 0.
  Let h := rx_h P.
  Let Lo := rx_L_o P.
  Let Lb := rx_L_b P.
  Let ft := rx_fin_thickness P.
  Let wl := rx_wing_length P.
  Let ws := rx_wing_span P.
  Let th := rx_tail_height P.
  Let tt := rx_tail_thickness P.
  Hypothesis Hh : 0 < h.
  Hypothesis Hft : 0 < ft <= 300.
  Lemma rx_canard_pts : let y := 974 / 1000 * h + vy cs in let x := - Lo + vx cs in
    rx_p0 cs P = V3 (x - 169 / 100 * h) y 0 /\ rx_p1 cs P = V3 (x - 169 / 100 * h) (y + 1274 / 1000 * h) 0 /\
    rx_p2 cs P = V3 (x - 1183 / 1000 * h) (y + 1248 / 1000 * h) 0 /\ rx_p3 cs P = V3 x y 0 /\ vx (rx_pivot cs P) = x - 845 / 1000 * h /\ vz (rx_pivot cs P) = 0.
  Proof using Zs.
    cbv zeta. unfold rx_p2, rx_p1, rx_pivot. 
    assert (E0 : rx_p0 cs P = V3 (- Lo + vx cs - 169 / 100 * h) (974 / 1000 * h + vy cs) 0).
    { unfold rx_p0, rx_f1, rx_shift_in, rx_fin_length, rx_fin_height, vec2, vadd, vsub. numR. apply vec_ext; cbn; rewrite ?Zs; unfold h, Lo; field. }
    assert (E3 : rx_p3 cs P = V3 (- Lo + vx cs) (974 / 1000 * h + vy cs) 0).
    { unfold rx_p3, rx_f1, rx_shift_in, rx_fin_length, rx_fin_height, vec2, vadd, vsub. numR. apply vec_ext; cbn; rewrite ?Zs; unfold h, Lo; field. }
    rewrite E0, E3. unfold rx_shift_in, rx_fin_length, rx_fin_height, vec2, vadd, nhalf. numR. cbn [vx vy vz].
    repeat split; try (apply vec_ext; cbn; unfold h, Lo; field); cbn; unfold h, Lo; field.
  Qed.
  Lemma rx_canard_ok deg pv : in_interval bisect -> answers bisect -> let f := rx_canard cs P deg pv in
    exists d, d21_fin_done bisect f d /\ forall n s p, (s = ft / 2 \/ s = - (ft / 2)) -> p = rx_p0 cs P \/ p = rx_p1 cs P \/ p = rx_p3 cs P ->
      vertex_of (wing_grid n d) (rolled (ndeg2rad deg) (pitched (vx (rx_pivot cs P)) (ndeg2rad pv) (V3 (vx p) (vy p) s))).
  Proof using Zs Hh Hft.
    intros Hi Han. pose proof rx_canard_pts as (P0 & P1 & P2 & P3 & _ & PZ). cbv zeta in P0, P1, P2, P3.
    apply (sharp_fin_ok bisect (rx_p0 cs P) (rx_p1 cs P) (rx_p2 cs P) (rx_p3 cs P) ft (ndeg2rad deg) (ndeg2rad pv) (rx_pivot cs P) Hi Han).
    - rewrite P1, P2, P3. cbn [vx]. lra.
    - rewrite P0. reflexivity.
    - rewrite P1. reflexivity.
    - rewrite P3. reflexivity.
    - exact PZ.
    - lra.
  Qed.
  Lemma rx_canard_tip deg pv d : fin_patches bisect (rx_canard cs P deg pv) = Ok d -> forall n p, p = rx_p0 cs P \/ p = rx_p1 cs P ->
    vertex_of (wing_grid n d) (rolled (ndeg2rad deg) (pitched (vx (rx_pivot cs P)) (ndeg2rad pv) (V3 (vx p - ft) (vy p) 0))).
  Proof using Zs.
    intros E. pose proof rx_canard_pts as (_ & _ & _ & _ & _ & PZ).
    exact (sharp_fin_tip bisect (rx_p0 cs P) (rx_p1 cs P) (rx_p2 cs P) (rx_p3 cs P) ft (ndeg2rad deg) (ndeg2rad pv) (rx_pivot cs P) d PZ E).
  Qed.
  Lemma rx_canards_alike n d1 d2 : fin_patches bisect (rx_canard cs P (nZ 0) (rx_canard_angle P)) = Ok d1 ->
    fin_patches bisect (rx_canard cs P (nZ 180) (nneg (rx_canard_angle P))) = Ok d2 -> (forall u, In u (dvals d1) -> on_square u) ->
    wing_grid n d2 = map_mesh (fun p => rolled PI (pitched (vx (rx_pivot cs P)) (- (2 * (rx_canard_angle P * (PI / 180)))) p)) (wing_grid n d1).
  Proof using Zs.
    intros E1 E2 SQ. pose proof rx_canard_pts as (_ & _ & _ & _ & _ & PZ).
    destruct (fin_angled bisect (rx_canard cs P (nZ 0) (rx_canard_angle P))) as (base & HB).
    pose proof (HB (ndeg2rad (nZ 0)) (ndeg2rad (rx_canard_angle P))) as B1. pose proof (HB (ndeg2rad (nZ 180)) (ndeg2rad (nneg (rx_canard_angle P)))) as B2.
    change (angled _ (ndeg2rad (nZ 0)) (ndeg2rad (rx_canard_angle P))) with (rx_canard cs P (nZ 0) (rx_canard_angle P)) in B1.
    change (angled _ (ndeg2rad (nZ 180)) (ndeg2rad (nneg (rx_canard_angle P)))) with (rx_canard cs P (nZ 180) (nneg (rx_canard_angle P))) in B2.
    cbn [f_pivot_point rx_canard] in B1, B2.
    rewrite E1 in B1. rewrite E2 in B2. destruct base as [b|]; [|discriminate]. cbn [bind] in B1, B2. apply ok_inj in B1, B2. subst d1 d2.
    assert (A0 : ndeg2rad (N := NumR) (nZ 0) = 0) by (numR; ring). assert (A1 : ndeg2rad (N := NumR) (nZ 180) = PI) by (numR; field). rewrite A0 in SQ |- *. rewrite A1.
    rewrite (angled_grid n (rx_pivot cs P) PI _ _ b PZ SQ). 
    replace (ndeg2rad (nneg (rx_canard_angle P)) - ndeg2rad (rx_canard_angle P)) with (- (2 * (rx_canard_angle P * (PI / 180)))) by (numR; ring). reflexivity.
  Qed.

  (** the tail *)
  Hypothesis Hth : 0 < th.
  Hypothesis Htt : 0 < tt <= 1000.
  Lemma rx_tail_pts : let x := - Lb + 2 * tt in let y := h - 2 / 100 * th in
    rx_t0 P = V3 x y 0 /\ rx_t1 P = V3 x (y + 98 / 100 * th) 0 /\ rx_t2 P = V3 (x + 48 / 100 * th) (y + 96 / 100 * th) 0 /\ rx_t3 P = V3 (x + 12 / 10 * th) (y - 2 / 100 * th) 0.
  Proof using.
    cbv zeta. assert (E : rx_t0 P = V3 (- Lb + 2 * tt) (h - 2 / 100 * th) 0).
    { unfold rx_t0, rx_b1, rx_b0, rx_f1, rx_tail_in, vec2, vadd, vsub, n2. numR. apply vec_ext; cbn; unfold h, Lb, tt, th; field. }
    unfold rx_t2, rx_t1, rx_t3. rewrite E. unfold rx_tail_in, rx_tail_length, vec2, vadd. numR. cbn [vx vy vz].
    repeat split; apply vec_ext; cbn; unfold h, Lb, tt, th; field.
  Qed.
  Lemma rx_tail_ok : in_interval bisect -> answers bisect ->
    exists d, d21_fin_done bisect (rx_tail P) d /\ forall n s p, (s = tt / 2 \/ s = - (tt / 2)) -> p = rx_t0 P \/ p = rx_t1 P \/ p = rx_t3 P ->
      vertex_of (wing_grid n d) (V3 (vx p) s (- vy p)).
  Proof using Hth Htt.
    intros Hi Han. pose proof rx_tail_pts as (P0 & P1 & P2 & P3). cbv zeta in P0, P1, P2, P3.
    destruct (sharp_fin_ok bisect (rx_t0 P) (rx_t1 P) (rx_t2 P) (rx_t3 P) tt (ndeg2rad (nneg (nZ 90))) 0 (vec2 n0 n0) Hi Han) as (d & D & V).
    - rewrite P1, P2, P3. cbn [vx]. lra.
    - rewrite P0. reflexivity.
    - rewrite P1. reflexivity.
    - rewrite P3. reflexivity.
    - reflexivity.
    - exact Htt.
    - exists d. split; [exact D|]. intros n s p Hs Hp. specialize (V n s p Hs Hp). rewrite pitched_0 in V.
      replace (V3 (vx p) s (- vy p)) with (rolled (ndeg2rad (nneg (nZ 90))) (V3 (vx p) (vy p) s)); [exact V|].
      destruct quarter as [C1 C2]. unfold rolled. rewrite C1, C2. apply vec_ext; cbn; ring.
  Qed.
  Lemma rx_tail_tip d : fin_patches bisect (rx_tail P) = Ok d -> forall n p, p = rx_t0 P \/ p = rx_t1 P -> vertex_of (wing_grid n d) (V3 (vx p - tt) 0 (- vy p)).
  Proof using.
    intros E n p Hp.
    pose proof (sharp_fin_tip bisect (rx_t0 P) (rx_t1 P) (rx_t2 P) (rx_t3 P) tt (ndeg2rad (nneg (nZ 90))) 0 (vec2 n0 n0) d eq_refl E n p Hp) as V. rewrite pitched_0 in V.
    replace (V3 (vx p - tt) 0 (- vy p)) with (rolled (ndeg2rad (nneg (nZ 90))) (V3 (vx p - tt) (vy p) 0)); [exact V|].
    destruct quarter as [C1 C2]. unfold rolled. rewrite C1, C2. apply vec_ext; cbn; ring.
  Qed.

  (** the wing *)
  Hypothesis Hwl : 0 < wl.
  Lemma rx_wing_pts : rx_A0 P = V3 (- Lb + 1 / 10 * wl) 0 0 /\ rx_A1 P = V3 (- Lb + 6 / 10 * wl) 0 0 /\ rx_TT P = V3 (- Lb + 11 / 10 * wl) 0 0 /\
    rx_B0 P = V3 (- Lb + 1 / 10 * wl) (ws + h) 0 /\ rx_B1 P = V3 (- Lb + 5 / 10 * wl) (ws + h) 0.
  Proof using.
    assert (E : rx_A0 P = V3 (- Lb + 1 / 10 * wl) 0 0).
    { unfold rx_A0, rx_b1, rx_b0, rx_f1, rx_flap_length, vec2, vsub. numR. apply vec_ext; cbn; unfold Lb, wl; field. }
    unfold rx_B1, rx_B0, rx_A1, rx_TT. rewrite E. unfold rx_flap_length, vec2, vadd, nhalf. numR. cbn [vx vy vz].
    repeat split; apply vec_ext; cbn; unfold Lb, wl, ws, h; field.
  Qed.
  Lemma rx_edge_ok : exists q g, rx_edge P = Ok q /\ evaluates q g /\ g 0 = rx_B0 P /\ g 1 = rx_TT P.
  Proof using Hwl.
    destruct rx_wing_pts as (_ & _ & TT & B0 & B1). unfold rx_edge.
    destruct (chain_evaluates [(rx_B0 P, rx_B1 P); (rx_B1 P, rx_TT P)] (origin, origin)) as (q & g & E & V & G0 & G1).
    - discriminate.
    - repeat constructor; cbn [fst snd]; rewrite ?B0, ?B1, ?TT; intros E; apply (f_equal vx) in E; cbn in E; lra.
    - exists q, g. auto.
  Qed.
  Lemma rx_wing_ok : in_interval bisect -> answers bisect -> exists q d t1, rx_edge P = Ok q /\ wing_patches bisect (rx_wing P q) = Ok d /\ wing_t_B1 bisect (rx_wing P q) = Ok t1 /\
    dkeys d = open_wing_keys /\ (forall u, In u (dvals d) -> on_square u) /\
    (forall n, exists e, In e (mesh_edges (wing_grid n d)) /\ in_plane "y" e) /\
    forall n, vertex_of (wing_grid n d) (V3 (- Lb) 0 (h - 15 / 10 * ft)) /\ vertex_of (wing_grid n d) (V3 (- Lb) (ws + h) (h - 15 / 10 * ft)) /\
      (forall s, s = h - 3 * ft \/ s = h -> vertex_of (wing_grid n d) (V3 (- Lb + 1 / 10 * wl) 0 s) /\ vertex_of (wing_grid n d) (V3 (- Lb + 1 / 10 * wl) (ws + h) s) /\ vertex_of (wing_grid n d) (V3 (- Lb + 11 / 10 * wl) 0 s)).
  Proof using Hwl Hft.
    intros Hi Han. destruct rx_edge_ok as (q & g & Eq & Ev & G0 & G1). destruct rx_wing_pts as (A0 & A1 & TT & B0 & _). set (w := rx_wing P q).
    destruct rx_width_ok as (W & W0 & _).
    assert (Vt : vertical (w_top w) (fun _ _ => h - 3 * ft)) by (intros x y z; unfold w; cbn [w_top rx_wing]; unfold rx_top, rx_wing_thickness; numR; reflexivity).
    assert (Vb : vertical (w_bot w) (fun _ _ => h)) by (intros x y z; reflexivity).
    destruct (wing_made bisect Hi Han w g _ _ (1 / 100) (1 / 100) Ev G0 G1 Vt Vb) as (d & Ed & [t1 T1] & Kd & Sd & (u & Iu & U0 & U1)).
    - reflexivity.
    - reflexivity.
    - reflexivity.
    - reflexivity.
    - reflexivity.
    - unfold w; cbn [w_B0 w_A1 w_TT rx_wing]. rewrite B0, A1, TT. cbn [vx]. lra.
    - intros t Ht. exact (W t Ht).
    - exact W0.
    - apply small_of; [|lra]. unfold half_h. lra.
    - discriminate.
    - exists q, d, t1. split; [exact Eq|]. split; [exact Ed|]. split; [exact T1|]. split; [rewrite Kd; apply app_nil_r|]. split; [exact Sd|]. split.
      + intros n. rewrite <- moved_id. apply (chord_moved (fun p => p) bisect w d g (fun _ _ => h - 3 * ft) n (fun _ H => H) Ed Ev G0 Vt).
        * unfold w; cbn [w_A0 rx_wing]. rewrite A0. reflexivity.
        * unfold w; cbn [w_A1 rx_wing]. rewrite A1. reflexivity.
      + intros n. assert (R1 : INR 0 / INR (S n) = 0) by (cbn [INR]; unfold Rdiv; ring).
        assert (R2 : INR (S n) / INR (S n) = 1) by (field; apply not_0_INR; lia).
        assert (TP : forall p, vz p = 0 -> tip (w_flap_length w) (w_flap_angle w) (SpecWing.lift (mid_h (fun _ _ => h - 3 * ft) (fun _ _ => h)) p) = V3 (vx p - 1 / 10 * wl) (vy p) (h - 15 / 10 * ft)).
        { intros p Z. unfold w, tip, SpecWing.lift, mid_h. cbn [w_flap_length w_flap_angle rx_wing]. unfold rx_flap_length. numR. rewrite cos_0, sin_0.
          apply vec_ext; cbn [vx vy vz]; rewrite ?Z; unfold wl; field. }
        rewrite !TP in U0, U1 by (unfold w; cbn [w_A0 w_B0 rx_wing]; rewrite ?A0, ?B0; reflexivity).
        unfold w in U0, U1. cbn [w_A0 w_B0 rx_wing] in U0, U1. rewrite A0 in U0. rewrite B0 in U1. cbn [vx vy] in U0, U1.
        replace (- Lb + 1 / 10 * wl - 1 / 10 * wl) with (- Lb) in U0, U1 by field.
        destruct (panel_points bisect w g _ _ d n Hi Ev G0 G1 Vt Vb eq_refl Ed) as (PJ & PT & PB).
        destruct (PJ 0%nat ltac:(lia)) as [ZT ZB]. rewrite R1, lerp_0 in ZT, ZB.
        destruct (PJ (S n) (le_n _)) as [QT QB]. rewrite R2, lerp_1 in QT, QB. unfold w in PT, PB, QT, QB, ZT, ZB. cbn [w_TT w_B0 w_A0 rx_wing] in PT, PB, QT, QB, ZT, ZB.
        rewrite TT in PT, PB. rewrite B0 in QT, QB. rewrite A0 in ZT, ZB.
        unfold SpecWing.lift in PT, PB, QT, QB, ZT, ZB. cbn [vx vy vz] in PT, PB, QT, QB, ZT, ZB. rewrite Rplus_0_l in PT, PB, QT, QB, ZT, ZB.
        split; [|split].
        * eapply (node_vertex n d _ u 0 0 _ Iu); [lia|lia|]. rewrite R1. exact U0.
        * eapply (node_vertex n d _ u (S n) 0 _ Iu); [lia|lia|]. rewrite R1, R2. exact U1.
        * intros s [-> | ->]; repeat split; assumption.
  Qed.

  (** the body *)
  Hypothesis HLb : 0 < Lb.
  Lemma rx_body_parts : rx_body_line P = Polyline [Line (V3 0 0 0) (V3 0 h 0); Line (V3 0 h 0) (V3 (- Lb) h 0); Line (V3 (- Lb) h 0) (V3 (- Lb) 0 0)].
  Proof using.
    unfold rx_body_line, rx_bb1. 
    assert (E0 : rx_b0 P = V3 0 h 0) by (unfold rx_b0, rx_f1, vec2, vsub; numR; apply vec_ext; cbn; unfold h; ring).
    assert (E1 : rx_b1 P = V3 (- Lb) h 0) by (unfold rx_b1; rewrite E0; unfold vec2, vsub; numR; apply vec_ext; cbn; unfold Lb; ring).
    rewrite E0, E1. reflexivity.
  Qed.
  Lemma rx_body_draws : exists p, rx_body_line P = Ok p /\ draws h p (V3 0 0 0) (V3 (- Lb) 0 0).
  Proof using Hh HLb.
    rewrite rx_body_parts.
    destruct (draws_polyline h [Line (V3 0 0 0) (V3 0 h 0); Line (V3 0 h 0) (V3 (- Lb) h 0); Line (V3 (- Lb) h 0) (V3 (- Lb) 0 0)]
      [V3 0 0 0; V3 0 h 0; V3 (- Lb) h 0; V3 (- Lb) 0 0]) as (p & Ep & Dp).
    - discriminate.
    - intros k s Es. destruct k as [|[|[|k]]]; cbn in Es; [injection Es as <-..|destruct k; discriminate];
        (apply draws_line; cbn; [try lra..|]; intros Q; injection Q as Q; lra).
    - intros k Hk. cbn [length] in Hk. destruct k as [|[|[|k]]]; [lia| | |lia]; cbn; lra.
    - exists p. auto.
  Qed.
  Lemma rx_sections_are : rx_sections P = rx_parts3 h (- Lb) (- Lb + 9 / 10 * wl) (- Lb + 13 / 10 * wl).
  Proof using.
    unfold rx_sections, rx_bb1.
    assert (E0 : rx_b0 P = V3 0 h 0) by (unfold rx_b0, rx_f1, vec2, vsub; numR; apply vec_ext; cbn; unfold h; ring).
    assert (E1 : rx_b1 P = V3 (- Lb) h 0) by (unfold rx_b1; rewrite E0; unfold vec2, vsub; numR; apply vec_ext; cbn; unfold Lb; ring).
    rewrite E1. unfold vec2. cbn [vx]. reflexivity.
  Qed.
End Shapes.
