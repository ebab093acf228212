(** Seams between the patches of a fin. *)
From Coq Require Import Reals Lra String List Lia ZArith Bool.
From Verif Require Import Num NumR Py M_Vector SpecR3 M_Path M_Surface M_Geometry M_Component M_Common M_Fin
  SpecPath SpecPoly SpecSurf SpecWing SpecFin L_Vector L_Line L_Polyline L_Coons L_ArcLength L_Curves L_Rigid L_Ellipse L_Wing L_WingOk L_Fin.
Import ListNotations.
Local Open Scope R_scope.

Lemma el_pt_even c h k sd r : el_pt c (- h) k sd r = el_pt c h k sd r.
Proof. unfold el_pt. rewrite Rabs_Ropp. reflexivity. Qed.
Lemma el_u_even h k sd t : el_u (- h) k sd t = el_u h k sd t.
Proof. unfold el_u. apply ut_ext. intros. rewrite !el_pt_even. reflexivity. Qed.
Local Opaque el_u MeanLeadingEdgePatchFunction ArcLengthParameterizedPath.

(** ** distances *)
Lemma sqrt_sum x y : 0 <= x -> 0 <= y -> sqrt (x * x + y * y) <= x + y.
Proof.
  intros Hx Hy. rewrite <- (sqrt_Rsqr (x + y)) by lra. apply sqrt_le_1_alt. unfold Rsqr. nra.
Qed.
Lemma dist_le_hv (P Q : pt) x y : 0 <= x -> 0 <= y ->
  (vx P - vx Q) * (vx P - vx Q) + (vy P - vy Q) * (vy P - vy Q) <= x * x ->
  Rabs (vz P - vz Q) <= y -> dist P Q <= x + y.
Proof.
  intros Hx Hy H1 H2. eapply Rle_trans; [|apply (sqrt_sum x y Hx Hy)]. unfold dist. apply sqrt_le_1_alt.
  assert ((vz P - vz Q) * (vz P - vz Q) <= y * y).
  { pose proof (Rabs_pos (vz P - vz Q)).
    replace ((vz P - vz Q) * (vz P - vz Q)) with (Rabs (vz P - vz Q) * Rabs (vz P - vz Q)); [nra|].
    unfold Rabs; destruct (Rcase_abs _); ring. }
  lra.
Qed.
Lemma ellipse_gap_nonneg b W : 0 <= b -> 0 < W -> 0 <= b / tan_big /\ 0 <= b * (b * b) / (2 * (W * W) * (tan_big * tan_big)).
Proof.
  intros Hb HW. assert (0 < tan_big) by (unfold tan_big; lra). split.
  - apply Rmult_le_pos; [exact Hb|]. left; apply Rinv_0_lt_compat; assumption.
  - apply Rmult_le_pos; [nra|]. left; apply Rinv_0_lt_compat. assert (0 < W * W) by nra. assert (0 < tan_big * tan_big) by nra. nra.
Qed.
Lemma within_apart b B W P Q : 0 < W -> 0 <= b <= B -> within b W P Q -> dist P Q <= ellipse_gap B W.
Proof.
  intros HW Hb [H1 H2]. unfold ellipse_gap. fold tan_big in *. assert (0 < tan_big) by (unfold tan_big; lra).
  destruct (ellipse_gap_nonneg b W) as [G1 G2]; [lra|lra|].
  eapply Rle_trans; [apply (dist_le_hv P Q _ _ G1 G2 H1 H2)|].
  clear H1 H2 G1 G2 P Q. apply Rplus_le_compat; unfold Rdiv; apply Rmult_le_compat_r.
  - left; apply Rinv_0_lt_compat; assumption.
  - lra.
  - left; apply Rinv_0_lt_compat. assert (0 < W * W) by nra. assert (0 < tan_big * tan_big) by nra. nra.
  - apply Rmult_le_compat; [lra|nra|lra|nra].
Qed.
Lemma flat_le (P Q : pt) : dist (V3 (vx P) (vy P) 0) (V3 (vx Q) (vy Q) 0) <= dist P Q.
Proof. unfold dist; cbn [vx vy vz]. apply sqrt_le_1_alt. pose proof (Rle_0_sqr (vz P - vz Q)). unfold Rsqr in *. lra. Qed.
Lemma lift_lipschitz K h P Q : 0 <= K -> lipschitz K h -> dist (lift h P) (lift h Q) <= (1 + K) * dist P Q.
Proof.
  intros HK H. set (P' := V3 (vx Q) (vy Q) (vz Q + h (vx P) (vy P))).
  eapply Rle_trans; [apply (dist_triangle (lift h P) P' (lift h Q))|].
  replace ((1 + K) * dist P Q) with (dist P Q + K * dist P Q) by ring. apply Rplus_le_compat.
  - apply Req_le. unfold dist, P', lift; cbn [vx vy vz]. f_equal. ring.
  - eapply Rle_trans.
    2:{ apply Rmult_le_compat_l; [exact HK|apply flat_le]. }
    eapply Rle_trans; [|apply H]. unfold dist, P', lift; cbn [vx vy vz].
    match goal with |- sqrt ?x <= _ => replace x with (Rsqr (h (vx P) (vy P) - h (vx Q) (vy Q))) by (unfold Rsqr; ring) end.
    rewrite sqrt_Rsqr_abs. apply Rle_refl.
Qed.
Lemma bent_lipschitz p1 p2 p3 : p1 <> p2 -> p2 <> p3 -> forall a b,
  dist (bent p1 p2 p3 a) (bent p1 p2 p3 b) <= (dist p1 p2 + dist p2 p3) * Rabs (a - b).
Proof.
  intros H12 H23. set (T := corner_time p1 p2 p3). set (L := dist p1 p2 + dist p2 p3).
  pose proof (corner_range p1 p2 p3 H12 H23) as HT. fold T in HT.
  pose proof (corner_L p1 p2 p3 H12 H23) as [L1 L2]. fold T L in L1, L2.
  assert (S : forall a b, a <= b -> dist (bent p1 p2 p3 a) (bent p1 p2 p3 b) <= L * Rabs (a - b)).
  { intros a b Hab. pose proof (bent_speed p1 p2 p3 H12 H23) as SP. fold T L in SP.
    destruct (Rle_dec b T) as [Hb|Hb]; [|destruct (Rle_dec a T) as [Ha|Ha]].
    - unfold bent. fold T. destruct (Rle_dec a T); [|lra]. destruct (Rle_dec b T); [|lra].
      rewrite line_speed. replace (a / T - b / T) with ((a - b) / T) by (field; lra).
      unfold Rdiv. rewrite Rabs_mult, (Rabs_pos_eq (/ T)) by (left; apply Rinv_0_lt_compat; lra).
      rewrite <- L1. apply Req_le. field. lra.
    - eapply Rle_trans; [apply (dist_triangle _ (bent p1 p2 p3 T))|]. rewrite (dist_sym (bent p1 p2 p3 a)), !SP.
      apply Req_le. rewrite <- Rmult_plus_distr_l. f_equal.
      rewrite (Rabs_pos_eq (T - a)) by lra. rewrite (Rabs_left1 (T - b)) by lra. rewrite (Rabs_left1 (a - b)) by lra. ring.
    - unfold bent. fold T. destruct (Rle_dec a T); [lra|]. destruct (Rle_dec b T); [lra|].
      rewrite line_speed. replace ((a - T) / (1 - T) - (b - T) / (1 - T)) with ((a - b) / (1 - T)) by (field; lra).
      unfold Rdiv. rewrite Rabs_mult, (Rabs_pos_eq (/ (1 - T))) by (left; apply Rinv_0_lt_compat; lra).
      rewrite <- L2. apply Req_le. field. lra. }
  intros a b. destruct (Rle_dec a b) as [H|H]; [apply S, H|]. rewrite dist_sym, Rabs_minus_sym. apply S. lra.
Qed.

Lemma Rround_err6 x : Rabs (x - Rround 6 x) <= 5 / 10000000.
Proof.
  unfold Rround. assert (E : powerRZ 10 6 = 1000000) by (simpl; lra).
  rewrite E. pose proof (Rrne_spec (x * 1000000)) as H.
  assert (A : - (1 / 2) <= IZR (Rrne (x * 1000000)) - x * 1000000 <= 1 / 2 \/ - (1 / 2) <= x * 1000000 - IZR (Rrne (x * 1000000)) <= 1 / 2)
    by (unfold Rabs in H; destruct (Rcase_abs _) in H; lra).
  apply Rabs_le. lra.
Qed.

(** ** carrying seams through a motion of all patches *)
Definition moved (M : pt -> pt) (F : surf R -> surf R) : Prop := forall u, map_surf M u (F u).
Lemma dget_dmap {A B} (F : A -> B) d k : dget (dmap F d) k = option_map F (dget d k).
Proof.
  induction d as [|[k' v] d IH]; [reflexivity|]. cbn [dmap map fst snd dget]. cbn [dmap map] in IH.
  destruct (String.eqb k k'); [reflexivity|exact IH].
Qed.
Lemma joined_moved M F d a ea b eb f (c c' : pt -> pt -> Prop) : moved M F ->
  (forall P Q, c P Q -> c' (M P) (M Q)) -> joined d a ea b eb f c -> joined (dmap F d) a ea b eb f c'.
Proof.
  intros HM Hc (u & v & E1 & E2 & S). exists (F u), (F v). rewrite !dget_dmap, E1, E2.
  split; [reflexivity|]. split; [reflexivity|]. intros t Ht. destruct (S t Ht) as (P & Q & A & B & C).
  exists (M P), (M Q). split; [apply (HM u), A|]. split; [apply (HM v), B|]. apply Hc, C.
Qed.

Section Fin.
  Variable bisect : (R -> res R) -> R -> R -> res R.
  Variable f : fin R.
  Hypothesis Hoff : f_offset f = None.

  Definition turned (u : surf R) : surf R :=
    RotatedPatch (RotatedPatch u (f_pivot_angle f) "y" (f_pivot_point f)) (f_angle f) "x" default_point.
  Definition motion (p : pt) : pt :=
    rodrigues (axis_vec "x") default_point (f_angle f) (rodrigues (axis_vec "y") (f_pivot_point f) (f_pivot_angle f) p).
  Lemma turned_moved : moved motion turned.
  Proof using.
    intros u r s. unfold turned, motion.
    pose proof (rotated_map u (f_pivot_angle f) "y" (f_pivot_point f) ltac:(right; left; reflexivity) r s) as [A B].
    pose proof (rotated_map (RotatedPatch u (f_pivot_angle f) "y" (f_pivot_point f)) (f_angle f) "x" default_point
      ltac:(left; reflexivity) r s) as [C D].
    split; intros x Hx; [apply C, A, Hx|apply D, B, Hx].
  Qed.
  Lemma motion_isometry : isometry motion.
  Proof using.
    intros a b. unfold motion. rewrite (rodrigues_isometry "x") by (left; reflexivity).
    apply rodrigues_isometry. right; left; reflexivity.
  Qed.

  Lemma fin_inv d : fin_patches bisect f = Ok d ->
    exists p1p3 panels t1 bottom trailing,
      fin_edge f = Ok p1p3 /\ fin_panels f = Ok panels /\ fin_t_B1 bisect f p1p3 = Ok t1 /\
      fin_bottom f = Ok bottom /\
      (if String.eqb (f_rudder f) "sharp" then fin_sharp f else fin_flat f) = Ok trailing /\
      d = dmap turned (panels ++ fin_leading_edge f p1p3 t1 ++ bottom ++ trailing).
  Proof using Hoff.
    unfold fin_patches. intros H.
    destruct (fin_edge f) as [e|] eqn:E1; [|discriminate H]. cbn [bind] in H.
    destruct (fin_panels f) as [pa|] eqn:E2; [|discriminate H]. cbn [bind] in H.
    destruct (fin_t_B1 bisect f e) as [t1|] eqn:E3; [|discriminate H]. cbn [bind] in H.
    destruct (fin_bottom f) as [bo|] eqn:E4; [|discriminate H]. cbn [bind] in H.
    destruct (if String.eqb (f_rudder f) "sharp" then fin_sharp f else fin_flat f) as [tr|] eqn:E5; [|discriminate H].
    cbn [bind] in H. rewrite Hoff in H. injection H as <-.
    exists e, pa, t1, bo, tr. repeat (split; [assumption || reflexivity|]).
    unfold dmap. rewrite map_map. reflexivity.
  Qed.

  Lemma panels_inv d : fin_panels f = Ok d -> exists top bot,
    d = [("top_patch", OffsetPatchFunction top (f_top f)); ("bot_patch", OffsetPatchFunction bot (f_bot f))]%string /\
    (forall t, top 0 t = Ok (lerp t (f_p0 f) (f_p3 f))) /\ (forall t, top 1 t = Ok (lerp t (f_p1 f) (f_p2 f))) /\
    (forall t, top t 0 = Ok (lerp t (f_p0 f) (f_p1 f))) /\ (forall t, top t 1 = Ok (lerp t (f_p3 f) (f_p2 f))) /\
    (forall t, bot 0 t = Ok (lerp t (f_p0 f) (f_p1 f))) /\ (forall t, bot 1 t = Ok (lerp t (f_p3 f) (f_p2 f))) /\
    (forall t, bot t 0 = Ok (lerp t (f_p0 f) (f_p3 f))) /\ (forall t, bot t 1 = Ok (lerp t (f_p1 f) (f_p2 f))).
  Proof using.
    unfold fin_panels. intros H.
    destruct (CoonsPatch (Line (f_p1 f) (f_p2 f)) _ _ _) as [bot|] eqn:B; [|discriminate H]. cbn [bind] in H.
    destruct (CoonsPatch (Line (f_p3 f) (f_p2 f)) _ _ _) as [top|] eqn:A; [|discriminate H]. cbn [bind] in H.
    injection H as <-. exists top, bot. split; [reflexivity|].
    destruct (coons_surf _ _ _ _ _ _ _ _ bot (line_evaluates _ _) (line_evaluates _ _) (line_evaluates _ _) (line_evaluates _ _) B)
      as (B1 & B2 & B3 & B4); rewrite ?lerp_0, ?lerp_1; auto.
    destruct (coons_surf _ _ _ _ _ _ _ _ top (line_evaluates _ _) (line_evaluates _ _) (line_evaluates _ _) (line_evaluates _ _) A)
      as (A1 & A2 & A3 & A4); rewrite ?lerp_0, ?lerp_1; auto.
    repeat (split; [assumption|]). assumption.
  Qed.

  (** the parameter of the corner *)
  Lemma edge_evaluates q : f_p1 f <> f_p2 f -> f_p2 f <> f_p3 f -> fin_edge f = Ok q -> evaluates q (bent (f_p1 f) (f_p2 f) (f_p3 f)).
  Proof using.
    intros H12 H23. unfold fin_edge. destruct (bent_evaluates _ _ _ H12 H23) as (q' & -> & E). intros H; injection H as <-. exact E.
  Qed.
  Lemma corner_found tol q t1 : finds_root tol bisect -> f_p1 f <> f_p2 f -> f_p2 f <> f_p3 f ->
    evaluates q (bent (f_p1 f) (f_p2 f) (f_p3 f)) -> fin_t_B1 bisect f q = Ok t1 ->
    0 <= t1 <= 1 /\
    (vx (f_p1 f) <> vx (f_p2 f) -> vx (f_p2 f) <> vx (f_p3 f) ->
     Rabs (corner_time (f_p1 f) (f_p2 f) (f_p3 f) - t1) <= tol + 5 / 10000000).
  Proof using.
    intros Hb H12 H23 Hq. unfold fin_t_B1; numR. set (g := bent (f_p1 f) (f_p2 f) (f_p3 f)) in *.
    destruct (bisect _ 0 1) as [t|] eqn:E; [|discriminate]. cbn [bind]. intros H; injection H as <-.
    match type of E with bisect ?F 0 1 = _ =>
      assert (HR : 0 <= t <= 1 /\ exists r, 0 <= r <= 1 /\ vx (g r) - vx (f_p2 f) = 0 /\ Rabs (t - r) <= tol);
      [apply (Hb F (fun x => vx (g x) - vx (f_p2 f)) (dist (f_p1 f) (f_p2 f) + dist (f_p2 f) (f_p3 f)) 0 1 t); [| |exact E]|] end.
    { intros x _. rewrite (Hq x). reflexivity. }
    { intros x y. eapply Rle_trans; [|apply (bent_lipschitz _ _ _ H12 H23)]. fold g.
      replace (vx (g x) - vx (f_p2 f) - (vx (g y) - vx (f_p2 f))) with (vx (g x) - vx (g y)) by ring.
      unfold dist. rewrite <- sqrt_Rsqr_abs. apply sqrt_le_1_alt. unfold Rsqr.
      pose proof (Rle_0_sqr (vy (g x) - vy (g y))). pose proof (Rle_0_sqr (vz (g x) - vz (g y))). unfold Rsqr in *. lra. }
    destruct HR as (R1 & r & Rr & Er & D).
    split; [apply Rround_unit; [exact R1|lia]|]. intros X12 X23.
    set (T := corner_time (f_p1 f) (f_p2 f) (f_p3 f)). pose proof (corner_range _ _ _ H12 H23) as HT. fold T in HT.
    assert (r = T) as ->.
    { unfold g, bent in Er. fold T in Er. destruct (Rle_dec r T) as [H|H].
      - unfold lerp in Er; cbn [vx] in Er.
        assert (K : (1 - r / T) * (vx (f_p1 f) - vx (f_p2 f)) = 0) by lra.
        apply Rmult_integral in K. destruct K as [K|K]; [|lra]. replace r with (r / T * T) by (field; lra). replace (r / T) with 1 by lra. ring.
      - unfold lerp in Er; cbn [vx] in Er.
        assert (K : ((r - T) / (1 - T)) * (vx (f_p3 f) - vx (f_p2 f)) = 0) by lra.
        apply Rmult_integral in K. destruct K as [K|K]; [|lra].
        assert (r - T = 0) by (replace (r - T) with ((r - T) / (1 - T) * (1 - T)) by (field; lra); rewrite K; ring). lra. }
    pose proof (Rround_err6 t) as RE.
    replace (T - Rround 6 t) with (- (t - T) + (t - Rround 6 t)) by ring.
    eapply Rle_trans; [apply Rabs_triang|]. rewrite Rabs_Ropp. lra.
  Qed.

  Section Leading.
    Variables (ft fb : R -> R -> R) (K B W : R).
    Notation p1 := (f_p1 f).
    Notation p2 := (f_p2 f).
    Notation p3 := (f_p3 f).
    Notation g := (bent p1 p2 p3).
    Notation T := (corner_time p1 p2 p3).
    Notation L := (dist p1 p2 + dist p2 p3).
    Hypothesis H12 : p1 <> p2.
    Hypothesis H23 : p2 <> p3.
    Hypothesis Htop : vertical (f_top f) ft.
    Hypothesis Hbot : vertical (f_bot f) fb.
    Hypothesis Hthick : forall t, 0 <= t <= 1 -> 0 < half_h ft fb (vx (g t)) (vy (g t)) <= B.
    Hypothesis HW : 0 < W.
    Hypothesis Hwf : forall t, 0 <= t <= 1 -> exists k, fin_width f t = Ok k /\ W <= k.
    Variables (q : path R) (t1 : R).
    Hypothesis Hq : evaluates q g.
    Hypothesis Ht1 : 0 <= t1 <= 1.
    Notation LE := (fin_leading_edge f q t1).

    Lemma thick_lt t : 0 <= t <= 1 -> ft (vx (g t)) (vy (g t)) < fb (vx (g t)) (vy (g t)).
    Proof using Hthick. intros H. pose proof (Hthick t H) as [A _]. unfold half_h in A. lra. Qed.


    Lemma edge_gap h a t P Q : 0 <= K -> lipschitz K h -> 0 <= t <= 1 -> P = lift h (g a) ->
      within_at (half_h ft fb) W (lift h (g t)) Q -> Rabs (a - t) <= Rabs (T - t1) ->
      dist P Q <= ellipse_gap B W + (1 + K) * (L * Rabs (T - t1)).
    Proof using Hthick HW H12 H23.
      intros HK Hl Ht -> Hw Ha. pose proof (Hthick t Ht) as HB.
      eapply Rle_trans; [apply (dist_triangle _ (lift h (g t)))|]. rewrite Rplus_comm. apply Rplus_le_compat.
      - unfold within_at in Hw. cbn [lift vx vy] in Hw. apply (within_apart _ B W _ _ HW) in Hw; [exact Hw|lra].
      - eapply Rle_trans; [apply (lift_lipschitz K h _ _ HK Hl)|]. apply Rmult_le_compat_l; [lra|].
        eapply Rle_trans; [apply (bent_lipschitz p1 p2 p3 H12 H23)|]. apply Rmult_le_compat_l; [|exact Ha].
        pose proof (dist_nonneg p1 p2). pose proof (dist_nonneg p2 p3). lra.
    Qed.
    Lemma first_part t : 0 <= t <= 1 -> lerp t p1 p2 = g (T * t) /\ Rabs (T * t - t1 * t) <= Rabs (T - t1).
    Proof using H12 H23.
      intros H. split; [symmetry; apply bent_first; try assumption; lra|].
      replace (T * t - t1 * t) with ((T - t1) * t) by ring. rewrite Rabs_mult, (Rabs_pos_eq t) by lra.
      pose proof (Rabs_pos (T - t1)). nra.
    Qed.
    Lemma second_part t : 0 <= t <= 1 -> lerp t p3 p2 = g (T + (1 - T) * (1 - t)) /\
      Rabs (T + (1 - T) * (1 - t) - (1 - t * (1 - t1))) <= Rabs (T - t1).
    Proof using H12 H23.
      intros H. split.
      - rewrite (bent_second p1 p2 p3 H12 H23) by lra. unfold lerp; apply vec_ext; cbn [vx vy vz]; ring.
      - replace (T + (1 - T) * (1 - t) - (1 - t * (1 - t1))) with ((T - t1) * t) by ring.
        rewrite Rabs_mult, (Rabs_pos_eq t) by lra. pose proof (Rabs_pos (T - t1)). nra.
    Qed.

    Notation top_edge := (OffsetPathFunction q (f_top f)).
    Notation bot_edge := (OffsetPathFunction q (f_bot f)).
    Notation mean := (GeometricMeanPathFunction top_edge bot_edge).
    Notation le guide a b sd := (MeanLeadingEdgePatchFunction mean guide (fin_width f) a b sd).
    Definition miss : R := ellipse_gap B W + (1 + K) * (L * Rabs (T - t1)).

    (** panels against the leading edge *)
    Lemma leading_seams top bot : 0 <= K -> lipschitz K ft -> lipschitz K fb ->
      (forall t, top 1 t = Ok (lerp t p1 p2)) -> (forall t, top t 1 = Ok (lerp t p3 p2)) ->
      (forall t, bot 1 t = Ok (lerp t p3 p2)) -> (forall t, bot t 1 = Ok (lerp t p1 p2)) ->
      seam (OffsetPatchFunction top (f_top f)) r1 (le top_edge 0 t1 "top") s0 reversed (apart miss) /\
      seam (OffsetPatchFunction top (f_top f)) s1 (le top_edge t1 1 "top") s0 along (apart miss) /\
      seam (OffsetPatchFunction bot (f_bot f)) s1 (le bot_edge 0 t1 "bot") s1 reversed (apart miss) /\
      seam (OffsetPatchFunction bot (f_bot f)) r1 (le bot_edge t1 1 "bot") s1 along (apart miss).
    Proof using H12 H23 Htop Hbot Hthick HW Hwf Hq Ht1.
      intros HK Lt Lb A1 A2 B1 B2.
      pose proof (le_top_edge q g _ _ ft fb (fin_width f) W Hq Htop Hbot thick_lt HW Hwf) as ET.
      pose proof (le_bot_edge q g _ _ ft fb (fin_width f) W Hq Htop Hbot thick_lt HW Hwf) as EB.
      repeat split; intros t Ht; cbn [on_side fst snd]; unfold along, reversed.
      - destruct (ET 0 t1 (1 - t) (t1 * t)) as (Q & EQ & Hw); [ring|nra|].
        exists (lift ft (lerp t p1 p2)), Q. split; [apply offset_patch; auto|]. split; [exact EQ|].
        destruct (first_part t Ht) as [E1 E2]. rewrite E1. unfold apart, miss.
        apply (edge_gap ft (T * t) (t1 * t)); auto. nra.
      - destruct (ET t1 1 t (1 - t * (1 - t1))) as (Q & EQ & Hw); [ring|nra|].
        exists (lift ft (lerp t p3 p2)), Q. split; [apply offset_patch; auto|]. split; [exact EQ|].
        destruct (second_part t Ht) as [E1 E2]. rewrite E1. unfold apart, miss.
        apply (edge_gap ft (T + (1 - T) * (1 - t)) (1 - t * (1 - t1))); auto. nra.
      - destruct (EB 0 t1 (1 - t) (t1 * t)) as (Q & EQ & Hw); [ring|nra|].
        exists (lift fb (lerp t p1 p2)), Q. split; [apply offset_patch; auto|]. split; [exact EQ|].
        destruct (first_part t Ht) as [E1 E2]. rewrite E1. unfold apart, miss.
        apply (edge_gap fb (T * t) (t1 * t)); auto. nra.
      - destruct (EB t1 1 t (1 - t * (1 - t1))) as (Q & EQ & Hw); [ring|nra|].
        exists (lift fb (lerp t p3 p2)), Q. split; [apply offset_patch; auto|]. split; [exact EQ|].
        destruct (second_part t Ht) as [E1 E2]. rewrite E1. unfold apart, miss.
        apply (edge_gap fb (T + (1 - T) * (1 - t)) (1 - t * (1 - t1))); auto. nra.
    Qed.

    (** the leading edge patches among themselves *)
    Lemma section_seams :
      seam (le top_edge 0 t1 "top") s1 (le bot_edge 0 t1 "bot") s0 along same /\
      seam (le top_edge t1 1 "top") s1 (le bot_edge t1 1 "bot") s0 along same /\
      seam (le top_edge 0 t1 "top") r0 (le top_edge t1 1 "top") r1 along same /\
      seam (le bot_edge 0 t1 "bot") r0 (le bot_edge t1 1 "bot") r1 along same.
    Proof using Htop Hbot Hthick HW Hwf Hq Ht1.
      pose proof (le_tip q g _ _ ft fb (fin_width f) W Hq Htop Hbot thick_lt HW Hwf) as TP.
      pose proof (le_section q g _ _ ft fb (fin_width f) W Hq Htop Hbot thick_lt Hwf) as SC.
      repeat split; intros t Ht; cbn [on_side fst snd]; unfold along.
      - destruct (TP 0 t1 t (t1 - t * (t1 - 0)) eq_refl) as (Q & E1 & E2); [nra|]. exists Q, Q. repeat split; assumption.
      - destruct (TP t1 1 t (1 - t * (1 - t1)) eq_refl) as (Q & E1 & E2); [nra|]. exists Q, Q. repeat split; assumption.
      - destruct (SC 0 t1 0 t1) as (k & al & _ & Ek & Ea & _ & E1 & _); [ring|lra|].
        destruct (SC t1 1 1 t1) as (k' & al' & _ & Ek' & Ea' & _ & E2 & _); [ring|lra|].
        rewrite Ek in Ek'. injection Ek' as <-. rewrite Ea in Ea'. injection Ea' as <-.
        eexists _, _. split; [apply E1|]. split; [apply E2|]. reflexivity.
      - destruct (SC 0 t1 0 t1) as (k & al & _ & Ek & Ea & _ & _ & E1); [ring|lra|].
        destruct (SC t1 1 1 t1) as (k' & al' & _ & Ek' & Ea' & _ & _ & E2); [ring|lra|].
        rewrite Ek in Ek'. injection Ek' as <-. rewrite Ea in Ea'. injection Ea' as <-.
        eexists _, _. split; [apply E1|]. split; [apply E2|]. reflexivity.
    Qed.

    (** at the corner the miss is at least the distance from the end of the panel's edge *)
    Lemma corner_miss h : 0 <= K -> (forall x y, h x y = h 0 0) -> forall Q,
      within_at (half_h ft fb) W (lift h (g t1)) Q ->
      L * Rabs (T - t1) - ellipse_gap B W <= dist (lift h p2) Q.
    Proof using Hthick HW H12 H23 Ht1.
      intros HK Hc Q Hw. pose proof (Hthick t1 Ht1) as HB.
      unfold within_at in Hw. cbn [lift vx vy] in Hw. apply (within_apart _ B W _ _ HW) in Hw; [|lra].
      destruct (bent_ends p1 p2 p3 H12 H23) as (_ & Ec & _).
      pose proof (bent_speed p1 p2 p3 H12 H23 t1) as SP. rewrite Ec in SP.
      assert (E : dist (lift h p2) (lift h (g t1)) = L * Rabs (T - t1)).
      { rewrite <- SP. unfold dist, lift; cbn [vx vy vz]. rewrite (Hc (vx p2)), (Hc (vx (g t1))). f_equal. ring. }
      pose proof (dist_triangle (lift h p2) Q (lift h (g t1))). rewrite (dist_sym Q) in H. lra.
    Qed.
  End Leading.

  (** ** fins of uniform thickness *)
  Definition at_side (u : surf R) (e : side) (g : R -> pt) : Prop :=
    forall t, u (fst (on_side e t)) (snd (on_side e t)) = Ok (g t).
  Definition by_side (eps : R) (u : surf R) (e : side) (g : R -> pt) : Prop :=
    forall t, 0 <= t <= 1 -> exists Q, u (fst (on_side e t)) (snd (on_side e t)) = Ok Q /\ dist Q (g t) <= eps.
  Lemma seam_at u ea v eb phi gu gv : at_side u ea gu -> at_side v eb gv ->
    (forall t, gu t = gv (phi t)) -> seam u ea v eb phi same.
  Proof using.
    intros A B E t Ht. rewrite (A t), (B (phi t)). eexists _, _. split; [reflexivity|]. split; [reflexivity|]. apply E.
  Qed.
  Lemma seam_by eps u ea v eb phi gu gv : by_side eps u ea gu -> at_side v eb gv ->
    (forall t, gu t = gv (phi t)) -> seam u ea v eb phi (apart eps).
  Proof using.
    intros A B E t Ht. destruct (A t Ht) as (Q & EQ & D). rewrite (B (phi t)). exists Q, (gv (phi t)).
    split; [exact EQ|]. split; [reflexivity|]. rewrite <- E. exact D.
  Qed.
  Lemma seam_to eps u ea v eb phi gu gv : at_side u ea gu -> by_side eps v eb gv ->
    (forall t, 0 <= t <= 1 -> 0 <= phi t <= 1) ->
    (forall t, gu t = gv (phi t)) -> seam u ea v eb phi (apart eps).
  Proof using.
    intros A B HF E t Ht. destruct (B (phi t) (HF t Ht)) as (Q & EQ & D). rewrite (A t). exists (gu t), Q.
    split; [reflexivity|]. split; [exact EQ|]. unfold apart. rewrite E, dist_sym. exact D.
  Qed.
  Lemma lerp_rev t (x y : pt) : lerp t x y = lerp (reversed t) y x.
  Proof using. unfold lerp, reversed; apply vec_ext; cbn [vx vy vz]; ring. Qed.

  Section Uniform.
    Variables (h W : R).
    Hypothesis Hh : 0 < h.
    Hypothesis HW : 0 < W.
    Hypothesis Hthk : f_thickness f = 2 * h.
    Hypothesis Htop : vertical (f_top f) (fun _ _ => - h).
    Hypothesis Hbot : vertical (f_bot f) (fun _ _ => h).
    Hypothesis Hwf : forall t, 0 <= t <= 1 -> exists k, fin_width f t = Ok k /\ W <= k.
    Notation gap := (ellipse_gap h W).
    Notation up := (lift (fun _ _ => - h)).
    Notation dn := (lift (fun _ _ => h)).

    Lemma above_up p : fin_above f p = up p.
    Proof using Hthk. unfold fin_above, lift, vsub; numR. rewrite Hthk. apply vec_ext; cbn [vx vy vz]; field. Qed.
    Lemma below_dn p : fin_below f p = dn p.
    Proof using Hthk. unfold fin_below, lift, vadd; numR. rewrite Hthk. apply vec_ext; cbn [vx vy vz]; field. Qed.

    Definition arc (p : pt) (k : R) (sd : string) (t : R) : pt := el_pt p h k sd (el_u h k sd t).

    Lemma ellipses_inv p t et eb : 0 <= t <= 1 -> fin_ellipses f p t = Ok (et, eb) ->
      exists k, fin_width f t = Ok k /\ W <= k /\ evaluates et (arc p k "top") /\ evaluates eb (arc p k "bot").
    Proof using Htop Hbot Hwf.
      intros Ht. unfold fin_ellipses. rewrite Htop, Hbot. cbn [bind vz].
      destruct (Hwf t Ht) as (k & Ek & Lk). rewrite Ek. cbn [bind].
      destruct (elipse_arc p (- h) k "top") as (q & Eq & Vt); [auto|]. rewrite Eq. cbn [bind].
      destruct (elipse_arc p h k "bot") as (q' & Eq' & Vb); [auto|]. rewrite Eq'. cbn [bind].
      intros H. injection H as <- <-. exists k. split; [reflexivity|]. split; [exact Lk|]. split; [|exact Vb].
      intros s. rewrite (Vt s). unfold arc. rewrite el_u_even, el_pt_even. reflexivity.
    Qed.
    Lemma arc_ends p k : W <= k ->
      arc p k "top" 0 = V3 (vx p) (vy p + gap_h k h) (vz p - h + gap_v k h) /\
      arc p k "top" 1 = V3 (vx p) (vy p + k) (vz p) /\
      arc p k "bot" 0 = V3 (vx p) (vy p + k) (vz p) /\
      arc p k "bot" 1 = V3 (vx p) (vy p + gap_h k h) (vz p + h - gap_v k h).
    Proof using Hh HW.
      intros Hk. destruct (el_u_ends h k "top") as [U0 U1]; [lra|lra|auto|].
      destruct (el_u_ends h k "bot") as [V0 V1]; [lra|lra|auto|].
      destruct (el_pt_ends p h k) as (X0 & X1 & Y0 & Y1); [lra|lra|].
      unfold arc. rewrite U0, U1, V0, V1, X0, X1, Y0, Y1. rewrite (Rabs_pos_eq h) by lra. auto.
    Qed.
    Lemma near_part k c c' P Q : W <= k -> -1 <= c <= 1 -> -1 <= c' <= 1 ->
      vx P = vx Q -> vy P - vy Q = c * gap_h k h -> vz P - vz Q = c' * gap_v k h -> dist P Q <= gap.
    Proof using Hh HW.
      intros Hk Hc Hc' Ex Ey Ez. apply (within_apart h h W P Q HW); [lra|].
      apply (within_part W HW h k c c' Hh Hk Hc Hc'); assumption.
    Qed.
    Lemma near_turn k c c' P Q : W <= k -> -1 <= c <= 1 -> -1 <= c' <= 1 ->
      vx P - vx Q = c * gap_h k h -> vy P = vy Q -> vz P - vz Q = c' * gap_v k h -> dist P Q <= gap.
    Proof using Hh HW.
      intros Hk Hc Hc' Ex Ey Ez. apply (within_apart h h W P Q HW); [lra|].
      apply (within_turn W HW h k c c' Hh Hk Hc Hc'); assumption.
    Qed.

    (** a quarter turn about the vertical through p *)
    Definition quarter (p q : pt) : pt := V3 (vx p + (vy q - vy p)) (vy p - (vx q - vx p)) (vz q).
    Lemma quarter_turn e p r s q : e r s = Ok q ->
      RotatedPatch e (ndeg2rad (nZ (-90))) "z" p r s = Ok (quarter p q).
    Proof using.
      intros Ep. unfold RotatedPatch. rewrite Ep. cbn [bind]. unfold rotate_vec, lower_axis; cbn [String.eqb Ascii.eqb Bool.eqb bind].
      numR. replace (-90 * (PI / 180)) with (- (PI / 2)) by field. rewrite cos_neg, sin_neg, cos_PI2, sin_PI2.
      f_equal. unfold quarter, vsub, vadd; numR. apply vec_ext; cbn [vx vy vz]; ring.
    Qed.

    Ltac corners := rewrite ?lerp_0, ?lerp_1; auto.
    Ltac lines := repeat first [apply line_evaluates | apply sub_evaluates].

    Lemma bottom_inv d : fin_bottom f = Ok d -> exists k e b1 b2,
      d = [("bot_ellip", e); ("bot_1", b1); ("bot_2", b2)]%string /\ fin_width f 1 = Ok k /\ W <= k /\
      (at_side e r0 (fun t => lerp t (up (f_p3 f)) (f_p3 f)) /\
       at_side e r1 (fun t => quarter (f_p3 f) (arc (f_p3 f) k "bot" t)) /\
       by_side gap e s0 (fun t => quarter (f_p3 f) (arc (f_p3 f) k "top" t)) /\
       by_side gap e s1 (fun t => lerp t (f_p3 f) (dn (f_p3 f)))) /\
      (at_side b1 r0 (fun t => lerp t (f_p3 f) (up (f_p3 f))) /\ at_side b1 r1 (fun t => lerp t (f_p0 f) (up (f_p0 f))) /\
       at_side b1 s0 (fun t => lerp t (f_p3 f) (f_p0 f)) /\ at_side b1 s1 (fun t => lerp t (up (f_p3 f)) (up (f_p0 f)))) /\
      (at_side b2 r0 (fun t => lerp t (dn (f_p3 f)) (f_p3 f)) /\ at_side b2 r1 (fun t => lerp t (dn (f_p0 f)) (f_p0 f)) /\
       at_side b2 s0 (fun t => lerp t (dn (f_p3 f)) (dn (f_p0 f))) /\ at_side b2 s1 (fun t => lerp t (f_p3 f) (f_p0 f))).
    Proof using Hh HW Hthk Htop Hbot Hwf.
      unfold fin_bottom. rewrite !above_up, !below_dn. set (p0 := f_p0 f). set (p3 := f_p3 f). intros H.
      destruct (fin_ellipses f p3 n1) as [[et eb]|] eqn:El; [|discriminate H]. cbn [bind] in H.
      destruct (ellipses_inv p3 1 et eb) as (k & Ek & Lk & Vt & Vb); [lra|exact El|].
      destruct (CoonsPatch (Line p3 (dn p3)) eb et (Line (up p3) p3)) as [e|] eqn:C0; [|discriminate H]. cbn [bind] in H.
      destruct (CoonsPatch (Line (up p3) (up p0)) _ _ _) as [b1|] eqn:C1; [|discriminate H]. cbn [bind] in H.
      destruct (CoonsPatch (Line p3 p0) _ _ _) as [b2|] eqn:C2; [|discriminate H]. cbn [bind] in H.
      injection H as <-. exists k, (RotatedPatch e (ndeg2rad (nZ (-90))) "z" p3), b1, b2.
      split; [reflexivity|]. split; [exact Ek|]. split; [exact Lk|].
      destruct (coons_surf_w _ _ _ _ _ _ _ _ e (line_evaluates _ _) Vb Vt (line_evaluates _ _) C0) as (K1 & K2 & K3 & K4).
      destruct (arc_ends p3 k Lk) as (T0 & T1 & B0 & B1). rewrite T0, T1, B0 in K3. rewrite B1 in K4. rewrite !lerp_0, !lerp_1 in *.
      destruct (coons_surf _ _ _ _ _ _ _ _ b1 (line_evaluates _ _) (line_evaluates _ _) (line_evaluates _ _) (sub_evaluates _ _ 1 0 (line_evaluates _ _)) C1)
        as (A1 & A2 & A3 & A4); corners.
      { symmetry. etransitivity; [|apply lerp_1]. f_equal. ring. } { symmetry. etransitivity; [|apply lerp_0]. f_equal. ring. }
      destruct (coons_surf _ _ _ _ _ _ _ _ b2 (line_evaluates _ _) (line_evaluates _ _) (line_evaluates _ _) (sub_evaluates _ _ 1 0 (line_evaluates _ _)) C2)
        as (D1 & D2 & D3 & D4); corners.
      { symmetry. etransitivity; [|apply lerp_1]. f_equal. ring. } { symmetry. etransitivity; [|apply lerp_0]. f_equal. ring. }
      split; [|split].
      - split; [|split; [|split]].
        + intros t. cbn [on_side fst snd]. rewrite (quarter_turn _ _ _ _ _ (K1 t)). f_equal.
          unfold quarter, lerp, lift; apply vec_ext; cbn [vx vy vz]; ring.
        + intros t. cbn [on_side fst snd]. apply quarter_turn, K2.
        + intros t Ht. cbn [on_side fst snd]. eexists. split; [apply quarter_turn, K3|].
          apply (near_turn k (- (1 - t)) (- (1 - t))); [exact Lk|lra|lra| | |];
            unfold quarter, blend_err, translate, lift; cbn [vx vy vz]; ring.
        + intros t Ht. cbn [on_side fst snd]. eexists. split; [apply quarter_turn, K4|].
          apply (near_turn k t (- t)); [exact Lk|lra|lra| | |];
            unfold quarter, blend_err, translate, lerp, lift; cbn [vx vy vz]; ring.
      - split; [|split; [|split]]; intros t; cbn [on_side fst snd]; auto.
        rewrite A1. f_equal. rewrite lerp_rev. f_equal. unfold reversed. ring.
      - split; [|split; [|split]]; intros t; cbn [on_side fst snd]; auto.
        rewrite D1. f_equal. rewrite lerp_rev. f_equal. unfold reversed. ring.
    Qed.

    Lemma flat_inv d : fin_flat f = Ok d -> exists k e b1 b2,
      d = [("TE_ellip", e); ("TE_1", b1); ("TE_2", b2)]%string /\ fin_width f 0 = Ok k /\ W <= k /\
      (at_side e r0 (fun t => lerp t (dn (f_p1 f)) (f_p1 f)) /\
       at_side e r1 (fun t => arc (f_p1 f) k "top" (1 - t)) /\
       by_side gap e s0 (fun t => arc (f_p1 f) k "bot" (1 - t)) /\
       by_side gap e s1 (fun t => lerp t (f_p1 f) (up (f_p1 f)))) /\
      (at_side b1 r0 (fun t => lerp t (f_p0 f) (up (f_p0 f))) /\ at_side b1 r1 (fun t => lerp t (f_p1 f) (up (f_p1 f))) /\
       at_side b1 s0 (fun t => lerp t (f_p0 f) (f_p1 f)) /\ at_side b1 s1 (fun t => lerp t (up (f_p0 f)) (up (f_p1 f)))) /\
      (at_side b2 r0 (fun t => lerp t (dn (f_p0 f)) (f_p0 f)) /\ at_side b2 r1 (fun t => lerp t (dn (f_p1 f)) (f_p1 f)) /\
       at_side b2 s0 (fun t => lerp t (dn (f_p0 f)) (dn (f_p1 f))) /\ at_side b2 s1 (fun t => lerp t (f_p0 f) (f_p1 f))).
    Proof using Hh HW Hthk Htop Hbot Hwf.
      unfold fin_flat. rewrite !above_up, !below_dn. set (p0 := f_p0 f). set (p1 := f_p1 f). intros H.
      destruct (fin_ellipses f p1 n0) as [[et eb]|] eqn:El; [|discriminate H]. cbn [bind] in H.
      destruct (ellipses_inv p1 0 et eb) as (k & Ek & Lk & Vt & Vb); [lra|exact El|].
      destruct (CoonsPatch (Line p1 (up p1)) _ _ _) as [e|] eqn:C0; [|discriminate H]. cbn [bind] in H.
      destruct (CoonsPatch (Line (up p0) (up p1)) _ _ _) as [b1|] eqn:C1; [|discriminate H]. cbn [bind] in H.
      destruct (CoonsPatch (Line p0 p1) _ _ _) as [b2|] eqn:C2; [|discriminate H]. cbn [bind] in H.
      injection H as <-. exists k, e, b1, b2.
      split; [reflexivity|]. split; [exact Ek|]. split; [exact Lk|].
      destruct (coons_surf_w _ _ _ _ _ _ _ _ e (line_evaluates _ _) (sub_evaluates _ _ 1 0 Vt) (sub_evaluates _ _ 1 0 Vb) (line_evaluates _ _) C0) as (K1 & K2 & K3 & K4).
      replace (1 + 0 * (0 - 1)) with 1 in * by ring. replace (1 + 1 * (0 - 1)) with 0 in * by ring.
      destruct (arc_ends p1 k Lk) as (T0 & T1 & B0 & B1). rewrite T1, B0, B1 in K3. rewrite T0 in K4. rewrite !lerp_0, !lerp_1 in *.
      destruct (coons_surf _ _ _ _ _ _ _ _ b1 (line_evaluates _ _) (line_evaluates _ _) (line_evaluates _ _) (line_evaluates _ _) C1)
        as (A1 & A2 & A3 & A4); corners.
      destruct (coons_surf _ _ _ _ _ _ _ _ b2 (line_evaluates _ _) (line_evaluates _ _) (line_evaluates _ _) (line_evaluates _ _) C2)
        as (D1 & D2 & D3 & D4); corners.
      assert (F : forall t, 1 + t * (0 - 1) = 1 - t) by (intros; ring).
      split; [|split].
      - split; [|split; [|split]].
        + intros t. cbn [on_side fst snd]. apply K1.
        + intros t. cbn [on_side fst snd]. rewrite K2, F. reflexivity.
        + intros t Ht. cbn [on_side fst snd]. eexists. split; [apply K3|]. rewrite F.
          apply (near_part k (- (1 - t)) (1 - t)); [exact Lk|lra|lra| | |];
            unfold blend_err, translate, lift; cbn [vx vy vz]; ring.
        + intros t Ht. cbn [on_side fst snd]. eexists. split; [apply K4|].
          apply (near_part k t t); [exact Lk|lra|lra| | |];
            unfold blend_err, translate, lerp, lift; cbn [vx vy vz]; ring.
      - split; [|split; [|split]]; intros t; cbn [on_side fst snd]; auto.
      - split; [|split; [|split]]; intros t; cbn [on_side fst snd]; auto.
    Qed.

    Definition rudder_tip (p : pt) : pt := V3 (vx p - f_rudder_length f) (vy p) (f_rudder_length f * sin (f_rudder_angle f)).
    Lemma te_top A0 B0 path g l a u : evaluates path g -> TrailingEdgePatch A0 B0 path l a "top" = Ok u ->
      let tp p := V3 (vx p - l) (vy p) (l * sin a) in
      at_side u r0 (fun t => lerp t (tp A0) (g 0)) /\ at_side u r1 (fun t => lerp t (tp B0) (g 1)) /\
      at_side u s0 (fun t => lerp t (tp A0) (tp B0)) /\ at_side u s1 g.
    Proof using.
      intros He. cbv zeta. unfold TrailingEdgePatch; cbn [String.eqb Ascii.eqb Bool.eqb]. numR. rewrite Rplus_0_l.
      rewrite !(line_evaluates _ _ _), !(He _). cbn [bind]. rewrite !lerp_0, !lerp_1. intros Hu.
      destruct (coons_surf _ _ _ _ _ _ _ _ u He (line_evaluates _ _) (line_evaluates _ _) (line_evaluates _ _) Hu)
        as (A & B & C & D); rewrite ?lerp_0, ?lerp_1; auto.
    Qed.
    Lemma te_bot A0 B0 path g l a u : evaluates path g -> TrailingEdgePatch A0 B0 path l a "bot" = Ok u ->
      let tp p := V3 (vx p - l) (vy p) (l * sin a) in
      at_side u r0 (fun t => lerp t (g 0) (tp A0)) /\ at_side u r1 (fun t => lerp t (g 1) (tp B0)) /\
      at_side u s0 g /\ at_side u s1 (fun t => lerp t (tp A0) (tp B0)).
    Proof using.
      intros He. cbv zeta. unfold TrailingEdgePatch; cbn [String.eqb Ascii.eqb Bool.eqb]. numR. rewrite Rplus_0_l.
      rewrite !(line_evaluates _ _ _), !(He _). cbn [bind]. rewrite !lerp_0, !lerp_1. intros Hu.
      destruct (coons_surf _ _ _ _ _ _ _ _ u (line_evaluates _ _) (line_evaluates _ _) He (line_evaluates _ _) Hu)
        as (A & B & C & D); rewrite ?lerp_0, ?lerp_1; auto.
    Qed.
    Lemma lift_lerp c t (a b : pt) : lift (fun _ _ => c) (lerp t a b) = lerp t (lift (fun _ _ => c) a) (lift (fun _ _ => c) b).
    Proof using. unfold lift, lerp; apply vec_ext; cbn [vx vy vz]; ring. Qed.

    Lemma sharp_inv d : vz (f_p1 f) = 0 -> fin_sharp f = Ok d -> exists k a b e tr,
      d = [("TE_top", a); ("TE_bot", b); ("TE_ellipse", e); ("TE_triangle", tr)]%string /\ fin_width f 0 = Ok k /\ W <= k /\
      (at_side a r0 (fun t => lerp t (rudder_tip (f_p0 f)) (up (f_p0 f))) /\
       at_side a r1 (fun t => lerp t (rudder_tip (f_p1 f)) (up (f_p1 f))) /\
       at_side a s0 (fun t => lerp t (rudder_tip (f_p0 f)) (rudder_tip (f_p1 f))) /\
       at_side a s1 (fun t => lerp t (up (f_p0 f)) (up (f_p1 f)))) /\
      (at_side b r0 (fun t => lerp t (dn (f_p0 f)) (rudder_tip (f_p0 f))) /\
       at_side b r1 (fun t => lerp t (dn (f_p1 f)) (rudder_tip (f_p1 f))) /\
       at_side b s0 (fun t => lerp t (dn (f_p0 f)) (dn (f_p1 f))) /\
       at_side b s1 (fun t => lerp t (rudder_tip (f_p0 f)) (rudder_tip (f_p1 f)))) /\
      (at_side e r0 (arc (f_p1 f) k "top") /\ at_side e r1 (fun t => lerp t (rudder_tip (f_p1 f)) (dn (f_p1 f))) /\
       by_side gap e s0 (fun t => lerp t (up (f_p1 f)) (rudder_tip (f_p1 f))) /\
       by_side gap e s1 (arc (f_p1 f) k "bot")) /\
      (at_side tr r0 (fun t => lerp t (up (f_p0 f)) (rudder_tip (f_p0 f))) /\
       at_side tr r1 (fun t => lerp t (f_p0 f) (dn (f_p0 f))) /\
       at_side tr s0 (fun t => lerp t (up (f_p0 f)) (f_p0 f)) /\
       at_side tr s1 (fun t => lerp t (rudder_tip (f_p0 f)) (dn (f_p0 f)))).
    Proof using Hh HW Hthk Htop Hbot Hwf.
      intros Z. unfold fin_sharp. rewrite !above_up, !below_dn. set (p0 := f_p0 f) in *. set (p1 := f_p1 f) in *. intros H.
      destruct (TrailingEdgePatch p0 p1 _ _ _ "top") as [a|] eqn:E1; [|discriminate H]. cbn [bind] in H.
      destruct (TrailingEdgePatch p0 p1 _ _ _ "bot") as [b|] eqn:E2; [|discriminate H]. cbn [bind] in H.
      rewrite Htop, Hbot in H. cbn [bind vz] in H.
      destruct (fin_ellipses f p1 n0) as [[et eb]|] eqn:El; [|discriminate H]. cbn [bind] in H.
      destruct (ellipses_inv p1 0 et eb) as (k & Ek & Lk & Vt & Vb); [lra|exact El|].
      change (V3 (nsub (vx p1) (f_rudder_length f)) (vy p1) (nmul (f_rudder_length f) (nsin (f_rudder_angle f)))) with (rudder_tip p1) in H.
      change (V3 (nsub (vx p0) (f_rudder_length f)) (vy p0) (nmul (f_rudder_length f) (nsin (f_rudder_angle f)))) with (rudder_tip p0) in H.
      replace (V3 (vx p1) (vy p1) h) with (dn p1) in H by (unfold lift; rewrite Z; apply vec_ext; cbn [vx vy vz]; ring).
      replace (V3 (vx p1) (vy p1) (- h)) with (up p1) in H by (unfold lift; rewrite Z; apply vec_ext; cbn [vx vy vz]; ring).
      destruct (CoonsPatch eb _ _ _) as [e|] eqn:C0; [|discriminate H]. cbn [bind] in H.
      destruct (CoonsPatch (Line (rudder_tip p0) (dn p0)) _ _ _) as [tr|] eqn:C1; [|discriminate H]. cbn [bind] in H.
      injection H as <-. exists k, a, b, e, tr.
      split; [reflexivity|]. split; [exact Ek|]. split; [exact Lk|].
      destruct (te_top _ _ _ _ _ _ a (te_path p0 p1 _ _ Htop) E1) as (A1 & A2 & A3 & A4).
      destruct (te_bot _ _ _ _ _ _ b (te_path p0 p1 _ _ Hbot) E2) as (B1 & B2 & B3 & B4).
      rewrite lerp_0 in A1, B1. rewrite lerp_1 in A2, B2.
      destruct (coons_surf_w _ _ _ _ _ _ _ _ e Vb (line_evaluates _ _) (line_evaluates _ _) Vt C0) as (K1 & K2 & K3 & K4).
      destruct (arc_ends p1 k Lk) as (T0 & T1 & Y0 & Y1). rewrite T0 in K3. rewrite T1, Y0, Y1 in K4. rewrite !lerp_0, !lerp_1 in *.
      destruct (coons_surf _ _ _ _ _ _ _ _ tr (line_evaluates _ _) (line_evaluates _ _) (line_evaluates _ _) (line_evaluates _ _) C1)
        as (D1 & D2 & D3 & D4); corners.
      split; [|split; [|split]].
      - split; [exact A1|]. split; [exact A2|]. split; [exact A3|]. intros t. rewrite (A4 t), lift_lerp. reflexivity.
      - split; [exact B1|]. split; [exact B2|]. split; [|exact B4]. intros t. rewrite (B3 t), lift_lerp. reflexivity.
      - split; [|split; [|split]].
        + intros t. cbn [on_side fst snd]. apply K1.
        + intros t. cbn [on_side fst snd]. apply K2.
        + intros t Ht. cbn [on_side fst snd]. eexists. split; [apply K3|].
          apply (near_part k (1 - t) (1 - t)); [exact Lk|lra|lra| | |];
            unfold blend_err, translate, lerp, lift; cbn [vx vy vz]; ring.
        + intros t Ht. cbn [on_side fst snd]. eexists. split; [apply K4|].
          apply (near_part k (- t) t); [exact Lk|lra|lra| | |];
            unfold blend_err, translate, lerp, lift; cbn [vx vy vz]; ring.
      - split; [|split; [|split]]; intros t; cbn [on_side fst snd]; auto.
    Qed.

    (** the ends of the leading edge *)
    Section Ends.
      Variables (q : path R) (t1 : R).
      Hypothesis H12 : f_p1 f <> f_p2 f.
      Hypothesis H23 : f_p2 f <> f_p3 f.
      Hypothesis Hq : evaluates q (bent (f_p1 f) (f_p2 f) (f_p3 f)).
      Hypothesis Ht1 : 0 <= t1 <= 1.
      Notation top_edge := (OffsetPathFunction q (f_top f)).
      Notation bot_edge := (OffsetPathFunction q (f_bot f)).
      Notation mean := (GeometricMeanPathFunction top_edge bot_edge).
      Notation le guide a b sd := (MeanLeadingEdgePatchFunction mean guide (fin_width f) a b sd).

      Lemma half_const x y : half_h (fun _ _ => - h) (fun _ _ => h) x y = h.
      Proof using. unfold half_h. field. Qed.
      Lemma mid_const p : lift (mid_h (fun _ _ => - h) (fun _ _ => h)) p = p.
      Proof using. destruct p as [a b c]. unfold lift, mid_h; apply vec_ext; cbn [vx vy vz]; field. Qed.
      Lemma section_1 p k sd t : section_pt p h k 0 sd t = quarter p (arc p k sd t).
      Proof using. unfold section_pt, quarter, arc, el_pt. rewrite cos_0, sin_0. apply vec_ext; cbn [vx vy vz]; ring. Qed.
      Lemma section_0 p k sd t : section_pt p h k (PI / 2) sd t = arc p k sd t.
      Proof using. unfold section_pt, arc, el_pt. rewrite cos_PI2, sin_PI2. apply vec_ext; cbn [vx vy vz]; ring. Qed.
      Lemma section_even p k al sd t : section_pt p (- h) k al sd t = section_pt p h k al sd t.
      Proof using. unfold section_pt. rewrite el_u_even, el_pt_even. reflexivity. Qed.

      Lemma leading_ends k0 k1 : fin_width f 0 = Ok k0 -> fin_width f 1 = Ok k1 ->
        at_side (le top_edge t1 1 "top") r0 (fun t => quarter (f_p3 f) (arc (f_p3 f) k1 "top" t)) /\
        at_side (le bot_edge t1 1 "bot") r0 (fun t => quarter (f_p3 f) (arc (f_p3 f) k1 "bot" t)) /\
        at_side (le top_edge 0 t1 "top") r1 (arc (f_p1 f) k0 "top") /\
        at_side (le bot_edge 0 t1 "bot") r1 (arc (f_p1 f) k0 "bot").
      Proof using Hh Htop Hbot Hwf H12 H23 Hq.
        intros E0 E1.
        assert (Hlt : forall t, 0 <= t <= 1 -> (fun _ _ : R => - h) (vx (bent (f_p1 f) (f_p2 f) (f_p3 f) t)) (vy (bent (f_p1 f) (f_p2 f) (f_p3 f) t))
          < (fun _ _ => h) (vx (bent (f_p1 f) (f_p2 f) (f_p3 f) t)) (vy (bent (f_p1 f) (f_p2 f) (f_p3 f) t))) by (intros; lra).
        pose proof (le_section q _ _ _ _ _ (fin_width f) W Hq Htop Hbot Hlt Hwf) as SC.
        destruct (bent_ends _ _ _ H12 H23) as (G0 & _ & G1).
        destruct (SC t1 1 0 1) as (k & al & _ & Ek & Ea & _ & ST & SB); [ring|lra|].
        rewrite E1 in Ek. injection Ek as <-. rewrite le_angle_1 in Ea. injection Ea as <-.
        destruct (SC 0 t1 1 0) as (k & al & _ & Ek & Ea & _ & ST' & SB'); [ring|lra|].
        rewrite E0 in Ek. injection Ek as <-. rewrite le_angle_0 in Ea. injection Ea as <-.
        split; [|split; [|split]]; intros t; cbn [on_side fst snd].
        - rewrite ST, half_const, mid_const, G1, section_1. reflexivity.
        - rewrite SB, half_const, mid_const, G1, section_even, section_1. reflexivity.
        - rewrite ST', half_const, mid_const, G0, section_0. reflexivity.
        - rewrite SB', half_const, mid_const, G0, section_even, section_0. reflexivity.
      Qed.
    End Ends.

    Ltac rev_line := intros t; cbv beta; unfold along; try reflexivity; rewrite lerp_rev; try reflexivity.
    Ltac fit_at A B := eexists _, _; split; [reflexivity|]; split; [reflexivity|]; refine (seam_at _ _ _ _ _ _ _ A B _); rev_line.
    Ltac fit_by A B := eexists _, _; split; [reflexivity|]; split; [reflexivity|]; refine (seam_by _ _ _ _ _ _ _ _ A B _); rev_line.
    Ltac fit_to A B := eexists _, _; split; [reflexivity|]; split; [reflexivity|]; refine (seam_to _ _ _ _ _ _ _ _ A B _ _); [unfold reversed, along; intros; lra|rev_line].
    Ltac fit_seam H := eexists _, _; split; [reflexivity|]; split; [reflexivity|]; exact H.

    Theorem fin_seams d : f_p1 f <> f_p2 f -> f_p2 f <> f_p3 f ->
      (forall fn a b t, bisect fn a b = Ok t -> a <= t <= b) \/ (exists tol, finds_root tol bisect) ->
      (f_rudder f = "sharp"%string -> vz (f_p1 f) = 0) ->
      fin_patches bisect f = Ok d ->
      exists t1 q, 0 <= t1 <= 1 /\ evaluates q (bent (f_p1 f) (f_p2 f) (f_p3 f)) /\ fin_t_B1 bisect f q = Ok t1 /\
        let names := (["top_patch"; "bot_patch"; "LE_top_patch_0"; "LE_top_patch_1"; "LE_bot_patch_0"; "LE_bot_patch_1"; "bot_ellip"; "bot_1"; "bot_2"]%string
          ++ (if String.eqb (f_rudder f) "sharp" then ["TE_top"; "TE_bot"; "TE_ellipse"; "TE_triangle"] else ["TE_ellip"; "TE_1"; "TE_2"])%string)%list in
        map fst d = names /\
        Forall (seam_fits d gap ((dist (f_p1 f) (f_p2 f) + dist (f_p2 f) (f_p3 f)) * Rabs (corner_time (f_p1 f) (f_p2 f) (f_p3 f) - t1)))
          (fin_seams_common ++ (if String.eqb (f_rudder f) "sharp" then sharp_rudder_seams else flat_rudder_seams)).
    Proof using Hoff Hh HW Hthk Htop Hbot Hwf.
      intros H12 H23 Hbis Hz Hd.
      destruct (fin_inv d Hd) as (q & pa & t1 & bo & tr & Eq & Ep & Et & Eb & Er & ED).
      pose proof (edge_evaluates q H12 H23 Eq) as Vq.
      assert (Ht1 : 0 <= t1 <= 1).
      { destruct Hbis as [Hbis|[tol Hbis]]; [|apply (corner_found tol q t1 Hbis H12 H23 Vq Et)].
        unfold fin_t_B1 in Et; numR. destruct (bisect _ 0 1) as [t|] eqn:E; [|discriminate Et]. cbn [bind] in Et. injection Et as <-.
        apply Rround_unit; [exact (Hbis _ _ _ _ E)|lia]. }
      exists t1, q. split; [exact Ht1|]. split; [exact Vq|]. split; [exact Et|]. cbv zeta.
      set (m := (dist (f_p1 f) (f_p2 f) + dist (f_p2 f) (f_p3 f)) * Rabs (corner_time (f_p1 f) (f_p2 f) (f_p3 f) - t1)).
      destruct (panels_inv pa Ep) as (top & bot & -> & P1 & P2 & P3 & P4 & Q1 & Q2 & Q3 & Q4).
      destruct (bottom_inv bo Eb) as (k1 & e & b1 & b2 & -> & K1 & LK1 & (X1 & X2 & X3 & X4) & (A1 & A2 & A3 & A4) & (B1 & B2 & B3 & B4)).
      assert (LS : forall r s p, top r s = Ok p -> OffsetPatchFunction top (f_top f) r s = Ok (up p)) by (intros; apply offset_patch; assumption).
      assert (LB : forall r s p, bot r s = Ok p -> OffsetPatchFunction bot (f_bot f) r s = Ok (dn p)) by (intros; apply offset_patch; assumption).
      assert (S1 : at_side (OffsetPatchFunction top (f_top f)) r0 (fun t => lerp t (up (f_p0 f)) (up (f_p3 f))))
        by (intros t; cbn [on_side fst snd]; rewrite <- lift_lerp; apply LS, P1).
      assert (S2 : at_side (OffsetPatchFunction top (f_top f)) s0 (fun t => lerp t (up (f_p0 f)) (up (f_p1 f))))
        by (intros t; cbn [on_side fst snd]; rewrite <- lift_lerp; apply LS, P3).
      assert (S3 : at_side (OffsetPatchFunction bot (f_bot f)) r0 (fun t => lerp t (dn (f_p0 f)) (dn (f_p1 f))))
        by (intros t; cbn [on_side fst snd]; rewrite <- lift_lerp; apply LB, Q1).
      assert (S4 : at_side (OffsetPatchFunction bot (f_bot f)) s0 (fun t => lerp t (dn (f_p0 f)) (dn (f_p3 f))))
        by (intros t; cbn [on_side fst snd]; rewrite <- lift_lerp; apply LB, Q3).
      assert (Hthick : forall t, 0 <= t <= 1 -> 0 < half_h (fun _ _ => - h) (fun _ _ => h)
        (vx (bent (f_p1 f) (f_p2 f) (f_p3 f) t)) (vy (bent (f_p1 f) (f_p2 f) (f_p3 f) t)) <= h) by (intros; unfold half_h; lra).
      assert (L0 : forall c, lipschitz 0 (fun _ _ : R => c)).
      { intros c x y x' y'. replace (c - c) with 0 by ring. rewrite Rabs_R0. lra. }
      destruct (leading_seams _ _ 0 h W H12 H23 Htop Hbot Hthick HW Hwf q t1 Vq Ht1 top bot (Rle_refl 0) (L0 _) (L0 _) P2 P4 Q2 Q4)
        as (M1 & M2 & M3 & M4).
      destruct (section_seams _ _ h W Htop Hbot Hthick HW Hwf q t1 Vq Ht1) as (N1 & N2 & N3 & N4).
      destruct (Hwf 0) as (k0 & K0 & LK0); [lra|].
      destruct (leading_ends q t1 H12 H23 Vq k0 k1 K0 K1) as (F1 & F2 & F3 & F4).
      unfold miss in M1, M2, M3, M4. fold m in M1, M2, M3, M4. replace ((1 + 0) * m) with m in * by ring.
      assert (MV : forall l d0, Forall (seam_fits d0 gap m) l -> Forall (seam_fits (dmap turned d0) gap m) l).
      { intros l d0. apply Forall_impl. intros [[[[na ea] [nb eb]] rv] ft]. unfold seam_fits.
        apply (joined_moved motion turned); [exact turned_moved|]. destruct ft; intros P Q HPQ.
        - unfold same in *. congruence.
        - unfold apart in *. rewrite motion_isometry. exact HPQ.
        - unfold apart in *. rewrite motion_isometry. exact HPQ. }
      assert (C : forall tr, Forall (seam_fits ([("top_patch", OffsetPatchFunction top (f_top f)); ("bot_patch", OffsetPatchFunction bot (f_bot f))]%string ++
          fin_leading_edge f q t1 ++ [("bot_ellip", e); ("bot_1", b1); ("bot_2", b2)]%string ++ tr) gap m) fin_seams_common).
      { intros tr'. unfold fin_leading_edge, fin_seams_common; numR.
        repeat (apply Forall_cons; [cbn [seam_fits]|]); [..|apply Forall_nil].
        - fit_seam M1.
        - fit_seam M2.
        - fit_seam M3.
        - fit_seam M4.
        - fit_seam N1.
        - fit_seam N2.
        - fit_seam N3.
        - fit_seam N4.
        - fit_at X1 A1.
        - fit_by X4 B1.
        - fit_by X3 F1.
        - fit_at X2 F2.
        - fit_at A4 S1.
        - fit_at A3 B4.
        - fit_at B3 S4. }
      rewrite ED. destruct (String.eqb (f_rudder f) "sharp") eqn:Es.
      - apply String.eqb_eq in Es.
        destruct (sharp_inv tr (Hz Es) Er) as (k & a & b & el & tg & -> & K & LK & (R1 & R2 & R3 & R4) & (T1 & T2 & T3 & T4) & (U1 & U2 & U3 & U4) & (V1 & V2 & V3 & V4)).
        rewrite K0 in K. injection K as <-. split; [reflexivity|]. apply MV, Forall_app. split; [apply C|].
        unfold fin_leading_edge, sharp_rudder_seams; numR.
        repeat (apply Forall_cons; [cbn [seam_fits]|]); [..|apply Forall_nil].
        + fit_at R4 S2.
        + fit_at T3 S3.
        + fit_at R3 T4.
        + fit_to R2 U3.
        + fit_at T2 U2.
        + fit_at U1 F3.
        + fit_by U4 F4.
        + fit_at V1 R1.
        + fit_at V4 T1.
        + fit_at V3 A2.
        + fit_at V2 B2.
      - destruct (flat_inv tr Er) as (k & el & c1 & c2 & -> & K & LK & (U1 & U2 & U3 & U4) & (R1 & R2 & R3 & R4) & (T1 & T2 & T3 & T4)).
        rewrite K0 in K. injection K as <-. split; [reflexivity|]. apply MV, Forall_app. split; [apply C|].
        unfold fin_leading_edge, flat_rudder_seams; numR.
        repeat (apply Forall_cons; [cbn [seam_fits]|]); [..|apply Forall_nil].
        + fit_at U1 T2.
        + fit_by U4 R2.
        + fit_at U2 F3.
        + fit_by U3 F4.
        + fit_at R4 S2.
        + fit_at R3 T4.
        + fit_at T3 S3.
        + fit_at R1 A2.
        + fit_at T1 B2.
    Qed.

    (** ** when the patches can be built *)
    Lemma arc_near p k : small h k ->
      arc p k "top" 1 = arc p k "bot" 0 /\
      near (up p) (arc p k "top" 0) /\ near (arc p k "top" 0) (up p) /\
      near (dn p) (arc p k "bot" 1) /\ near (arc p k "bot" 1) (dn p).
    Proof using.
      intros Hs. destruct (small_ends p h k Hs) as (A & B & C & D & E).
      rewrite !el_u_even, !el_pt_even in *.
      replace (up p) with (V3 (vx p) (vy p) (vz p - h)) by (unfold lift; apply vec_ext; cbn [vx vy vz]; ring).
      change (dn p) with (V3 (vx p) (vy p) (vz p + h)). unfold arc. auto.
    Qed.
    Lemma ellipses_ok p t k : fin_width f t = Ok k -> exists et eb, fin_ellipses f p t = Ok (et, eb) /\
      evaluates et (arc p k "top") /\ evaluates eb (arc p k "bot").
    Proof using Htop Hbot.
      intros Ek. unfold fin_ellipses. rewrite Htop, Hbot. cbn [bind vz]. rewrite Ek. cbn [bind].
      destruct (elipse_arc p (- h) k "top") as (q & Eq & Vt); [auto|]. rewrite Eq. cbn [bind].
      destruct (elipse_arc p h k "bot") as (q' & Eq' & Vb); [auto|]. rewrite Eq'. cbn [bind].
      exists q, q'. split; [reflexivity|]. split; [|exact Vb].
      intros s. rewrite (Vt s). unfold arc. rewrite el_u_even, el_pt_even. reflexivity.
    Qed.
    Lemma te_ok A0 B0 path g l a sd : evaluates path g -> sd = "top"%string \/ sd = "bot"%string ->
      exists u, TrailingEdgePatch A0 B0 path l a sd = Ok u.
    Proof using.
      intros He [-> | ->]; unfold TrailingEdgePatch; cbn [String.eqb Ascii.eqb Bool.eqb]; numR;
        rewrite !(line_evaluates _ _ _), !(He _); cbn [bind]; rewrite !lerp_0, !lerp_1.
      - eapply (coons_ok_exact _ _ _ _ _ _ _ _ He (line_evaluates _ _) (line_evaluates _ _) (line_evaluates _ _)); rewrite ?lerp_0, ?lerp_1; reflexivity.
      - eapply (coons_ok_exact _ _ _ _ _ _ _ _ (line_evaluates _ _) (line_evaluates _ _) He (line_evaluates _ _)); rewrite ?lerp_0, ?lerp_1; reflexivity.
    Qed.
    Ltac straight := match goal with |- context[CoonsPatch (Line ?a ?b) (Line ?c ?d) (Line ?x ?y) (Line ?z ?w)] =>
      let u := fresh "u" in
      destruct (coons_ok_exact _ _ _ _ _ _ _ _ (line_evaluates a b) (line_evaluates c d) (line_evaluates x y) (line_evaluates z w)) as [u ->];
      rewrite ?lerp_0, ?lerp_1; try reflexivity; cbn [bind] end.

    Lemma panels_ok : exists d, fin_panels f = Ok d.
    Proof using. unfold fin_panels. straight. straight. eexists; reflexivity. Qed.
    Lemma bottom_ok k : fin_width f 1 = Ok k -> small h k -> exists d, fin_bottom f = Ok d.
    Proof using Hthk Htop Hbot.
      intros Ek Hs. unfold fin_bottom. rewrite !above_up, !below_dn; numR.
      destruct (ellipses_ok (f_p3 f) 1 k Ek) as (et & eb & -> & Vt & Vb). cbn [bind].
      destruct (arc_near (f_p3 f) k Hs) as (A & B & C & D & E).
      destruct (coons_ok _ _ _ _ _ _ _ _ (line_evaluates (f_p3 f) (dn (f_p3 f))) Vb Vt (line_evaluates (up (f_p3 f)) (f_p3 f))) as [u ->];
        rewrite ?lerp_0, ?lerp_1; try assumption; try apply near_refl. { rewrite A. apply near_refl. } cbn [bind].
      destruct (coons_ok_exact _ _ _ _ _ _ _ _ (line_evaluates (up (f_p3 f)) (up (f_p0 f))) (line_evaluates (f_p0 f) (up (f_p0 f)))
        (line_evaluates (f_p3 f) (f_p0 f)) (sub_evaluates _ _ 1 0 (line_evaluates (up (f_p3 f)) (f_p3 f)))) as [u1 E1];
        rewrite ?lerp_0, ?lerp_1; auto.
      { symmetry. etransitivity; [|apply lerp_1]. f_equal. ring. } { symmetry. etransitivity; [|apply lerp_0]. f_equal. ring. }
      unfold ReversedPath; numR. rewrite E1. cbn [bind].
      destruct (coons_ok_exact _ _ _ _ _ _ _ _ (line_evaluates (f_p3 f) (f_p0 f)) (line_evaluates (dn (f_p0 f)) (f_p0 f))
        (line_evaluates (dn (f_p3 f)) (dn (f_p0 f))) (sub_evaluates _ _ 1 0 (line_evaluates (f_p3 f) (dn (f_p3 f))))) as [u2 E2];
        rewrite ?lerp_0, ?lerp_1; auto.
      { symmetry. etransitivity; [|apply lerp_1]. f_equal. ring. } { symmetry. etransitivity; [|apply lerp_0]. f_equal. ring. }
      rewrite E2. cbn [bind]. eexists; reflexivity.
    Qed.
    Lemma flat_ok k : fin_width f 0 = Ok k -> small h k -> exists d, fin_flat f = Ok d.
    Proof using Hthk Htop Hbot.
      intros Ek Hs. unfold fin_flat. rewrite !above_up, !below_dn; numR.
      destruct (ellipses_ok (f_p1 f) 0 k Ek) as (et & eb & -> & Vt & Vb). cbn [bind].
      destruct (arc_near (f_p1 f) k Hs) as (A & B & C & D & E).
      destruct (coons_ok _ _ _ _ _ _ _ _ (line_evaluates (f_p1 f) (up (f_p1 f))) (sub_evaluates _ _ 1 0 Vt) (sub_evaluates _ _ 1 0 Vb)
        (line_evaluates (dn (f_p1 f)) (f_p1 f))) as [u ->];
        replace (1 + 0 * (0 - 1)) with 1 in * by ring; replace (1 + 1 * (0 - 1)) with 0 in * by ring;
        rewrite ?lerp_0, ?lerp_1; try assumption; try apply near_refl. { rewrite A. apply near_refl. } cbn [bind].
      straight. straight. eexists; reflexivity.
    Qed.
    Lemma sharp_ok k : vz (f_p1 f) = 0 -> fin_width f 0 = Ok k -> small h k -> exists d, fin_sharp f = Ok d.
    Proof using Hthk Htop Hbot.
      intros Z Ek Hs. unfold fin_sharp. rewrite !above_up, !below_dn; numR.
      destruct (te_ok (f_p0 f) (f_p1 f) _ _ (f_rudder_length f) (f_rudder_angle f) "top" (te_path (f_p0 f) (f_p1 f) _ _ Htop)) as [a ->]; [auto|]. cbn [bind].
      destruct (te_ok (f_p0 f) (f_p1 f) _ _ (f_rudder_length f) (f_rudder_angle f) "bot" (te_path (f_p0 f) (f_p1 f) _ _ Hbot)) as [b ->]; [auto|]. cbn [bind].
      rewrite Htop, Hbot. cbn [bind vz].
      destruct (ellipses_ok (f_p1 f) 0 k Ek) as (et & eb & -> & Vt & Vb). cbn [bind].
      destruct (arc_near (f_p1 f) k Hs) as (A & B & C & D & E).
      replace (V3 (vx (f_p1 f)) (vy (f_p1 f)) h) with (dn (f_p1 f)) by (unfold lift; rewrite Z; apply vec_ext; cbn [vx vy vz]; ring).
      replace (V3 (vx (f_p1 f)) (vy (f_p1 f)) (- h)) with (up (f_p1 f)) by (unfold lift; rewrite Z; apply vec_ext; cbn [vx vy vz]; ring).
      match goal with |- context[CoonsPatch eb (Line ?c ?x) (Line ?y ?c) et] =>
        destruct (coons_ok _ _ _ _ _ _ _ _ Vb (line_evaluates c x) (line_evaluates y c) Vt) as [u ->] end;
        rewrite ?lerp_0, ?lerp_1; try assumption; try apply near_refl. { rewrite A. apply near_refl. } cbn [bind].
      straight. eexists; reflexivity.
    Qed.
    Lemma fin_ok k0 k1 : f_p1 f <> f_p2 f -> f_p2 f <> f_p3 f ->
      (f_rudder f = "sharp"%string -> vz (f_p1 f) = 0) ->
      fin_width f 0 = Ok k0 -> fin_width f 1 = Ok k1 -> small h k0 -> small h k1 ->
      (forall q, evaluates q (bent (f_p1 f) (f_p2 f) (f_p3 f)) -> exists t, fin_t_B1 bisect f q = Ok t) ->
      exists d, fin_patches bisect f = Ok d.
    Proof using Hthk Htop Hbot.
      intros H12 H23 Hz E0 E1 S0 S1 Hb. unfold fin_patches.
      destruct (bent_evaluates _ _ _ H12 H23) as (q & Eq & Vq). unfold fin_edge. rewrite Eq. cbn [bind].
      destruct panels_ok as [pa ->]. cbn [bind]. destruct (Hb q Vq) as [t ->]. cbn [bind].
      destruct (bottom_ok k1 E1 S1) as [bo ->]. cbn [bind].
      destruct (String.eqb (f_rudder f) "sharp") eqn:Es.
      - apply String.eqb_eq in Es. destruct (sharp_ok k0 (Hz Es) E0 S0) as [tr ->]. eexists; reflexivity.
      - destruct (flat_ok k0 E0 S0) as [tr ->]. eexists; reflexivity.
    Qed.
  End Uniform.
End Fin.
