(** The parametric waverider. *)
From Coq Require Import String Reals Lra ZArith List Permutation Lia Bool.
From Verif Require Import Num NumR Py M_Vector SpecR3 M_Path M_Surface M_Geometry M_Mesh M_Component M_Stl M_Common M_Wing M_Fin M_Vehicle M_VecHeap M_Sens M_Gen M_Hangar M_Htv M_X43 M_D21 M_Hifire4 M_Transform M_Waverider
  SpecPath SpecPoly SpecSurf SpecMesh SpecComp SpecVehicle SpecAdd SpecFiles SpecPrism SpecHangar SpecWing SpecFin SpecPair SpecHalf SpecHtv SpecX43 SpecD21 SpecHifire4 SpecCluster SpecWaverider
  L_Vector L_Line L_Polyline L_Coons L_Curves L_Wing L_Fin L_FinTotal L_Component L_Mesh L_Edges L_Heap L_Volume L_Rigid L_Reflect L_Pipeline L_Generate L_Cache L_Closed L_RevolvedComp L_Prism L_Block L_Hangar L_Finner L_Pair L_Htv L_Parts L_Falcon L_Parts2 L_Parts3 L_D21 L_Hifire4 L_Parts4 P_Cluster.
From Verif Require Import L_WingOk L_WingTotal L_WingLocal SpecLathe SpecProfile M_Wing.
Import ListNotations.
Local Open Scope R_scope.

(** ** Bezier curves of degree 3 and 4 *)
Definition cubic_at (a b c d : pt) (t : R) : pt :=
  V3 (cubic (vx a) (vx b) (vx c) (vx d) t) (cubic (vy a) (vy b) (vy c) (vy d) t) (cubic (vz a) (vz b) (vz c) (vz d) t).
Definition quartic_at (a b c d e : pt) (t : R) : pt :=
  V3 (quartic (vx a) (vx b) (vx c) (vx d) (vx e) t) (quartic (vy a) (vy b) (vy c) (vy d) (vy e) t) (quartic (vz a) (vz b) (vz c) (vz d) (vz e) t).
Lemma cubic_evaluates a b c d : evaluates (Bezier [a; b; c; d]) (cubic_at a b c d).
Proof.
  intros t. cbn [p_call Bezier]. unfold Bezier_call. cbn [length Nat.sub bez_loop bez_pass]. unfold py_nth. cbn [Z.leb Z.compare Z.to_nat nth_error length bind]. f_equal. unfold cubic_at, cubic, vadd, vscale. numR.
  apply vec_ext; cbn [vx vy vz]; ring.
Qed.
Lemma quartic_evaluates a b c d e : evaluates (Bezier [a; b; c; d; e]) (quartic_at a b c d e).
Proof.
  intros t. unfold Bezier; cbn [p_call]. unfold Bezier_call. cbn. f_equal.
  destruct a, b, c, d, e. unfold quartic_at, quartic. apply vec_ext; cbn; ring.
Qed.
Lemma cubic_0 a b c d : cubic a b c d 0 = a. Proof. unfold cubic; ring. Qed.
Lemma cubic_1 a b c d : cubic a b c d 1 = d. Proof. unfold cubic; ring. Qed.
Lemma quartic_0 a b c d e : quartic a b c d e 0 = a. Proof. unfold quartic; ring. Qed.
Lemma quartic_1 a b c d e : quartic a b c d e 1 = e. Proof. unfold quartic; ring. Qed.
Lemma cube_le x y : 0 <= x -> x <= y -> x * (x * x) <= y * (y * y).
Proof. intros H0 H. apply Rmult_le_compat; [lra|nra|lra|]. apply Rmult_le_compat; lra. Qed.
(** a cubic with ordered control points rises *)
Lemma cubic_rises a b c d t t' : a <= b -> b <= c -> c <= d -> 0 <= t -> t <= t' -> t' <= 1 -> cubic a b c d t <= cubic a b c d t'.
Proof.
  intros AB BC CD T0 TT T1.
  assert (E : forall t, cubic a b c d t = a + (b - a) * (1 - (1 - t) * ((1 - t) * (1 - t))) + (c - b) * (t * t * (3 - 2 * t)) + (d - c) * (t * (t * t))) by (intros s; unfold cubic; ring).
  rewrite !E.
  assert (S1 : (1 - t') * ((1 - t') * (1 - t')) <= (1 - t) * ((1 - t) * (1 - t))).
  { apply cube_le; lra. }
  assert (S3 : t * (t * t) <= t' * (t' * t')) by (apply cube_le; lra).
  assert (S2 : t * t * (3 - 2 * t) <= t' * t' * (3 - 2 * t')).
  { assert (X : t' * t' * (3 - 2 * t') - t * t * (3 - 2 * t) = (t' - t) * (t' * (1 - t') * 3 + t * (1 - t) * 3 + (t' - t) * (t' - t))) by ring.
    assert (0 <= t' * (1 - t')) by nra. assert (0 <= t * (1 - t)) by nra. assert (0 <= (t' - t) * (t' - t)) by nra. nra. }
  assert (0 <= (b - a) * ((1 - t) * ((1 - t) * (1 - t)) - (1 - t') * ((1 - t') * (1 - t')))) by (apply Rmult_le_pos; lra).
  assert (0 <= (c - b) * (t' * t' * (3 - 2 * t') - t * t * (3 - 2 * t))) by (apply Rmult_le_pos; lra).
  assert (0 <= (d - c) * (t' * (t' * t') - t * (t * t))) by (apply Rmult_le_pos; lra).
  lra.
Qed.
Lemma small_thin b k : 0 < b <= 1000 -> 1 / 1000 <= k -> small b k.
Proof.
  intros Hb Hk. unfold small, tan_big. split; [lra|]. split; [lra|]. split; [lra|].
  assert (A : 0 <= b * (b * b) <= 1000 * (1000 * 1000)).
  { assert (b * b <= 1000 * 1000) by nra. assert (0 <= b * b) by nra. split; nra. }
  assert (B : 1 / 1000000 <= k * k) by nra.
  set (D := 2 * (k * k) * (16331239353195370 * 16331239353195370)).
  assert (E : 2 * (1 / 1000000) * (16331239353195370 * 16331239353195370) <= D) by (unfold D; nra).
  apply Rmult_le_reg_r with D; [lra|]. unfold Rdiv at 1. rewrite Rmult_assoc, Rinv_l by lra. lra.
Qed.

(** ** the maps *)
Lemma wind_affine a : affine (wind a).
Proof. intros p. unfold wind, delta, origin, ex, ey, ez, scaled. apply vec_ext; cbn; ring. Qed.
Lemma wind_origin a : wind a origin = origin.
Proof. unfold wind, origin. apply vec_ext; cbn; ring. Qed.
Lemma wind_det a : map_det (wind a) = 1.
Proof. unfold map_det, delta, wind, det3, ex, ey, ez, origin. cbn. pose proof (sin2_cos2 a) as H. unfold Rsqr in H. ring_simplify. lra. Qed.
Lemma wind_mirror a p : wind a (reflect (axis_vec "y") p) = reflect (axis_vec "z") (wind a p).
Proof. unfold wind, reflect, axis_vec, inner, plus_scaled, translate, scaled. cbn. apply vec_ext; cbn; ring. Qed.

Lemma half_turn_z p : rodrigues (axis_vec "z") origin PI p = V3 (- vx p) (- vy p) (vz p).
Proof. destruct p. unfold rodrigues, axis_vec, crossR, inner, translate, plus_scaled, scaled, diff, origin. rewrite cos_PI, sin_PI. apply vec_ext; cbn; ring. Qed.
Lemma quarter_turn_x p : rodrigues (axis_vec "x") origin (PI / 2) p = V3 (vx p) (- vz p) (vy p).
Proof. destruct p. unfold rodrigues, axis_vec, crossR, inner, translate, plus_scaled, scaled, diff, origin. rewrite cos_PI2, sin_PI2. apply vec_ext; cbn; ring. Qed.
Lemma turn_back_z a p : rodrigues (axis_vec "z") origin (- a) p = V3 (vx p * cos a + vy p * sin a) (- vx p * sin a + vy p * cos a) (vz p).
Proof. destruct p. unfold rodrigues, axis_vec, crossR, inner, translate, plus_scaled, scaled, diff, origin. rewrite cos_neg, sin_neg. apply vec_ext; cbn; ring. Qed.
Section Maps.
  Variable P : wr_params R.
  Definition wr_mx : R := wr_x_mult P - wr_curve_zero P.
  Definition wr_my : R := wr_y_mult P - wr_curve_zero P.
  Definition wr_F : pt -> pt := hifire4_curved (5 * wr_mx) (5 * wr_my).
  Definition wr_alpha : R := degrees (wr_aoa P) + wr_mx * wr_length P / 2.
  Lemma wr_bends : wr_curvatures P = map written_bend (hf4_bends (5 * wr_mx) (5 * wr_my)).
  Proof. rewrite <- hf4_written. reflexivity. Qed.
  Definition wr_more : list motion := [Turn 180 "z"; Turn 90 "x"; Turn (- wr_adjusted P) "z"].
  Lemma wr_turns q : in_order (map motion_map wr_more) q = Ok (wind wr_alpha q).
  Proof.
    cbn [wr_more map motion_map in_order fold_right]. unfold and_then, SpecVehicle.turned. f_equal.
    replace (180 * (PI / 180)) with PI by field. replace (90 * (PI / 180)) with (PI / 2) by field.
    assert (E : - wr_adjusted P * (PI / 180) = - wr_alpha).
    { unfold wr_adjusted, wr_alpha, wr_curv_xd, wr_mx, degrees. numR. field. apply PI_neq0. }
    rewrite E, half_turn_z, quarter_turn_x, turn_back_z. unfold wind. apply vec_ext; cbn [vx vy vz]; ring.
  Qed.
  Definition wr_plan (modifier : option (tfun R)) (axis : option string) (append : bool) : plan :=
    mkPlan modifier (hf4_bends (5 * wr_mx) (5 * wr_my)) axis append [].
  Lemma wr_route axis append : routes_of (wr_plan None axis append) 0 wr_more (fun p => wind wr_alpha (wr_F p)) (fun p => wind wr_alpha (reflect (axis_vec (or_else axis "y"%string)) (wr_F p))).
  Proof.
    split.
    - intros q. unfold before_reflection, after_reflection, wr_plan. cbn [p_modifier p_bends p_motions app].
      rewrite in_order_app. unfold and_then. rewrite hf4_bent. apply wr_turns.
    - intros a E. cbn [wr_plan p_axis] in E. subst axis. intros q. unfold before_reflection, after_reflection, wr_plan. cbn [p_modifier p_bends p_motions app or_else].
      rewrite in_order_app. unfold and_then. rewrite hf4_bent. cbn [in_order fold_right]. unfold and_then, mirrored_in. apply wr_turns.
  Qed.
  Lemma lid_value q : displaced (wr_underside (T := R)) q = Ok (lidded q).
  Proof.
    unfold displaced, wr_underside. cbn [or_else]. unfold lidded, Rmin. numR. destruct (Rltb 0 (vz q)) eqn:E.
    - apply Rltb_true in E. f_equal. destruct (Rle_dec (vz q) 0); [lra|]. unfold translate, vneg. numR. apply vec_ext; cbn; ring.
    - apply Rltb_false in E. f_equal. destruct (Rle_dec (vz q) 0); [|lra]. unfold translate. apply vec_ext; cbn; ring.
  Qed.
  Lemma wr_route_lid f2 : routes_of (wr_plan (Some wr_underside) None true) 0 wr_more (fun p => wind wr_alpha (wr_F (lidded p))) f2.
  Proof.
    split; [|discriminate]. intros q. unfold before_reflection, after_reflection, wr_plan. cbn [p_modifier p_bends p_motions app].
    cbn [in_order fold_right]. unfold and_then at 1. rewrite lid_value.
    change (in_order ((map SpecVehicle.bent (hf4_bends (5 * wr_mx) (5 * wr_my)) ++ [SpecVehicle.turned 0 "y"%string]) ++ map motion_map wr_more) (lidded q) = Ok (wind wr_alpha (wr_F (lidded q)))).
    rewrite in_order_app. unfold and_then. rewrite hf4_bent. apply wr_turns.
  Qed.
End Maps.

(** ** the shapes *)
Section Shapes.
  Variable bisect : (R -> res R) -> R -> R -> res R.
  Variables (tol : R) (P : wr_params R).
  Hypothesis HB : bisects tol bisect.
  Notation L := (wr_length P).
  Definition wr_X : R -> R := quartic 0 (wr_f1x P) (L / 2) (L - wr_f1x P) L.
  Definition wr_Y : R -> R := quartic 0 (wr_f1y P) (wr_f2y P) (wr_f1y P) 0.
  Definition wr_profile (t : R) : pt := V3 (wr_X t) (wr_Y t) 0.
  Lemma wr_fuse_evaluates : evaluates (wr_fuseline P) wr_profile.
  Proof using.
    intros t. unfold wr_fuseline. rewrite quartic_evaluates. f_equal. unfold quartic_at, wr_profile, wr_X, wr_Y, vec2. numR. cbn [vx vy vz].
    apply vec_ext; cbn [vx vy vz]; [reflexivity|reflexivity|]. unfold quartic; ring.
  Qed.
  Hypothesis HL : 0 < L.
  Lemma wr_height_ok x : 0 <= x <= L -> exists h, wr_local_height bisect P x = Ok h /\ ordinate_near wr_X wr_Y x tol h.
  Proof using HB HL.
    intros Hx. destruct HB as (_ & Br & _).
    destruct (Br (fun t => let! p := p_call (wr_fuseline P) t in Ok (vx p - x)) (fun t => wr_X t - x)) as (t & a & b & Et & Ha & Hb & AB & Sa & Sb).
    - intros t _. rewrite (wr_fuse_evaluates t). reflexivity.
    - unfold wr_X. rewrite quartic_0, quartic_1. lra.
    - exists (wr_Y t). split.
      + unfold wr_local_height. numR. rewrite Et. cbn [bind]. rewrite (wr_fuse_evaluates t). reflexivity.
      + exists t, a, b. repeat split; lra || reflexivity.
  Qed.
  Lemma wr_height_0 : wr_local_height bisect P 0 = Ok 0.
  Proof using HB.
    destruct HB as (_ & _ & Ex). unfold wr_local_height. numR. rewrite (proj1 (Ex _ 0 1 Rle_0_1)).
    - cbn [bind]. rewrite (wr_fuse_evaluates 0). cbn [bind wr_profile vy]. unfold wr_Y. rewrite quartic_0. reflexivity.
    - rewrite (wr_fuse_evaluates 0). cbn [bind wr_profile vx]. unfold wr_X. rewrite quartic_0. f_equal. ring.
    - rewrite (wr_fuse_evaluates 1). eexists. reflexivity.
  Qed.
  Lemma wr_height_off x : refuses bisect -> x < 0 \/ L < x -> wr_local_height bisect P x = Raise ValueError.
  Proof using HL.
    intros Rf Hx. unfold wr_local_height. numR. rewrite (Rf _ (fun t => wr_X t - x)); [reflexivity| |].
    - intros t _. rewrite (wr_fuse_evaluates t). reflexivity.
    - unfold wr_X. rewrite quartic_0, quartic_1. destruct Hx; nra.
  Qed.

  (** the edge of the wing, h being the height of the fuselage at p2x *)
  Definition wr_ey (h : R) : R -> R := cubic (wr_width P / 2) (Rmax (wr_p2y P) h) (Rmax (wr_p3y P) h) 0.
  Definition wr_ex : R -> R := cubic 0 (wr_p2x P) (wr_p3x P) L.
  Definition wr_edge_at (h t : R) : pt := V3 (wr_ex t) (wr_ey h t) 0.
  Definition wr_edge (h : R) : path R :=
    Bezier [V3 0 (wr_width P / 2) 0; V3 (wr_p2x P) (Rmax (wr_p2y P) h) 0; V3 (wr_p3x P) (Rmax (wr_p3y P) h) 0; V3 L 0 0].
  Lemma nmax_R a b : nmax a b = Rmax a b.
  Proof using. unfold nmax, Rmax. numR. destruct (Rltb a b) eqn:E; [apply Rltb_true in E|apply Rltb_false in E]; destruct (Rle_dec a b); lra. Qed.
  Lemma wr_line_is h : wr_local_height bisect P (wr_p2x P) = Ok h -> wr_line bisect P = Ok (wr_edge h).
  Proof using. intros E. unfold wr_line. rewrite E. cbn [bind]. rewrite !nmax_R. reflexivity. Qed.
  Lemma wr_edge_evaluates h : evaluates (wr_edge h) (wr_edge_at h).
  Proof using.
    intros t. unfold wr_edge. rewrite cubic_evaluates. f_equal. unfold cubic_at, wr_edge_at, wr_ex, wr_ey. cbn [vx vy vz].
    apply vec_ext; cbn [vx vy vz]; [reflexivity|reflexivity|]. unfold cubic; ring.
  Qed.
  Lemma wr_edge_ends h : wr_edge_at h 0 = V3 0 (wr_width P / 2) 0 /\ wr_edge_at h 1 = V3 L 0 0.
  Proof using. unfold wr_edge_at, wr_ex, wr_ey. rewrite !cubic_0, !cubic_1. auto. Qed.
  Hypothesis H2 : 0 <= wr_p2x P.
  Hypothesis H23 : wr_p2x P <= wr_p3x P.
  Hypothesis H3 : wr_p3x P <= L.
  Lemma wr_ex_rises t t' : 0 <= t -> t <= t' -> t' <= 1 -> wr_ex t <= wr_ex t'.
  Proof using H2 H23 H3. apply cubic_rises; assumption. Qed.
  Hypothesis HT : 0 < wr_LE_thickness P <= 1000.
  Hypothesis HK : 1 / 1000 <= wr_le_width P.

  (** ** the wings *)
  Definition wr_up (line : path R) (x y : R) : R := match wr_top bisect P line x y None with Ok p => vz p | Raise _ => 0 end.
  Definition wr_down (_ _ : R) : R := wr_LE_thickness P / 2.
  Lemma wr_width_ok h x : 0 <= x <= L -> exists w, wr_local_width bisect (wr_edge h) x = Ok w.
  Proof using HB HL.
    intros Hx. destruct HB as (_ & Br & _). destruct (wr_edge_ends h) as [E0 E1].
    destruct (brackets_answers _ _ Br (fun t => let! p := p_call (wr_edge h) t in Ok (vx p - x)) (fun t => wr_ex t - x)) as [t Et].
    - intros t _. rewrite (wr_edge_evaluates h t). reflexivity.
    - unfold wr_ex. rewrite cubic_0, cubic_1. lra.
    - unfold wr_local_width. numR. rewrite Et. cbn [bind]. rewrite (wr_edge_evaluates h t). eexists. reflexivity.
  Qed.
  Lemma wr_top_ok h x y z : 0 <= x <= L -> wr_top bisect P (wr_edge h) x y z = Ok (V3 0 0 (wr_up (wr_edge h) x y)).
  Proof using HB HL.
    intros Hx. destruct (wr_width_ok h x Hx) as [w Ew]. destruct (wr_height_ok x Hx) as (hx & Eh & _).
    unfold wr_up, wr_top. rewrite Ew. cbn [bind]. unfold wr_contour. rewrite (cubic_evaluates _ _ _ _ _). cbn [bind]. rewrite Eh. reflexivity.
  Qed.
  Lemma wr_up_0 h y : wr_up (wr_edge h) 0 y = - (wr_LE_thickness P / 2).
  Proof using HB HL.
    destruct (wr_width_ok h 0 ltac:(lra)) as [w Ew]. unfold wr_up, wr_top. rewrite Ew. cbn [bind]. unfold wr_contour. rewrite (cubic_evaluates _ _ _ _ _). cbn [bind].
    rewrite wr_height_0. cbn [bind vz]. numR. rewrite Rabs_R0. unfold Rdiv. ring.
  Qed.
  (** the upper skin over the root chord *)
  Lemma root_chord_at (w : wing R) d g lo hi up F n i : wing_patches bisect w = Ok d -> evaluates (w_line w) g -> g 0 = w_B0 w ->
    vertical_on lo hi (w_top w) up -> lo <= vx (w_A0 w) <= hi -> lo <= vx (w_A1 w) <= hi -> (i <= S n)%nat ->
    vertex_of (moved_grid F n d) (F (lift up (lerp (INR i / INR (S n)) (w_A0 w) (w_A1 w)))).
  Proof using.
    intros Hd Hl G0 V A0 A1 Hi. assert (HN : 0 < INR (S n)) by (apply lt_0_INR; lia).
    destruct (wing_inv bisect w d Hd) as (t1 & t2 & B1 & f0 & f1 & p0 & p1 & tr & cl & E1 & E2 & _ & EB & (_ & _ & C2 & _) & ET & EC & ED).
    rewrite (Hl t1) in EB. injection EB as <-.
    pose proof (sub_evaluates (w_line w) g 0 t1 Hl) as S01.
    destruct (coons_surf _ _ _ _ _ _ _ _ f0 (sub_evaluates _ _ 1 0 S01) (line_evaluates _ _) (line_evaluates _ _) (line_evaluates _ _) C2)
      as (_ & _ & F3 & _); rewrite ?lerp_0, ?lerp_1; auto.
    { f_equal. ring. } { rewrite <- G0. f_equal. ring. }
    assert (E : INR (S n - i) / INR (S n) = 1 - INR i / INR (S n)) by (rewrite minus_INR by exact Hi; field; lra).
    assert (Hr : 0 <= INR i / INR (S n) <= 1) by (apply ratio01; exact Hi).
    eapply (node_moved F n d "top_patch_0" _ (S n - i) 0); [rewrite ED; left; reflexivity|lia|lia|].
    replace (INR 0 / INR (S n)) with 0 by (cbn [INR]; unfold Rdiv; ring). rewrite E. generalize dependent (INR i / INR (S n)). intros r _ Hr.
    unfold OffsetPatchFunction. rewrite F3. cbn [bind].
    assert (LP : lerp (1 - r) (w_A1 w) (w_A0 w) = lerp r (w_A0 w) (w_A1 w)) by (unfold lerp; apply vec_ext; cbn; ring). rewrite LP.
    rewrite V by (unfold lerp; cbn [vx]; split; nra). cbn [bind]. unfold vadd, lift; numR. f_equal. apply vec_ext; cbn [vx vy vz]; ring.
  Qed.
  Lemma wr_up_root h x : 0 <= x <= L -> wr_u1y P <> 0 -> exists k, ordinate_near wr_X wr_Y x tol k /\ wr_up (wr_edge h) x 0 = - (Rabs k + wr_LE_thickness P / 2).
  Proof using HB HL.
    intros Hx HU. destruct (wr_width_ok h x Hx) as [b Eb]. destruct (wr_height_ok x Hx) as (k & Ek & Nk). exists k. split; [exact Nk|].
    unfold wr_up, wr_top. rewrite Eb. cbn [bind]. numR.
    assert (S0 : (if Reqb b 0 then 0 else 0 / b) = 0) by (destruct (Reqb b 0); [reflexivity|unfold Rdiv; ring]).
    match goal with |- context [p_call _ ?t] => replace t with 0 by (symmetry; exact S0) end.
    unfold wr_contour. rewrite (cubic_evaluates _ _ _ _ _). cbn [bind]. rewrite Ek. cbn [bind vz]. unfold cubic_at. cbn [vy vec2]. rewrite cubic_0. numR. field. exact HU.
  Qed.
  Lemma wr_wings_ok h : exists d t1, wing_patches bisect (wr_wing bisect P (wr_edge h)) = Ok d /\ wing_t_B1 bisect (wr_wing bisect P (wr_edge h)) = Ok t1 /\
    dkeys d = open_wing_keys /\ (forall u, In u (dvals d) -> on_square u) /\
    (forall F n, (forall p, vy p = 0 -> vy (F p) = 0) -> exists e, In e (mesh_edges (moved_grid F n d)) /\ in_plane "y" e) /\
    (forall F n, vertex_of (moved_grid F n d) (F (V3 0 0 0)) /\ vertex_of (moved_grid F n d) (F (V3 0 (wr_width P / 2) 0))) /\
    forall F n i, (i <= S n)%nat -> vertex_of (moved_grid F n d) (F (let x := INR i / INR (S n) * (L / 2) in V3 x 0 (wr_up (wr_edge h) x 0))).
  Proof using HB HL H2 H23 H3 HT HK.
    set (w := wr_wing bisect P (wr_edge h)). destruct (wr_edge_ends h) as [G0 G1]. pose proof HB as (Hi & Br & _). pose proof (brackets_answers _ _ Br) as Han.
    assert (PT : w_A0 w = V3 0 0 0 /\ w_A1 w = V3 (5 / 10 * L) 0 0 /\ w_TT w = V3 L 0 0 /\ w_B0 w = V3 0 (wr_width P / 2) 0).
    { unfold w, wr_wing, wr_A1, wr_TT, wr_B0, vec2. cbn [w_A0 w_A1 w_TT w_B0]. numR. repeat split; apply vec_ext; cbn; lra || reflexivity. }
    destruct PT as (A0 & A1 & TT & B0).
    assert (Vt : vertical_on 0 L (w_top w) (wr_up (wr_edge h))) by (intros x y z Hx; apply wr_top_ok, Hx).
    assert (Vb : vertical_on 0 L (w_bot w) wr_down).
    { intros x y z Hx. unfold w. cbn [w_bot wr_wing]. unfold wr_bot. destruct (wr_width_ok h x Hx) as [b Eb]. rewrite Eb. cbn [bind]. unfold wr_down. numR. f_equal. apply vec_ext; cbn [vx vy vz]; ring. }
    assert (PL : planform w (wr_edge_at h) 0 L).
    { unfold planform. rewrite A0, A1, TT, B0. split; [exact (wr_edge_evaluates h)|]. split; [exact G0|]. split; [exact G1|]. split; [reflexivity|]. split; [reflexivity|]. cbn [vx].
      split; [reflexivity|]. split; [lra|]. split; [lra|]. split; [lra|]. split; [intros t t' T0 TT' T1; apply wr_ex_rises; assumption|]. split; [discriminate|left; reflexivity]. }
    destruct (wing_made_on bisect w (wr_edge_at h) (wr_up (wr_edge h)) wr_down 0 L (wr_le_width P) Hi Han PL Vt Vb) as (d & d' & t1 & Ed & Et & Kd & Sd & Ed' & SE & (u & Iu & U0 & U1)); try reflexivity.
    { intros t _. eexists. reflexivity. }
    { rewrite B0. cbn [vx vy]. unfold half_h, wr_down. rewrite wr_up_0. apply small_thin; lra. }
    exists d, t1. split; [exact Ed|]. split; [exact Et|]. split; [exact Kd|]. split; [exact Sd|]. split.
    - intros F n HF. refine (chord_moved_on F bisect w d (wr_edge_at h) (wr_up (wr_edge h)) 0 L n HF Ed (wr_edge_evaluates h) _ Vt _ _ _ _).
      + exact (eq_trans G0 (eq_sym B0)).
      + rewrite A0. cbn; lra.
      + rewrite A1. cbn; lra.
      + rewrite A0. reflexivity.
      + rewrite A1. reflexivity.
    - split; [|intros F n i Hn;
        pose proof (root_chord_at w d (wr_edge_at h) 0 L (wr_up (wr_edge h)) F n i Ed (wr_edge_evaluates h) (eq_trans G0 (eq_sym B0)) Vt ltac:(rewrite A0; cbn; lra) ltac:(rewrite A1; cbn; lra) Hn) as V;
        rewrite A0, A1 in V; replace (lift (wr_up (wr_edge h)) _) with (let x := INR i / INR (S n) * (L / 2) in V3 x 0 (wr_up (wr_edge h) x 0)) in V; [exact V|];
        cbv zeta; unfold lift, lerp; cbn [vx vy vz]; assert (X1 : INR i / INR (S n) * (L / 2) = (1 - INR i / INR (S n)) * 0 + INR i / INR (S n) * (5 / 10 * L)) by lra;
        assert (Y1 : 0 = (1 - INR i / INR (S n)) * 0 + INR i / INR (S n) * 0) by ring; rewrite <- X1, <- Y1; apply vec_ext; cbn [vx vy vz]; ring].
      intros F n. assert (R1 : INR 0 / INR (S n) = 0) by (cbn [INR]; unfold Rdiv; ring).
      assert (R2 : INR (S n) / INR (S n) = 1) by (field; apply not_0_INR; lia).
      assert (TP : forall y, tip (w_flap_length w) (w_flap_angle w) (lift (mid_h (wr_up (wr_edge h)) wr_down) (V3 0 y 0)) = V3 0 y 0).
      { intros y. unfold tip, lift, mid_h, wr_down. cbn [vx vy vz]. rewrite wr_up_0. unfold w. cbn [w_flap_length w_flap_angle wr_wing]. numR. apply vec_ext; cbn [vx vy vz]; field. }
      rewrite A0, TP in U0. rewrite B0, TP in U1. split.
      + eapply (node_moved F n d _ u 0 0 _ Iu); [lia|lia|]. rewrite R1. exact U0.
      + eapply (node_moved F n d _ u (S n) 0 _ Iu); [lia|lia|]. rewrite R1, R2. exact U1.
  Qed.

  (** ** the flaps *)
  Hypothesis HA : 0 <= wr_a0_t P.
  Hypothesis HAT : wr_a0_t P <= wr_tt_t P.
  Hypothesis HTT : wr_tt_t P <= 1.
  Definition wr_flap_at (h : R) : wing R :=
    let A0 := wr_edge_at h (wr_a0_t P) in let TT := wr_edge_at h (wr_tt_t P) in
    let B0 := vadd A0 (vec2 0 (wr_flap_height P)) in
    mkWing A0 (wr_edge_at h (wr_a0_t P + (wr_tt_t P - wr_a0_t P) / 2)) TT B0
      (Bezier [B0; vadd B0 (vec2 (wr_w1x P) (wr_w1y P - wr_zero_offset P)); vsub TT (vec2 (wr_w2x P) (wr_w2y P - wr_zero_offset P)); TT]) "Bezier" None None
      (uniform_thickness_function (wr_LE_thickness P) "top") (uniform_thickness_function (wr_LE_thickness P) "bot") (Some (wr_lewf P))
      "custom" "FLAP" (wr_ex (wr_a0_t P)) (wr_flap_angle P) true.
  Lemma wr_flap_is h : wr_flap P (wr_edge h) = Ok (wr_flap_at h).
  Proof using. unfold wr_flap. rewrite !(wr_edge_evaluates h _). reflexivity. Qed.
  (** the corners of its trailing edge *)
  Definition wr_flap_corner (h y : R) : pt :=
    let l := wr_ex (wr_a0_t P) in V3 (l - l * cos (wr_flap_angle P)) (wr_ey h (wr_a0_t P) + y) (l * sin (wr_flap_angle P)).
  Lemma wr_flap_ok h : exists d t1, wing_patches bisect (wr_flap_at h) = Ok d /\ wing_t_B1 bisect (wr_flap_at h) = Ok t1 /\
    dkeys d = (open_wing_keys ++ closing_keys)%list /\ (forall u, In u (dvals d) -> on_square u) /\
    forall F n, vertex_of (moved_grid F n d) (F (wr_flap_corner h 0)) /\ vertex_of (moved_grid F n d) (F (wr_flap_corner h (wr_flap_height P))).
  Proof using HB H2 H23 H3 HT HK HA HAT HTT.
    set (w := wr_flap_at h). pose proof HB as (Hi & Br & _). pose proof (brackets_answers _ _ Br) as Han.
    set (t := wr_LE_thickness P). destruct (uniform_up t) as [Vt Vb].
    assert (SM : small (half_h (fun _ _ => - (t / 2)) (fun _ _ => t / 2) 0 0) (wr_le_width P)) by (unfold half_h; apply small_thin; unfold t; lra).
    destruct (wing_made bisect Hi Han w (cubic_at _ _ _ _) (fun _ _ => - (t / 2)) (fun _ _ => t / 2) (wr_le_width P) (wr_le_width P) (cubic_evaluates _ _ _ _)) as (d & Ed & [t1 T1] & Kd & Sd & (u & Iu & U0 & U1)); try assumption; try reflexivity.
    - unfold cubic_at. rewrite !cubic_0. cbn [w_B0 w wr_flap_at]. apply vec_ext; reflexivity.
    - unfold cubic_at. rewrite !cubic_1. cbn [w_TT w wr_flap_at]. apply vec_ext; reflexivity.
    - unfold w, wr_flap_at, vadd, vec2, wr_edge_at. cbn [w_B0 w_A1 w_TT vx vy vz]. numR. rewrite Rplus_0_r. split; apply wr_ex_rises; lra.
    - intros s _. eexists. reflexivity.
    - intros _. split; [reflexivity|exact SM].
    - exists d, t1. split; [exact Ed|]. split; [exact T1|]. split; [exact Kd|]. split; [exact Sd|].
      intros F n. assert (R1 : INR 0 / INR (S n) = 0) by (cbn [INR]; unfold Rdiv; ring).
      assert (R2 : INR (S n) / INR (S n) = 1) by (field; apply not_0_INR; lia). split.
      + eapply (node_moved F n d _ u 0 0 _ Iu); [lia|lia|]. rewrite R1, U0. f_equal. unfold w, tip, lift, mid_h, wr_flap_corner, wr_edge_at. cbn [w_flap_length w_flap_angle w_A0 wr_flap_at vx vy vz]. cbv zeta beta.
        unfold wr_edge_at. apply vec_ext; cbn [vx vy vz]; field.
      + eapply (node_moved F n d _ u (S n) 0 _ Iu); [lia|lia|]. rewrite R1, R2, U1. f_equal. unfold w, tip, lift, mid_h, wr_flap_corner, wr_edge_at. cbn [w_flap_length w_flap_angle w_B0 wr_flap_at vx vy vz]. unfold vadd, vec2, wr_edge_at. numR. cbv zeta.
        apply vec_ext; cbn [vx vy vz]; field.
  Qed.
End Shapes.

(** ** the fin *)
Section Rest.
  Variable bisect : (R -> res R) -> R -> R -> res R.
  Lemma wr_fin_pts : f_p0 (wr_fin (T := R)) = V3 0 0 0 /\ f_p1 (wr_fin (T := R)) = V3 (3 / 100) (7 / 100) 0 /\
    f_p2 (wr_fin (T := R)) = V3 (18 / 100) (1 / 10) 0 /\ f_p3 (wr_fin (T := R)) = V3 (3 / 10) 0 0.
  Proof using. unfold wr_fin, wr_fin_length, wr_fin_height, vec2. cbn [f_p0 f_p1 f_p2 f_p3]. numR. repeat split; apply vec_ext; cbn; lra. Qed.
  Lemma wr_fin_ok : in_interval bisect -> answers bisect ->
    exists d, d21_fin_done bisect wr_fin d /\ forall F n s p, (s = 25 / 10000 \/ s = - (25 / 10000)) ->
      (p = V3 0 s 0 \/ p = V3 (3 / 100) s (- (7 / 100)) \/ p = V3 (3 / 10) s 0) -> vertex_of (moved_grid F n d) (F p).
  Proof using.
    intros Hi Han. set (f := wr_fin (T := R)). set (h := 25 / 10000).
    destruct wr_fin_pts as (F0 & F1 & F2 & F3). fold f in F0, F1, F2, F3.
    assert (Vt : vertical (f_top f) (fun _ _ => - h)).
    { intros x y z. unfold f, wr_fin, wr_fin_thickness, uniform_thickness_function, h. numR. cbn. f_equal. apply vec_ext; cbn; field. }
    assert (Vb : vertical (f_bot f) (fun _ _ => h)).
    { intros x y z. unfold f, wr_fin, wr_fin_thickness, uniform_thickness_function, h. numR. cbn. f_equal. apply vec_ext; cbn; field. }
    assert (WF : forall t, fin_width f t = Ok (1 / 100)).
    { intros t. unfold fin_width, f, wr_fin. cbn [f_width]. numR. reflexivity. }
    destruct (fin_built bisect f h (1 / 100) (1 / 100) Hi Han) as (d & Ed & Kd & Sd); try assumption.
    - unfold f, wr_fin, wr_fin_thickness, h. cbn [f_thickness]. numR. field.
    - rewrite F1, F2. intros Q. apply (f_equal vx) in Q. cbn in Q. lra.
    - rewrite F2, F3. intros Q. apply (f_equal vx) in Q. cbn in Q. lra.
    - rewrite F1, F2, F3. cbn [vx]. lra.
    - rewrite F1. reflexivity.
    - intros t _. eexists. apply WF.
    - apply WF.
    - apply WF.
    - apply small_of; unfold h; lra.
    - apply small_of; unfold h; lra.
    - discriminate.
    - exists d. split; [split; [exact Ed|split; [exact Kd|exact Sd]]|]. intros F n s p Hs Hp.
      assert (RT : forall p, rodrigues (axis_vec "x") origin (f_angle f) p = fin_at p).
      { intros q. destruct quarter as [C1 C2]. unfold f. cbn [f_angle wr_fin]. unfold fin_at, rodrigues, axis_vec, crossR, inner, translate, plus_scaled, scaled, diff, origin. rewrite C1, C2. apply vec_ext; cbn; ring. }
      destruct (fin_faces bisect f h d Ed Vt Vb eq_refl) as (top & bot & It & Ib & FF).
      assert (Val : forall q z r, fin_at (V3 (vx q) (vy q) (vz q + z)) = r -> (let q := rodrigues (axis_vec "x") origin (f_angle f) (V3 (vx q) (vy q) (vz q + z)) in
          match f_offset f with Some o => let! v := o (vx q) (vy q) (Some (vz q)) in Ok (vadd q v) | None => Ok q end) = Ok r).
      { intros q z r Q. rewrite RT, Q. reflexivity. }
      assert (N0 : INR 0 / INR (S n) = 0) by (cbn [INR]; unfold Rdiv; ring).
      assert (N1 : INR (S n) / INR (S n) = 1) by (field; apply not_0_INR; lia).
      fold h in Hs. destruct Hs as [-> | ->]; destruct Hp as [-> | [-> | ->]].
      + apply (node_moved F n d "bot_patch" bot 0 0 _ Ib); [lia|lia|]. rewrite N0. rewrite (FF h bot (f_p0 f)) by tauto. apply Val. rewrite F0. unfold fin_at, h. apply vec_ext; cbn [vx vy vz]; ring.
      + apply (node_moved F n d "bot_patch" bot 0 (S n) _ Ib); [lia|lia|]. rewrite N0, N1. rewrite (FF h bot (f_p1 f)) by tauto. apply Val. rewrite F1. unfold fin_at, h. apply vec_ext; cbn [vx vy vz]; ring.
      + apply (node_moved F n d "bot_patch" bot (S n) 0 _ Ib); [lia|lia|]. rewrite N0, N1. rewrite (FF h bot (f_p3 f)) by tauto. apply Val. rewrite F3. unfold fin_at, h. apply vec_ext; cbn [vx vy vz]; ring.
      + apply (node_moved F n d "top_patch" top 0 0 _ It); [lia|lia|]. rewrite N0. rewrite (FF (- h) top (f_p0 f)) by tauto. apply Val. rewrite F0. unfold fin_at, h. apply vec_ext; cbn [vx vy vz]; ring.
      + apply (node_moved F n d "top_patch" top (S n) 0 _ It); [lia|lia|]. rewrite N0, N1. rewrite (FF (- h) top (f_p1 f)) by tauto. apply Val. rewrite F1. unfold fin_at, h. apply vec_ext; cbn [vx vy vz]; ring.
      + apply (node_moved F n d "top_patch" top 0 (S n) _ It); [lia|lia|]. rewrite N0, N1. rewrite (FF (- h) top (f_p3 f)) by tauto. apply Val. rewrite F3. unfold fin_at, h. apply vec_ext; cbn [vx vy vz]; ring.
  Qed.

  (** ** the fuselage *)
  Variable P : wr_params R.
  Lemma wr_spacing : exists gi, places (Some (wr_cf (T := R))) gi /\ keeps_ends gi.
  Proof using.
    destruct (clustered_places (1025 / 1000) ltac:(lra) true true) as (g & Pg & Kg & _). exists g. split; [|exact Kg].
    intros t Ht. rewrite <- (Pg t Ht). cbn [clustered orb]. unfold wr_cf. numR. reflexivity.
  Qed.
  Lemma wr_fuse_01 : evaluates01 (wr_fuseline P) (wr_profile P).
  Proof using. intros t _. apply wr_fuse_evaluates. Qed.
  Lemma wr_fuse_ok F n gi : keeps_ends gi ->
    watertight (moved_grid F n (spaced gi (fun t => t) (revolved_patches (wr_fuseline P)))) /\
    vertex_of (moved_grid F n (spaced gi (fun t => t) (revolved_patches (wr_fuseline P)))) (F (V3 0 0 0)) /\
    vertex_of (moved_grid F n (spaced gi (fun t => t) (revolved_patches (wr_fuseline P)))) (F (V3 (wr_length P) 0 0)).
  Proof using.
    intros K. assert (G0 : wr_profile P 0 = V3 0 0 0) by (unfold wr_profile, wr_X, wr_Y; rewrite !quartic_0; reflexivity).
    assert (G1 : wr_profile P 1 = V3 (wr_length P) 0 0) by (unfold wr_profile, wr_X, wr_Y; rewrite !quartic_1; reflexivity).
    split; [|split].
    - apply (turned_spaced F (wr_fuseline P) (wr_profile P) n gi _ wr_fuse_01 K keeps_id); rewrite ?G0, ?G1; reflexivity.
    - eapply (spaced_corner F n gi (fun t => t) (revolved_patches (wr_fuseline P)) _ _ 0 0); [left; reflexivity|exact K|exact keeps_id|auto|auto|].
      rewrite (rev_patch (wr_fuseline P) (wr_profile P) 0 0 0 wr_fuse_01) by lra. f_equal. unfold rev_val. rewrite G0. apply turn_axis; reflexivity.
    - eapply (spaced_corner F n gi (fun t => t) (revolved_patches (wr_fuseline P)) _ _ 1 0); [left; reflexivity|exact K|exact keeps_id|auto|auto|].
      rewrite (rev_patch (wr_fuseline P) (wr_profile P) 0 1 0 wr_fuse_01) by lra. f_equal. unfold rev_val. rewrite G1. apply turn_axis; reflexivity.
  Qed.
  (** vertices of a mesh of points on one side of a plane *)
  Lemma moved_below F n g : (forall q, vz (F q) <= 0) -> forall p, vertex_of (moved_grid F n g) p -> vz p <= 0.
  Proof using.
    intros H p V. assert (I : in_half (V3 0 0 1) 0 p); [|unfold in_half, inner in I; cbn in I; lra].
    revert V. apply vertex_in. intros v Iv r s _ _. apply in_map_iff in Iv. destruct Iv as (u & <- & _). unfold in_half, inner. cbn. pose proof (H (u r s)). lra.
  Qed.
  Lemma wr_lid n g : wr_mx P = 0 -> wr_my P = 0 -> forall p, vertex_of (moved_grid (fun p => wr_F P (lidded p)) n g) p -> vz p <= 0.
  Proof using.
    intros X Y. apply moved_below. intros q. unfold wr_F. rewrite X, Y, !Rmult_0_r, curved_flat. unfold lidded. cbn [vz]. apply Rmin_r.
  Qed.
  Lemma wr_F_line x : wr_F P (V3 x 0 0) = V3 x 0 (wr_mx P / 4 * (x * x)).
  Proof using.
    unfold wr_F. pose proof (curved_plane (5 * wr_mx P) (5 * wr_my P) x 0) as C. cbv zeta in C. rewrite C. replace (5 * wr_my P / 5 * 0) with 0 by field.
    rewrite Rmult_0_l, Rplus_0_r, sqrt_1. apply vec_ext; cbn [vx vy vz]; field.
  Qed.
  Lemma wr_F_lid x : wr_F P (lidded (V3 x 0 0)) = V3 x 0 (wr_mx P / 4 * (x * x)).
  Proof using. rewrite <- wr_F_line. f_equal. unfold lidded. cbn [vx vy vz]. unfold Rmin. destruct (Rle_dec 0 0); reflexivity. Qed.

  (** ** the program *)
  Variables nf nw nt : nat.
  Definition wr_made (c : nat) : vehicle R :=
    mkVehicle [c + 0; c + 1; c + 2; c + 3; c + 4]%nat "waverider" 0 1 false
      [("revolved"%string, 1%nat); ("wing"%string, 3%nat); ("fin"%string, 1%nat)]
      [("revolved_1", c + 0); ("wing_1", c + 1); ("wing_2", c + 2); ("wing_3", c + 3); ("fin_1", c + 4)]%nat%string
      [("fuselage", c + 0); ("wings", c + 1); ("right_flap", c + 2); ("left_flap", c + 3); ("fin", c + 4)]%nat%string
      (map written (wr_more P)).
  Definition wr_first (k c : nat) : vehicle R :=
    let v := wr_made c in
    mkVehicle (firstn k (v_components v)) "waverider" 0 1 false
      (match k with 0 => [] | 1 => [("revolved"%string, 1)] | 2 => [("revolved"%string, 1); ("wing"%string, 1)]
       | 3 => [("revolved"%string, 1); ("wing"%string, 2)] | 4 => [("revolved"%string, 1); ("wing"%string, 3)]
       | _ => v_counts v end)%nat
      (firstn k (v_enumerated v)) (firstn k (v_named v)) [].
  Definition wr_comps (w fl : wing R) (d : nat) : list (comp R) :=
    [with_options 1 (wr_add_fuselage P) (rev_comp (wr_fuseline P) nf (d + 0));
     with_options 1 (wr_add_wings P) (wing_comp bisect w (ResInt nw) None (d + 1));
     with_options 1 (wr_add_right P) (wing_comp bisect fl (ResInt nw) None (d + 2));
     with_options 1 (wr_add_left P) (set_patches (with_options 1 (wr_add_right P) (wing_comp bisect fl (ResInt nw) None (d + 2))) (d + 3));
     with_options 1 (wr_add_fin P) (L_Parts.fin_comp bisect wr_fin (ResInt nt) None (d + 4))]%nat.
  Lemma wr_run h line fl t1 t2 : wr_line bisect P = Ok line -> wr_flap P line = Ok fl ->
    wing_t_B1 bisect (wr_wing bisect P line) = Ok t1 -> wing_t_B1 bisect fl = Ok t2 ->
    wr_vehicle bisect nf nw nt P h = (ext h [[]; []; []; []; []] (wr_comps (wr_wing bisect P line) fl (length (dicts h))), Ok (wr_made (length (comps h)))).
  Proof using.
    intros El Ef E1 E2. unfold wr_vehicle. rewrite <- (ext_nil h) at 1. set (w := wr_wing bisect P line) in *.
    set (rc := rev_comp (wr_fuseline P) nf (length (dicts h) + 0)). set (wc := wing_comp bisect w (ResInt nw) None (length (dicts h) + 1)).
    set (rf := wing_comp bisect fl (ResInt nw) None (length (dicts h) + 2)). set (fc := L_Parts.fin_comp bisect (wr_fin (T := R)) (ResInt nt) None (length (dicts h) + 4)).
    set (lf := set_patches (with_options 1 (wr_add_right P) rf) (length (dicts h) + 3)).
    unfold bindM at 1. rewrite new_rev. cbn [app length].
    unfold bindM at 1. rewrite (add_to h _ _ (configured "waverider") 0 rc _ (wr_first 1 (length (comps h)))) by reflexivity. cbn [list_set].
    unfold bindM at 1. unfold M_Vehicle.lift at 1. rewrite El. fold w.
    unfold bindM at 1. rewrite (new_wing_ext bisect h _ _ w (ResInt nw) None t1 E1). cbn [app length].
    unfold bindM at 1. rewrite (add_to h _ _ _ 1 wc _ (wr_first 2 (length (comps h)))) by reflexivity. cbn [list_set].
    unfold bindM at 1. unfold M_Vehicle.lift at 1. rewrite Ef.
    unfold bindM at 1. rewrite (new_wing_ext bisect h _ _ fl (ResInt nw) None t2 E2). cbn [app length].
    unfold bindM at 1. rewrite (add_to h _ _ _ 2 rf _ (wr_first 3 (length (comps h)))) by reflexivity. cbn [list_set].
    unfold bindM at 1. rewrite (deepcopy_ext h _ _ 2 (with_options 1 (wr_add_right P) rf) 2 [] false (let! d := wing_patches bisect fl in Ok (d, [], []))) by reflexivity. cbn [app length].
    unfold bindM at 1. rewrite (add_to h _ _ _ 3 lf _ (wr_first 4 (length (comps h)))) by reflexivity. cbn [list_set].
    unfold bindM at 1. rewrite (new_fin_ext bisect h _ _ (wr_fin (T := R))). cbn [app length].
    unfold bindM at 1. rewrite (add_to h _ _ _ 4 fc _ (wr_first 5 (length (comps h)))) by reflexivity. cbn [list_set].
    reflexivity.
  Qed.
  Lemma wr_run_off h e : wr_line bisect P = Raise e -> snd (wr_vehicle bisect nf nw nt P h) = Raise e.
  Proof using.
    intros El. unfold wr_vehicle. rewrite <- (ext_nil h) at 1.
    unfold bindM at 1. rewrite new_rev. cbn [app length].
    unfold bindM at 1. rewrite (add_to h _ _ (configured "waverider") 0 (rev_comp (wr_fuseline P) nf (length (dicts h) + 0)) _ (wr_first 1 (length (comps h)))) by reflexivity. cbn [list_set].
    unfold bindM at 1. unfold M_Vehicle.lift at 1. rewrite El. reflexivity.
  Qed.

  Definition wr_meshes (a : R) (fuse wing flap fin : list (tri R)) : nat -> list (tri R) :=
    hf4_piece (map_mesh (wind a) fuse) (map_mesh (wind a) (wing ++ map_mesh (reflect (axis_vec "y")) wing)) (map_mesh (wind a) flap)
      (map_mesh (wind a) (map_mesh (reflect (axis_vec "y")) flap)) (map_mesh (wind a) fin).
  Lemma wr_generates mf mw mt w fl gw gl gt h gi : nf = S mf -> nw = S mw -> nt = S mt -> separate h -> places (Some (wr_cf (T := R))) gi -> keeps_ends gi ->
    wing_patches bisect w = Ok gw -> dkeys gw = open_wing_keys -> (forall u, In u (dvals gw) -> on_square u) ->
    wing_patches bisect fl = Ok gl -> dkeys gl = (open_wing_keys ++ closing_keys)%list -> (forall u, In u (dvals gl) -> on_square u) ->
    d21_fin_done bisect wr_fin gt ->
    let C := length (comps h) in let v := wr_made C in let cs := wr_comps w fl (length (dicts h)) in
    exists h2, generate v (ext h [[]; []; []; []; []] cs) = (h2, mark_generated v, Ok tt) /\ length (comps h2) = (C + 5)%nat /\
      (forall k c, nth_error cs k = Some c -> ghost_at h2 (C + k) = c_ghost c /\ type_at h2 (C + k) = c_type c /\ tag_at h2 (C + k) = c_name c) /\
      forall k, (k < 5)%nat -> mesh_of h2 (C + k) = Ok (wr_meshes (wr_alpha P)
        (moved_grid (fun p => wr_F P (lidded p)) mf (spaced gi (fun t => t) (revolved_patches (wr_fuseline P))))
        (moved_grid (wr_F P) mw gw) (moved_grid (wr_F P) mw gl) (moved_grid (wr_F P) mt gt) k).
  Proof using.
    intros Nf Nw Nt SP Pg Kg Ew Kw Sw El Kl Sl (Et & Kt & St) C v cs. set (F := wr_F P). set (a := wr_alpha P).
    destruct (revolved_grid mf (wr_fuseline P) (wr_profile P) wr_fuse_01) as [_ Sp].
    assert (PC : forall m axis b, (forall a, axis = Some a -> is_axis a) -> plan_ok (wr_plan P m axis b)) by (intros m axis b H; split; [exact H|constructor]).
    assert (AY : is_axis "y") by (right; left; reflexivity).
    destruct (options_generate v h [[]; []; []; []; []] cs [0; 1; 2; 3; 4]%nat (wr_more P) (hf4_piece (revolved_patches (wr_fuseline P)) gw gl gl gt) (hf4_piece mf mw mw mw mt)
      (hf4_piece (wr_plan P (Some wr_underside) None true) (wr_plan P None (Some "y"%string) true) (wr_plan P None None true) (wr_plan P None (Some "y"%string) false) (wr_plan P None None true))
      (hf4_piece gi (fun t => t) (fun t => t) (fun t => t) (fun t => t)) (fun _ t => t)
      (hf4_piece (fun p => wind a (F (lidded p))) (fun p => wind a (F p)) (fun p => wind a (F p)) (fun p => wind a (F p)) (fun p => wind a (F p)))
      (fun _ p => wind a (reflect (axis_vec "y") (F p)))) as (h2 & A & B & D & Q).
    - eapply (ext_separate h _ _ [0; 1; 2; 3; 4]%nat SP); [reflexivity| |]; repeat constructor; cbn; lia || intuition discriminate.
    - reflexivity.
    - repeat constructor; cbn; intuition discriminate.
    - reflexivity.
    - repeat (apply Forall_cons || apply Forall_nil); cbn [motion_ok]; unfold is_axis; tauto.
    - intros k Hk. cbn [In] in Hk. destruct Hk as [<-|[<-|[<-|[<-|[<-|[]]]]]]; cbn [hf4_piece].
      + eexists _, false, _, _. split; [reflexivity|]. split; [reflexivity|]. split; [apply revolved_fine|]. split; [discriminate|]. split; [exact Sp|].
        split; [right; exists 0%nat; split; reflexivity|]. split; [split; [exact (eq_sym (wr_bends P)) || reflexivity|]; split; [left; reflexivity|]; repeat split|].
        split; [apply PC; discriminate|]. split; [reflexivity|]. split; [reflexivity|]. split; [cbn; congruence|]. split; [reflexivity|]. split; [exact Pg|]. split; [exact places_none|]. split; [exact Kg|exact keeps_id].
      + eexists _, false, _, _. split; [reflexivity|]. split; [cbn [with_options wing_comp c_kind]; unfold wing_result; rewrite Ew; reflexivity|].
        split; [rewrite Kw; apply fineb_fine; reflexivity|]. split; [intros ->; discriminate Kw|]. split; [exact Sw|]. split; [right; exists 1%nat; split; reflexivity|].
        split; [split; [reflexivity|]; split; [left; reflexivity|]; repeat split|]. split; [apply PC; intros a' Ha; injection Ha as <-; exact AY|].
        split; [reflexivity|]. split; [reflexivity|]. split; [cbn; congruence|]. split; [reflexivity|]. split; [exact places_none|]. split; [exact places_none|]. split; exact keeps_id.
      + eexists _, false, _, _. split; [reflexivity|]. split; [cbn [with_options wing_comp c_kind]; unfold wing_result; rewrite El; reflexivity|].
        split; [rewrite Kl; apply fineb_fine; reflexivity|]. split; [intros ->; discriminate Kl|]. split; [exact Sl|]. split; [right; exists 2%nat; split; reflexivity|].
        split; [split; [reflexivity|]; split; [left; reflexivity|]; repeat split|]. split; [apply PC; discriminate|].
        split; [reflexivity|]. split; [reflexivity|]. split; [cbn; congruence|]. split; [reflexivity|]. split; [exact places_none|]. split; [exact places_none|]. split; exact keeps_id.
      + eexists _, false, _, _. split; [reflexivity|]. split; [cbn [with_options set_patches wing_comp c_kind]; unfold wing_result; rewrite El; reflexivity|].
        split; [rewrite Kl; apply fineb_fine; reflexivity|]. split; [intros ->; discriminate Kl|]. split; [exact Sl|]. split; [right; exists 3%nat; split; reflexivity|].
        split; [split; [reflexivity|]; split; [left; reflexivity|]; repeat split|]. split; [apply PC; intros a' Ha; injection Ha as <-; exact AY|].
        split; [reflexivity|]. split; [reflexivity|]. split; [cbn; congruence|]. split; [reflexivity|]. split; [exact places_none|]. split; [exact places_none|]. split; exact keeps_id.
      + eexists _, true, _, _. split; [reflexivity|]. split; [cbn [with_options L_Parts.fin_comp c_kind]; rewrite Et; reflexivity|].
        split; [rewrite Kt; apply fin_fine|]. split; [intros ->; discriminate Kt|]. split; [exact St|]. split; [left; reflexivity|].
        split; [split; [reflexivity|]; split; [left; reflexivity|]; repeat split|]. split; [apply PC; discriminate|].
        split; [reflexivity|]. split; [reflexivity|]. split; [cbn; congruence|]. split; [reflexivity|]. split; [exact places_none|]. split; [exact places_none|]. split; exact keeps_id.
    - intros k Hk. cbn [In] in Hk. change (v_angle v) with 0. destruct Hk as [<-|[<-|[<-|[<-|[<-|[]]]]]]; cbn [hf4_piece].
      + apply wr_route_lid.
      + exact (wr_route P (Some "y"%string) true).
      + split; [exact (proj1 (wr_route P None true))|discriminate].
      + exact (wr_route P (Some "y"%string) false).
      + split; [exact (proj1 (wr_route P None true))|discriminate].
    - exists h2. split; [exact A|]. split; [exact B|]. split; [exact D|]. intros k Hk.
      assert (I : In k [0; 1; 2; 3; 4]%nat) by (destruct k as [|[|[|[|[|k]]]]]; cbn; lia).
      unfold C. rewrite (Q k I). destruct k as [|[|[|[|[|k]]]]]; cbn [hf4_piece wr_meshes]; unfold planned_mesh; cbn [p_axis p_append wr_plan]; try lia; rewrite ?evenly_spaced; f_equal.
      + apply (moved_affine (wind a) (fun p => F (lidded p))), wind_affine.
      + unfold map_mesh at 1. rewrite map_app. f_equal; [apply (moved_affine (wind a) F), wind_affine|].
        rewrite (moved_affine (wind a) (fun p => reflect (axis_vec "y") (F p))) by apply wind_affine. rewrite (moved_affine (reflect (axis_vec "y")) F) by apply reflect_affine. reflexivity.
      + apply (moved_affine (wind a) F), wind_affine.
      + cbn [app]. rewrite (moved_affine (wind a) (fun p => reflect (axis_vec "y") (F p))) by apply wind_affine. rewrite (moved_affine (reflect (axis_vec "y")) F) by apply reflect_affine. reflexivity.
      + apply (moved_affine (wind a) F), wind_affine.
  Qed.
End Rest.
