(** Properties C68 (fins) and C87: seams of a fin. *)
From Coq Require Import Reals Lra String List Lia ZArith Bool Permutation.
From Verif Require Import Num NumR Py M_Vector SpecR3 M_Path M_Surface M_Geometry M_Component M_Common M_Fin
  SpecPath SpecPoly SpecSurf SpecWing SpecFin L_Vector L_Line L_Polyline L_Coons L_ArcLength L_Curves L_Rigid L_Ellipse
  L_Wing L_WingOk L_Fin L_FinSeams P_Wing.
Import ListNotations.
Local Open Scope R_scope.
Local Opaque el_u MeanLeadingEdgePatchFunction ArcLengthParameterizedPath.

(** ** what the theorems assume *)
(** thickness functions that move points vertically and change by at most K
    times the distance, a positive half thickness of at most B along the
    leading edge, a leading edge width of at least W *)
Definition fin_ordinary (f : fin R) (ft fb : R -> R -> R) (K B W : R) : Prop :=
  f_p1 f <> f_p2 f /\ f_p2 f <> f_p3 f /\ f_offset f = None /\
  vertical (f_top f) ft /\ vertical (f_bot f) fb /\ 0 <= K /\ lipschitz K ft /\ lipschitz K fb /\
  (forall t, 0 <= t <= 1 -> 0 < half_h ft fb (vx (bent (f_p1 f) (f_p2 f) (f_p3 f) t)) (vy (bent (f_p1 f) (f_p2 f) (f_p3 f) t)) <= B) /\
  0 < W /\ (forall t, 0 <= t <= 1 -> exists k, fin_width f t = Ok k /\ W <= k).

(** ** C68: the panels of a fin meet its leading edge *)
Theorem C68_fin_seams tol bisect f ft fb K B W d : finds_root tol bisect -> fin_ordinary f ft fb K B W ->
  vx (f_p1 f) <> vx (f_p2 f) -> vx (f_p2 f) <> vx (f_p3 f) ->
  fin_patches bisect f = Ok d ->
  let miss := (dist (f_p1 f) (f_p2 f) + dist (f_p2 f) (f_p3 f)) * (tol + 5 / 10000000) in
  let e := ellipse_gap B W + (1 + K) * miss in
  (joined d "top_patch" r1 "LE_top_patch_0" s0 reversed (apart e) /\
   joined d "top_patch" s1 "LE_top_patch_1" s0 along (apart e) /\
   joined d "bot_patch" s1 "LE_bot_patch_0" s1 reversed (apart e) /\
   joined d "bot_patch" r1 "LE_bot_patch_1" s1 along (apart e)) /\
  (joined d "LE_top_patch_0" s1 "LE_bot_patch_0" s0 along same /\
   joined d "LE_top_patch_1" s1 "LE_bot_patch_1" s0 along same /\
   joined d "LE_top_patch_0" r0 "LE_top_patch_1" r1 along same /\
   joined d "LE_bot_patch_0" r0 "LE_bot_patch_1" r1 along same).
Proof.
  intros Hf (H12 & H23 & Ho & Ht & Hb & HK & Lt & Lb & Hth & HW & Hwf) X12 X23 Hd. cbv zeta.
  destruct (fin_inv bisect f Ho d Hd) as (q & pa & t1 & bo & tr & Eq & Ep & Et & _ & _ & ED).
  pose proof (edge_evaluates f q H12 H23 Eq) as Vq.
  destruct (corner_found bisect f tol q t1 Hf H12 H23 Vq Et) as (Ht1 & Herr). specialize (Herr X12 X23).
  destruct (panels_inv f pa Ep) as (top & bot & -> & _ & P2 & _ & P4 & _ & Q2 & _ & Q4).
  destruct (leading_seams f ft fb K B W H12 H23 Ht Hb Hth HW Hwf q t1 Vq Ht1 top bot HK Lt Lb P2 P4 Q2 Q4) as (M1 & M2 & M3 & M4).
  destruct (section_seams f ft fb B W Ht Hb Hth HW Hwf q t1 Vq Ht1) as (N1 & N2 & N3 & N4).
  set (e := ellipse_gap B W + _).
  assert (W1 : forall P Q, apart (miss f K B W t1) P Q -> apart e (motion f P) (motion f Q)).
  { intros P Q HPQ. unfold apart in *. rewrite motion_isometry. eapply Rle_trans; [exact HPQ|]. unfold miss, e.
    apply Rplus_le_compat_l, Rmult_le_compat_l; [lra|]. apply Rmult_le_compat_l; [|exact Herr].
    pose proof (dist_nonneg (f_p1 f) (f_p2 f)). pose proof (dist_nonneg (f_p2 f) (f_p3 f)). lra. }
  assert (W2 : forall P Q, same P Q -> same (motion f P) (motion f Q)) by (intros P Q HPQ; unfold same in *; congruence).
  subst d. cbn [app]. unfold fin_leading_edge; numR. cbn [app].
  Local Ltac at_seam M W H := apply (joined_moved M _ _ _ _ _ _ _ _ _ (turned_moved _) W);
    eexists _, _; split; [reflexivity|]; split; [reflexivity|]; exact H.
  split; (split; [|split; [|split]]).
  - at_seam (motion f) W1 M1.
  - at_seam (motion f) W1 M2.
  - at_seam (motion f) W1 M3.
  - at_seam (motion f) W1 M4.
  - at_seam (motion f) W2 N1.
  - at_seam (motion f) W2 N2.
  - at_seam (motion f) W2 N3.
  - at_seam (motion f) W2 N4.
Qed.

(** the end gap of the ellipses is below 6.2e-17 of the half thickness *)
Theorem C68_fin_gap b W : 0 < b -> b <= 1000000 * W -> ellipse_gap b W <= 62 / 1000000000000000000 * b.
Proof.
  intros Hb HW. unfold ellipse_gap. set (T := 16331239353195370).
  assert (HT : 0 < T) by (unfold T; lra).
  assert (HT' : / T <= 6124 / 100000000000000000000).
  { apply Rmult_le_reg_r with T; [exact HT|]. rewrite Rinv_l by lra. unfold T. lra. }
  assert (HT0 : 0 < / T) by (apply Rinv_0_lt_compat; exact HT). clearbody T.
  assert (L : b * (b * b) / (2 * (W * W) * (T * T)) <= b / 100000000000000000000).
  { assert (0 < W) by lra. unfold Rdiv. rewrite !Rinv_mult.
    assert (b * / W <= 1000000). { apply Rmult_le_reg_r with W; [lra|]. rewrite Rmult_assoc, Rinv_l by lra. lra. }
    assert (0 < / W) by (apply Rinv_0_lt_compat; lra). assert (0 < b * / W) by nra.
    replace (b * (b * b) * (/ 2 * (/ W * / W) * (/ T * / T))) with (b * ((b * / W) * (b * / W) * (/ T * / T) / 2)) by (field; split; lra).
    apply Rmult_le_compat_l; [lra|].
    assert (A1 : (b * / W) * (b * / W) <= 1000000000000) by nra.
    assert (A2 : / T * / T <= 6124 / 100000000000000000000 * (6124 / 100000000000000000000)) by nra.
    assert (A0 : 0 <= / T * / T) by (apply Rlt_le, Rmult_lt_0_compat; exact HT0).
    assert (A4 : 0 <= (b * / W) * (b * / W)) by nra.
    pose proof (Rmult_le_compat _ _ _ _ A4 A0 A1 A2) as A3. lra. }
  assert (b * / T <= 6124 / 100000000000000000000 * b) by (rewrite Rmult_comm; apply Rmult_le_compat_r; lra).
  unfold Rdiv in *. lra.
Qed.

(** If p1 and p2 have the same x, a root finder that tries the left end first
    puts the corner at p1: the first leading edge patches shrink to a section
    at p1 and miss the corner p2 of the panels by the whole length of the edge. *)
Theorem C68_fin_stalls bisect f ft fb K B W d : tries_left bisect -> fin_ordinary f ft fb K B W ->
  vx (f_p1 f) = vx (f_p2 f) -> fin_patches bisect f = Ok d ->
  exists u v P Q, dget d "top_patch" = Some u /\ dget d "LE_top_patch_0" = Some v /\
    u 1 1 = Ok P /\ v 0 0 = Ok Q /\
    Rabs (vy (f_p2 f) - vy (f_p1 f)) - ellipse_gap B W <= dist P Q.
Proof.
  intros Hl (H12 & H23 & Ho & Ht & Hb & HK & Lt & Lb & Hth & HW & Hwf) X12 Hd.
  destruct (fin_inv bisect f Ho d Hd) as (q & pa & t1 & bo & tr & Eq & Ep & Et & _ & _ & ED).
  pose proof (edge_evaluates f q H12 H23 Eq) as Vq. destruct (bent_ends _ _ _ H12 H23) as (G0 & _).
  assert (t1 = 0) as ->.
  { unfold fin_t_B1 in Et; numR. rewrite Hl in Et.
    - cbn [bind] in Et. injection Et as <-. unfold Rround. rewrite Rmult_0_l. replace 0 with (IZR 0) by reflexivity.
      rewrite Rrne_IZR. unfold Rdiv. rewrite Rmult_0_l. reflexivity.
    - rewrite (Vq 0). cbn [bind]. rewrite G0, X12. f_equal. ring. }
  destruct (panels_inv f pa Ep) as (top & bot & -> & _ & P2 & _).
  assert (Hlt : forall t, 0 <= t <= 1 -> ft (vx (bent (f_p1 f) (f_p2 f) (f_p3 f) t)) (vy (bent (f_p1 f) (f_p2 f) (f_p3 f) t))
          < fb (vx (bent (f_p1 f) (f_p2 f) (f_p3 f) t)) (vy (bent (f_p1 f) (f_p2 f) (f_p3 f) t)))
    by (intros t R; pose proof (Hth t R) as [A _]; unfold half_h in A; lra).
  destruct (le_top_edge q _ _ _ ft fb (fin_width f) W Vq Ht Hb Hlt HW Hwf 0 0 0 0) as (Q & EQ & Hw); [ring|lra|].
  pose proof (P2 1) as E1. rewrite lerp_1 in E1. apply (offset_patch top (f_top f) ft) in E1; [|exact Ht].
  eexists _, _, (motion f (lift ft (f_p2 f))), (motion f Q). subst d.
  split; [reflexivity|]. split; [reflexivity|].
  split; [apply (turned_moved f), E1|]. split; [apply (turned_moved f); exact EQ|].
  rewrite motion_isometry. rewrite G0 in Hw. pose proof (Hth 0 ltac:(lra)) as HB. rewrite G0 in HB.
  unfold within_at in Hw. cbn [lift vx vy] in Hw. apply (within_apart _ B W _ _ HW) in Hw; [|lra].
  pose proof (dist_triangle (lift ft (f_p2 f)) Q (lift ft (f_p1 f))) as T1. rewrite (dist_sym Q) in T1.
  enough (Rabs (vy (f_p2 f) - vy (f_p1 f)) <= dist (lift ft (f_p2 f)) (lift ft (f_p1 f))) by lra.
  unfold dist, lift; cbn [vx vy vz]. rewrite <- sqrt_Rsqr_abs. apply sqrt_le_1_alt. unfold Rsqr. rewrite X12.
  pose proof (Rle_0_sqr (vz (f_p2 f) + ft (vx (f_p2 f)) (vy (f_p2 f)) - (vz (f_p1 f) + ft (vx (f_p2 f)) (vy (f_p1 f))))) as Z.
  unfold Rsqr in Z. lra.
Qed.

(** ** C87: a fin of uniform thickness is closed *)
Definition fin_uniform (f : fin R) (h W : R) : Prop :=
  0 < h /\ 0 < W /\ f_thickness f = 2 * h /\ vertical (f_top f) (fun _ _ => - h) /\ vertical (f_bot f) (fun _ _ => h) /\
  (forall t, 0 <= t <= 1 -> exists k, fin_width f t = Ok k /\ W <= k) /\
  f_p1 f <> f_p2 f /\ f_p2 f <> f_p3 f /\ f_offset f = None /\ (f_rudder f = "sharp"%string -> vz (f_p1 f) = 0).
Definition fin_seams_of (f : fin R) : list fin_seam :=
  fin_seams_common ++ (if String.eqb (f_rudder f) "sharp" then sharp_rudder_seams else flat_rudder_seams).

Theorem C87_fin_closed tol bisect f h W d : finds_root tol bisect -> fin_uniform f h W ->
  vx (f_p1 f) <> vx (f_p2 f) -> vx (f_p2 f) <> vx (f_p3 f) ->
  fin_patches bisect f = Ok d ->
  Forall (seam_fits d (ellipse_gap h W) ((dist (f_p1 f) (f_p2 f) + dist (f_p2 f) (f_p3 f)) * (tol + 5 / 10000000))) (fin_seams_of f) /\
  Permutation (fin_sides (fin_seams_of f)) (sides_of_all (map fst d)).
Proof.
  intros Hf (Hh & HW & Hk & Ht & Hb & Hwf & H12 & H23 & Ho & Hz) X12 X23 Hd.
  destruct (fin_seams bisect f Ho h W Hh HW Hk Ht Hb Hwf d H12 H23 (or_intror (ex_intro _ tol Hf)) Hz Hd)
    as (t1 & q & R1 & Vq & Et & Nm & Fo).
  destruct (corner_found bisect f tol q t1 Hf H12 H23 Vq Et) as (_ & Herr). specialize (Herr X12 X23). split.
  - revert Fo. apply Forall_impl. intros [[[[na ea] [nb eb]] rv] fi]. unfold seam_fits. destruct fi; auto.
    apply joined_weaken. intros P Q. unfold apart. intros HPQ. eapply Rle_trans; [exact HPQ|].
    apply Rplus_le_compat_l, Rmult_le_compat_l; [|exact Herr].
    pose proof (dist_nonneg (f_p1 f) (f_p2 f)). pose proof (dist_nonneg (f_p2 f) (f_p3 f)). lra.
  - rewrite Nm. unfold fin_seams_of. destruct (String.eqb (f_rudder f) "sharp").
    + apply NoDup_Permutation_bis; [apply nodupb_sound; vm_compute; reflexivity|apply Nat.leb_le; vm_compute; reflexivity|apply inclb_sound; vm_compute; reflexivity].
    + apply NoDup_Permutation_bis; [apply nodupb_sound; vm_compute; reflexivity|apply Nat.leb_le; vm_compute; reflexivity|apply inclb_sound; vm_compute; reflexivity].
Qed.

(** and it can be built when the ellipse gaps pass the corner test of
    CoonsPatch and the root finder answers *)
Theorem C87_fin_builds bisect f h W k0 k1 : fin_uniform f h W ->
  fin_width f 0 = Ok k0 -> fin_width f 1 = Ok k1 -> small h k0 -> small h k1 ->
  (forall fn, fn (corner_time (f_p1 f) (f_p2 f) (f_p3 f)) = Ok 0 -> exists t, bisect fn 0 1 = Ok t) ->
  exists d, fin_patches bisect f = Ok d.
Proof.
  intros (Hh & HW & Hk & Ht & Hb & Hwf & H12 & H23 & Ho & Hz) E0 E1 S0 S1 Hbi.
  apply (fin_ok bisect f h Hk Ht Hb k0 k1 H12 H23 Hz E0 E1 S0 S1).
  intros q Vq. unfold fin_t_B1; numR. destruct (Hbi (fun t => let! p := p_call q t in Ok (vx p - vx (f_p2 f)))) as [t Et].
  - rewrite (Vq _). cbn [bind]. destruct (bent_ends _ _ _ H12 H23) as (_ & Ec & _). rewrite Ec. f_equal. ring.
  - rewrite Et. cbn [bind]. eexists; reflexivity.
Qed.

(** a fin without LE_wf is built with the documented default width, 0.01 at
    its two ends *)
Theorem C87_fin_default bisect f h : f_width f = None -> 0 < h <= 1000 -> f_thickness f = 2 * h ->
  vertical (f_top f) (fun _ _ => - h) -> vertical (f_bot f) (fun _ _ => h) ->
  f_p1 f <> f_p2 f -> f_p2 f <> f_p3 f -> f_offset f = None -> (f_rudder f = "sharp"%string -> vz (f_p1 f) = 0) ->
  (forall fn, fn (corner_time (f_p1 f) (f_p2 f) (f_p3 f)) = Ok 0 -> exists t, bisect fn 0 1 = Ok t) ->
  fin_uniform f h (1 / 100) /\ exists d, fin_patches bisect f = Ok d.
Proof.
  intros Wd Hh Hk Ht Hb H12 H23 Ho Hz Hbi.
  assert (U : fin_uniform f h (1 / 100)).
  { split; [lra|]. split; [lra|]. split; [exact Hk|]. split; [exact Ht|]. split; [exact Hb|].
    split; [intros t Rt; unfold fin_width; rewrite Wd; exact (default_width t Rt)|]. tauto. }
  split; [exact U|].
  assert (S : small h (1 / 100)).
  { unfold small, tan_big. split; [lra|]. split; [lra|]. split; [lra|].
    assert (h * h <= 1000 * 1000) by (apply Rmult_le_compat; lra).
    assert (h * (h * h) <= 1000 * (1000 * 1000)) by (apply Rmult_le_compat; try lra; nra).
    match goal with |- ?a / ?b <= _ => assert (B : 0 < b) by lra; apply (Rle_trans _ (1000 * (1000 * 1000) / b)); [apply Rmult_le_compat_r; [left; apply Rinv_0_lt_compat; exact B|assumption]|] end.
    lra. }
  apply (C87_fin_builds bisect f h (1 / 100) (1 / 100) (1 / 100) U); try exact S; try exact Hbi; unfold fin_width; rewrite Wd; unfold leading_edge_width_function; cbn; f_equal; field.
Qed.

(** ** a concrete fin *)
Definition half_bisect (fn : R -> res R) (a b : R) : res R :=
  match fn (1 / 2) with
  | Ok v => if (Reqb v 0 && Rleb a (1 / 2) && Rleb (1 / 2) b)%bool then Ok (1 / 2) else Raise ValueError
  | Raise e => Raise e
  end.
Definition ex_fin (rudder : string) : fin R :=
  mkFin (V3 0 0 0) (V3 0 5 0) (V3 3 9 0) (V3 7 6 0) (1 / 10) (1 / 3)
    (uniform_thickness_function (1 / 10) "top") (uniform_thickness_function (1 / 10) "bot")
    None rudder (1 / 2) (1 / 10) (1 / 7) (V3 1 2 3) None.
Lemma half_finds : finds_root 0 half_bisect.
Proof.
  intros fn phi C a b t Hf _. unfold half_bisect.
  destruct (fn (1 / 2)) as [v|] eqn:E; [|discriminate].
  destruct (Reqb v 0 && Rleb a (1 / 2) && Rleb (1 / 2) b)%bool eqn:K; [|discriminate].
  apply andb_true_iff in K. destruct K as [K K3]. apply andb_true_iff in K. destruct K as [K1 K2].
  apply Reqb_true in K1. apply Rleb_true in K2, K3. intros H. injection H as <-. split; [lra|].
  exists (1 / 2). rewrite (Hf (1 / 2)) in E by lra. injection E as E. split; [lra|]. split; [lra|].
  replace (1 / 2 - 1 / 2) with 0 by ring. rewrite Rabs_R0. lra.
Qed.
Lemma ex_corner : corner_time (V3 0 5 0) (V3 3 9 0) (V3 7 6 0) = 1 / 2.
Proof.
  unfold corner_time, dist; cbn [vx vy vz].
  replace ((0 - 3) * (0 - 3) + (5 - 9) * (5 - 9) + (0 - 0) * (0 - 0)) with (5 * 5) by ring.
  replace ((3 - 7) * (3 - 7) + (9 - 6) * (9 - 6) + (0 - 0) * (0 - 0)) with (5 * 5) by ring.
  rewrite sqrt_square by lra. field.
Qed.
Lemma ex_uniform rudder : fin_uniform (ex_fin rudder) (1 / 20) (1 / 100).
Proof.
  unfold fin_uniform, ex_fin; cbn [f_thickness f_top f_bot f_p1 f_p2 f_p3 f_offset f_rudder vz].
  split; [lra|]. split; [lra|]. split; [lra|].
  split; [intros x y z; cbn; unfold uniform_thickness_function; numR; cbn; do 2 f_equal; field|].
  split; [intros x y z; cbn; unfold uniform_thickness_function; numR; cbn; do 2 f_equal; field|].
  split; [intros t Ht; exact (default_width t Ht)|].
  split; [intros E; injection E; lra|]. split; [intros E; injection E; lra|]. split; [reflexivity|]. reflexivity.
Qed.
Lemma ex_small_fin t k : 0 <= t <= 1 -> fin_width (ex_fin "flat") t = Ok k -> small (1 / 20) k.
Proof.
  intros Ht E. destruct (default_width t Ht) as (k' & Ek & Lk). change (fin_width (ex_fin "flat") t) with (leading_edge_width_function (T := R) t) in E.
  rewrite Ek in E. injection E as <-.
  unfold small, tan_big. split; [lra|]. split; [lra|]. split; [lra|].
  assert (A : 1 / 20 * (1 / 20 * (1 / 20)) / (2 * (k' * k') * (16331239353195370 * 16331239353195370)) <= 1 / 20 * (1 / 20 * (1 / 20)) / (2 * (1 / 100 * (1 / 100)) * (1 * 1))).
  { apply Rmult_le_compat_l; [lra|]. apply Rinv_le_contravar; [lra|].
    assert (1 / 100 * (1 / 100) <= k' * k') by (apply Rmult_le_compat; lra). nra. }
  eapply Rle_trans; [|apply Rle_refl].
  assert (B : 1 / 20 * (1 / 20 * (1 / 20)) / (2 * (k' * k') * (16331239353195370 * 16331239353195370)) =
    1 / 20 * (1 / 20 * (1 / 20)) / (16331239353195370 * 16331239353195370) * (/ 2 * (/ k' * / k'))) by (field; lra).
  rewrite B. assert (/ k' <= 100) by (rewrite <- (Rinv_inv 100); apply Rinv_le_contravar; lra).
  assert (0 < / k') by (apply Rinv_0_lt_compat; lra). assert (/ k' * / k' <= 10000) by nra.
  assert (1 / 20 * (1 / 20 * (1 / 20)) / (16331239353195370 * 16331239353195370) <= 1 / 100000000000000) by lra.
  assert (0 <= 1 / 20 * (1 / 20 * (1 / 20)) / (16331239353195370 * 16331239353195370)) by lra. nra.
Qed.

Example C87_meets rudder : finds_root 0 half_bisect /\ fin_uniform (ex_fin rudder) (1 / 20) (1 / 100) /\
  vx (f_p1 (ex_fin rudder)) <> vx (f_p2 (ex_fin rudder)) /\ vx (f_p2 (ex_fin rudder)) <> vx (f_p3 (ex_fin rudder)) /\
  exists d, fin_patches half_bisect (ex_fin rudder) = Ok d.
Proof.
  split; [exact half_finds|]. split; [apply ex_uniform|]. split; [cbn; lra|]. split; [cbn; lra|].
  destruct (default_width 0) as (k0 & E0 & _); [lra|]. destruct (default_width 1) as (k1 & E1 & _); [lra|].
  apply (C87_fin_builds half_bisect (ex_fin rudder) (1 / 20) (1 / 100) k0 k1 (ex_uniform rudder) E0 E1).
  - apply (ex_small_fin 0 k0); [lra|exact E0].
  - apply (ex_small_fin 1 k1); [lra|exact E1].
  - intros fn Hf. change (corner_time _ _ _) with (corner_time (V3 0 5 0) (V3 3 9 0) (V3 7 6 0)) in Hf. rewrite ex_corner in Hf.
    unfold half_bisect. rewrite Hf. rewrite (proj2 (Reqb_true 0 0) eq_refl), (proj2 (Rleb_true 0 (1 / 2))), (proj2 (Rleb_true (1 / 2) 1)) by lra.
    eexists; reflexivity.
Qed.

Example C68_fin_meets rudder : fin_ordinary (ex_fin rudder) (fun _ _ => - (1 / 20)) (fun _ _ => 1 / 20) 0 (1 / 20) (1 / 100).
Proof.
  destruct (ex_uniform rudder) as (Hh & HW & Hk & Ht & Hb & Hwf & H12 & H23 & Ho & Hz).
  assert (L0 : forall c, lipschitz 0 (fun _ _ : R => c)) by (intros c x y x' y'; replace (c - c) with 0 by ring; rewrite Rabs_R0; lra).
  split; [exact H12|]. split; [exact H23|]. split; [exact Ho|]. split; [exact Ht|]. split; [exact Hb|].
  split; [lra|]. split; [apply L0|]. split; [apply L0|]. split; [intros; unfold half_h; lra|]. split; [lra|exact Hwf].
Qed.

(** the same fin with p2 above p1: the root finder stops at p1 *)
Definition upright_fin : fin R :=
  mkFin (V3 0 0 0) (V3 0 5 0) (V3 0 9 0) (V3 7 6 0) (1 / 10) (1 / 3)
    (uniform_thickness_function (1 / 10) "top") (uniform_thickness_function (1 / 10) "bot")
    None "flat" (1 / 2) (1 / 10) (1 / 7) (V3 1 2 3) None.
Definition left_bisect (fn : R -> res R) (a b : R) : res R :=
  match fn a with
  | Ok v => if Reqb v 0 then Ok a else Raise ValueError
  | Raise e => Raise e
  end.
Example C68_fin_stalls_meets : tries_left left_bisect /\
  fin_ordinary upright_fin (fun _ _ => - (1 / 20)) (fun _ _ => 1 / 20) 0 (1 / 20) (1 / 100) /\
  vx (f_p1 upright_fin) = vx (f_p2 upright_fin) /\ (exists d, fin_patches left_bisect upright_fin = Ok d) /\
  4 = Rabs (vy (f_p2 upright_fin) - vy (f_p1 upright_fin)).
Proof.
  split. { intros fn a b E. unfold left_bisect. rewrite E, (proj2 (Reqb_true 0 0) eq_refl). reflexivity. }
  assert (U : fin_uniform upright_fin (1 / 20) (1 / 100)).
  { destruct (ex_uniform "flat") as (Hh & HW & Hk & Ht & Hb & Hwf & H12 & H23 & Ho & Hz).
    unfold fin_uniform, upright_fin; cbn [f_thickness f_top f_bot f_p1 f_p2 f_p3 f_offset f_rudder vz].
    split; [lra|]. split; [lra|]. split; [lra|]. split; [exact Ht|]. split; [exact Hb|]. split; [exact Hwf|].
    split; [intros E; injection E; lra|]. split; [intros E; injection E; lra|]. split; reflexivity. }
  split.
  { destruct U as (Hh & HW & Hk & Ht & Hb & Hwf & H12 & H23 & Ho & Hz).
    assert (L0 : forall c, lipschitz 0 (fun _ _ : R => c)) by (intros c x y x' y'; replace (c - c) with 0 by ring; rewrite Rabs_R0; lra).
    split; [exact H12|]. split; [exact H23|]. split; [exact Ho|]. split; [exact Ht|]. split; [exact Hb|].
    split; [lra|]. split; [apply L0|]. split; [apply L0|]. split; [intros; unfold half_h; lra|]. split; [lra|exact Hwf]. }
  split; [reflexivity|]. split.
  2:{ cbn. rewrite Rabs_pos_eq; lra. }
  destruct (default_width 0) as (k0 & E0 & _); [lra|]. destruct (default_width 1) as (k1 & E1 & _); [lra|].
  destruct U as (Hh & HW & Hk & Ht & Hb & Hwf & H12 & H23 & Ho & Hz).
  apply (fin_ok left_bisect upright_fin (1 / 20) Hk Ht Hb k0 k1 H12 H23 Hz E0 E1).
  - apply (ex_small_fin 0 k0); [lra|exact E0].
  - apply (ex_small_fin 1 k1); [lra|exact E1].
  - intros q Vq. unfold fin_t_B1, left_bisect; numR. rewrite (Vq 0). cbn [bind].
    destruct (bent_ends _ _ _ H12 H23) as (G0 & _). rewrite G0.
    replace (vx (f_p1 upright_fin) - vx (f_p2 upright_fin)) with 0 by (cbn; ring).
    rewrite (proj2 (Reqb_true 0 0) eq_refl). cbn [bind]. eexists; reflexivity.
Qed.

Example C87_default_meets rudder : f_width (ex_fin rudder) = None /\ 0 < 1 / 20 <= 1000 /\ fin_uniform (ex_fin rudder) (1 / 20) (1 / 100) /\
  (forall fn, fn (corner_time (f_p1 (ex_fin rudder)) (f_p2 (ex_fin rudder)) (f_p3 (ex_fin rudder))) = Ok 0 -> exists t, half_bisect fn 0 1 = Ok t).
Proof.
  split; [reflexivity|]. split; [lra|]. split; [apply ex_uniform|]. cbn [ex_fin f_p1 f_p2 f_p3]. rewrite ex_corner.
  intros fn E. unfold half_bisect. rewrite E. unfold Reqb. destruct (Req_EM_T 0 0) as [_|C]; [|lra]. unfold Rleb.
  destruct (Rle_dec 0 (1 / 2)); [|lra]. destruct (Rle_dec (1 / 2) 1); [|lra]. cbn. eauto.
Qed.

Print Assumptions C68_fin_seams.
Print Assumptions C68_fin_gap.
Print Assumptions C68_fin_stalls.
Print Assumptions C87_fin_closed.
Print Assumptions C87_fin_builds.
Print Assumptions C87_fin_default.
