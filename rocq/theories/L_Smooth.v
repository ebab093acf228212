(** Smoothness of splines: the Gauss-Seidel iteration and the joints. *)
From Coq Require Import Reals Lra List Lia.
From Verif Require Import Num NumR Py M_Vector SpecR3 M_Path SpecPath SpecPoly L_Vector L_Line L_Polyline L_Spline.
Import ListNotations.
Local Open Scope R_scope.

Notation nt l k := (nth k l origin).
(** one sweep, index by index *)
Definition swept (P D D' : list pt) : Prop :=
  length D' = length D /\ nt D' 0 = nt D 0 /\
  (forall k, S k = length D -> nt D' k = nt D k) /\
  forall k, (S (S k) < length D)%nat ->
    nt D' (S k) = scaled (1 / 4) (diff (diff (scaled 6 (nt P (S k))) (nt D' k)) (nt D (S (S k)))).
Definition change (e : R) (D D' : list pt) : Prop := forall k, (k < length D)%nat -> nrm (diff (nt D' k) (nt D k)) <= e.

Lemma sweep_spec : forall ds ps dprev md, (length ds <= length ps)%nat ->
  let r := gs_sweep dprev ds ps md in
  md <= snd r /\ (forall k, S k = length ds -> nt (fst r) k = nt ds k) /\
  (forall k, (S k < length ds)%nat ->
     nt (fst r) k = scaled (1 / 4) (diff (diff (scaled 6 (nt ps k)) (nt (dprev :: fst r) k)) (nt ds (S k)))) /\
  (forall k, (S k < length ds)%nat -> nrm (diff (nt (fst r) k) (nt ds k)) <= snd r).
Proof.
  induction ds as [|d ds IH]; intros ps dprev md HL; cbv zeta.
  { destruct ps; cbn; (split; [lra|]); repeat split; intros k Hk; cbn in Hk; lia. }
  destruct ds as [|dn ds].
  { destruct ps; cbn; (split; [lra|]); repeat split; intros k Hk; cbn in Hk; try lia; reflexivity. }
  destruct ps as [|p ps]; [cbn in HL; lia|].
  rewrite gs_sweep_cons. cbv zeta. set (d' := vscale _ _). cbn [fst snd].
  destruct (IH ps d' (nmax md (vabs (vsub d' d))) ltac:(cbn in HL |- *; lia)) as (I1 & I2 & I3 & I4). clear IH.
  set (r := gs_sweep d' (dn :: ds) ps _) in *.
  assert (MX : md <= snd r /\ nrm (vsub d' d) <= snd r).
  { change (nmax md (vabs (vsub d' d))) with (if Rltb md (nrm (vsub d' d)) then nrm (vsub d' d) else md) in I1.
    destruct (Rltb md (nrm (vsub d' d))) eqn:E; [apply Rltb_true in E|apply Rltb_false in E]; lra. }
  split; [apply MX|]. split; [|split].
  - intros [|k] Hk; [cbn in Hk; lia|]. cbn [nth]. apply I2. cbn in Hk |- *. lia.
  - intros [|k] Hk.
    + cbn [nth]. unfold d', scaled, diff. apply vec_ext; cbn; lra.
    + cbn [nth]. apply I3. cbn in Hk |- *. lia.
  - intros [|k] Hk; [apply MX|]. cbn [nth]. apply I4. cbn in Hk |- *. lia.
Qed.

Lemma whole_sweep P D : length P = length D -> (2 <= length D)%nat ->
  exists d0 ds p0 ps, D = d0 :: ds /\ P = p0 :: ps /\
    (let r := gs_sweep d0 ds ps 0 in swept P D (d0 :: fst r) /\ change (snd r) D (d0 :: fst r)).
Proof.
  intros L L2. destruct D as [|d0 ds]; [cbn in L2; lia|]. destruct P as [|p0 ps]; [cbn in L; lia|].
  exists d0, ds, p0, ps. split; [reflexivity|]. split; [reflexivity|]. cbv zeta. cbn in L, L2.
  destruct (sweep_spec ds ps d0 0 ltac:(lia)) as (I1 & I2 & I3 & I4). pose proof (gs_sweep_length d0 ds ps 0) as GL.
  set (r := gs_sweep d0 ds ps 0) in *. split.
  - split; [cbn; rewrite GL; reflexivity|]. split; [reflexivity|]. split.
    + intros [|k] Hk; [reflexivity|]. cbn [nth]. apply I2. cbn in Hk. lia.
    + intros k Hk. cbn in Hk. exact (I3 k ltac:(lia)).
  - assert (Z : forall a, nrm (diff a a) <= snd r).
    { intros a. replace (diff a a) with origin by (apply vec_ext; cbn; ring).
      rewrite (proj2 (nrm_zero origin) eq_refl). exact I1. }
    intros [|k] Hk; [apply Z|]. cbn in Hk. cbn [nth].
    destruct (Nat.eq_dec (S k) (length ds)) as [E|E]; [rewrite (I2 k E); apply Z|apply I4; lia].
Qed.

Lemma nrm_step x y e1 e2 : nrm x <= e1 -> nrm y <= e2 -> nrm (scaled (1 / 4) (scaled (-1) (plus_scaled x 1 y))) <= (e1 + e2) / 4.
Proof.
  intros Hx Hy. replace (scaled (1 / 4) (scaled (-1) (plus_scaled x 1 y))) with (vscale (vadd x y) (- (1 / 4))) by (apply vec_ext; cbn; lra).
  rewrite nrm_scale. pose proof (nrm_triangle x y). rewrite Rabs_Ropp, Rabs_pos_eq by lra. lra.
Qed.

(** each sweep changes the weights by at most a third of the previous change *)
Definition stable (P D : list pt) (e : R) : Prop := forall D', swept P D D' -> change (e / 3) D D'.
Lemma first_sweep P E : 0 <= E -> (forall i, (S (S i) < length P)%nat -> nrm (second_difference (nt P i) (nt P (S i)) (nt P (S (S i)))) <= E) -> stable P P E.
Proof.
  intros E0 H D' (L & F0 & F1 & F). intros k. induction k as [|k IH]; intros Hk.
  - rewrite F0. replace (diff _ _) with origin by (apply vec_ext; cbn; ring). rewrite (proj2 (nrm_zero origin) eq_refl). lra.
  - destruct (Nat.eq_dec (S (S k)) (length P)) as [Q|Q].
    + rewrite (F1 (S k) Q). replace (diff _ _) with origin by (apply vec_ext; cbn; ring). rewrite (proj2 (nrm_zero origin) eq_refl). lra.
    + rewrite (F k) by lia.
      replace (diff _ _) with (scaled (1 / 4) (scaled (-1) (plus_scaled (diff (nt D' k) (nt P k)) 1 (second_difference (nt P k) (nt P (S k)) (nt P (S (S k)))))))
        by (apply vec_ext; cbn; lra).
      eapply Rle_trans; [apply nrm_step; [apply IH; lia|apply H; lia]|]. lra.
Qed.
Lemma next_sweep P D D' e : 0 <= e -> swept P D D' -> change e D D' -> stable P D' e.
Proof.
  intros E0 (L & F0 & F1 & F) C D'' (L' & F0' & F1' & F'). intros k. induction k as [|k IH]; intros Hk.
  - rewrite F0'. replace (diff _ _) with origin by (apply vec_ext; cbn; ring). rewrite (proj2 (nrm_zero origin) eq_refl). lra.
  - destruct (Nat.eq_dec (S (S k)) (length D')) as [Q|Q].
    + rewrite (F1' (S k) Q). replace (diff _ _) with origin by (apply vec_ext; cbn; ring). rewrite (proj2 (nrm_zero origin) eq_refl). lra.
    + rewrite (F' k) by lia. rewrite (F k) by lia.
      replace (diff _ _) with (scaled (1 / 4) (scaled (-1) (plus_scaled (diff (nt D'' k) (nt D' k)) 1 (diff (nt D' (S (S k))) (nt D (S (S k)))))))
        by (apply vec_ext; cbn; lra).
      eapply Rle_trans; [apply nrm_step; [apply IH; lia|apply C; lia]|]. lra.
Qed.

Lemma change_mono e e' D D' : e <= e' -> change e D D' -> change e' D D'.
Proof. intros H C k Hk. eapply Rle_trans; [apply C, Hk|exact H]. Qed.

Lemma iterate_result P tol : forall k D e, length P = length D -> (2 <= length D)%nat -> 0 <= e -> stable P D e ->
  exists B, length B = length P /\ swept P B (gs_iterate (S k) tol D P) /\ change (Rmax tol (e / 3 ^ S k)) B (gs_iterate (S k) tol D P).
Proof.
  induction k as [|k IH]; intros D e L L2 E0 ST.
  - destruct (whole_sweep P D L L2) as (d0 & ds & p0 & ps & -> & -> & SW & CH). cbn [gs_iterate].
    change n0 with 0. destruct (gs_sweep d0 ds ps 0) as [ds' md]. cbn [fst snd] in SW, CH.
    assert (X : (if nltb md tol then d0 :: ds' else d0 :: ds') = d0 :: ds') by (destruct (nltb md tol); reflexivity).
    rewrite X. exists (d0 :: ds). split; [symmetry; exact L|]. split; [exact SW|].
    eapply change_mono; [|apply ST, SW]. rewrite pow_1. apply Rmax_r.
  - destruct (whole_sweep P D L L2) as (d0 & ds & p0 & ps & -> & -> & SW & CH).
    change (gs_iterate (S (S k)) tol (d0 :: ds) (p0 :: ps)) with
      (let '(ds', md) := gs_sweep d0 ds ps 0 in if Rltb md tol then d0 :: ds' else gs_iterate (S k) tol (d0 :: ds') (p0 :: ps)).
    destruct (gs_sweep d0 ds ps 0) as [ds' md]. cbn [fst snd] in SW, CH. destruct (Rltb md tol) eqn:E.
    + apply Rltb_true in E. exists (d0 :: ds). split; [symmetry; exact L|]. split; [exact SW|].
      eapply change_mono; [|exact CH]. apply Rle_trans with tol; [lra|apply Rmax_l].
    + pose proof (proj1 SW) as L'.
      destruct (IH (d0 :: ds') (e / 3)) as (B & LB & SB & CB).
      * congruence.
      * rewrite L'. exact L2.
      * lra.
      * apply next_sweep with (d0 :: ds); [lra|exact SW|apply ST, SW].
      * exists B. split; [exact LB|]. split; [exact SB|]. replace (e / 3 ^ S (S k)) with (e / 3 / 3 ^ S k); [exact CB|].
        change (3 ^ S (S k)) with (3 * 3 ^ S k). field. apply pow_nonzero. lra.
Qed.

(** cubics *)
Definition cubic (a b c d : R) (t : R) : R := a + 3 * (b - a) * t + 3 * (c - 2 * b + a) * (t * t) + (d - 3 * c + 3 * b - a) * (t * t * t).
Definition cubic' (a b c d : R) (t : R) : R := 3 * (b - a) + 6 * (c - 2 * b + a) * t + 3 * (d - 3 * c + 3 * b - a) * (t * t).
Lemma dl_poly a b c d t : derivable_pt_lim (fun x => a + b * x + c * (x * x) + d * (x * x * x)) t (b + 2 * c * t + 3 * d * (t * t)).
Proof.
  assert (S : forall k (f : R -> R) l, derivable_pt_lim f t l -> derivable_pt_lim (fun x => k * f x) t (k * l)).
  { intros k f l H. replace (k * l) with (0 * f t + k * l) by ring. apply (derivable_pt_lim_mult (fun _ => k) f); [apply derivable_pt_lim_const|exact H]. }
  pose proof (derivable_pt_lim_id t) as D1.
  pose proof (derivable_pt_lim_mult id id t 1 1 D1 D1) as D2.
  pose proof (derivable_pt_lim_mult (fun x => id x * id x) id t _ 1 D2 D1) as D3.
  replace (b + 2 * c * t + 3 * d * (t * t)) with (0 + b * 1 + c * (1 * id t + id t * 1) + d * ((1 * id t + id t * 1) * id t + id t * id t * 1)) by (unfold id; ring).
  apply (derivable_pt_lim_plus (fun x => a + b * x + c * (x * x)) (fun x => d * (x * x * x))); [|exact (S d _ _ D3)].
  apply (derivable_pt_lim_plus (fun x => a + b * x) (fun x => c * (x * x))); [|exact (S c _ _ D2)].
  apply (derivable_pt_lim_plus (fun _ => a) (fun x => b * x)); [apply derivable_pt_lim_const|exact (S b _ _ D1)].
Qed.
Lemma dl_cubic a b c d t : derivable_pt_lim (cubic a b c d) t (cubic' a b c d t).
Proof.
  unfold cubic, cubic'. replace (3 * (b - a) + 6 * (c - 2 * b + a) * t + 3 * (d - 3 * c + 3 * b - a) * (t * t))
    with (3 * (b - a) + 2 * (3 * (c - 2 * b + a)) * t + 3 * (d - 3 * c + 3 * b - a) * (t * t)) by ring. apply dl_poly.
Qed.
Lemma dl_cubic' a b c d t : derivable_pt_lim (cubic' a b c d) t (6 * (c - 2 * b + a) + 6 * (d - 3 * c + 3 * b - a) * t).
Proof.
  pose proof (dl_poly (3 * (b - a)) (6 * (c - 2 * b + a)) (3 * (d - 3 * c + 3 * b - a)) 0 t) as H.
  replace (6 * (c - 2 * b + a) + 6 * (d - 3 * c + 3 * b - a) * t) with (6 * (c - 2 * b + a) + 2 * (3 * (d - 3 * c + 3 * b - a)) * t + 3 * 0 * (t * t)) by ring.
  intros eps He. destruct (H eps He) as (del & Hd). exists del. intros h Hh Hl. specialize (Hd h Hh Hl). unfold cubic'.
  rewrite !Rmult_0_l, !Rplus_0_r in Hd. rewrite !Rmult_0_r, !Rmult_0_l, !Rplus_0_r in *. exact Hd.
Qed.
Definition cubic_pt (a b c d : pt) (t : R) : pt :=
  V3 (cubic (vx a) (vx b) (vx c) (vx d) t) (cubic (vy a) (vy b) (vy c) (vy d) t) (cubic (vz a) (vz b) (vz c) (vz d) t).
Definition cubic_vel (a b c d : pt) (t : R) : pt :=
  V3 (cubic' (vx a) (vx b) (vx c) (vx d) t) (cubic' (vy a) (vy b) (vy c) (vy d) t) (cubic' (vz a) (vz b) (vz c) (vz d) t).
Definition cubic_acc (a b c d : pt) (t : R) : pt :=
  let f a b c d := 6 * (c - 2 * b + a) + 6 * (d - 3 * c + 3 * b - a) * t in
  V3 (f (vx a) (vx b) (vx c) (vx d)) (f (vy a) (vy b) (vy c) (vy d)) (f (vz a) (vz b) (vz c) (vz d)).
Lemma cubic_velocity a b c d t : has_velocity (cubic_pt a b c d) t (cubic_vel a b c d t).
Proof. split; [|split]; apply dl_cubic. Qed.
Lemma cubic_acceleration a b c d t : has_acceleration (cubic_pt a b c d) t (cubic_acc a b c d t).
Proof. exists (cubic_vel a b c d). split; [intros s; apply cubic_velocity|]. split; [|split]; apply dl_cubic'. Qed.
Lemma bezier_cubic (a b c d : pt) : evaluates (Bezier [a; b; c; d]) (cubic_pt a b c d).
Proof.
  intros t. rewrite bezier_bernstein_pt by discriminate. f_equal. unfold bernstein_pt, cubic_pt, cubic, bernstein, C.
  cbn -[pow]. apply vec_ext; cbn; field.
Qed.

(** the control points of segment i *)
Lemma segments_nth : forall pts d i, length d = length pts -> (S i < length pts)%nat ->
  nth_error (spline_segments pts d) i = Some [nt pts i; scaled (1 / 3) (plus_scaled (nt d (S i)) 2 (nt d i));
    scaled (1 / 3) (plus_scaled (nt d i) 2 (nt d (S i))); nt pts (S i)].
Proof.
  induction pts as [|p pts IH]; intros d i L Hi; [cbn in Hi; lia|].
  destruct pts as [|pn pts]; [cbn in Hi; lia|]. destruct d as [|di [|dn d]]; try discriminate.
  destruct i as [|i].
  - cbn [spline_segments nth_error nth]. repeat f_equal; apply vec_ext; numR; cbn; field.
  - change (nth_error (spline_segments (p :: pn :: pts) (di :: dn :: d)) (S i)) with (nth_error (spline_segments (pn :: pts) (dn :: d)) i).
    rewrite IH; [reflexivity|cbn in L |- *; lia|cbn in Hi |- *; lia].
Qed.

Lemma iterate_ends P tol : forall k D, length P = length D -> (2 <= length D)%nat ->
  nt (gs_iterate k tol D P) 0 = nt D 0 /\ nt (gs_iterate k tol D P) (length D - 1) = nt D (length D - 1).
Proof.
  induction k as [|k IH]; intros D L L2; [split; reflexivity|].
  destruct (whole_sweep P D L L2) as (d0 & ds & p0 & ps & -> & -> & (LL & F0 & F1 & _) & _).
  change (gs_iterate (S k) tol (d0 :: ds) (p0 :: ps)) with
    (let '(ds', md) := gs_sweep d0 ds ps 0 in if Rltb md tol then d0 :: ds' else gs_iterate k tol (d0 :: ds') (p0 :: ps)).
  destruct (gs_sweep d0 ds ps 0) as [ds' md]. cbn [fst] in LL, F0, F1.
  assert (Q : nt (d0 :: ds') (length (d0 :: ds) - 1) = nt (d0 :: ds) (length (d0 :: ds) - 1)) by (apply F1; lia).
  destruct (Rltb md tol); [split; [reflexivity|exact Q]|].
  destruct (IH (d0 :: ds')) as (I0 & I1); [congruence|lia|]. rewrite LL in I1. split; [rewrite I0; exact F0|rewrite I1; exact Q].
Qed.

(** the joints *)
Lemma dist_change v w e (P B D : list pt) i : swept P B D -> change e B D -> (S (S i) < length B)%nat ->
  v = diff (diff (scaled 3 (nt P (S i))) (nt D i)) (scaled 2 (nt D (S i))) ->
  w = diff (plus_scaled (nt D (S (S i))) 2 (nt D (S i))) (scaled 3 (nt P (S i))) -> dist v w <= e.
Proof.
  intros (L & _ & _ & F) C Hi -> ->. rewrite dist_sym, dist_nrm.
  replace (vsub _ _) with (diff (nt D (S (S i))) (nt B (S (S i)))); [apply C; lia|].
  pose proof (F i Hi) as Q.
  assert (X : forall f : pt -> R, f = vx \/ f = vy \/ f = vz -> 4 * f (nt D (S i)) = 6 * f (nt P (S i)) - f (nt D i) - f (nt B (S (S i)))).
  { intros f Hf. rewrite Q. destruct Hf as [->|[->| ->]]; cbn; lra. }
  pose proof (X vx ltac:(tauto)). pose proof (X vy ltac:(tauto)). pose proof (X vz ltac:(tauto)).
  apply vec_ext; cbn; lra.
Qed.
