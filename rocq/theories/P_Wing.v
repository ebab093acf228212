(** C67, C68, C69, C79: wings. *)
From Coq Require Import Reals Lra String List Lia ZArith Bool Permutation.
From Verif Require Import Num NumR Py M_Vector SpecR3 M_Path M_Surface M_Geometry M_Component M_Common M_Wing
  SpecPath SpecPoly SpecSurf SpecWing L_Vector L_Line L_Coons L_ArcLength L_Curves L_Ellipse L_Wing L_WingOk.
Import ListNotations.
Local Open Scope R_scope.
Local Opaque el_u el_pt MeanLeadingEdgePatchFunction ArcLengthParameterizedPath.

(** The wings considered: the root finder stays inside its bracket, the
    leading edge line is the curve g from B0 to TT, the thickness functions
    move points by ft and fb along z, and a given t_B1 lies in [0, 1]. *)
Definition ordinary (bisect : (R -> res R) -> R -> R -> res R) (w : wing R)
           (g : R -> pt) (ft fb : R -> R -> R) : Prop :=
  (forall f a b t, bisect f a b = Ok t -> a <= t <= b) /\
  evaluates (w_line w) g /\ g 0 = w_B0 w /\ g 1 = w_TT w /\
  vertical (w_top w) ft /\ vertical (w_bot w) fb /\
  (forall t, w_tB1 w = Some t -> 0 <= t <= 1).

(** a rounded leading edge: top above bottom (z points down), width at least W *)
Definition rounded (w : wing R) (g : R -> pt) (ft fb : R -> R -> R) (W : R) : Prop :=
  wing_flat w = false /\ 0 < W /\
  (forall t, 0 <= t <= 1 -> ft (vx (g t)) (vy (g t)) < fb (vx (g t)) (vy (g t))) /\
  (forall t, 0 <= t <= 1 -> exists k, wing_width w t = Ok k /\ W <= k).

Lemma le_const (p q : path R) wf sd t s s' r :
  MeanLeadingEdgePatchFunction p q wf t t sd s r = MeanLeadingEdgePatchFunction p q wf t t sd s' r.
Proof.
  Local Transparent MeanLeadingEdgePatchFunction. unfold MeanLeadingEdgePatchFunction; numR.
  Local Opaque MeanLeadingEdgePatchFunction.
  replace (t - s * (t - t)) with t by ring. replace (t - s' * (t - t)) with t by ring. reflexivity.
Qed.

(** ** C67: the value of t_B2 *)
Definition with_tB2 {T} (w : wing T) (o : option T) : wing T :=
  mkWing (w_A0 w) (w_A1 w) (w_TT w) (w_B0 w) (w_line w) (w_line_type w) (w_tB1 w) o (w_top w) (w_bot w)
    (w_width w) (w_LE_type w) (w_tail w) (w_flap_length w) (w_flap_angle w) (w_close w).

Theorem C67_no_influence {T} {N : Num T} bisect (w : wing T) a b :
  wing_patches bisect (with_tB2 w (Some a)) = wing_patches bisect (with_tB2 w (Some b)).
Proof. reflexivity. Qed.

(** the second panel and the second leading edge patches span nothing along
    the leading edge *)
Theorem C67_degenerate bisect w g ft fb d t1 t2 : ordinary bisect w g ft fb ->
  w_tB1 w = Some t1 -> w_tB2 w = Some t2 -> wing_patches bisect w = Ok d ->
  (exists u v, dget d "top_patch_1" = Some u /\ dget d "bot_patch_1" = Some v /\
     forall r, u r 1 = Ok (lift ft (g t1)) /\ v r 1 = Ok (lift fb (g t1))) /\
  (forall n, In n (if wing_flat w then ["LE_patch1"] else ["LE_top_patch_1"; "LE_bot_patch_1"])%string ->
     exists u, dget d n = Some u /\ forall s s' r, u s r = u s' r).
Proof.
  intros (Hb & Hl & H0 & H1 & Ht & Hbt & HB) E1 E2 Hd.
  destruct (panels bisect Hb w g ft fb d Hl H0 H1 Ht Hbt HB Hd) as
    (t1' & t2' & top0 & top1 & bot0 & bot1 & tr & rest & R1 & R2 & F1 & F2 & ED & ET &
     _ & _ & _ & _ & A2 & _ & _ & _ & _ & _ & _ & _ & B2 & _).
  unfold wing_t_B1 in F1. rewrite E1 in F1. injection F1 as <-.
  unfold wing_t_B2 in F2. rewrite E2, E1 in F2. injection F2 as <-.
  split.
  - exists top1, bot1. rewrite ED. split; [reflexivity|]. split; [reflexivity|]. intros r. rewrite A2, B2.
    split; do 3 f_equal; ring.
  - rewrite ED. unfold wing_leading_edge. intros n Hn.
    assert (Z : forall x : R, t1 - x * (t1 - t1) = t1) by (intros; ring).
    destruct (wing_flat w) eqn:EF.
    + destruct Hn as [<- | []]. eexists. split; [reflexivity|]. intros s s' r.
      unfold FlatLeadingEdgePatchFunction; numR. rewrite !Z. reflexivity.
    + destruct Hn as [<- | [<- | []]]; (eexists; split; [reflexivity|]); intros s s' r;
        apply le_const.
Qed.

(** t_B2 without t_B1 *)
Theorem C67_t_B2_alone bisect w g ft fb t1 t2 : ordinary bisect w g ft fb ->
  lower (w_line_type w) = "bezier"%string -> w_tB1 w = None -> w_tB2 w = Some t2 ->
  wing_t_B1 bisect w = Ok t1 -> wing_patches bisect w = Raise TypeError.
Proof.
  intros (Hb & Hl & H0 & H1 & Ht & Hbt & HB) Eb E1 E2 F1. unfold wing_patches. rewrite F1. cbn [bind].
  unfold wing_t_B2. rewrite E2, E1. unfold wing_planform. rewrite Eb. cbn [String.eqb Ascii.eqb Bool.eqb sub_to].
  rewrite (Hl t1). cbn [bind]. numR.
  pose proof (sub_evaluates (w_line w) g 0 t1 Hl) as S01.
  destruct (coons_ok_exact _ _ _ _ _ _ _ _ S01 (line_evaluates (w_A1 w) (g t1)) (line_evaluates (w_A0 w) (w_A1 w)) (line_evaluates (w_A0 w) (w_B0 w)))
    as [p0 ->]; rewrite ?lerp_0, ?lerp_1; auto.
  { rewrite <- H0. f_equal. ring. } { f_equal. ring. }
Qed.

(** ** C68: seams of a wing with a rounded leading edge *)
Theorem C68_wing_seams bisect w g ft fb W d : ordinary bisect w g ft fb -> rounded w g ft fb W ->
  wing_patches bisect w = Ok d ->
  let half := half_h ft fb in
  let b := half (vx (w_B0 w)) (vy (w_B0 w)) in
  (* panels against the leading edge *)
  (joined d "top_patch_0" s1 "LE_top_patch_0" s0 along (within_over g half W) /\
   joined d "top_patch_1" s1 "LE_top_patch_1" s0 along (within_over g half W) /\
   joined d "top_patch_1" r0 "LE_top_patch_2" s0 along (within_over g half W) /\
   joined d "bot_patch_0" s1 "LE_bot_patch_0" s1 reversed (within_over g half W) /\
   joined d "bot_patch_1" s1 "LE_bot_patch_1" s1 reversed (within_over g half W) /\
   joined d "bot_patch_1" r1 "LE_bot_patch_2" s1 along (within_over g half W)) /\
  (* the leading edge patches among themselves *)
  (joined d "LE_top_patch_0" s1 "LE_bot_patch_0" s0 along same /\
   joined d "LE_top_patch_1" s1 "LE_bot_patch_1" s0 along same /\
   joined d "LE_top_patch_2" s1 "LE_bot_patch_2" s0 along same /\
   joined d "LE_top_patch_0" r0 "LE_top_patch_1" r1 along same /\
   joined d "LE_top_patch_1" r0 "LE_top_patch_2" r1 along same /\
   joined d "LE_bot_patch_0" r0 "LE_bot_patch_1" r1 along same /\
   joined d "LE_bot_patch_1" r0 "LE_bot_patch_2" r1 along same) /\
  (* the corner of the flap *)
  (joined d "TELE_patch" r0 "LE_top_patch_0" r1 along same /\
   joined d "TELE_patch" r1 "TE_bot_patch" r1 reversed same /\
   joined d "TELE_patch" s0 "TE_top_patch" r1 reversed (within b W) /\
   joined d "TELE_patch" s1 "LE_bot_patch_0" r1 along (within b W)) /\
  (* panels and flap *)
  (joined d "top_patch_0" r0 "top_patch_1" r1 along same /\
   joined d "bot_patch_0" r1 "bot_patch_1" r0 along same /\
   joined d "top_patch_0" r1 "TE_top_patch" s1 along same /\
   joined d "bot_patch_0" r0 "TE_bot_patch" s0 along same /\
   joined d "TE_top_patch" s0 "TE_bot_patch" s1 along same).
Proof.
  intros (Hb & Hl & H0 & H1 & Ht & Hbt & HB) (Hf & HW & Hth & Hwf) Hd. cbv zeta.
  split; [exact (wing_gap_seams bisect Hb w g ft fb d Hl H0 H1 Ht Hbt HB Hd W Hf Hth HW Hwf)|].
  split.
  { destruct (wing_section_seams bisect Hb w g ft fb d Hl H0 H1 Ht Hbt HB Hd W Hf Hth HW Hwf) as ((A & B & C) & D).
    split; [exact A|]. split; [exact B|]. split; [exact C|]. exact D. }
  split; [exact (wing_corner_seams bisect Hb w g ft fb d Hl H0 H1 Ht Hbt HB Hd W Hf Hth HW Hwf)|].
  exact (wing_panel_seams bisect Hb w g ft fb d Hl H0 H1 Ht Hbt HB Hd).
Qed.

(** how large these gaps are: below 6.2e-17 of the half thickness, unless the
    leading edge is a millionth of it *)
Theorem C68_gap_size b W P Q : 0 < b -> b <= 1000000 * W -> within b W P Q ->
  dist P Q <= 62 / 1000000000000000000 * b.
Proof.
  intros Hb HW [H1 H2]. unfold dist. rewrite <- (sqrt_Rsqr (62 / 1000000000000000000 * b)) by lra.
  apply sqrt_le_1_alt. unfold Rsqr.
  set (T := 16331239353195370) in *.
  assert (HT : 0 < T) by (unfold T; lra).
  assert (HT' : / T <= 6124 / 100000000000000000000).
  { apply Rmult_le_reg_r with T; [exact HT|]. rewrite Rinv_l by lra. unfold T. lra. }
  assert (HT0 : 0 < / T) by (apply Rinv_0_lt_compat; exact HT).
  assert (Z : (vz P - vz Q) * (vz P - vz Q) <= (b / 100000000000000000000) * (b / 100000000000000000000)).
  { assert (L : b * (b * b) / (2 * (W * W) * (T * T)) <= b / 100000000000000000000).
    { assert (0 < W) by lra. unfold Rdiv. rewrite !Rinv_mult.
      assert (b * / W <= 1000000). { apply Rmult_le_reg_r with W; [lra|]. rewrite Rmult_assoc, Rinv_l by lra. lra. }
      assert (0 < / W) by (apply Rinv_0_lt_compat; lra). assert (0 < b * / W) by nra.
      replace (b * (b * b) * (/ 2 * (/ W * / W) * (/ T * / T))) with (b * ((b * / W) * (b * / W) * (/ T * / T) / 2)) by (field; split; lra).
      apply Rmult_le_compat_l; [lra|].
      assert (A1 : (b * / W) * (b * / W) <= 1000000000000) by nra.
      assert (A2 : / T * / T <= 6124 / 100000000000000000000 * (6124 / 100000000000000000000)) by nra.
      assert (A0 : 0 <= / T * / T) by (apply Rlt_le, Rmult_lt_0_compat; exact HT0).
      assert (A4 : 0 <= (b * / W) * (b * / W)) by nra.
      pose proof (Rmult_le_compat _ _ _ _ A4 A0 A1 A2) as A3. lra. }
    pose proof (Rle_trans _ _ _ H2 L) as L2. set (z := vz P - vz Q) in *.
    replace (z * z) with (Rabs z * Rabs z) by (unfold Rabs; destruct (Rcase_abs z); ring).
    apply Rmult_le_compat; try apply Rabs_pos; exact L2. }
  assert (Y : b / T * (b / T) <= (6124 / 100000000000000000000 * b) * (6124 / 100000000000000000000 * b)).
  { assert (0 < b * / T) by (apply Rmult_lt_0_compat; lra).
    assert (b * / T <= 6124 / 100000000000000000000 * b) by (rewrite Rmult_comm; apply Rmult_le_compat_r; lra).
    apply Rmult_le_compat; unfold Rdiv; lra. }
  assert (0 < b * b) by nra.
  assert (62 / 1000000000000000000 * b * (62 / 1000000000000000000 * b) = 62 / 1000000000000000000 * (62 / 1000000000000000000) * (b * b)) by ring.
  lra.
Qed.

(** ** C69: flat leading edges *)
Theorem C69_flat_seams bisect w g ft fb d : ordinary bisect w g ft fb -> wing_flat w = true ->
  wing_patches bisect w = Ok d ->
  joined d "top_patch_0" s1 "LE_patch0" s0 along same /\
  joined d "top_patch_1" s1 "LE_patch1" s0 along same /\
  joined d "bot_patch_0" s1 "LE_patch0" s1 reversed same /\
  joined d "bot_patch_1" s1 "LE_patch1" s1 reversed same /\
  joined d "LE_patch0" r0 "LE_patch1" r1 along same /\
  joined d "TELE_patch" r0 "LE_patch0" r1 (fun t => t / 2) same /\
  joined d "TELE_patch" s1 "LE_patch0" r1 (fun t => (1 + t) / 2) same /\
  joined d "TELE_patch" r1 "TE_bot_patch" r1 reversed same /\
  joined d "TELE_patch" s0 "TE_top_patch" r1 reversed same.
Proof.
  intros (Hb & Hl & H0 & H1 & Ht & Hbt & HB) Hf Hd.
  exact (wing_flat_seams bisect Hb w g ft fb d Hl H0 H1 Ht Hbt HB Hd Hf).
Qed.

(** every point of the second patch is a point of the third *)
Theorem C69_overlap bisect w g ft fb d : ordinary bisect w g ft fb -> wing_flat w = true ->
  wing_patches bisect w = Ok d ->
  exists u1 u2, dget d "LE_patch1" = Some u1 /\ dget d "LE_patch2" = Some u2 /\
    forall s r, 0 <= s <= 1 -> exists s' P, 0 <= s' <= 1 /\ u1 s r = Ok P /\ u2 s' r = Ok P.
Proof.
  intros (Hb & Hl & H0 & H1 & Ht & Hbt & HB) Hf Hd.
  destruct (panels bisect Hb w g ft fb d Hl H0 H1 Ht Hbt HB Hd) as
    (t1 & t2 & _ & _ & _ & _ & _ & _ & R1 & R2 & F1 & F2 & _).
  destruct (wing_flat_overlap bisect Hb w g ft fb d Hl H0 H1 Ht Hbt HB Hd Hf t1 t2 F1 F2)
    as (u1 & u2 & top1 & D1 & D2 & _ & V1 & V2 & _).
  exists u1, u2. split; [exact D1|]. split; [exact D2|]. intros s r Hs.
  destruct (Req_dec t1 1) as [->|N].
  - exists 0. eexists. split; [lra|]. split; [apply V1|]. rewrite V2.
    replace (t2 - s * (t2 - 1)) with (1 - 0 * (1 - 1)) by (assert (t2 = 1) by lra; subst; ring). reflexivity.
  - exists ((1 - t2 + s * (t2 - t1)) / (1 - t1)). eexists. split.
    + split.
      * apply Rmult_le_reg_r with (1 - t1); [lra|]. unfold Rdiv. rewrite Rmult_assoc, Rinv_l by lra. nra.
      * apply Rmult_le_reg_r with (1 - t1); [lra|]. unfold Rdiv. rewrite Rmult_assoc, Rinv_l by lra. nra.
    + split; [apply V1|]. rewrite V2.
      replace (1 - (1 - t2 + s * (t2 - t1)) / (1 - t1) * (1 - t1)) with (t2 - s * (t2 - t1)) by (field; lra). reflexivity.
Qed.

(** and the third patch does not end where the panel it should continue ends *)
Theorem C69_panel_missed bisect w g ft fb d t1 : ordinary bisect w g ft fb -> wing_flat w = true ->
  wing_patches bisect w = Ok d -> w_tB2 w = None -> wing_t_B1 bisect w = Ok t1 -> t1 < 1 ->
  (forall a b, 0 <= a <= 1 -> 0 <= b <= 1 -> vx (g a) = vx (g b) -> vy (g a) = vy (g b) -> a = b) ->
  exists u top, dget d "LE_patch2" = Some u /\ dget d "top_patch_1" = Some top /\
    u 0 0 = top 0 0 /\
    forall s, 0 <= s <= 1 -> exists P Q, u 1 0 = Ok P /\ top 0 s = Ok Q /\ P <> Q.
Proof.
  intros (Hb & Hl & H0 & H1 & Ht & Hbt & HB) Hf Hd E2 F1 L Inj.
  pose proof (t_B1_range bisect Hb w HB t1 F1) as R1.
  assert (F2 : wing_t_B2 w t1 = Some ((1 / 2) * (1 + t1))) by (unfold wing_t_B2; rewrite E2; reflexivity).
  destruct (wing_flat_overlap bisect Hb w g ft fb d Hl H0 H1 Ht Hbt HB Hd Hf t1 _ F1 F2)
    as (u1 & u2 & top1 & D1 & D2 & D3 & V1 & V2 & V3).
  exists u2, top1. split; [exact D2|]. split; [exact D3|]. split.
  - rewrite V2, V3, lerp_0. do 3 f_equal. ring.
  - intros s Hs. rewrite V2, V3, lerp_0. eexists _, _. split; [reflexivity|]. split; [reflexivity|].
    intros E. pose proof (f_equal vx E) as Ex. pose proof (f_equal vy E) as Ey. unfold lift in Ex, Ey; cbn [vx vy] in Ex, Ey.
    assert (1 - 1 * (1 - t1) = 1 - s * (1 - 1 / 2 * (1 + t1))) by (apply Inj; [lra|nra|exact Ex|exact Ey]). nra.
Qed.

(** ** C79: a closed wing *)
Definition patch_side := (string * side)%type.
(** the seams: two sides, whether the direction is reversed, whether there is
    an end gap of an ellipse *)
Definition wing_seams : list (patch_side * patch_side * bool * bool) := [
  (("top_patch_0", s1), ("LE_top_patch_0", s0), false, true);
  (("top_patch_1", s1), ("LE_top_patch_1", s0), false, true);
  (("top_patch_1", r0), ("LE_top_patch_2", s0), false, true);
  (("bot_patch_0", s1), ("LE_bot_patch_0", s1), true, true);
  (("bot_patch_1", s1), ("LE_bot_patch_1", s1), true, true);
  (("bot_patch_1", r1), ("LE_bot_patch_2", s1), false, true);
  (("LE_top_patch_0", s1), ("LE_bot_patch_0", s0), false, false);
  (("LE_top_patch_1", s1), ("LE_bot_patch_1", s0), false, false);
  (("LE_top_patch_2", s1), ("LE_bot_patch_2", s0), false, false);
  (("LE_top_patch_0", r0), ("LE_top_patch_1", r1), false, false);
  (("LE_top_patch_1", r0), ("LE_top_patch_2", r1), false, false);
  (("LE_bot_patch_0", r0), ("LE_bot_patch_1", r1), false, false);
  (("LE_bot_patch_1", r0), ("LE_bot_patch_2", r1), false, false);
  (("TELE_patch", r0), ("LE_top_patch_0", r1), false, false);
  (("TELE_patch", r1), ("TE_bot_patch", r1), true, false);
  (("TELE_patch", s0), ("TE_top_patch", r1), true, true);
  (("TELE_patch", s1), ("LE_bot_patch_0", r1), false, true);
  (("top_patch_0", r0), ("top_patch_1", r1), false, false);
  (("bot_patch_0", r1), ("bot_patch_1", r0), false, false);
  (("top_patch_0", r1), ("TE_top_patch", s1), false, false);
  (("bot_patch_0", r0), ("TE_bot_patch", s0), false, false);
  (("TE_top_patch", s0), ("TE_bot_patch", s1), false, false);
  (("top_patch_0", s0), ("wing_close_top_patch0", s0), true, false);
  (("top_patch_1", s0), ("wing_close_top_patch1", s0), true, false);
  (("bot_patch_0", s0), ("wing_close_bot_patch0", s1), false, false);
  (("bot_patch_1", s0), ("wing_close_bot_patch1", s1), false, false);
  (("wing_close_top_patch0", s1), ("wing_close_bot_patch0", s0), false, false);
  (("wing_close_top_patch1", s1), ("wing_close_bot_patch1", s0), false, false);
  (("wing_close_top_patch0", r1), ("wing_close_top_patch1", r0), false, false);
  (("wing_close_bot_patch0", r1), ("wing_close_bot_patch1", r0), false, false);
  (("wing_close_top_patch0", r0), ("interior_flap_patch", r0), true, false);
  (("wing_close_bot_patch0", r0), ("interior_flap_patch", s0), false, false);
  (("interior_flap_patch", s1), ("TE_top_patch", r0), true, false);
  (("interior_flap_patch", r1), ("TE_bot_patch", r0), false, false);
  (("interior_ellip", r0), ("wing_close_bot_patch1", r1), false, false);
  (("interior_ellip", r1), ("LE_top_patch_2", r0), false, false);
  (("interior_ellip", s0), ("wing_close_top_patch1", r1), true, true);
  (("interior_ellip", s1), ("LE_bot_patch_2", r0), true, true)]%string.

Definition sides_of (l : list (patch_side * patch_side * bool * bool)) : list patch_side :=
  flat_map (fun e => [fst (fst (fst e)); snd (fst (fst e))]) l.
Definition all_sides (names : list string) : list patch_side :=
  flat_map (fun n => [(n, r0); (n, r1); (n, s0); (n, s1)]) names.
Definition seam_holds (d : dict (surf R)) (B W : R) (e : patch_side * patch_side * bool * bool) : Prop :=
  let '((na, ea), (nb, eb), rev, gap) := e in
  joined d na ea nb eb (if rev then reversed else along) (if gap then within B W else same).

Definition side_eqb (a b : side) : bool :=
  match a, b with r0, r0 | r1, r1 | s0, s0 | s1, s1 => true | _, _ => false end.
Definition ps_eqb (a b : patch_side) : bool := (String.eqb (fst a) (fst b) && side_eqb (snd a) (snd b))%bool.
Lemma ps_eqb_eq a b : ps_eqb a b = true <-> a = b.
Proof.
  destruct a as [n e], b as [n' e']; unfold ps_eqb; cbn [fst snd]. rewrite andb_true_iff, String.eqb_eq. split.
  - intros [-> H]. destruct e, e'; cbn in H; congruence.
  - intros E; injection E as <- <-. split; [reflexivity|]. destruct e; reflexivity.
Qed.
Fixpoint nodupb (l : list patch_side) : bool :=
  match l with [] => true | x :: l' => (negb (existsb (ps_eqb x) l') && nodupb l')%bool end.
Lemma existsb_ps x l : existsb (ps_eqb x) l = true <-> In x l.
Proof.
  rewrite existsb_exists. split.
  - intros (y & Hy & E). apply ps_eqb_eq in E. subst. exact Hy.
  - intros H. exists x. split; [exact H|]. apply ps_eqb_eq. reflexivity.
Qed.
Lemma nodupb_sound l : nodupb l = true -> NoDup l.
Proof.
  induction l as [|x l IH]; cbn; [constructor|]. rewrite andb_true_iff, negb_true_iff. intros [A B].
  constructor; [|auto]. intros H. apply existsb_ps in H. congruence.
Qed.
Lemma inclb_sound l l' : forallb (fun x => existsb (ps_eqb x) l') l = true -> incl l l'.
Proof. intros H x Hx. rewrite forallb_forall in H. apply existsb_ps, H, Hx. Qed.

Lemma within_mono b B W P Q : 0 < W -> 0 <= b <= B -> within b W P Q -> within B W P Q.
Proof.
  intros HW Hb [H1 H2]. unfold within. fold tan_big in *. assert (HT : 0 < tan_big) by (unfold tan_big; lra).
  assert (0 < / tan_big) by (apply Rinv_0_lt_compat; exact HT). split.
  - eapply Rle_trans; [exact H1|]. unfold Rdiv.
    assert (0 <= b * / tan_big <= B * / tan_big) by nra. nra.
  - eapply Rle_trans; [exact H2|]. unfold Rdiv. apply Rmult_le_compat_r.
    + left. apply Rinv_0_lt_compat. assert (0 < W * W) by nra. assert (0 < tan_big * tan_big) by nra. nra.
    + assert (0 <= b * b <= B * B) by nra. nra.
Qed.
Lemma joined_weaken d na ea nb eb f (c c' : pt -> pt -> Prop) : (forall P Q, c P Q -> c' P Q) ->
  joined d na ea nb eb f c -> joined d na ea nb eb f c'.
Proof.
  intros H (u & v & E1 & E2 & S). exists u, v. split; [exact E1|]. split; [exact E2|].
  intros t Ht. destruct (S t Ht) as (P & Q & A & B & C). exists P, Q. auto.
Qed.

(** With close_wing, a rounded leading edge and thickness functions that are
    affine along the two root segments, every side of every patch meets
    exactly one other side: exactly, or within the end gap of an ellipse of
    half thickness B. *)
Theorem C79_closed bisect w g ft fb W B d : ordinary bisect w g ft fb -> rounded w g ft fb W ->
  (forall t, 0 <= t <= 1 -> half_h ft fb (vx (g t)) (vy (g t)) <= B) ->
  affine_between ft (w_A1 w) (w_A0 w) -> affine_between ft (w_TT w) (w_A1 w) ->
  affine_between fb (w_A1 w) (w_A0 w) -> affine_between fb (w_TT w) (w_A1 w) ->
  w_close w = true -> wing_patches bisect w = Ok d ->
  Forall (seam_holds d B W) wing_seams /\ Permutation (sides_of wing_seams) (all_sides (map fst d)).
Proof.
  intros Ho Hr HB A1 A2 A3 A4 Hc Hd.
  pose proof (C68_wing_seams bisect w g ft fb W d Ho Hr Hd) as ((G1 & G2 & G3 & G4 & G5 & G6) & (S1 & S2 & S3 & S4 & S5 & S6 & S7) & (K1 & K2 & K3 & K4) & (P1 & P2 & P3 & P4 & P5)).
  destruct Ho as (Hb & Hl & H0 & H1 & Ht & Hbt & HB1). destruct Hr as (Hf & HW & Hth & Hwf).
  destruct (wing_root_seams bisect Hb w g ft fb d Hl H0 H1 Ht Hbt HB1 Hd Hc) as (R1 & R2 & R3 & R4 & R5 & R6 & R7 & R8 & R9 & R10 & R11 & R12 & R13).
  apply R1 in A1. apply R2 in A2. apply affine_sym in A3, A4. apply R3 in A3. apply R4 in A4.
  destruct (wing_root_ellipse bisect Hb w g ft fb d Hl H0 H1 Ht Hbt HB1 Hd Hc W HW Hwf Hf Hth) as (E1 & E2 & E3).
  assert (M : forall P Q, within_over g (half_h ft fb) W P Q -> within B W P Q).
  { intros P Q ((t & Rt & Ex & Ey) & C). unfold within_at in C. rewrite Ex, Ey in C.
    refine (within_mono _ B W P Q HW _ C). pose proof (Hth t Rt). pose proof (HB t Rt). unfold half_h in *. lra. }
  assert (MB : forall P Q, within (half_h ft fb (vx (w_B0 w)) (vy (w_B0 w))) W P Q -> within B W P Q).
  { intros P Q C. refine (within_mono _ B W P Q HW _ C). rewrite <- H0.
    pose proof (Hth 0 ltac:(lra)). pose proof (HB 0 ltac:(lra)). unfold half_h in *. lra. }
  assert (MT : forall P Q, within (half_h ft fb (vx (w_TT w)) (vy (w_TT w))) W P Q -> within B W P Q).
  { intros P Q C. refine (within_mono _ B W P Q HW _ C). rewrite <- H1.
    pose proof (Hth 1 ltac:(lra)). pose proof (HB 1 ltac:(lra)). unfold half_h in *. lra. }
  split.
  - unfold wing_seams. repeat (apply Forall_cons; [cbn [seam_holds]; first [assumption | eapply joined_weaken; [|eassumption]; assumption]|]).
    apply Forall_nil.
  - assert (N : map fst d = ["top_patch_0"; "top_patch_1"; "bot_patch_0"; "bot_patch_1"; "LE_top_patch_0"; "LE_top_patch_1"; "LE_top_patch_2";
      "LE_bot_patch_0"; "LE_bot_patch_1"; "LE_bot_patch_2"; "TE_top_patch"; "TE_bot_patch"; "TELE_patch";
      "wing_close_top_patch0"; "wing_close_top_patch1"; "wing_close_bot_patch0"; "wing_close_bot_patch1"; "interior_ellip"; "interior_flap_patch"]%string).
    { clear - Hb Hl H0 H1 Ht Hbt HB1 Hd Hc Hf.
      destruct (panels bisect Hb w g ft fb d Hl H0 H1 Ht Hbt HB1 Hd) as (t1 & t2 & top0 & top1 & bot0 & bot1 & tr & rest & R1 & R2 & _ & _ & ED & ET &
        _ & P00 & _ & P1 & _ & _ & _ & P2 & _ & _ & P3 & P4 & _ & _ & _ & P5 & CL).
      rewrite Hc in CL.
      assert (E0 : top0 0 0 = Ok (lift ft (w_A1 w))) by (rewrite P00, lerp_0; reflexivity).
      assert (E1 : bot0 1 0 = Ok (lift fb (w_A1 w))) by (rewrite P3, lerp_0; reflexivity).
      destruct (closing_inv w ft fb Ht Hbt top0 bot0 rest CL E0 E1) as (c0 & c1 & c2 & c3 & e & f & k & et & eb & _ & _ & _ & _ & _ & _ & _ & _ & _ & ER).
      destruct (trailing_patches w ft fb Ht Hbt tr ET) as (tet & teb & tele & west & north & EQ & _).
      rewrite ED, EQ, ER. unfold wing_leading_edge. rewrite Hf. reflexivity. }
    rewrite N. apply NoDup_Permutation_bis.
    + apply nodupb_sound. vm_compute. reflexivity.
    + apply Nat.leb_le. vm_compute. reflexivity.
    + apply inclb_sound. vm_compute. reflexivity.
Qed.

(** the root is closed exactly iff the thickness functions are affine along
    the root segments: the closing patches have straight edges *)
Theorem C79_root_iff bisect w g ft fb d : ordinary bisect w g ft fb -> w_close w = true ->
  wing_patches bisect w = Ok d ->
  (joined d "top_patch_0" s0 "wing_close_top_patch0" s0 reversed same <-> affine_between ft (w_A1 w) (w_A0 w)) /\
  (joined d "top_patch_1" s0 "wing_close_top_patch1" s0 reversed same <-> affine_between ft (w_TT w) (w_A1 w)) /\
  (joined d "bot_patch_0" s0 "wing_close_bot_patch0" s1 along same <-> affine_between fb (w_A0 w) (w_A1 w)) /\
  (joined d "bot_patch_1" s0 "wing_close_bot_patch1" s1 along same <-> affine_between fb (w_A1 w) (w_TT w)).
Proof.
  intros (Hb & Hl & H0 & H1 & Ht & Hbt & HB1) Hc Hd.
  destruct (wing_root_seams bisect Hb w g ft fb d Hl H0 H1 Ht Hbt HB1 Hd Hc) as (R1 & R2 & R3 & R4 & _).
  split; [exact R1|]. split; [exact R2|]. split; [exact R3|exact R4].
Qed.

(** a flat leading edge cannot be closed unless a width function is given *)
Theorem C79_flat_close bisect w g ft fb t1 t2 : ordinary bisect w g ft fb -> wing_flat w = true ->
  lower (w_line_type w) = "bezier"%string -> w_tail w = "FLAP"%string ->
  w_width w = None -> w_close w = true ->
  wing_t_B1 bisect w = Ok t1 -> wing_t_B2 w t1 = Some t2 ->
  wing_patches bisect w = Raise TypeError.
Proof.
  intros (Hb & Hl & H0 & H1 & Ht & Hbt & HB1) Hf Eb Ef Ew Ec E1 E2.
  apply (wing_close_raise bisect w g ft fb Hl H0 H1 Ht Hbt Eb Ef t1 t2 TypeError E1 E2); auto.
  unfold wing_width. rewrite Ew. destruct (String.eqb (w_LE_type w) "custom") eqn:E; [|reflexivity].
  apply String.eqb_eq in E. unfold wing_flat in Hf. rewrite E in Hf. vm_compute in Hf. discriminate.
Qed.

(** ** concrete wings *)
Definition mid_bisect (f : R -> res R) (a b : R) : res R :=
  if Rleb a b then Ok ((a + b) / 2) else Raise ValueError.
Definition ex_wing (LE_type : string) (tB1 tB2 : option R) (close : bool) : wing R :=
  mkWing (V3 0 0 0) (V3 4 0 0) (V3 10 0 0) (V3 0 3 0) (Line (V3 0 3 0) (V3 10 0 0)) "Bezier" tB1 tB2
    (uniform_thickness_function (1 / 10) "top") (uniform_thickness_function (1 / 10) "bot")
    None LE_type "FLAP" (1 / 2) (- (1 / 10)) close.
Definition ex_g (t : R) : pt := lerp t (V3 0 3 0) (V3 10 0 0).
Definition ex_top (x y : R) : R := - (1 / 20).
Definition ex_bot (x y : R) : R := 1 / 20.

Lemma ex_ordinary LE tB1 tB2 close : (forall t, tB1 = Some t -> 0 <= t <= 1) ->
  ordinary mid_bisect (ex_wing LE tB1 tB2 close) ex_g ex_top ex_bot.
Proof.
  intros H. split; [|split; [|split; [|split; [|split; [|split]]]]].
  - intros f a b t. unfold mid_bisect. destruct (Rleb a b) eqn:E; [|discriminate]. apply Rleb_true in E.
    intros K; injection K as <-. lra.
  - apply line_evaluates.
  - unfold ex_g. apply lerp_0.
  - unfold ex_g. apply lerp_1.
  - intros x y z. unfold ex_top. cbn. unfold uniform_thickness_function; numR. cbn. do 2 f_equal. field.
  - intros x y z. unfold ex_bot. cbn. unfold uniform_thickness_function; numR. cbn. do 2 f_equal. field.
  - exact H.
Qed.
Lemma ex_rounded tB1 tB2 close : rounded (ex_wing "custom" tB1 tB2 close) ex_g ex_top ex_bot (1 / 100).
Proof.
  split; [reflexivity|]. split; [lra|]. split; [intros; unfold ex_top, ex_bot; lra|].
  intros t Ht. exact (default_width t Ht).
Qed.
Lemma ex_small : small (half_h ex_top ex_bot 0 0) (1 / 100).
Proof.
  unfold small, half_h, ex_top, ex_bot, tan_big. repeat split; try lra.
Qed.
Lemma ex_built LE tB1 tB2 close : tB2 = None \/ tB1 <> None -> LE = "custom"%string \/ (LE = "flat"%string /\ close = false) ->
  exists d, wing_patches mid_bisect (ex_wing LE tB1 tB2 close) = Ok d.
Proof.
  intros H2 HL. destruct (ex_ordinary LE None None close) as (_ & A & B & C & D & E & _); [discriminate|].
  assert (X : forall t, (t = 0 \/ t = 1) -> exists k, leading_edge_width_function (T := R) t = Ok k /\ small (half_h ex_top ex_bot 0 0) k).
  { intros t Ht. exists (1 / 100). split; [|exact ex_small]. unfold leading_edge_width_function. cbn. f_equal.
    destruct Ht as [-> | ->]; cbn; field. }
  assert (F : exists t1, wing_t_B1 mid_bisect (ex_wing LE tB1 tB2 close) = Ok t1).
  { unfold wing_t_B1, ex_wing; cbn [w_tB1]. destruct tB1; [eexists; reflexivity|].
    unfold mid_bisect. numR. destruct (Rleb 0 1) eqn:K; [eexists; reflexivity|]. apply Rleb_false in K. lra. }
  destruct F as [t1 F].
  assert (F2 : exists t2, wing_t_B2 (ex_wing LE tB1 tB2 close) t1 = Some t2).
  { unfold wing_t_B2, ex_wing; cbn [w_tB1 w_tB2]. destruct tB2; [|eexists; reflexivity].
    destruct tB1; [eexists; reflexivity|]. destruct H2; congruence. }
  destruct F2 as [t2 F2].
  refine (wing_ok mid_bisect (ex_wing LE tB1 tB2 close) ex_g ex_top ex_bot A B C D E eq_refl eq_refl t1 t2 F F2 _ _).
  - destruct HL as [-> | [-> _]]; [right|left; reflexivity]. exact (X 0 (or_introl eq_refl)).
  - destruct HL as [-> | [-> ->]]; [|discriminate]. intros _. exact (X 1 (or_intror eq_refl)).
Qed.

Lemma unit_third t : Some (1 / 3) = Some t -> 0 <= t <= 1.
Proof. intros E; injection E as <-. lra. Qed.
Lemma unit_none (t : R) : None = Some t -> 0 <= t <= 1.
Proof. discriminate. Qed.

Example C67_degenerate_meets :
  let w := ex_wing "custom" (Some (1 / 3)) (Some (2 / 3)) true in
  ordinary mid_bisect w ex_g ex_top ex_bot /\ exists d, wing_patches mid_bisect w = Ok d.
Proof. split; [exact (ex_ordinary _ _ _ _ unit_third)|]. apply ex_built; [right; discriminate|left; reflexivity]. Qed.

Example C67_t_B2_alone_meets :
  let w := ex_wing "custom" None (Some (2 / 3)) true in
  ordinary mid_bisect w ex_g ex_top ex_bot /\ lower (w_line_type w) = "bezier"%string /\
  exists t1, wing_t_B1 mid_bisect w = Ok t1.
Proof.
  split; [exact (ex_ordinary _ _ _ _ unit_none)|]. split; [reflexivity|]. unfold wing_t_B1, mid_bisect, ex_wing; cbn [w_tB1]. numR.
  destruct (Rleb 0 1) eqn:K; [eexists; reflexivity|]. apply Rleb_false in K. lra.
Qed.

Example C68_wing_seams_meets :
  let w := ex_wing "custom" None None false in
  ordinary mid_bisect w ex_g ex_top ex_bot /\ rounded w ex_g ex_top ex_bot (1 / 100) /\
  exists d, wing_patches mid_bisect w = Ok d.
Proof.
  split; [exact (ex_ordinary _ _ _ _ unit_none)|]. split; [apply ex_rounded|].
  apply ex_built; left; reflexivity.
Qed.
Example C68_gap_size_meets : within (1 / 20) (1 / 100) (V3 0 0 0) (V3 (1 / 1000000000000000000) 0 0) /\ 1 / 20 <= 1000000 * (1 / 100).
Proof.
  unfold within; cbn [vx vy vz]. replace (0 - 0) with 0 by ring. rewrite Rabs_R0. repeat split; lra.
Qed.

Example C69_meets :
  let w := ex_wing "flat" (Some (1 / 3)) None false in
  ordinary mid_bisect w ex_g ex_top ex_bot /\ wing_flat w = true /\
  (exists d, wing_patches mid_bisect w = Ok d) /\ wing_t_B1 mid_bisect w = Ok (1 / 3) /\ 1 / 3 < 1 /\
  (forall a b, 0 <= a <= 1 -> 0 <= b <= 1 -> vx (ex_g a) = vx (ex_g b) -> vy (ex_g a) = vy (ex_g b) -> a = b).
Proof.
  split; [exact (ex_ordinary _ _ _ _ unit_third)|]. split; [reflexivity|].
  split; [apply ex_built; [left; reflexivity|right; split; reflexivity]|].
  split; [reflexivity|]. split; [lra|]. intros a b _ _. unfold ex_g, lerp; cbn [vx vy]. intros; lra.
Qed.

Example C79_closed_meets :
  let w := ex_wing "custom" None None true in
  ordinary mid_bisect w ex_g ex_top ex_bot /\ rounded w ex_g ex_top ex_bot (1 / 100) /\
  (forall t, 0 <= t <= 1 -> half_h ex_top ex_bot (vx (ex_g t)) (vy (ex_g t)) <= 1 / 20) /\
  affine_between ex_top (w_A1 w) (w_A0 w) /\ affine_between ex_top (w_TT w) (w_A1 w) /\
  affine_between ex_bot (w_A1 w) (w_A0 w) /\ affine_between ex_bot (w_TT w) (w_A1 w) /\
  exists d, wing_patches mid_bisect w = Ok d.
Proof.
  split; [exact (ex_ordinary _ _ _ _ unit_none)|]. split; [apply ex_rounded|].
  split; [intros; unfold half_h, ex_top, ex_bot; lra|].
  do 4 (split; [intros t Ht; unfold ex_top, ex_bot; lra|]). apply ex_built; left; reflexivity.
Qed.

Example C79_flat_close_meets :
  let w := ex_wing "flat" (Some (1 / 3)) None true in
  ordinary mid_bisect w ex_g ex_top ex_bot /\ wing_flat w = true /\ lower (w_line_type w) = "bezier"%string /\
  wing_t_B1 mid_bisect w = Ok (1 / 3) /\ wing_t_B2 w (1 / 3) = Some (1 / 2 * (1 + 1 / 3)).
Proof. split; [exact (ex_ordinary _ _ _ _ unit_third)|]. repeat split. Qed.

Print Assumptions C67_no_influence.
Print Assumptions C67_degenerate.
Print Assumptions C67_t_B2_alone.
Print Assumptions C68_wing_seams.
Print Assumptions C68_gap_size.
Print Assumptions C69_flat_seams.
Print Assumptions C69_overlap.
Print Assumptions C69_panel_missed.
Print Assumptions C79_closed.
Print Assumptions C79_root_iff.
Print Assumptions C79_flat_close.
