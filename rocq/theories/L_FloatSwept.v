(** Rounding errors of SweptPatchfromEdges in binary64. *)
From Coq Require Import ZArith Reals Lra Lia Bool String List Psatz.
From Flocq Require Import Core BinarySingleNaN Relative.
From Verif Require Import Num NumR NumF Py M_Vector SpecR3 M_Path M_Surface M_Geometry SpecPath SpecSurf SpecComp SpecFloats
  L_Vector L_Line L_Component L_Float L_FloatErr L_FloatMesh L_FloatGeom.
Import ListNotations.
Local Open Scope R_scope.

Lemma first_index_some {T} (f : T -> bool) l : forall a i, first_index f l a = Some i ->
  (a <= i)%nat /\ exists x, nth_error l (i - a) = Some x /\ f x = true /\
    forall k y, (k < i - a)%nat -> nth_error l k = Some y -> f y = false.
Proof.
  induction l as [|x l IH]; intros a i H; [discriminate|]. cbn in H. destruct (f x) eqn:E.
  - injection H as <-. split; [lia|]. rewrite Nat.sub_diag. exists x. split; [reflexivity|]. split; [exact E|]. intros; lia.
  - destruct (IH (S a) i H) as (A & y & B & C & D). split; [lia|]. exists y.
    replace (i - a)%nat with (S (i - S a)) by lia. split; [exact B|]. split; [exact C|].
    intros [|k] z Hk Hz; [cbn in Hz; congruence|]. apply (D k z); [lia|exact Hz].
Qed.
Lemma first_index_none {T} (f : T -> bool) l : forall a, first_index f l a = None ->
  forall k y, nth_error l k = Some y -> f y = false.
Proof.
  induction l as [|x l IH]; intros a H k y Hk; [destruct k; discriminate|]. cbn in H. destruct (f x) eqn:E; [discriminate|].
  destruct k as [|k]; cbn in Hk; [congruence|]. apply (IH (S a) H k y Hk).
Qed.

(** piecewise linear interpolation, one coordinate *)
Definition sblend (m : nat) (h : nat -> R) (r : R) : R :=
  let k := seg m r in (1 - (r * INR (S m) - INR k)) * h k + (r * INR (S m) - INR k) * h (S k).
Lemma seg_bounds m r : 0 <= r <= 1 -> INR (seg m r) <= r * INR (S m) <= INR (seg m r) + 1.
Proof.
  intros Hr. destruct (seg_spec m r Hr) as (_ & A & C).
  assert (P : 0 < INR (S m)) by (apply lt_0_INR; lia).
  rewrite (S_INR (seg m r)) in C.
  split.
  - replace (INR (seg m r)) with (INR (seg m r) / INR (S m) * INR (S m)) by (field; lra). apply Rmult_le_compat_r; lra.
  - replace (INR (seg m r) + 1) with ((INR (seg m r) + 1) / INR (S m) * INR (S m)) by (field; lra). apply Rmult_le_compat_r; lra.
Qed.
Lemma sblend_near m h r j d M : (forall k, (k <= S m)%nat -> Rabs (h k) <= M) -> 0 <= r <= 1 -> (j <= m)%nat ->
  0 <= d <= 1 / 2 -> - d <= r * INR (S m) - INR j <= 1 + d ->
  Rabs (((1 - (r * INR (S m) - INR j)) * h j + (r * INR (S m) - INR j) * h (S j)) - sblend m h r) <= 4 * d * M.
Proof.
  intros H Hr Hj Hd B. destruct (seg_spec m r Hr) as (S1 & S2). unfold sblend. set (k := seg m r) in *.
  assert (P : 0 < INR (S m)) by (apply lt_0_INR; lia).
  assert (K : INR k <= r * INR (S m) <= INR k + 1).
  { apply seg_bounds; exact Hr. }
  set (x := r * INR (S m)) in *. clearbody x.
  assert (M0 : 0 <= M) by (apply Rle_trans with (2 := H 0%nat ltac:(lia)); apply Rabs_pos).
  destruct (Nat.lt_trichotomy k j) as [C|[->|C]].
  - assert (C' : INR k + 1 <= INR j) by (rewrite <- S_INR; apply le_INR; lia).
    assert (j = S k) as ->.
    { assert (INR j < INR (k + 2)) by (rewrite plus_INR; simpl; lra). apply INR_lt in H0. lia. }
    pose proof (Rabs_le_inv _ _ (H k ltac:(lia))). pose proof (Rabs_le_inv _ _ (H (S k) ltac:(lia))). pose proof (Rabs_le_inv _ _ (H (S (S k)) ltac:(lia))).
    rewrite S_INR in *. 
    replace ((1 - (x - (INR k + 1))) * h (S k) + (x - (INR k + 1)) * h (S (S k)) - ((1 - (x - INR k)) * h k + (x - INR k) * h (S k)))
      with ((x - (INR k + 1)) * (h (S (S k)) + h k - 2 * h (S k))) by ring.
    rewrite Rabs_mult. replace (4 * d * M) with (d * (4 * M)) by ring. apply Rmult_le_compat; try apply Rabs_pos; apply Rabs_le; lra.
  - rewrite Rminus_diag_eq by reflexivity. rewrite Rabs_R0. nra.
  - assert (C' : INR j + 1 <= INR k) by (rewrite <- S_INR; apply le_INR; lia).
    assert (k = S j) as E.
    { assert (INR k < INR (j + 2)) by (rewrite plus_INR; simpl; lra). apply INR_lt in H0. lia. }
    rewrite E in *. clear E.
    pose proof (Rabs_le_inv _ _ (H j ltac:(lia))). pose proof (Rabs_le_inv _ _ (H (S j) ltac:(lia))). pose proof (Rabs_le_inv _ _ (H (S (S j)) ltac:(lia))).
    rewrite S_INR in *.
    replace ((1 - (x - INR j)) * h j + (x - INR j) * h (S j) - ((1 - (x - (INR j + 1))) * h (S j) + (x - (INR j + 1)) * h (S (S j))))
      with ((x - (INR j + 1)) * (2 * h (S j) - h j - h (S (S j)))) by ring.
    rewrite Rabs_mult. replace (4 * d * M) with (d * (4 * M)) by ring. apply Rmult_le_compat; try apply Rabs_pos; apply Rabs_le; lra.
Qed.
Lemma sblend_size m h r M : (forall k, (k <= S m)%nat -> Rabs (h k) <= M) -> 0 <= r <= 1 -> Rabs (sblend m h r) <= 1 * M.
Proof.
  intros H Hr. destruct (seg_spec m r Hr) as (S1 & S2). unfold sblend. set (k := seg m r) in *.
  assert (P : 0 < INR (S m)) by (apply lt_0_INR; lia).
  assert (K : INR k <= r * INR (S m) <= INR k + 1).
  { apply seg_bounds; exact Hr. }
  pose proof (Rabs_le_inv _ _ (H k ltac:(lia))). pose proof (Rabs_le_inv _ _ (H (S k) ltac:(lia))).
  set (b := r * INR (S m) - INR k) in *. assert (0 <= b <= 1) by (unfold b; lra). apply Rabs_le. nra.
Qed.

(** the slices *)
Lemma tiny_eta : bpow radix2 (-1075) <= ui.
Proof. unfold ui. apply bpow_le. lia. Qed.
Lemma rnd_unit z : 0 <= z <= 1 -> 0 <= rnd z <= 1 /\ Rabs (rnd z - z) <= 2 * ui.
Proof.
  intros H. split.
  - split.
    + apply Rle_trans with (rnd 0); [rewrite rnd_0; lra|]. apply round_le; [exact _|exact _|lra].
    + apply Rle_trans with (rnd 1); [|rewrite rnd_1; lra]. apply round_le; [exact _|exact _|lra].
  - pose proof (rnd_err z) as E. rewrite (Rabs_pos_eq z) in E by lra. pose proof tiny_eta. pose proof ui_pos. nra.
Qed.
Lemma below_1024 x : 0 <= x <= 1 -> Rabs x < bpow radix2 1024.
Proof. intros H. rewrite Rabs_pos_eq by lra. apply Rle_lt_trans with 1; [lra|]. change 1 with (bpow radix2 0). apply bpow_lt. lia. Qed.
Lemma fsub_unit (a b : b64) : is_finite a = true -> is_finite b = true -> 0 <= B2R a - B2R b <= 1 ->
  is_finite (fsub a b) = true /\ B2R (fsub a b) = rnd (B2R a - B2R b).
Proof.
  intros Fa Fb H. pose proof (Bminus_correct 53 1024 _ _ mode_NE a b Fa Fb) as C.
  change (round_mode mode_NE) with ZnearestE in C. rewrite Rlt_bool_true in C by (apply below_1024, rnd_unit, H).
  destruct C as (V & F & _). split; assumption.
Qed.

Section Alpha.
  Variables (N : R) (j : R) (sb sa r : b64) (u : R).
  Hypothesis HN : 1 <= N <= 1048576.
  Hypotheses (Fb : is_finite sb = true) (Fa : is_finite sa = true) (Fr : is_finite r = true).
  Hypotheses (Eb : Rabs (B2R sb - j / N) <= 3 * ui) (Ea : Rabs (B2R sa - (j + 1) / N) <= 3 * ui) (Er : Rabs (B2R r - u) <= 3 * ui).
  Hypotheses (Hb : 0 <= B2R sb) (Ha : B2R sa <= 1) (H1 : B2R sb <= B2R r) (H2 : B2R r <= B2R sa).
  Lemma alpha_nr : nr 1 20000000 2 (fdiv (fsub r sb) (fsub sa sb)) (u * N - j) /\
    - (16777216 * ui) <= u * N - j <= 1 + 16777216 * ui.
  Proof using All.
    pose proof ui_pos as U. pose proof ui_small as U'.
    destruct (fsub_unit r sb Fr Fb ltac:(lra)) as (F1 & V1). destruct (fsub_unit sa sb Fa Fb ltac:(lra)) as (F2 & V2).
    destruct (rnd_unit (B2R r - B2R sb) ltac:(lra)) as (R1 & E1). destruct (rnd_unit (B2R sa - B2R sb) ltac:(lra)) as (R2 & E2).
    rewrite <- V1 in R1, E1. rewrite <- V2 in R2, E2.
    assert (LE : B2R (fsub r sb) <= B2R (fsub sa sb)) by (rewrite V1, V2; apply round_le; [exact _|exact _|lra]).
    set (d1 := B2R (fsub r sb)) in *. set (d2 := B2R (fsub sa sb)) in *.
    assert (I : / 1048576 <= / N) by (apply Rinv_le; lra).
    assert (JN : (j + 1) / N - j / N = / N) by (field; lra).
    apply Rabs_le_inv in E1. apply Rabs_le_inv in E2. apply Rabs_le_inv in Eb. apply Rabs_le_inv in Ea. apply Rabs_le_inv in Er.
    assert (P : 0 < d2) by lra.
    assert (D1 : Rabs (d1 - (u - j / N)) <= 8 * ui) by (apply Rabs_le; lra).
    assert (D2 : Rabs (d2 - / N) <= 8 * ui) by (apply Rabs_le; lra).
    assert (Q : 0 <= d1 / d2 <= 1).
    { split; [apply Rmult_le_pos; [lra|apply Rlt_le, Rinv_0_lt_compat, P]|].
      apply (Rmult_le_reg_r d2); [exact P|]. unfold Rdiv. rewrite Rmult_assoc, Rinv_l, Rmult_1_r by lra. lra. }
    assert (QE : Rabs (d1 / d2 - (u * N - j)) <= 16777216 * ui).
    { replace (d1 / d2 - (u * N - j)) with (N * (d1 - (u - j / N)) + d1 / d2 * (N * (/ N - d2))) by (field; lra).
      apply Rle_trans with (1 := Rabs_triang _ _). rewrite !Rabs_mult, (Rabs_pos_eq N), (Rabs_pos_eq (d1 / d2)) by lra.
      rewrite <- Rabs_Ropp in D2. replace (- (d2 - / N)) with (/ N - d2) in D2 by ring.
      assert (A1 : N * Rabs (d1 - (u - j / N)) <= 1048576 * (8 * ui)) by (apply Rmult_le_compat; try apply Rabs_pos; lra).
      assert (A2 : N * Rabs (/ N - d2) <= 1048576 * (8 * ui)) by (apply Rmult_le_compat; try apply Rabs_pos; lra).
      assert (A3 : d1 / d2 * (N * Rabs (/ N - d2)) <= 1 * (1048576 * (8 * ui))).
      { apply Rmult_le_compat; try lra. apply Rmult_le_pos; [lra|apply Rabs_pos]. }
      lra. }
    pose proof (rnd_unit _ Q) as (RQ & EQ).
    assert (NZ : B2R (fsub sa sb) <> 0) by (fold d2; lra).
    pose proof (Bdiv_correct 53 1024 _ _ mode_NE (fsub r sb) (fsub sa sb) NZ) as C. fold d1 d2 in C.
    change (round_mode mode_NE) with ZnearestE in C. rewrite Rlt_bool_true in C by (apply below_1024, RQ).
    destruct C as (V & F & _). rewrite F1 in F.
    pose proof (Rabs_le_inv _ _ QE) as QE'.
    split; [|lra]. repeat split; [exact F| |].
    - rewrite V. replace (rnd (d1 / d2) - (u * N - j)) with ((rnd (d1 / d2) - d1 / d2) + (d1 / d2 - (u * N - j))) by ring.
      apply Rle_trans with (1 := Rabs_triang _ _). lra.
    - apply Rabs_le. lra.
  Qed.
End Alpha.

Definition nrv (M k c : R) (p : vec b64) (q : pt) : Prop :=
  nr M k c (vx p) (vx q) /\ nr M k c (vy p) (vy q) /\ nr M k c (vz p) (vz q).
(** a sampling parameter *)
Definition param (r : b64) (u : R) : Prop := nr 1 3 1 r u /\ 0 <= B2R r <= 1 /\ 0 <= u <= 1.

Lemma slices_spec L m k : (Z.of_nat (S m) <= 2 ^ 51)%Z -> (k <= S m)%nat ->
  exists x, nth_error (np_linspace (N := NumF L) (n0 (N := NumF L)) (n1 (N := NumF L)) (S (S m))) k = Some x /\ is_finite x = true /\
    Rabs (B2R x - INR k / INR (S m)) <= 3 * ui /\ 0 <= B2R x <= 1 /\ (k = 0%nat -> B2R x = 0) /\ (k = S m -> B2R x = 1).
Proof.
  intros Hm Hk. unfold np_linspace. cbn [nadd nmul ndiv nsub n0 n1 nnat nZ NumF]. unfold n0, n1, nnat. cbn [nZ NumF].
  pose proof ui_pos as U.
  assert (NZ : INR (S m) <> 0) by (apply not_0_INR; lia).
  destruct (Nat.eq_dec k (S m)) as [->|Hne].
  - rewrite nth_error_app2 by (rewrite map_length, seq_length; lia). rewrite map_length, seq_length, Nat.sub_diag.
    exists (of_Z 1). split; [reflexivity|]. split; [reflexivity|]. rewrite (proj1 one_value).
    split; [|split; [lra|split; [lia|reflexivity]]].
    unfold Rdiv. rewrite Rinv_r by exact NZ. rewrite Rminus_diag_eq by reflexivity. rewrite Rabs_R0. lra.
  - rewrite nth_error_app1 by (rewrite map_length, seq_length; lia).
    assert (R : (0 <= Z.of_nat k <= Z.of_nat (S m))%Z) by lia.
    destruct (node_value (Z.of_nat (S m)) ltac:(lia) Hm _ R) as (V & F & _).
    exists (fadd (node (Z.of_nat (S m)) (Z.of_nat k)) (of_Z 0)).
    split; [rewrite nth_error_map, (nth_error_nth' _ 0%nat) by (rewrite seq_length; lia); rewrite seq_nth by lia; cbn [option_map Nat.add];
            rewrite sub_one_zero; reflexivity|].
    assert (EQ : Beqb (fadd (node (Z.of_nat (S m)) (Z.of_nat k)) (of_Z 0)) (node (Z.of_nat (S m)) (Z.of_nat k)) = true)
      by (rewrite zero_is, add_zero, nan_finite by exact F; reflexivity).
    pose proof (eqb_finite _ _ EQ F) as F'. apply eqb_real in EQ; [|exact F'|exact F]. rewrite EQ.
    split; [exact F'|]. split.
    + rewrite !INR_IZR_INZ. apply node_error; [lia|exact Hm|exact R].
    + split; [rewrite V; apply node_range; [lia|exact Hm|exact R]|]. split; [|lia].
      intros ->. rewrite V. cbn [Z.of_nat]. rewrite Rmult_0_l. apply rnd_0.
Qed.

Lemma ltb_real (x y : b64) : is_finite x = true -> is_finite y = true -> (Bltb x y = true <-> B2R x < B2R y).
Proof.
  intros Hx Hy. rewrite (Bltb_correct _ _ x y Hx Hy). case Rlt_bool_spec; intros H; split; intros E; try assumption; try reflexivity; try discriminate; lra.
Qed.

Section Swept.
  Variables (L : libm) (M : R) (m : nat).
  Hypothesis HM : sized_ok M.
  Hypothesis Hm : (Z.of_nat (S m) <= 1048576)%Z.
  Variables (edges : list (path b64)) (f : nat -> pt) (s : b64).
  Hypothesis EL : length edges = S (S m).
  Hypothesis EV : forall k, (k <= S m)%nat -> exists e p, nth_error edges k = Some e /\ p_call e s = Ok p /\ nrv M 32 1 p (f k).

  Lemma INR_N : 1 <= INR (S m) <= 1048576.
  Proof using Hm.
    split; [rewrite S_INR; pose proof (pos_INR m); lra|]. rewrite INR_IZR_INZ. apply IZR_le, Hm.
  Qed.
  Lemma Zm : (Z.of_nat (S m) <= 2 ^ 51)%Z.
  Proof using Hm. clear -Hm. lia. Qed.
  Lemma f_size k : (k <= S m)%nat -> Rabs (vx (f k)) <= M /\ Rabs (vy (f k)) <= M /\ Rabs (vz (f k)) <= M.
  Proof using EV.
    intros H. destruct (EV k H) as (_ & p & _ & _ & (_ & _ & X) & (_ & _ & Y) & (_ & _ & Z)). lra.
  Qed.
  Lemma bl_coord (c : pt -> R) u : c = vx \/ c = vy \/ c = vz -> c (blend m f u) = sblend m (fun k => c (f k)) u.
  Proof. intros [->|[->| ->]]; reflexivity. Qed.

  (* on a slice *)
  Lemma on_slice i (x : b64) u h z : (i <= S m)%nat -> Rabs (B2R x - INR i / INR (S m)) <= 3 * ui -> Rabs (B2R x - u) <= 3 * ui -> 0 <= u <= 1 ->
    (forall k, (k <= S m)%nat -> Rabs (h k) <= M) -> nr M 32 1 z (h i) -> nr M 120000000 1 z (sblend m h u).
  Proof using HM Hm.
    clear EL EV. intros Hi E1 E2 Hu Hh Hz. pose proof INR_N as HN. pose proof ui_pos as U. pose proof ui_small as U'. pose proof (sized_pos M HM) as P.
    apply Rabs_le_inv in E1. apply Rabs_le_inv in E2.
    assert (D : Rabs (u * INR (S m) - INR i) <= 6291456 * ui).
    { replace (u * INR (S m) - INR i) with (INR (S m) * (u - INR i / INR (S m))) by (field; lra).
      rewrite Rabs_mult, Rabs_pos_eq by lra. replace (6291456 * ui) with (1048576 * (6 * ui)) by ring.
      apply Rmult_le_compat; [lra|apply Rabs_pos|lra|apply Rabs_le; lra]. }
    set (d := 6291456 * ui) in *. assert (Hd : 0 <= d <= 1 / 2) by (unfold d; lra).
    pose proof (Rabs_le_inv _ _ D) as D'.
    set (j := Nat.min i m). assert (Hj : (j <= m)%nat) by apply Nat.le_min_r.
    assert (J : - d <= u * INR (S m) - INR j <= 1 + d /\
       Rabs (h i - ((1 - (u * INR (S m) - INR j)) * h j + (u * INR (S m) - INR j) * h (S j))) <= 2 * d * M).
    { destruct (Nat.eq_dec i (S m)) as [Ei|Ei].
      - assert (j = m) as -> by (unfold j; lia). subst i. rewrite (S_INR m) in D' at 2 4. split; [lra|].
        replace (h (S m) - ((1 - (u * INR (S m) - INR m)) * h m + (u * INR (S m) - INR m) * h (S m)))
          with ((u * INR (S m) - (INR m + 1)) * (h m - h (S m))) by ring.
        pose proof (Rabs_le_inv _ _ (Hh m ltac:(lia))). pose proof (Rabs_le_inv _ _ (Hh (S m) ltac:(lia))).
        rewrite Rabs_mult. replace (2 * d * M) with (d * (2 * M)) by ring. apply Rmult_le_compat; try apply Rabs_pos; apply Rabs_le; lra.
      - assert (j = i) as -> by (unfold j; lia). split; [lra|].
        replace (h i - ((1 - (u * INR (S m) - INR i)) * h i + (u * INR (S m) - INR i) * h (S i)))
          with ((u * INR (S m) - INR i) * (h i - h (S i))) by ring.
        pose proof (Rabs_le_inv _ _ (Hh i ltac:(lia))). pose proof (Rabs_le_inv _ _ (Hh (S i) ltac:(lia))).
        rewrite Rabs_mult. replace (2 * d * M) with (d * (2 * M)) by ring. apply Rmult_le_compat; try apply Rabs_pos; apply Rabs_le; lra. }
    destruct J as (J1 & J2).
    pose proof (sblend_near m h u j d M Hh Hu Hj Hd J1) as SN.
    apply nr_weaken with (32 + 6 * 6291456) 1; [exact HM| |lra|lra].
    apply nr_target with (1 := Hz); [|apply sblend_size; assumption].
    match type of J2 with Rabs (_ - ?w) <= _ => set (ww := w) in * end.
    replace (h i - sblend m h u) with ((h i - ww) + (ww - sblend m h u)) by ring.
    apply Rle_trans with (1 := Rabs_triang _ _). apply Rle_trans with (6 * d * M); [lra|]. unfold d. lra.
  Qed.
  (* between slices *)
  Lemma between j al u h za zb : (j <= m)%nat -> nr 1 20000000 2 al (u * INR (S m) - INR j) ->
    - (16777216 * ui) <= u * INR (S m) - INR j <= 1 + 16777216 * ui -> 0 <= u <= 1 ->
    (forall k, (k <= S m)%nat -> Rabs (h k) <= M) -> nr M 32 1 zb (h j) -> nr M 32 1 za (h (S j)) ->
    nr M 120000000 1 (fadd (fmul zb (fsub (of_Z 1) al)) (fmul za al)) (sblend m h u).
  Proof using HM Hm.
    clear EL EV. intros Hj Hal B Hu Hh Hb Ha. pose proof ui_pos as U. pose proof ui_small as U'. pose proof (sized_pos M HM) as P.
    pose proof (sblend_near m h u j (16777216 * ui) M Hh Hu Hj ltac:(lra) B) as SN.
    set (b := u * INR (S m) - INR j) in *.
    pose proof (one_minus2 20000000 al b ltac:(lra) Hal ltac:(apply Rabs_le; lra)) as Hal'.
    pose proof (proj1 (nr_mul_both M HM 32 1 (20000000 + 4) 2 _ _ _ _ ltac:(lra) ltac:(lra) ltac:(lra) ltac:(lra) ltac:(lra) ltac:(lra) ltac:(lra) Hb Hal')) as P1.
    pose proof (proj1 (nr_mul_both M HM 32 1 20000000 2 _ _ _ _ ltac:(lra) ltac:(lra) ltac:(lra) ltac:(lra) ltac:(lra) ltac:(lra) ltac:(lra) Ha Hal)) as P2.
    assert (A : nr M 40001000 4 (fadd (fmul zb (fsub (of_Z 1) al)) (fmul za al)) (h j * (1 - b) + h (S j) * b)).
    { eapply (add2 M HM _ _ _ _ _ _ _ _ _ _ P1 P2); lra. }
    apply nr_weaken with (40001000 + 4 * 16777216) 1; [exact HM| |lra|lra].
    apply nr_target with (1 := A); [|apply sblend_size; assumption].
    replace (h j * (1 - b) + h (S j) * b) with ((1 - b) * h j + b * h (S j)) by ring. lra.
  Qed.

  Lemma swept_float r u : param r u -> exists p, SweptPatchfromEdges (N := NumF L) edges r s = Ok p /\ nrv M 120000000 1 p (blend m f u).
  Proof using All.
    intros ((Fr & Er & _) & Rr & Hu). rewrite Rmult_1_r in Er. pose proof ui_pos as U. pose proof INR_N as HN.
    unfold SweptPatchfromEdges. rewrite EL. set (sl := np_linspace (N := NumF L) (n0 (N := NumF L)) (n1 (N := NumF L)) (S (S m))).
    assert (SL : forall k, (k <= S m)%nat -> exists x, nth_error sl k = Some x /\ is_finite x = true /\
      Rabs (B2R x - INR k / INR (S m)) <= 3 * ui /\ 0 <= B2R x <= 1 /\ (k = 0%nat -> B2R x = 0) /\ (k = S m -> B2R x = 1))
      by (intros k Hk; apply slices_spec; [apply Zm|exact Hk]).
    assert (LS : length sl = S (S m)).
    { unfold sl, np_linspace. rewrite app_length, map_length, seq_length. cbn. lia. }
    clearbody sl.
    assert (SIZE : forall c : pt -> R, c = vx \/ c = vy \/ c = vz -> forall k, (k <= S m)%nat -> Rabs (c (f k)) <= M).
    { intros c Hc k Hk. destruct (f_size k Hk) as (A & B & C). destruct Hc as [->|[->| ->]]; assumption. }
    destruct (first_index (fun x => neqb (Num := NumF L) x r) sl 0) as [i|] eqn:E1.
    - destruct (first_index_some _ _ _ _ E1) as (_ & x & Nx & Ex & _). rewrite Nat.sub_0_r in Nx.
      assert (Hi : (i <= S m)%nat) by (assert (i < length sl)%nat by (apply nth_error_Some; congruence); lia).
      destruct (SL i Hi) as (x' & Nx' & Fx & Dx & Rx & _). assert (x' = x) as -> by congruence.
      cbn [neqb NumF] in Ex. apply eqb_real in Ex; [|exact Fx|exact Fr].
      destruct (EV i Hi) as (e & p & Ee & Ep & X & Y & Z). unfold py_nth. rewrite Ee. cbn [bind]. exists p. split; [exact Ep|].
      assert (Er' : Rabs (B2R x - u) <= 3 * ui) by (rewrite Ex; exact Er).
      split; [rewrite (bl_coord vx) by tauto; apply (on_slice i x u (fun k => vx (f k))); auto|].
      split; [rewrite (bl_coord vy) by tauto; apply (on_slice i x u (fun k => vy (f k))); auto|].
      rewrite (bl_coord vz) by tauto; apply (on_slice i x u (fun k => vz (f k))); auto.
    - pose proof (first_index_none _ _ _ E1) as NE. cbn [neqb NumF] in NE.
      assert (NE' : forall k x, nth_error sl k = Some x -> is_finite x = true -> B2R x <> B2R r).
      { intros k x Hk Fx HE. apply eqb_real in HE; [|exact Fx|exact Fr]. rewrite (NE k x Hk) in HE. discriminate. }
      destruct (first_index (fun x => ngtb (N := NumF L) x r) sl 0) as [ia|] eqn:E2.
      + destruct (first_index_some _ _ _ _ E2) as (_ & xa & Na & Ga & Before). rewrite Nat.sub_0_r in Na, Before.
        assert (Hia : (ia <= S m)%nat) by (assert (ia < length sl)%nat by (apply nth_error_Some; congruence); lia).
        destruct (SL ia Hia) as (xa' & Na' & Fa & Da & Ra & Za & _). assert (xa' = xa) as -> by congruence.
        unfold ngtb in Ga, Before. cbn [nltb NumF] in Ga, Before. apply ltb_real in Ga; [|exact Fr|exact Fa].
        destruct ia as [|j]; [specialize (Za eq_refl); lra|].
        destruct (SL j ltac:(lia)) as (xb & Nb & Fb & Db & Rb & _).
        assert (Gb : B2R xb <= B2R r).
        { apply Rnot_lt_le. intros HL. apply ltb_real in HL; [|exact Fr|exact Fb]. rewrite (Before j xb ltac:(lia) Nb) in HL. discriminate. }
        destruct (EV j ltac:(lia)) as (eb & pb & Eb & Epb & Xb & Yb & Zb). destruct (EV (S j) Hia) as (ea & pa & Ea & Epa & Xa & Ya & Za').
        unfold py_nth. rewrite Ea. cbn [bind]. rewrite Epa. cbn [bind]. rewrite Eb. cbn [bind]. rewrite Epb. cbn [bind].
        rewrite Na. cbn [bind]. rewrite Nb. cbn [bind]. eexists. split; [reflexivity|].
        rewrite S_INR in Da.
        destruct (alpha_nr (INR (S m)) (INR j) xb xa r u HN Fb Fa Fr Db Da Er (proj1 Rb) (proj2 Ra) Gb (Rlt_le _ _ Ga)) as (AL & BD).
        assert (Hj : (j <= m)%nat) by lia.
        split; [rewrite (bl_coord vx) by tauto; apply (between j _ u (fun k => vx (f k))); auto|].
        split; [rewrite (bl_coord vy) by tauto; apply (between j _ u (fun k => vy (f k))); auto|].
        rewrite (bl_coord vz) by tauto; apply (between j _ u (fun k => vz (f k))); auto.
      + exfalso. pose proof (first_index_none _ _ _ E2) as NG. destruct (SL (S m) (le_n _)) as (x & Nx & Fx & _ & _ & _ & O).
        specialize (O eq_refl). pose proof (NG _ _ Nx) as G. unfold ngtb in G. cbn [nltb NumF] in G.
        pose proof (NE' _ _ Nx Fx). assert (B2R r < B2R x) by lra. apply ltb_real in H0; [|exact Fr|exact Fx]. congruence.
  Qed.
End Swept.
