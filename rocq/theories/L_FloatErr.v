(** Rounding error bounds for binary64 computations of the size of a geometry. *)
From Coq Require Import ZArith Reals Lra Lia Bool List Psatz.
From Flocq Require Import Core BinarySingleNaN Relative.
From Verif Require Import Num NumF L_Float.
Import ListNotations.
Local Open Scope R_scope.

Lemma rnd_err z : Rabs (rnd z - z) <= ui * Rabs z + bpow radix2 (-1075).
Proof.
  destruct (error_N_FLT radix2 (-1074) 53 eq_refl (fun z => negb (Z.even z)) z) as (eps & eta & H1 & H2 & _ & E).
  change (round radix2 (FLT_exp (-1074) 53) (Znearest (fun z => negb (Z.even z))) z) with (rnd z) in E. rewrite E.
  replace (z * (1 + eps) + eta - z) with (z * eps + eta) by ring.
  apply Rle_trans with (1 := Rabs_triang _ _). rewrite Rabs_mult.
  replace (/ 2 * bpow radix2 (- (53) + 1)) with ui in H1
    by (unfold ui; replace (-53)%Z with (-1 + (-53 + 1))%Z by lia; rewrite bpow_plus; reflexivity).
  replace (/ 2 * bpow radix2 (-1074)) with (bpow radix2 (-1075)) in H2
    by (replace (-1075)%Z with (-1 + -1074)%Z by lia; rewrite bpow_plus; reflexivity).
  apply Rplus_le_compat; [|exact H2]. rewrite Rmult_comm. apply Rmult_le_compat_r; [apply Rabs_pos|exact H1].
Qed.

(** the sizes considered *)
Definition sized_ok (M : R) : Prop := bpow radix2 (-100) <= M <= bpow radix2 100.
Lemma sized_1 : sized_ok 1.
Proof. split; change 1 with (bpow radix2 0); apply bpow_le; lia. Qed.
Lemma sized_pos M : sized_ok M -> 0 < M.
Proof. intros [H _]. apply Rlt_le_trans with (2 := H). apply bpow_gt_0. Qed.
Lemma eta_small M : sized_ok M -> bpow radix2 (-1075) <= ui * ui * M.
Proof.
  intros [H _]. unfold ui. rewrite <- bpow_plus. apply Rle_trans with (bpow radix2 (-53 + -53) * bpow radix2 (-100)).
  - rewrite <- bpow_plus. apply bpow_le. lia.
  - apply Rmult_le_compat_l; [apply bpow_ge_0|exact H].
Qed.
Lemma ui_small : ui <= / 9000000000000000.
Proof. rewrite ui_val. lra. Qed.

(** x approximates y, which is at most c M, with error at most k 2^-53 M *)
Definition nr (M k c : R) (x : b64) (y : R) : Prop :=
  is_finite x = true /\ Rabs (B2R x - y) <= k * ui * M /\ Rabs y <= c * M.

Lemma nr_weaken M k c k' c' x y : sized_ok M -> nr M k c x y -> k <= k' -> c <= c' -> nr M k' c' x y.
Proof.
  intros HM (F & E & B) Hk Hc. pose proof (sized_pos M HM). pose proof ui_pos. repeat split; [exact F| |].
  - apply Rle_trans with (1 := E). apply Rmult_le_compat_r; [lra|]. apply Rmult_le_compat_r; lra.
  - apply Rle_trans with (1 := B). apply Rmult_le_compat_r; lra.
Qed.
Lemma nr_size M k c c' x y : nr M k c x y -> Rabs y <= c' * M -> nr M k c' x y.
Proof. intros (F & E & _) B. repeat split; assumption. Qed.
Lemma nr_target M k c x y y' d : nr M k c x y -> Rabs (y - y') <= d * ui * M -> forall c', Rabs y' <= c' * M -> nr M (k + d) c' x y'.
Proof.
  intros (F & E & _) D c' B. repeat split; [exact F| |exact B].
  replace (B2R x - y') with ((B2R x - y) + (y - y')) by ring. apply Rle_trans with (1 := Rabs_triang _ _). lra.
Qed.

Section Scale.
  Variable M : R.
  Hypothesis HM : sized_ok M.

  Lemma round_step k c z y : 0 <= k <= 1000000000000 -> 0 <= c <= 1000 -> Rabs (z - y) <= k * ui * M -> Rabs y <= c * M ->
    Rabs (rnd z - y) <= (k + c + 1) * ui * M /\ Rabs (rnd z) < bpow radix2 1024.
  Proof using HM.
    intros Hk Hc E B. pose proof (sized_pos M HM) as P. pose proof ui_pos as U. pose proof ui_small as U'.
    pose proof (rnd_err z) as R. pose proof (eta_small M HM) as N.
    assert (UM : 0 < ui * M) by (apply Rmult_lt_0_compat; lra).
    assert (Z : Rabs z <= c * M + k * (ui * M)).
    { replace z with (y + (z - y)) by ring. apply Rle_trans with (1 := Rabs_triang _ _). lra. }
    assert (E1 : Rabs (rnd z - z) <= (c + 1) * (ui * M)).
    { apply Rle_trans with (1 := R).
      apply Rle_trans with (ui * (c * M + k * (ui * M)) + ui * ui * M).
      - apply Rplus_le_compat; [|exact N]. apply Rmult_le_compat_l; lra.
      - replace (ui * (c * M + k * (ui * M)) + ui * ui * M) with ((c + (k + 1) * ui) * (ui * M)) by ring.
        apply Rmult_le_compat_r; [lra|]. assert ((k + 1) * ui <= 1000000000001 * / 9000000000000000) by (apply Rmult_le_compat; lra).
        lra. }
    assert (E2 : Rabs (rnd z - y) <= (k + c + 1) * ui * M).
    { replace (rnd z - y) with ((rnd z - z) + (z - y)) by ring. apply Rle_trans with (1 := Rabs_triang _ _). lra. }
    split; [exact E2|].
    apply Rle_lt_trans with (bpow radix2 10 * bpow radix2 100).
    - apply Rle_trans with (1024 * M).
      + replace (rnd z) with (y + (rnd z - y)) by ring. apply Rle_trans with (1 := Rabs_triang _ _).
        assert ((k + c + 1) * (ui * M) <= 1000000001001 * (ui * M)) by (apply Rmult_le_compat_r; lra).
        assert (ui * M <= / 9000000000000000 * M) by (apply Rmult_le_compat_r; lra).
        assert (c * M <= 1000 * M) by (apply Rmult_le_compat_r; lra). lra.
      + replace (bpow radix2 10) with 1024 by (simpl; lra). apply Rmult_le_compat_l; [lra|apply HM].
    - rewrite <- bpow_plus. apply bpow_lt. lia.
  Qed.

  Lemma nr_add k1 c1 k2 c2 x1 y1 x2 y2 : 0 <= k1 -> 0 <= k2 -> 0 <= c1 -> 0 <= c2 ->
    k1 + k2 <= 1000000000000 -> c1 + c2 <= 1000 ->
    nr M k1 c1 x1 y1 -> nr M k2 c2 x2 y2 ->
    nr M (k1 + k2 + (c1 + c2) + 1) (c1 + c2) (fadd x1 x2) (y1 + y2).
  Proof using HM.
    intros A1 A2 A3 A4 A5 A6 (F1 & E1 & B1) (F2 & E2 & B2).
    destruct (round_step (k1 + k2) (c1 + c2) (B2R x1 + B2R x2) (y1 + y2)) as (E & S); [lra|lra| | |].
    - replace (B2R x1 + B2R x2 - (y1 + y2)) with ((B2R x1 - y1) + (B2R x2 - y2)) by ring.
      apply Rle_trans with (1 := Rabs_triang _ _). lra.
    - apply Rle_trans with (1 := Rabs_triang _ _). lra.
    - pose proof (Bplus_correct 53 1024 _ _ mode_NE x1 x2 F1 F2) as C.
      change (round_mode mode_NE) with ZnearestE in C. rewrite (Rlt_bool_true _ _ S) in C.
      destruct C as (V & F & _). repeat split; [exact F|rewrite V; exact E|].
      apply Rle_trans with (1 := Rabs_triang _ _). lra.
  Qed.
  Lemma nr_sub k1 c1 k2 c2 x1 y1 x2 y2 : 0 <= k1 -> 0 <= k2 -> 0 <= c1 -> 0 <= c2 ->
    k1 + k2 <= 1000000000000 -> c1 + c2 <= 1000 ->
    nr M k1 c1 x1 y1 -> nr M k2 c2 x2 y2 ->
    nr M (k1 + k2 + (c1 + c2) + 1) (c1 + c2) (fsub x1 x2) (y1 - y2).
  Proof using HM.
    intros A1 A2 A3 A4 A5 A6 (F1 & E1 & B1) (F2 & E2 & B2).
    assert (B : Rabs (y1 - y2) <= (c1 + c2) * M).
    { unfold Rminus. apply Rle_trans with (1 := Rabs_triang _ _). rewrite Rabs_Ropp. lra. }
    destruct (round_step (k1 + k2) (c1 + c2) (B2R x1 - B2R x2) (y1 - y2)) as (E & S); [lra|lra| |exact B|].
    - replace (B2R x1 - B2R x2 - (y1 - y2)) with ((B2R x1 - y1) + - (B2R x2 - y2)) by ring.
      apply Rle_trans with (1 := Rabs_triang _ _). rewrite Rabs_Ropp. lra.
    - pose proof (Bminus_correct 53 1024 _ _ mode_NE x1 x2 F1 F2) as C.
      change (round_mode mode_NE) with ZnearestE in C. rewrite (Rlt_bool_true _ _ S) in C.
      destruct C as (V & F & _). repeat split; [exact F|rewrite V; exact E|exact B].
  Qed.
  (** product with a parameter *)
  Lemma nr_mul_both k c kt ct x y t u : 0 <= k -> 0 <= c -> 0 <= kt -> 0 <= ct ->
    k * kt <= 1000000000000000 -> k * ct + c * kt <= 900000000000 -> c * ct <= 1000 ->
    nr M k c x y -> nr 1 kt ct t u ->
    nr M (k * ct + c * kt + 1 + c * ct + 1) (c * ct) (fmul x t) (y * u) /\
    nr M (k * ct + c * kt + 1 + c * ct + 1) (c * ct) (fmul t x) (u * y).
  Proof using HM.
    intros A1 A2 A3 A4 A5 A6 A7 (F1 & E1 & B1) (F2 & E2 & B2). pose proof (sized_pos M HM) as P. pose proof ui_pos as U. pose proof ui_small as U'.
    rewrite Rmult_1_r in E2, B2.
    assert (UM : 0 < ui * M) by (apply Rmult_lt_0_compat; lra).
    assert (TB : Rabs (B2R t) <= ct + kt * ui).
    { replace (B2R t) with (u + (B2R t - u)) by ring. apply Rle_trans with (1 := Rabs_triang _ _). lra. }
    assert (B : Rabs (y * u) <= c * ct * M).
    { rewrite Rabs_mult. replace (c * ct * M) with ((c * M) * ct) by ring. apply Rmult_le_compat; try apply Rabs_pos; assumption. }
    assert (E : Rabs (B2R x * B2R t - y * u) <= (k * ct + c * kt + 1) * ui * M).
    { replace (B2R x * B2R t - y * u) with ((B2R x - y) * B2R t + y * (B2R t - u)) by ring.
      apply Rle_trans with (1 := Rabs_triang _ _). rewrite !Rabs_mult.
      apply Rle_trans with ((k * ui * M) * (ct + kt * ui) + (c * M) * (kt * ui)).
      - apply Rplus_le_compat; apply Rmult_le_compat; try apply Rabs_pos; assumption.
      - replace ((k * ui * M) * (ct + kt * ui) + (c * M) * (kt * ui)) with ((k * ct + c * kt + (k * kt) * ui) * (ui * M)) by ring.
        replace ((k * ct + c * kt + 1) * ui * M) with ((k * ct + c * kt + 1) * (ui * M)) by ring.
        apply Rmult_le_compat_r; [lra|].
        assert (0 <= k * kt) by (apply Rmult_le_pos; lra).
        assert ((k * kt) * ui <= 1000000000000000 * / 9000000000000000) by (apply Rmult_le_compat; lra). lra. }
    assert (K : 0 <= k * ct) by (apply Rmult_le_pos; lra).
    assert (K' : 0 <= c * kt) by (apply Rmult_le_pos; lra).
    assert (K2 : 0 <= c * ct) by (apply Rmult_le_pos; lra).
    destruct (round_step (k * ct + c * kt + 1) (c * ct) (B2R x * B2R t) (y * u)) as (E' & S); [lra|lra|exact E|exact B|].
    split.
    - pose proof (Bmult_correct 53 1024 _ _ mode_NE x t) as C.
      change (round_mode mode_NE) with ZnearestE in C. rewrite (Rlt_bool_true _ _ S), F1, F2 in C.
      destruct C as (V & F & _). repeat split; [exact F|rewrite V; exact E'|exact B].
    - pose proof (Bmult_correct 53 1024 _ _ mode_NE t x) as C. rewrite (Rmult_comm (B2R t)) in C. rewrite (Rmult_comm u).
      change (round_mode mode_NE) with ZnearestE in C. rewrite (Rlt_bool_true _ _ S), F1, F2 in C.
      destruct C as (V & F & _). repeat split; [exact F|rewrite V; exact E'|exact B].
  Qed.
End Scale.

Lemma nr_exact M c x : is_finite x = true -> Rabs (B2R x) <= c * M -> nr M 0 c x (B2R x).
Proof. intros F B. repeat split; [exact F| |exact B]. rewrite Rminus_diag_eq by reflexivity. rewrite Rabs_R0. lra. Qed.
Lemma nr_int z c : (Z.abs z < 2 ^ 53)%Z -> Rabs (IZR z) <= c -> nr 1 0 c (of_Z z) (IZR z).
Proof. intros H B. destruct (of_Z_value z H) as (V & F). rewrite <- V. apply nr_exact; [exact F|]. rewrite V. lra. Qed.

(** storage in binary32 *)
Notation fe32 := (SpecFloat.fexp 24 128).
Notation rnd32 := (round radix2 fe32 ZnearestE).
#[global] Instance fe32_valid : Valid_exp fe32.
Proof. apply (fexp_correct 24 128). exact _. Qed.
Lemma rnd32_err z : Rabs (rnd32 z - z) <= bpow radix2 (-24) * Rabs z + bpow radix2 (-150).
Proof.
  destruct (error_N_FLT radix2 (-149) 24 eq_refl (fun z => negb (Z.even z)) z) as (eps & eta & H1 & H2 & _ & E).
  change (round radix2 (FLT_exp (-149) 24) (Znearest (fun z => negb (Z.even z))) z) with (rnd32 z) in E. rewrite E.
  replace (z * (1 + eps) + eta - z) with (z * eps + eta) by ring.
  apply Rle_trans with (1 := Rabs_triang _ _). rewrite Rabs_mult.
  replace (/ 2 * bpow radix2 (- (24) + 1)) with (bpow radix2 (-24)) in H1
    by (replace (-24)%Z with (-1 + (-24 + 1))%Z by lia; rewrite bpow_plus; reflexivity).
  replace (/ 2 * bpow radix2 (-149)) with (bpow radix2 (-150)) in H2
    by (replace (-150)%Z with (-1 + -149)%Z by lia; rewrite bpow_plus; reflexivity).
  apply Rplus_le_compat; [|exact H2]. rewrite Rmult_comm. apply Rmult_le_compat_r; [apply Rabs_pos|exact H1].
Qed.
Lemma to_b32_value (x : b64) : is_finite x = true -> Rabs (rnd32 (B2R x)) < bpow radix2 128 ->
  B2R (to_b32 x) = rnd32 (B2R x) /\ is_finite (to_b32 x) = true.
Proof.
  intros F S. destruct x as [s|s| |s m e H]; try discriminate F.
  - simpl. split; [|reflexivity]. rewrite round_0 by exact _. reflexivity.
  - unfold to_b32. pose proof (binary_normalize_correct 24 128 _ _ mode_NE (cond_Zopp s (Zpos m)) e s) as C. cbv zeta in C.
    change (round_mode mode_NE) with ZnearestE in C.
    change (F2R {| Fnum := cond_Zopp s (Zpos m); Fexp := e |}) with (B2R (B754_finite s m e H : b64)) in C.
    rewrite (Rlt_bool_true _ _ S) in C. destruct C as (V & G & _). split; assumption.
Qed.
Lemma of_b32_value (x : b32) : is_finite x = true -> B2R (of_b32 x) = B2R x /\ is_finite (of_b32 x) = true.
Proof.
  intros F. destruct x as [s|s| |s m e H]; try discriminate F; [split; reflexivity|].
  unfold of_b32. pose proof (binary_normalize_correct 53 1024 _ _ mode_NE (cond_Zopp s (Zpos m)) e s) as C. cbv zeta in C.
  change (round_mode mode_NE) with ZnearestE in C.
  set (x := B754_finite s m e H : b32) in *.
  change (F2R {| Fnum := cond_Zopp s (Zpos m); Fexp := e |}) with (B2R x) in C.
  rewrite (round_generic radix2 fe ZnearestE (B2R x)) in C.
  - rewrite Rlt_bool_true in C.
    + destruct C as (V & G & _). split; assumption.
    + apply Rlt_trans with (bpow radix2 128); [apply abs_B2R_lt_emax|apply bpow_lt; lia].
  - apply generic_inclusion_mag with fe32; [|apply generic_format_B2R].
    intros _. unfold SpecFloat.fexp, SpecFloat.emin. lia.
Qed.
Definition store (x : b64) : b64 := of_b32 (to_b32 x).
Lemma store_near M k c e x y : sized_ok M -> 0 <= k <= 1000000000000 -> 0 <= c <= 1000 -> nr M k c x y ->
  k * ui + bpow radix2 (-24) * (c + k * ui) + bpow radix2 (-50) <= e ->
  is_finite (store x) = true /\ Rabs (B2R (store x) - y) <= e * M.
Proof.
  intros HM Hk Hc (F & E & B) He. pose proof (sized_pos M HM) as P. pose proof ui_pos as U. pose proof ui_small as U'.
  assert (N : bpow radix2 (-150) <= bpow radix2 (-50) * M).
  { apply Rle_trans with (bpow radix2 (-50) * bpow radix2 (-100)); [rewrite <- bpow_plus; apply bpow_le; lia|].
    apply Rmult_le_compat_l; [apply bpow_ge_0|apply HM]. }
  assert (X : Rabs (B2R x) <= (c + k * ui) * M).
  { replace (B2R x) with (y + (B2R x - y)) by ring. apply Rle_trans with (1 := Rabs_triang _ _). lra. }
  pose proof (bpow_gt_0 radix2 (-24)) as P24.
  pose proof (rnd32_err (B2R x)) as R.
  assert (R' : Rabs (rnd32 (B2R x) - B2R x) <= (bpow radix2 (-24) * (c + k * ui) + bpow radix2 (-50)) * M).
  { apply Rle_trans with (1 := R). rewrite Rmult_plus_distr_r, Rmult_assoc. apply Rplus_le_compat; [|exact N].
    apply Rmult_le_compat_l; [lra|exact X]. }
  assert (T : Rabs (rnd32 (B2R x) - y) <= (k * ui + bpow radix2 (-24) * (c + k * ui) + bpow radix2 (-50)) * M).
  { replace (rnd32 (B2R x) - y) with ((rnd32 (B2R x) - B2R x) + (B2R x - y)) by ring.
    apply Rle_trans with (1 := Rabs_triang _ _). lra. }
  assert (KU : k * ui <= 1).
  { apply Rle_trans with (1000000000000 * / 9000000000000000); [apply Rmult_le_compat; lra|lra]. }
  assert (B24 : bpow radix2 (-24) <= 1) by (change 1 with (bpow radix2 0); apply bpow_le; lia).
  assert (B50 : bpow radix2 (-50) <= 1) by (change 1 with (bpow radix2 0); apply bpow_le; lia).
  destruct (to_b32_value x F) as (V & G).
  - apply Rle_lt_trans with (bpow radix2 12 * bpow radix2 100).
    + replace (bpow radix2 12) with 4096 by (simpl; lra). apply Rle_trans with (4096 * M).
      * replace (rnd32 (B2R x)) with ((rnd32 (B2R x) - B2R x) + B2R x) by ring. apply Rle_trans with (1 := Rabs_triang _ _).
        apply Rle_trans with ((bpow radix2 (-24) * (c + k * ui) + bpow radix2 (-50)) * M + (c + k * ui) * M); [lra|].
        rewrite <- Rmult_plus_distr_r. apply Rmult_le_compat_r; [lra|].
        assert (0 <= k * ui) by (apply Rmult_le_pos; lra).
        assert (bpow radix2 (-24) * (c + k * ui) <= 1 * (c + k * ui)) by (apply Rmult_le_compat_r; lra). lra.
      * apply Rmult_le_compat_l; [lra|apply HM].
    + rewrite <- bpow_plus. apply bpow_lt. lia.
  - destruct (of_b32_value (to_b32 x) G) as (V' & G'). unfold store. split; [exact G'|]. rewrite V', V.
    apply Rle_trans with (1 := T). apply Rmult_le_compat_r; lra.
Qed.
