(** Lemmas about binary64 used for the floating-point properties. *)
From Coq Require Import ZArith Reals Lra Lia Bool List.
From Flocq Require Import Core BinarySingleNaN Relative.
From Verif Require Import Num NumF.
Import ListNotations.
Local Open Scope R_scope.

Notation fe := (SpecFloat.fexp 53 1024).
Notation rnd := (round radix2 fe ZnearestE).
Notation fadd := (Bplus mode_NE (prec := 53) (emax := 1024)).
Notation fsub := (Bminus mode_NE (prec := 53) (emax := 1024)).
Notation fmul := (Bmult mode_NE (prec := 53) (emax := 1024)).
Notation fdiv := (Bdiv mode_NE (prec := 53) (emax := 1024)).

Lemma fe_flt : forall e, fe e = FLT_exp (-1074) 53 e.
Proof. reflexivity. Qed.
#[global] Instance fe_valid : Valid_exp fe.
Proof. apply (fexp_correct 53 1024). exact _. Qed.
#[global] Instance fe_mono : Monotone_exp fe.
Proof. apply (FLT_exp_monotone (-1074) 53). Qed.
#[global] Instance fe_NE : Exists_NE radix2 fe.
Proof. apply exists_NE_FLT. right. lia. Qed.

Lemma rnd_id (x : b64) : rnd (B2R x) = B2R x.
Proof. apply round_generic; [exact _|]. apply generic_format_B2R. Qed.
Lemma fin_small (x : b64) : Rabs (B2R x) < bpow radix2 1024.
Proof. apply abs_B2R_lt_emax. Qed.

(** integers below 2^53 are exact *)
Lemma format_int (z : Z) : (Z.abs z < 2 ^ 53)%Z -> generic_format radix2 fe (IZR z).
Proof.
  intros H. apply (generic_format_FLT radix2 (-1074) 53). exists (Float radix2 z 0).
  - unfold F2R. simpl. lra.
  - exact H.
  - simpl. lia.
Qed.
Lemma of_Z_value (z : Z) : (Z.abs z < 2 ^ 53)%Z -> B2R (of_Z z) = IZR z /\ is_finite (of_Z z) = true.
Proof.
  intros H. unfold of_Z.
  pose proof (binary_normalize_correct 53 1024 _ _ mode_NE z 0 false) as C. cbv zeta in C.
  replace (F2R {| Fnum := z; Fexp := 0 |}) with (IZR z) in C by (unfold F2R; simpl; lra).
  change (round_mode mode_NE) with ZnearestE in C.
  rewrite (round_generic radix2 fe ZnearestE (IZR z) (format_int z H)) in C.
  rewrite Rlt_bool_true in C.
  - destruct C as (C1 & C2 & _). split; [exact C1|exact C2].
  - rewrite <- abs_IZR. apply Rlt_trans with (IZR (2 ^ 53)); [apply IZR_lt; exact H|].
    change (IZR (2 ^ 53)) with (IZR (Zpower radix2 53)). rewrite IZR_Zpower by lia. apply bpow_lt. lia.
Qed.

Lemma one_value : B2R (of_Z 1) = 1 /\ is_finite (of_Z 1) = true.
Proof. apply of_Z_value. lia. Qed.
Lemma zero_is : of_Z 0 = B754_zero false.
Proof. reflexivity. Qed.
Lemma one_sf : B2SF (of_Z 1) = SpecFloat.S754_finite false 4503599627370496 (-52).
Proof. vm_compute. reflexivity. Qed.

Lemma nan_finite (x : b64) : is_finite x = true -> is_nan x = false.
Proof. destruct x; simpl; congruence. Qed.

(** multiplying by one changes nothing *)
Lemma mul_one (x : b64) : is_nan x = false -> fmul x (of_Z 1) = x.
Proof.
  intros Hx. destruct (is_finite x) eqn:Fx.
  - pose proof (Bmult_correct 53 1024 _ _ mode_NE x (of_Z 1)) as C.
    rewrite (proj1 one_value), Rmult_1_r in C. change (round_mode mode_NE) with ZnearestE in C.
    rewrite rnd_id, Rlt_bool_true in C by apply fin_small.
    destruct C as (C1 & C2 & C3). rewrite Fx, (proj2 one_value) in C2. simpl in C2.
    apply B2R_Bsign_inj; [exact C2|exact Fx|exact C1|].
    rewrite (C3 (nan_finite _ C2)). replace (Bsign (of_Z 1)) with false by reflexivity. apply xorb_false_r.
  - destruct x as [s|s| |s m e H]; simpl in Hx, Fx; try discriminate.
    unfold of_Z. destruct s; reflexivity.
Qed.
Lemma one_mul (x : b64) : is_nan x = false -> fmul (of_Z 1) x = x.
Proof.
  intros Hx. destruct (is_finite x) eqn:Fx.
  - pose proof (Bmult_correct 53 1024 _ _ mode_NE (of_Z 1) x) as C.
    rewrite (proj1 one_value), Rmult_1_l in C. change (round_mode mode_NE) with ZnearestE in C.
    rewrite rnd_id, Rlt_bool_true in C by apply fin_small.
    destruct C as (C1 & C2 & C3). rewrite Fx, (proj2 one_value) in C2. simpl in C2.
    apply B2R_Bsign_inj; [exact C2|exact Fx|exact C1|].
    rewrite (C3 (nan_finite _ C2)). replace (Bsign (of_Z 1)) with false by reflexivity. apply xorb_false_l.
  - destruct x as [s|s| |s m e H]; simpl in Hx, Fx; try discriminate.
    unfold of_Z. destruct s; reflexivity.
Qed.
(** multiplying by zero gives zero, or NaN if the factor is not finite *)
Lemma mul_zero (x : b64) : fmul x (of_Z 0) = if is_finite x then B754_zero (xorb (Bsign x) false) else B754_nan.
Proof. rewrite zero_is. destruct x; reflexivity. Qed.
Lemma zero_mul (x : b64) : fmul (of_Z 0) x = if is_finite x then B754_zero (Bsign x) else B754_nan.
Proof. rewrite zero_is. destruct x as [s|s| |s m e H]; try reflexivity; destruct s; reflexivity. Qed.
(** adding a zero changes no value *)
Lemma add_zero (x : b64) s : Beqb (fadd x (B754_zero s)) x = negb (is_nan x).
Proof.
  destruct x as [s'|s'| |s' m e H].
  - destruct s, s'; reflexivity.
  - destruct s'; reflexivity.
  - reflexivity.
  - change (fadd (B754_finite s' m e H) (B754_zero s)) with (B754_finite (prec := 53) (emax := 1024) s' m e H).
    rewrite Beqb_refl. reflexivity.
Qed.
Lemma zero_add (x : b64) s : Beqb (fadd (B754_zero s) x) x = negb (is_nan x).
Proof.
  destruct x as [s'|s'| |s' m e H].
  - destruct s, s'; reflexivity.
  - destruct s'; reflexivity.
  - reflexivity.
  - change (fadd (B754_zero s) (B754_finite s' m e H)) with (B754_finite (prec := 53) (emax := 1024) s' m e H).
    rewrite Beqb_refl. reflexivity.
Qed.
Lemma add_nan_r (x : b64) : fadd x B754_nan = B754_nan.
Proof. destruct x; reflexivity. Qed.
Lemma add_nan_l (x : b64) : fadd B754_nan x = B754_nan.
Proof. destruct x; reflexivity. Qed.
Lemma eqb_nan_l (x : b64) : Beqb B754_nan x = false.
Proof. destruct x; reflexivity. Qed.
Lemma sub_one_zero : fsub (of_Z 1) (of_Z 0) = of_Z 1.
Proof.
  pose proof (Bminus_correct 53 1024 _ _ mode_NE (of_Z 1) (of_Z 0) (proj2 one_value) eq_refl) as C.
  replace (B2R (of_Z 0)) with 0 in C by reflexivity. rewrite Rminus_0_r in C.
  change (round_mode mode_NE) with ZnearestE in C. rewrite rnd_id, Rlt_bool_true in C by apply fin_small.
  destruct C as (C1 & C2 & C3). apply B2R_Bsign_inj; [exact C2|apply one_value|exact C1|].
  rewrite C3, (proj1 one_value), Rcompare_Gt by lra. reflexivity.
Qed.
Lemma sub_one_one : fsub (of_Z 1) (of_Z 1) = of_Z 0.
Proof. apply B2SF_inj. vm_compute. reflexivity. Qed.

Lemma mul_nan (y : b64) : fmul B754_nan y = B754_nan.
Proof. destruct y; reflexivity. Qed.

(** one coordinate of the two ends of a line *)
Lemma lerp_at_0 (x y : b64) :
  Beqb (fadd (fmul x (fsub (of_Z 1) (of_Z 0))) (fmul y (of_Z 0))) x = negb (is_nan x) && is_finite y.
Proof.
  rewrite sub_one_zero, mul_zero. destruct (is_nan x) eqn:Hn.
  - assert (E : x = B754_nan) by (destruct x; try discriminate Hn; reflexivity). rewrite E, mul_nan, add_nan_l. apply eqb_nan_l.
  - rewrite mul_one by exact Hn. destruct (is_finite y).
    + rewrite add_zero, Hn. reflexivity.
    + rewrite add_nan_r. apply eqb_nan_l.
Qed.
Lemma lerp_at_1 (x y : b64) :
  Beqb (fadd (fmul x (fsub (of_Z 1) (of_Z 1))) (fmul y (of_Z 1))) y = negb (is_nan y) && is_finite x.
Proof.
  rewrite sub_one_one, mul_zero. destruct (is_nan y) eqn:Hn.
  - assert (E : y = B754_nan) by (destruct y; try discriminate Hn; reflexivity). rewrite E, mul_nan, add_nan_r. apply eqb_nan_l.
  - rewrite mul_one by exact Hn. destruct (is_finite x).
    + rewrite zero_add, Hn. reflexivity.
    + rewrite add_nan_l. apply eqb_nan_l.
Qed.

(** ** the grid i * (1/n) *)
Definition ui : R := bpow radix2 (-53).
Lemma ui_pos : 0 < ui. Proof. apply bpow_gt_0. Qed.
Lemma ui_val : ui = / 9007199254740992.
Proof. unfold ui. simpl. reflexivity. Qed.
Lemma bpow_1022 : 0 < bpow radix2 (-1022). Proof. apply bpow_gt_0. Qed.
Lemma rel x : bpow radix2 (-1022) <= Rabs x -> Rabs (rnd x - x) <= ui * Rabs x.
Proof.
  intros H. pose proof (relative_error_N_FLT radix2 (-1074) 53 eq_refl (fun z => negb (Z.even z)) x) as E.
  replace (-1074 + 53 - 1)%Z with (-1022)%Z in E by lia. specialize (E H).
  replace (/ 2 * bpow radix2 (- (53) + 1)) with ui in E; [exact E|].
  unfold ui. replace (-53)%Z with (-1 + (-53 + 1))%Z by lia. rewrite bpow_plus. f_equal.
Qed.
Lemma small_1022 : bpow radix2 (-1022) <= / 9007199254740992.
Proof. rewrite <- ui_val. apply bpow_le. lia. Qed.

Lemma rnd_0 : rnd 0 = 0. Proof. apply round_0. exact _. Qed.
Lemma rnd_1 : rnd 1 = 1.
Proof. apply round_generic; [exact _|]. apply (format_int 1). lia. Qed.
Lemma rnd_above : rnd (1 + ui) = 1.
Proof.
  set (y := B754_finite (prec := 53) (emax := 1024) false 4503599627370496 (-105) eq_refl).
  assert (Y : B2R y = ui). { unfold y, B2R, F2R, ui. simpl. lra. }
  pose proof (Bplus_correct 53 1024 _ _ mode_NE (of_Z 1) y (proj2 one_value) eq_refl) as C.
  rewrite (proj1 one_value), Y in C. change (round_mode mode_NE) with ZnearestE in C.
  assert (E : fadd (of_Z 1) y = of_Z 1) by (apply B2SF_inj; vm_compute; reflexivity).
  rewrite E in C. destruct (Rlt_bool _ _) in C.
  - destruct C as (C & _). rewrite <- C. apply one_value.
  - destruct C as (C & _). vm_compute in C. discriminate C.
Qed.
Lemma format_below : generic_format radix2 fe (1 - ui).
Proof.
  apply (generic_format_FLT radix2 (-1074) 53). exists (Float radix2 9007199254740991 (-53)).
  - unfold F2R, ui. simpl. lra.
  - simpl. lia.
  - simpl. lia.
Qed.

(** a number of the format just below 1 *)
Lemma format_near_one (x : R) : generic_format radix2 fe x -> 1 - ui <= x <= 1 -> x = 1 \/ x = 1 - ui.
Proof.
  intros F [H1 H2]. destruct (Rle_lt_or_eq_dec _ _ H2) as [Hlt|He]; [right|left; exact He].
  rewrite ui_val in *.
  assert (M : mag radix2 x = 0%Z :> Z).
  { apply mag_unique. rewrite Rabs_pos_eq by lra. simpl. lra. }
  unfold generic_format, scaled_mantissa, cexp, F2R in F. rewrite M in F.
  change (fe 0) with (-53)%Z in F. simpl Fexp in F. simpl Fnum in F. set (m := Ztrunc _) in F.
  replace (bpow radix2 (-53)) with (/ 9007199254740992) in F by (rewrite <- ui_val; reflexivity).
  assert (A : (9007199254740990 < m)%Z). { apply lt_IZR. lra. }
  assert (B : (m < 9007199254740992)%Z). { apply lt_IZR. lra. }
  assert (m = 9007199254740991)%Z by lia. rewrite F. replace m with 9007199254740991%Z. lra.
Qed.

Section Grid.
  Variable n : Z.
  Hypothesis n_pos : (1 <= n)%Z.
  Hypothesis n_max : (n <= 2 ^ 51)%Z.
  Definition step : b64 := fdiv (of_Z 1) (of_Z n).
  Let n_small : (Z.abs n < 2 ^ 53)%Z. Proof. lia. Qed.
  Let n_R : 1 <= IZR n <= 2251799813685248.
  Proof. split; [apply (IZR_le 1); lia|]. apply (IZR_le _ (2 ^ 51)). lia. Qed.
  Lemma inv_n : / 2251799813685248 <= / IZR n <= 1.
  Proof using n_pos n_max.
    split; [apply Rinv_le; lra|]. apply Rle_trans with (/ 1); [apply Rinv_le; lra|lra].
  Qed.
  Lemma step_real : Rabs (rnd (/ IZR n) - / IZR n) <= ui * / IZR n.
  Proof using n_pos n_max.
    pose proof inv_n as I. pose proof small_1022.
    pose proof (rel (/ IZR n)) as E. rewrite (Rabs_pos_eq (/ IZR n)) in E by lra. apply E. lra.
  Qed.
  Lemma step_range : 0 < rnd (/ IZR n) <= 1.
  Proof using n_pos n_max.
    pose proof inv_n as I. split.
    - pose proof step_real as E. rewrite ui_val in E.
      apply Rabs_le_inv in E. assert (/ 9007199254740992 * / IZR n <= / IZR n / 2) by lra. lra.
    - apply Rle_trans with (rnd 1); [|rewrite rnd_1; lra]. apply round_le; [exact _|exact _|lra].
  Qed.
  Lemma step_value : B2R step = rnd (/ IZR n) /\ is_finite step = true.
  Proof using n_pos n_max.
    unfold step. destruct (of_Z_value n n_small) as [V F]. pose proof step_range as S.
    assert (NZ : B2R (of_Z n) <> 0) by (rewrite V; lra).
    pose proof (Bdiv_correct 53 1024 _ _ mode_NE (of_Z 1) (of_Z n) NZ) as C.
    rewrite V, (proj1 one_value) in C. change (round_mode mode_NE) with ZnearestE in C.
    replace (1 / IZR n) with (/ IZR n) in C by lra.
    rewrite Rlt_bool_true in C.
    - destruct C as (C1 & C2 & _). rewrite (proj2 one_value) in C2. split; assumption.
    - rewrite Rabs_pos_eq by lra. apply Rle_lt_trans with 1; [lra|]. change 1 with (bpow radix2 0). apply bpow_lt. lia.
  Qed.
  Lemma product_bound i : (0 <= i <= n)%Z ->
    Rabs (IZR i * rnd (/ IZR n) - IZR i / IZR n) <= ui * (IZR i / IZR n).
  Proof using n_pos n_max.
    intros Hi. assert (0 <= IZR i) by (apply (IZR_le 0); lia).
    replace (IZR i * rnd (/ IZR n) - IZR i / IZR n) with (IZR i * (rnd (/ IZR n) - / IZR n)) by (unfold Rdiv; ring).
    rewrite Rabs_mult, (Rabs_pos_eq (IZR i)) by assumption.
    replace (ui * (IZR i / IZR n)) with (IZR i * (ui * / IZR n)) by (unfold Rdiv; ring).
    apply Rmult_le_compat_l; [assumption|apply step_real].
  Qed.
  Lemma ratio_range i : (0 <= i <= n)%Z -> 0 <= IZR i / IZR n <= 1.
  Proof using n_pos n_max.
    intros Hi. assert (0 <= IZR i) by (apply (IZR_le 0); lia). assert (IZR i <= IZR n) by (apply IZR_le; lia).
    split; [apply Rmult_le_pos; [lra|]; apply Rlt_le, Rinv_0_lt_compat; lra|]. apply Rmult_le_reg_r with (IZR n); [lra|]. unfold Rdiv. rewrite Rmult_assoc, Rinv_l; lra.
  Qed.
  Lemma product_range i : (0 <= i <= n)%Z -> 0 <= IZR i * rnd (/ IZR n) <= 1 + ui.
  Proof using n_pos n_max.
    intros Hi. pose proof (product_bound i Hi) as B. apply Rabs_le_inv in B. pose proof ui_pos.
    pose proof (ratio_range i Hi) as Q. pose proof step_range. assert (0 <= IZR i) by (apply (IZR_le 0); lia).
    split; [apply Rmult_le_pos; lra|]. assert (ui * (IZR i / IZR n) <= ui) by (rewrite <- (Rmult_1_r ui) at 2; apply Rmult_le_compat_l; lra).
    lra.
  Qed.
  Definition node (i : Z) : b64 := fmul (of_Z i) step.
  Lemma node_range i : (0 <= i <= n)%Z -> 0 <= rnd (IZR i * rnd (/ IZR n)) <= 1.
  Proof using n_pos n_max.
    intros Hi. pose proof (product_range i Hi). split.
    - apply Rle_trans with (rnd 0); [rewrite rnd_0; lra|]. apply round_le; [exact _|exact _|lra].
    - apply Rle_trans with (rnd (1 + ui)); [|rewrite rnd_above; lra]. apply round_le; [exact _|exact _|lra].
  Qed.
  Lemma node_value i : (0 <= i <= n)%Z -> B2R (node i) = rnd (IZR i * rnd (/ IZR n)) /\ is_finite (node i) = true /\ Bsign (node i) = false.
  Proof using n_pos n_max.
    intros Hi. unfold node. destruct (of_Z_value i ltac:(lia)) as [V F]. destruct step_value as [S SF].
    pose proof (node_range i Hi) as Q.
    pose proof (Bmult_correct 53 1024 _ _ mode_NE (of_Z i) step) as C.
    rewrite V, S in C. change (round_mode mode_NE) with ZnearestE in C. rewrite Rlt_bool_true in C.
    - destruct C as (C1 & C2 & C3). rewrite F, SF in C2. simpl in C2. split; [exact C1|]. split; [exact C2|].
      rewrite (C3 (nan_finite _ C2)).
      assert (S1 : Bsign step = false).
      { pose proof step_range as P. rewrite <- S in P. destruct step as [s|s| |s m e H]; simpl in P, SF |- *; try discriminate; try lra.
        destruct s; [|reflexivity]. exfalso. destruct P as [P _]. apply gt_0_F2R in P. simpl in P. lia. }
      assert (S2 : Bsign (of_Z i) = false).
      { pose proof (binary_normalize_correct 53 1024 _ _ mode_NE i 0 false) as D. cbv zeta in D.
        replace (F2R {| Fnum := i; Fexp := 0 |}) with (IZR i) in D by (unfold F2R; simpl; lra).
        change (round_mode mode_NE) with ZnearestE in D.
        rewrite (round_generic radix2 fe ZnearestE (IZR i) (format_int i ltac:(lia))) in D.
        rewrite Rlt_bool_true in D.
        - destruct D as (_ & _ & D). unfold of_Z. rewrite D.
          assert (0 <= IZR i) by (apply (IZR_le 0); lia).
          destruct (Rcompare_spec (IZR i) 0); [lra|reflexivity|reflexivity].
        - rewrite <- V. apply fin_small. }
      rewrite S1, S2. reflexivity.
    - rewrite Rabs_pos_eq by lra. apply Rle_lt_trans with 1; [lra|]. change 1 with (bpow radix2 0). apply bpow_lt. lia.
  Qed.
  Lemma node_error i : (0 <= i <= n)%Z -> Rabs (B2R (node i) - IZR i / IZR n) <= 3 * ui.
  Proof using n_pos n_max.
    intros Hi. rewrite (proj1 (node_value i Hi)). set (x := IZR i * rnd (/ IZR n)).
    pose proof (product_bound i Hi) as B. fold x in B. pose proof (ratio_range i Hi) as Q. pose proof ui_pos.
    assert (Hx : 0 <= x <= 1 + ui) by (apply product_range; exact Hi).
    assert (B' : Rabs (x - IZR i / IZR n) <= ui).
    { apply Rle_trans with (1 := B). rewrite <- (Rmult_1_r ui) at 2. apply Rmult_le_compat_l; lra. }
    assert (E : Rabs (rnd x - x) <= ui * (1 + ui)).
    { destruct (Req_dec (IZR i) 0) as [Z|Z].
      - assert (x = 0) by (unfold x; rewrite Z; ring). rewrite H0, rnd_0, Rminus_0_r, Rabs_R0. apply Rmult_le_pos; lra.
      - assert (1 <= IZR i). { apply (IZR_le 1). assert (i <> 0)%Z by (intros ->; apply Z; reflexivity). lia. }
        pose proof step_real as S. apply Rabs_le_inv in S. pose proof inv_n. pose proof small_1022.
        assert (/ IZR n / 2 <= rnd (/ IZR n)) by (rewrite ui_val in S; lra).
        assert (/ 9007199254740992 <= x). { unfold x. apply Rle_trans with (1 * rnd (/ IZR n)); [lra|]. apply Rmult_le_compat_r; lra. }
        apply Rle_trans with (ui * Rabs x); [apply rel; rewrite Rabs_pos_eq; lra|].
        apply Rmult_le_compat_l; [lra|]. rewrite Rabs_pos_eq; lra. }
    replace (rnd x - IZR i / IZR n) with ((rnd x - x) + (x - IZR i / IZR n)) by ring.
    apply Rle_trans with (1 := Rabs_triang _ _). assert (ui * (1 + ui) <= 2 * ui) by (rewrite ui_val; lra). lra.
  Qed.
  Lemma node_increasing i : (0 <= i < n)%Z -> B2R (node i) < B2R (node (i + 1)).
  Proof using n_pos n_max.
    intros Hi. rewrite (proj1 (node_value i ltac:(lia))), (proj1 (node_value (i + 1) ltac:(lia))).
    set (d := rnd (/ IZR n)). assert (D : 0 < d <= 1) by apply step_range.
    pose proof step_real as S. fold d in S. apply Rabs_le_inv in S. pose proof inv_n. pose proof small_1022.
    assert (D2 : / IZR n / 2 <= d) by (rewrite ui_val in S; lra).
    assert (I0 : 0 <= IZR i) by (apply (IZR_le 0); lia).
    assert (I1 : IZR i <= 2251799813685248) by (apply (IZR_le _ (2 ^ 51)); lia).
    rewrite plus_IZR.
    assert (U : (IZR i + 1) * d - ui * ((IZR i + 1) * d) <= rnd ((IZR i + 1) * d)).
    { assert (0 <= (IZR i + 1) * d) by (apply Rmult_le_pos; lra).
      assert (P : d <= (IZR i + 1) * d) by (rewrite <- (Rmult_1_l d) at 1; apply Rmult_le_compat_r; lra).
      pose proof (rel ((IZR i + 1) * d)) as E. rewrite (Rabs_pos_eq ((IZR i + 1) * d)) in E by assumption.
      specialize (E ltac:(lra)). apply Rabs_le_inv in E. lra. }
    assert (V : rnd (IZR i * d) <= IZR i * d + ui * (IZR i * d)).
    { destruct (Req_dec (IZR i) 0) as [Z|Z]; [rewrite Z, Rmult_0_l, rnd_0; lra|].
      assert (1 <= IZR i). { apply (IZR_le 1). assert (i <> 0)%Z by (intros ->; apply Z; reflexivity). lia. }
      assert (0 <= IZR i * d) by (apply Rmult_le_pos; lra).
      assert (P : d <= IZR i * d) by (rewrite <- (Rmult_1_l d) at 1; apply Rmult_le_compat_r; lra).
      pose proof (rel (IZR i * d)) as E. rewrite (Rabs_pos_eq (IZR i * d)) in E by assumption.
      specialize (E ltac:(lra)). apply Rabs_le_inv in E. lra. }
    assert (W : ui * ((IZR i + 1) * d) + ui * (IZR i * d) < d).
    { replace (ui * ((IZR i + 1) * d) + ui * (IZR i * d)) with (ui * (2 * IZR i + 1) * d) by ring.
      rewrite <- (Rmult_1_l d) at 2. apply Rmult_lt_compat_r; [lra|]. rewrite ui_val. lra. }
    lra.
  Qed.
  Lemma node_last : B2R (node n) = 1 \/ B2R (node n) = 1 - ui.
  Proof using n_pos n_max.
    apply format_near_one; [apply generic_format_B2R|]. rewrite (proj1 (node_value n ltac:(lia))). split.
    - rewrite <- (round_generic radix2 fe ZnearestE (1 - ui) format_below). apply round_le; [exact _|exact _|].
      pose proof (product_bound n ltac:(lia)) as B. replace (IZR n / IZR n) with 1 in B by (field; lra).
      apply Rabs_le_inv in B. lra.
    - apply node_range. lia.
  Qed.
  (** a power of two: every node is exact *)
  Lemma node_power k i : n = (2 ^ k)%Z -> (0 <= k)%Z -> (0 <= i <= n)%Z -> B2R (node i) = IZR i / IZR n.
  Proof using n_pos n_max.
    intros E Hk Hi. rewrite (proj1 (node_value i Hi)).
    assert (K : (k <= 51)%Z). { apply (Z.pow_le_mono_r_iff 2); lia. }
    assert (IN : / IZR n = bpow radix2 (- k)).
    { rewrite bpow_opp. f_equal. rewrite E. change 2%Z with (radix_val radix2). apply IZR_Zpower. lia. }
    assert (X : rnd (/ IZR n) = / IZR n).
    { rewrite IN. apply round_generic; [exact _|]. apply generic_format_bpow. rewrite fe_flt. unfold FLT_exp. lia. }
    rewrite X. unfold Rdiv. apply round_generic; [exact _|].
    apply (generic_format_FLT radix2 (-1074) 53). exists (Float radix2 i (- k)).
    - unfold F2R. simpl. rewrite IN. reflexivity.
    - simpl. lia.
    - simpl. lia.
  Qed.
End Grid.
