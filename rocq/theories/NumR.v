(** The idealised arithmetic: the standard library's real numbers. *)
From Coq Require Import Reals ZArith Lra Lia.
From Verif Require Import Num.
Local Open Scope R_scope.

(** np.arctan2 on reals: the angle of the point (x, y), in (-PI, PI] *)
Definition Ratan2 (y x : R) : R :=
  if Rlt_dec 0 x then atan (y / x)
  else if Rlt_dec x 0 then
    if Rle_dec 0 y then atan (y / x) + PI else atan (y / x) - PI
  else if Rlt_dec 0 y then PI / 2
  else if Rlt_dec y 0 then - (PI / 2)
  else 0.

(** np.tan.  The double nearest pi/2 is not pi/2, and np.tan of it is
    1.633123935319537e16; an exact pi/2 (or odd multiple) is given that value
    with the sign of its sine. *)
Definition tan_big : R := 16331239353195370.
Definition Rtan (x : R) : R :=
  if Req_EM_T (cos x) 0 then
    (if Rlt_dec 0 (sin x) then tan_big else - tan_big)
  else tan x.

(** floor, Python's % and round-half-even *)
Definition Rfloor (x : R) : Z := Int_part x.
Definition Rmod (t f : R) : R := t - f * IZR (Rfloor (t / f)).
Definition Rrne (x : R) : Z :=
  let f := Rfloor x in
  let d := x - IZR f in
  if Rlt_dec d (1 / 2) then f
  else if Rlt_dec (1 / 2) d then (f + 1)%Z
  else if Z.even f then f else (f + 1)%Z.
Definition Rround (k : Z) (x : R) : R :=
  IZR (Rrne (x * powerRZ 10 k)) / powerRZ 10 k.

(** np.power for a non-negative base *)
Definition Rpow (x y : R) : R :=
  if Req_EM_T x 0 then (if Req_EM_T y 0 then 1 else 0) else Rpower x y.

Definition Reqb (a b : R) : bool := if Req_EM_T a b then true else false.
Definition Rltb (a b : R) : bool := if Rlt_dec a b then true else false.
Definition Rleb (a b : R) : bool := if Rle_dec a b then true else false.

#[global] Instance NumR : Num R := {
  nadd := Rplus;
  nsub := Rminus;
  nmul := Rmult;
  ndiv := Rdiv;
  nneg := Ropp;
  nabs := Rabs;
  nsqrt := sqrt;
  nsin := sin;
  ncos := cos;
  ntan := Rtan;
  natan2 := Ratan2;
  npow := Rpow;
  nmod := Rmod;
  nround := Rround;
  nstore := fun x => x;
  npi := PI;
  nZ := IZR;
  nlit := fun a b => IZR a / IZR b;
  neqb := Reqb;
  nltb := Rltb;
  nleb := Rleb
}.

(** Expose the real operations in a goal *)
Ltac numR :=
  unfold n0, n1, n2, nhalf, nquarter, nsq, nnat, ndeg2rad, ngtb in *;
  cbn [nadd nsub nmul ndiv nneg nabs nsqrt nsin ncos ntan natan2 npow nmod
       nround nstore npi nZ nlit neqb nltb nleb NumR] in *.

Lemma Reqb_true a b : Reqb a b = true <-> a = b.
Proof. unfold Reqb; destruct Req_EM_T; split; congruence. Qed.
Lemma Reqb_false a b : Reqb a b = false <-> a <> b.
Proof. unfold Reqb; destruct Req_EM_T; split; congruence. Qed.
Lemma Rltb_true a b : Rltb a b = true <-> a < b.
Proof. unfold Rltb; destruct Rlt_dec; split; intros; try congruence; tauto. Qed.
Lemma Rltb_false a b : Rltb a b = false <-> b <= a.
Proof. unfold Rltb; destruct Rlt_dec; split; intros; try congruence; lra. Qed.
Lemma Rleb_true a b : Rleb a b = true <-> a <= b.
Proof. unfold Rleb; destruct Rle_dec; split; intros; try congruence; tauto. Qed.
Lemma Rleb_false a b : Rleb a b = false <-> b < a.
Proof. unfold Rleb; destruct Rle_dec; split; intros; try congruence; lra. Qed.

Lemma Reqb_spec a b : Bool.reflect (a = b) (Reqb a b).
Proof. unfold Reqb; destruct Req_EM_T; constructor; auto. Qed.
Lemma Rltb_spec a b : Bool.reflect (a < b) (Rltb a b).
Proof. unfold Rltb; destruct Rlt_dec; constructor; auto. Qed.
Lemma Rleb_spec a b : Bool.reflect (a <= b) (Rleb a b).
Proof. unfold Rleb; destruct Rle_dec; constructor; auto. Qed.

(** ** floor, modulo, rounding *)
Lemma Rfloor_spec x : IZR (Rfloor x) <= x < IZR (Rfloor x) + 1.
Proof. unfold Rfloor; destruct (base_Int_part x); lra. Qed.

Lemma Rfloor_unique x n : IZR n <= x < IZR n + 1 -> Rfloor x = n.
Proof.
  intros H. pose proof (Rfloor_spec x) as Hf.
  assert (IZR n < IZR (Rfloor x + 1)) by (rewrite plus_IZR; lra).
  assert (IZR (Rfloor x) < IZR (n + 1)) by (rewrite plus_IZR; lra).
  apply lt_IZR in H0. apply lt_IZR in H1. lia.
Qed.

Lemma Rrne_spec x : Rabs (x - IZR (Rrne x)) <= 1 / 2.
Proof.
  unfold Rrne. pose proof (Rfloor_spec x).
  destruct (Rlt_dec _ _); [apply Rabs_le; lra|].
  destruct (Rlt_dec _ _); [rewrite plus_IZR; apply Rabs_le; lra|].
  destruct (Z.even _); [|rewrite plus_IZR]; apply Rabs_le; lra.
Qed.

Lemma Rrne_IZR n : Rrne (IZR n) = n.
Proof.
  unfold Rrne. rewrite (Rfloor_unique (IZR n) n) by lra.
  destruct (Rlt_dec _ _); [reflexivity|lra].
Qed.

Lemma powerRZ_10_8 : powerRZ 10 8 = 100000000.
Proof. simpl; lra. Qed.

(** ** angles *)
Lemma sqrt_sum_pos x y : (x <> 0 \/ y <> 0) -> 0 < sqrt (x * x + y * y).
Proof.
  intros H; apply sqrt_lt_R0.
  destruct H as [H | H]; assert (0 < Rsqr x \/ 0 < Rsqr y) as K
    by (try (left; apply Rsqr_pos_lt; assumption); right; apply Rsqr_pos_lt; assumption);
  pose proof (Rle_0_sqr x); pose proof (Rle_0_sqr y); unfold Rsqr in *; lra.
Qed.

Lemma sqrt_1_t2 (a b : R) : 0 < a ->
  sqrt (1 + (b / a)²) = sqrt (a * a + b * b) / a.
Proof.
  intros Ha.
  replace (1 + (b / a)²) with ((a * a + b * b) / (a * a))
    by (unfold Rsqr; field; lra).
  rewrite sqrt_div_alt by nra.
  rewrite sqrt_square by lra. reflexivity.
Qed.

Lemma Ratan2_cos y x : (x <> 0 \/ y <> 0) ->
  cos (Ratan2 y x) = x / sqrt (x * x + y * y).
Proof.
  intros H. pose proof (sqrt_sum_pos x y H) as Hs.
  unfold Ratan2.
  destruct (Rlt_dec 0 x) as [Hx|Hx].
  - rewrite cos_atan, sqrt_1_t2 by assumption. field; split; lra.
  - destruct (Rlt_dec x 0) as [Hx'|Hx'].
    + assert (E : y / x = (- y) / (- x)) by (field; lra).
      assert (C : cos (atan (y / x)) = - x / sqrt (x * x + y * y)).
      { rewrite E, cos_atan, sqrt_1_t2 by lra.
        replace (- x * - x + - y * - y) with (x * x + y * y) by ring.
        field; split; lra. }
      destruct (Rle_dec 0 y).
      * rewrite neg_cos, C. field; lra.
      * replace (atan (y / x) - PI) with (- (PI - atan (y / x))) by ring.
        rewrite cos_neg.
        replace (PI - atan (y / x)) with (- atan (y / x) + PI) by ring.
        rewrite neg_cos, cos_neg, C. field; lra.
    + assert (x = 0) by lra; subst x.
      replace (0 / sqrt (0 * 0 + y * y)) with 0 by (field; lra).
      destruct (Rlt_dec 0 y); [apply cos_PI2|].
      destruct (Rlt_dec y 0); [rewrite cos_neg; apply cos_PI2|].
      exfalso; destruct H; lra.
Qed.

Lemma Ratan2_sin y x : (x <> 0 \/ y <> 0) ->
  sin (Ratan2 y x) = y / sqrt (x * x + y * y).
Proof.
  intros H. pose proof (sqrt_sum_pos x y H) as Hs.
  unfold Ratan2.
  destruct (Rlt_dec 0 x) as [Hx|Hx].
  - rewrite sin_atan, sqrt_1_t2 by assumption. field; split; lra.
  - destruct (Rlt_dec x 0) as [Hx'|Hx'].
    + assert (E : y / x = (- y) / (- x)) by (field; lra).
      assert (C : sin (atan (y / x)) = - y / sqrt (x * x + y * y)).
      { rewrite E, sin_atan, sqrt_1_t2 by lra.
        replace (- x * - x + - y * - y) with (x * x + y * y) by ring.
        field; split; lra. }
      destruct (Rle_dec 0 y).
      * rewrite neg_sin, C. field; lra.
      * replace (atan (y / x) - PI) with (- (PI - atan (y / x))) by ring.
        rewrite sin_neg.
        replace (PI - atan (y / x)) with (- atan (y / x) + PI) by ring.
        rewrite neg_sin, sin_neg, C. field; lra.
    + assert (x = 0) by lra; subst x.
      destruct (Rlt_dec 0 y).
      * rewrite sin_PI2. replace (0 * 0 + y * y) with (y * y) by ring.
        rewrite sqrt_square by lra. field; lra.
      * destruct (Rlt_dec y 0); [|exfalso; destruct H; lra].
        rewrite sin_neg, sin_PI2. replace (0 * 0 + y * y) with (- y * - y) by ring.
        rewrite sqrt_square by lra. field; lra.
Qed.

Lemma Ratan2_bound y x : - PI < Ratan2 y x <= PI.
Proof.
  pose proof PI_RGT_0. pose proof (atan_bound (y / x)) as B.
  unfold Ratan2.
  destruct (Rlt_dec 0 x); [lra|].
  destruct (Rlt_dec x 0) as [Hx|].
  - destruct (Rle_dec 0 y) as [Hy|Hy].
    + assert (y / x <= 0).
      { replace (y / x) with (- (y * / - x)) by (field; lra).
        assert (0 < / - x) by (apply Rinv_0_lt_compat; lra). nra. }
      assert (atan (y / x) <= 0).
      { destruct (Rle_lt_or_eq_dec _ _ H0) as [L|L].
        - apply atan_increasing in L. rewrite atan_0 in L. lra.
        - rewrite L, atan_0; lra. }
      lra.
    + assert (0 < y / x).
      { replace (y / x) with (- y * / - x) by (field; lra).
        assert (0 < / - x) by (apply Rinv_0_lt_compat; lra). nra. }
      apply atan_increasing in H0. rewrite atan_0 in H0. lra.
  - destruct (Rlt_dec 0 y); [lra|]. destruct (Rlt_dec y 0); lra.
Qed.

Lemma Ratan2_1 y : Ratan2 y 1 = atan y.
Proof. unfold Ratan2. destruct (Rlt_dec 0 1); [f_equal; field|lra]. Qed.

Lemma Rtan_regular x : cos x <> 0 -> Rtan x = tan x.
Proof. intros; unfold Rtan; destruct Req_EM_T; tauto. Qed.

Lemma Rpow_pos x y : 0 < x -> Rpow x y = Rpower x y.
Proof. intros; unfold Rpow; destruct Req_EM_T; [lra|reflexivity]. Qed.
