(** The arithmetic the library runs in: IEEE 754 binary64, rounding to nearest
    even (Flocq).  Meshes are stored in binary32.  The mathematical library
    (sin, cos, ..., pow, fmod, round) is a parameter: any functions.
    Simplifications: one NaN; Python integers are converted to floats before
    they are used in arithmetic, which is what happens when they meet a float;
    division by zero gives an infinity or NaN as in numpy. *)
From Coq Require Import ZArith Reals Lra Lia Bool.
From Flocq Require Import Core BinarySingleNaN.
From Verif Require Import Num.

Notation b64 := (binary_float 53 1024).
Notation b32 := (binary_float 24 128).
#[global] Instance prec64 : Prec_gt_0 53 := eq_refl.
#[global] Instance emax64 : Prec_lt_emax 53 1024 := eq_refl.
#[global] Instance prec32 : Prec_gt_0 24 := eq_refl.
#[global] Instance emax32 : Prec_lt_emax 24 128 := eq_refl.

Record libm := mkLibm {
  lm_sin : b64 -> b64; lm_cos : b64 -> b64; lm_tan : b64 -> b64;
  lm_atan2 : b64 -> b64 -> b64; lm_pow : b64 -> b64 -> b64; lm_mod : b64 -> b64 -> b64;
  lm_round : Z -> b64 -> b64; lm_pi : b64 }.

Definition of_Z (z : Z) : b64 := binary_normalize 53 1024 _ _ mode_NE z 0 false.
(* conversion to binary32 and back; the way back is exact *)
Definition to_b32 (x : b64) : b32 :=
  match x with
  | B754_zero s => B754_zero s
  | B754_infinity s => B754_infinity s
  | B754_nan => B754_nan
  | B754_finite s m e _ => binary_normalize 24 128 _ _ mode_NE (cond_Zopp s (Zpos m)) e s
  end.
Definition of_b32 (x : b32) : b64 :=
  match x with
  | B754_zero s => B754_zero s
  | B754_infinity s => B754_infinity s
  | B754_nan => B754_nan
  | B754_finite s m e _ => binary_normalize 53 1024 _ _ mode_NE (cond_Zopp s (Zpos m)) e s
  end.

Definition NumF (L : libm) : Num b64 := {|
  nadd := Bplus mode_NE; nsub := Bminus mode_NE; nmul := Bmult mode_NE; ndiv := Bdiv mode_NE;
  nneg := Bopp; nabs := Babs; nsqrt := Bsqrt mode_NE;
  nsin := lm_sin L; ncos := lm_cos L; ntan := lm_tan L; natan2 := lm_atan2 L;
  npow := lm_pow L; nmod := lm_mod L; nround := lm_round L;
  nstore := fun x => of_b32 (to_b32 x);
  npi := lm_pi L; nZ := of_Z; nlit := fun a b => Bdiv mode_NE (of_Z a) (of_Z b);
  neqb := Beqb; nltb := Bltb; nleb := Bleb |}.
