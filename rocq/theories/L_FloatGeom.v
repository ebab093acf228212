(** Rounding errors of lines, Coons patches and swept patches in binary64. *)
From Coq Require Import ZArith Reals Lra Lia Bool String List Psatz.
From Flocq Require Import Core BinarySingleNaN Relative.
From Verif Require Import Num NumR NumF Py M_Vector SpecR3 M_Path M_Surface M_Geometry SpecPath SpecSurf SpecComp SpecFloats
  L_Vector L_Line L_Coons L_Component L_Float L_FloatErr L_FloatMesh.
Import ListNotations.
Local Open Scope R_scope.

Lemma one_minus k t u : 0 <= k <= 100000000000 -> nr 1 k 1 t u -> 0 <= u <= 1 -> nr 1 (k + 3) 1 (fsub (of_Z 1) t) (1 - u).
Proof.
  intros Hk H Hu. apply nr_size with (1 + 1).
  - apply nr_weaken with (0 + k + (1 + 1) + 1) (1 + 1); [apply sized_1| |lra|lra].
    apply nr_sub; try lra; [apply sized_1| |exact H].
    apply (nr_int 1 1); [lia|rewrite Rabs_pos_eq; lra].
  - rewrite Rabs_pos_eq; lra.
Qed.
Lemma one_minus2 k t u : 0 <= k <= 100000000000 -> nr 1 k 2 t u -> Rabs (1 - u) <= 2 -> nr 1 (k + 4) 2 (fsub (of_Z 1) t) (1 - u).
Proof.
  intros Hk H Hu. apply nr_size with (1 + 2).
  - apply nr_weaken with (0 + k + (1 + 2) + 1) (1 + 2); [apply sized_1| |lra|lra].
    apply nr_sub; try lra; [apply sized_1| |exact H].
    apply (nr_int 1 1); [lia|rewrite Rabs_pos_eq; lra].
  - lra.
Qed.

Section Scale.
  Variable M : R.
  Hypothesis HM : sized_ok M.

  Lemma mulp k c kt x y t u : 0 <= k -> 0 <= c -> 0 <= kt -> k * kt <= 1000000000000000 -> k + c * kt <= 900000000000 -> c <= 1000 ->
    nr M k c x y -> nr 1 kt 1 t u -> nr M (k + c * kt + c + 2) c (fmul x t) (y * u).
  Proof using HM.
    intros. apply nr_weaken with (k * 1 + c * kt + 1 + c * 1 + 1) (c * 1); [exact HM| |lra|lra].
    apply (nr_mul_both M HM k c kt 1 x y t u); try assumption; try lra.
  Qed.
  Lemma add2 k c k1 c1 k2 c2 x1 y1 x2 y2 : nr M k1 c1 x1 y1 -> nr M k2 c2 x2 y2 -> 0 <= k1 -> 0 <= k2 -> 0 <= c1 -> 0 <= c2 ->
    k1 + k2 <= 1000000000000 -> c1 + c2 <= 1000 -> k1 + k2 + (c1 + c2) + 1 <= k -> c1 + c2 <= c ->
    nr M k c (fadd x1 x2) (y1 + y2).
  Proof using HM.
    intros. apply nr_weaken with (k1 + k2 + (c1 + c2) + 1) (c1 + c2); [exact HM| |lra|lra]. apply nr_add; assumption.
  Qed.
  Lemma sub2 k c k1 c1 k2 c2 x1 y1 x2 y2 : nr M k1 c1 x1 y1 -> nr M k2 c2 x2 y2 -> 0 <= k1 -> 0 <= k2 -> 0 <= c1 -> 0 <= c2 ->
    k1 + k2 <= 1000000000000 -> c1 + c2 <= 1000 -> k1 + k2 + (c1 + c2) + 1 <= k -> c1 + c2 <= c ->
    nr M k c (fsub x1 x2) (y1 - y2).
  Proof using HM.
    intros. apply nr_weaken with (k1 + k2 + (c1 + c2) + 1) (c1 + c2); [exact HM| |lra|lra]. apply nr_sub; assumption.
  Qed.

  Lemma convex a b u : Rabs a <= M -> Rabs b <= M -> 0 <= u <= 1 -> Rabs ((1 - u) * a + u * b) <= 1 * M.
  Proof using HM.
    intros A B U. apply Rle_trans with (1 := Rabs_triang _ _). rewrite !Rabs_mult, (Rabs_pos_eq (1 - u)), (Rabs_pos_eq u) by lra.
    pose proof (sized_pos M HM). nra.
  Qed.

  (** one coordinate of a line *)
  Lemma line_nr x0 x1 t u : is_finite x0 = true -> is_finite x1 = true -> Rabs (B2R x0) <= M -> Rabs (B2R x1) <= M ->
    nr 1 10 1 t u -> 0 <= u <= 1 ->
    nr M 32 1 (fadd (fmul x0 (fsub (of_Z 1) t)) (fmul x1 t)) ((1 - u) * B2R x0 + u * B2R x1).
  Proof using HM.
    intros F0 F1 B0 B1 Ht Hu.
    pose proof (mulp 0 1 13 x0 (B2R x0) _ _ ltac:(lra) ltac:(lra) ltac:(lra) ltac:(lra) ltac:(lra) ltac:(lra)
      (nr_exact M 1 x0 F0 ltac:(lra)) (nr_weaken _ _ _ 13 1 _ _ sized_1 (one_minus 10 t u ltac:(lra) Ht Hu) ltac:(lra) ltac:(lra))) as P0.
    pose proof (mulp 0 1 10 x1 (B2R x1) _ _ ltac:(lra) ltac:(lra) ltac:(lra) ltac:(lra) ltac:(lra) ltac:(lra)
      (nr_exact M 1 x1 F1 ltac:(lra)) Ht) as P1.
    apply nr_size with 2; [|apply convex; assumption].
    replace ((1 - u) * B2R x0 + u * B2R x1) with (B2R x0 * (1 - u) + B2R x1 * u) by ring.
    eapply add2; [exact P0|exact P1|lra..].
  Qed.

  (** one coordinate of a Coons patch *)
  Lemma coons_nr S N W E p00 p01 p10 p11 r s yS yN yW yE y00 y01 y10 y11 a b :
    nr M 32 1 S yS -> nr M 32 1 N yN -> nr M 32 1 W yW -> nr M 32 1 E yE ->
    nr M 32 1 p00 y00 -> nr M 32 1 p01 y01 -> nr M 32 1 p10 y10 -> nr M 32 1 p11 y11 ->
    nr 1 3 1 r a -> nr 1 3 1 s b -> 0 <= a <= 1 -> 0 <= b <= 1 ->
    nr M 400 8
      (fadd (fsub (fadd (fadd (fadd (fmul S (fsub (of_Z 1) s)) (fmul N s)) (fmul W (fsub (of_Z 1) r))) (fmul E r))
                  (fadd (fadd (fadd (fmul (fmul p00 (fsub (of_Z 1) r)) (fsub (of_Z 1) s)) (fmul (fmul p01 (fsub (of_Z 1) r)) s))
                              (fmul (fmul p10 r) (fsub (of_Z 1) s))) (fmul (fmul p11 r) s))) (of_Z 0))
      ((1 - b) * yS + b * yN + (1 - a) * yW + a * yE
        - ((1 - a) * (1 - b) * y00 + (1 - a) * b * y01 + a * (1 - b) * y10 + a * b * y11) + 0).
  Proof using HM.
    intros HS HN HW HE H00 H01 H10 H11 Hr Hs Ha Hb.
    pose proof (nr_weaken _ _ _ 6 1 _ _ sized_1 (one_minus 3 r a ltac:(lra) Hr Ha) ltac:(lra) ltac:(lra)) as Hr'.
    pose proof (nr_weaken _ _ _ 6 1 _ _ sized_1 (one_minus 3 s b ltac:(lra) Hs Hb) ltac:(lra) ltac:(lra)) as Hs'.
    assert (ML : forall k' k kt x y t u, nr M k 1 x y -> nr 1 kt 1 t u -> 0 <= k <= 1000 -> 0 <= kt <= 10 ->
      k + kt + 3 <= k' -> nr M k' 1 (fmul x t) (y * u)).
    { intros k' k kt x y t u Hx Ht A B C. apply nr_weaken with (k + 1 * kt + 1 + 2) 1; [exact HM| |lra|lra].
      apply mulp; try assumption; try lra. apply Rle_trans with (1000 * 10); [apply Rmult_le_compat; lra|lra]. }
    pose proof (ML 41 _ _ _ _ _ _ HS Hs' ltac:(lra) ltac:(lra) ltac:(lra)) as A1.
    pose proof (ML 38 _ _ _ _ _ _ HN Hs ltac:(lra) ltac:(lra) ltac:(lra)) as A2.
    pose proof (ML 41 _ _ _ _ _ _ HW Hr' ltac:(lra) ltac:(lra) ltac:(lra)) as A3.
    pose proof (ML 38 _ _ _ _ _ _ HE Hr ltac:(lra) ltac:(lra) ltac:(lra)) as A4.
    pose proof (ML 50 _ _ _ _ _ _ (ML 41 _ _ _ _ _ _ H00 Hr' ltac:(lra) ltac:(lra) ltac:(lra)) Hs' ltac:(lra) ltac:(lra) ltac:(lra)) as B1.
    pose proof (ML 47 _ _ _ _ _ _ (ML 41 _ _ _ _ _ _ H01 Hr' ltac:(lra) ltac:(lra) ltac:(lra)) Hs ltac:(lra) ltac:(lra) ltac:(lra)) as B2.
    pose proof (ML 47 _ _ _ _ _ _ (ML 38 _ _ _ _ _ _ H10 Hr ltac:(lra) ltac:(lra) ltac:(lra)) Hs' ltac:(lra) ltac:(lra) ltac:(lra)) as B3.
    pose proof (ML 44 _ _ _ _ _ _ (ML 38 _ _ _ _ _ _ H11 Hr ltac:(lra) ltac:(lra) ltac:(lra)) Hs ltac:(lra) ltac:(lra) ltac:(lra)) as B4.
    assert (A : nr M 170 4 (fadd (fadd (fadd (fmul S (fsub (of_Z 1) s)) (fmul N s)) (fmul W (fsub (of_Z 1) r))) (fmul E r))
      (yS * (1 - b) + yN * b + yW * (1 - a) + yE * a)).
    { eapply (add2 170 4 127 3 38 1); [|exact A4|lra..]. eapply (add2 127 3 82 2 41 1); [|exact A3|lra..].
      eapply (add2 82 2 41 1 38 1); [exact A1|exact A2|lra..]. }
    assert (B : nr M 200 4 (fadd (fadd (fadd (fmul (fmul p00 (fsub (of_Z 1) r)) (fsub (of_Z 1) s)) (fmul (fmul p01 (fsub (of_Z 1) r)) s))
                              (fmul (fmul p10 r) (fsub (of_Z 1) s))) (fmul (fmul p11 r) s))
      (y00 * (1 - a) * (1 - b) + y01 * (1 - a) * b + y10 * a * (1 - b) + y11 * a * b)).
    { eapply (add2 200 4 151 3 44 1); [|exact B4|lra..]. eapply (add2 151 3 100 2 47 1); [|exact B3|lra..].
      eapply (add2 100 2 50 1 47 1); [exact B1|exact B2|lra..]. }
    assert (Z0 : nr M 0 0 (of_Z 0) 0).
    { repeat split; [change (B2R (of_Z 0)) with 0; rewrite Rminus_0_r, Rabs_R0; lra|rewrite Rabs_R0; lra]. }
    replace ((1 - b) * yS + b * yN + (1 - a) * yW + a * yE - ((1 - a) * (1 - b) * y00 + (1 - a) * b * y01 + a * (1 - b) * y10 + a * b * y11) + 0)
      with (yS * (1 - b) + yN * b + yW * (1 - a) + yE * a - (y00 * (1 - a) * (1 - b) + y01 * (1 - a) * b + y10 * a * (1 - b) + y11 * a * b) + 0) by ring.
    eapply (add2 400 8 379 8 0 0); [|exact Z0|lra..]. eapply (sub2 379 8 170 4 200 4); [exact A|exact B|lra..].
  Qed.
End Scale.
