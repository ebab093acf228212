From Coq Require Import Reals Lra Psatz ZArith List Lia Bool String.
From Verif Require Import Num NumR Py M_Vector SpecR3 M_Path M_Surface M_Geometry
  SpecPath SpecPoly SpecSurf L_Vector L_Line.
Import ListNotations.
Local Open Scope R_scope.

(** ** rounding to k digits *)
Lemma Rrne_mono x y : x <= y -> (Rrne x <= Rrne y)%Z.
Proof.
  intros H. unfold Rrne. pose proof (Rfloor_spec x) as Fx. pose proof (Rfloor_spec y) as Fy.
  assert (L : (Rfloor x <= Rfloor y)%Z).
  { assert (IZR (Rfloor x) < IZR (Rfloor y + 1)) by (rewrite plus_IZR; lra). apply lt_IZR in H0. lia. }
  destruct (Z.eq_dec (Rfloor x) (Rfloor y)) as [E|E].
  - rewrite E in *.
    repeat match goal with |- context [Rlt_dec ?a ?b] => destruct (Rlt_dec a b) end;
      try destruct (Z.even _); lia || lra.
  - repeat match goal with |- context [Rlt_dec ?a ?b] => destruct (Rlt_dec a b) end;
      repeat match goal with |- context [Z.even ?a] => destruct (Z.even a) end; lia.
Qed.

Lemma Rabs_le_inv x d : Rabs x <= d -> - d <= x <= d.
Proof. unfold Rabs. destruct (Rcase_abs x); lra. Qed.

Lemma Rround8_err x : Rabs (x - Rround 8 x) <= 1 / 200000000.
Proof.
  unfold Rround. rewrite powerRZ_10_8. pose proof (Rrne_spec (x * 100000000)) as H.
  apply Rabs_le_inv in H. apply Rabs_le. lra.
Qed.
Lemma Rround8_exact x k : x = IZR k / 100000000 -> Rround 8 x = x.
Proof.
  intros ->. unfold Rround. rewrite powerRZ_10_8.
  replace (IZR k / 100000000 * 100000000) with (IZR k) by field. rewrite Rrne_IZR. reflexivity.
Qed.
Lemma Rround8_mono x y : x <= y -> Rround 8 x <= Rround 8 y.
Proof.
  intros H. unfold Rround. rewrite powerRZ_10_8.
  assert ((Rrne (x * 100000000) <= Rrne (y * 100000000))%Z) by (apply Rrne_mono; lra).
  apply IZR_le in H0. lra.
Qed.
Lemma Rround8_0 : Rround 8 0 = 0. Proof. apply (Rround8_exact 0 0). lra. Qed.
Lemma Rround8_1 : Rround 8 1 = 1. Proof. apply (Rround8_exact 1 100000000). lra. Qed.
Lemma Rround8_01 x : 0 <= x <= 1 -> 0 <= Rround 8 x <= 1.
Proof.
  intros H. split; [rewrite <- Rround8_0|rewrite <- Rround8_1]; apply Rround8_mono; lra.
Qed.

(** ** remainders of t modulo 1/4 *)
Lemma Rmod_quarter t k : IZR k / 4 <= t < (IZR k + 1) / 4 -> Rmod t (1 / 4) = t - IZR k / 4.
Proof.
  intros H. unfold Rmod. rewrite (Rfloor_unique (t / (1 / 4)) k) by (unfold Rdiv; lra). lra.
Qed.

Definition rd (x : R) : R := Rround 8 x.

Lemma perim_value t : 0 <= t ->
  perimeter_rs t =
    if Rlt_dec t (1 / 4) then (rd (4 * t), 0)
    else if Rlt_dec t (1 / 2) then (1, rd (4 * t - 1))
    else if Rlt_dec t (3 / 4) then (rd (3 - 4 * t), 1)
    else if Rlt_dec t 1 then (0, rd (4 - 4 * t))
    else (0, 0).
Proof.
  intros H. unfold perimeter_rs, rd. cbv zeta. numR.
  destruct (Rltb_spec t (1 / 4)).
  { destruct (Rlt_dec t (1 / 4)); [|lra]. rewrite (Rmod_quarter t 0) by lra. f_equal. f_equal. lra. }
  destruct (Rlt_dec t (1 / 4)); [lra|]. destruct (Rltb_spec t (1 / 2)).
  { destruct (Rlt_dec t (1 / 2)); [|lra]. rewrite (Rmod_quarter t 1) by lra. f_equal. f_equal. lra. }
  destruct (Rlt_dec t (1 / 2)); [lra|]. destruct (Rltb_spec t (3 / 4)).
  { destruct (Rlt_dec t (3 / 4)); [|lra]. rewrite (Rmod_quarter t 2) by lra. f_equal. f_equal. lra. }
  destruct (Rlt_dec t (3 / 4)); [lra|]. destruct (Rltb_spec t 1).
  { destruct (Rlt_dec t 1); [|lra]. rewrite (Rmod_quarter t 3) by lra. f_equal. f_equal. lra. }
  destruct (Rlt_dec t 1); [lra|]. reflexivity.
Qed.

Lemma perimeter_sides (u : surf R) t : 0 <= t < 1 ->
  exists k, (k < 4)%nat /\ INR k / 4 <= t < (INR k + 1) / 4 /\
  exists x, Rabs (x - (4 * t - INR k)) <= 1 / 200000000 /\ 0 <= x <= 1 /\
    p_call (SurfacePerimeter u) t =
      match k with 0%nat => u x 0 | 1%nat => u 1 x | 2%nat => u (1 - x) 1 | _ => u 0 (1 - x) end.
Proof.
  intros H. unfold SurfacePerimeter; cbn [p_call]. rewrite perim_value by lra.
  destruct (Rlt_dec t (1 / 4)).
  { exists 0%nat. cbn [INR]. split; [lia|]. split; [lra|]. exists (rd (4 * t)).
    pose proof (Rround8_err (4 * t)). rewrite Rabs_minus_sym.
    split; [|split; [apply Rround8_01; lra|reflexivity]].
    replace (4 * t - 0) with (4 * t) by ring. exact H0. }
  destruct (Rlt_dec t (1 / 2)).
  { exists 1%nat. cbn [INR]. split; [lia|]. split; [lra|]. exists (rd (4 * t - 1)).
    split; [|split; [apply Rround8_01; lra|reflexivity]]. rewrite Rabs_minus_sym. apply Rround8_err. }
  destruct (Rlt_dec t (3 / 4)).
  { exists 2%nat. cbn [INR]. split; [lia|]. split; [lra|]. exists (1 - rd (3 - 4 * t)).
    pose proof (Rround8_err (3 - 4 * t)) as E. pose proof (Rround8_01 (3 - 4 * t)). unfold rd in *.
    split; [|split; [lra|cbn [fst snd]; f_equal; ring]].
    apply Rabs_le_inv in E. apply Rabs_le. lra. }
  destruct (Rlt_dec t 1); [|lra].
  { exists 3%nat. cbn [INR]. split; [lia|]. split; [lra|]. exists (1 - rd (4 - 4 * t)).
    pose proof (Rround8_err (4 - 4 * t)) as E. pose proof (Rround8_01 (4 - 4 * t)). unfold rd in *.
    split; [|split; [lra|cbn [fst snd]; f_equal; ring]].
    apply Rabs_le_inv in E. apply Rabs_le. lra. }
Qed.

Lemma perimeter_closed (u : surf R) :
  p_call (SurfacePerimeter u) 0 = u 0 0 /\ p_call (SurfacePerimeter u) (1 / 4) = u 1 0 /\
  p_call (SurfacePerimeter u) (1 / 2) = u 1 1 /\ p_call (SurfacePerimeter u) (3 / 4) = u 0 1 /\
  p_call (SurfacePerimeter u) 1 = u 0 0.
Proof.
  unfold SurfacePerimeter; cbn [p_call]. rewrite !perim_value by lra. unfold rd.
  repeat match goal with |- context [Rlt_dec ?a ?b] => destruct (Rlt_dec a b); [try lra|try lra] end.
  replace (4 * 0) with 0 by ring. replace (4 * (1 / 4) - 1) with 0 by lra.
  replace (3 - 4 * (1 / 2)) with 1 by lra. replace (4 - 4 * (3 / 4)) with 1 by lra.
  rewrite Rround8_0, Rround8_1. repeat split; reflexivity.
Qed.

Lemma perimeter_grid (u : surf R) (k : Z) (m : nat) : (0 <= k < 100000000)%Z -> (m < 4)%nat ->
  let x := IZR k / 100000000 in
  p_call (SurfacePerimeter u) ((INR m + x) / 4) =
  match m with 0%nat => u x 0 | 1%nat => u 1 x | 2%nat => u (1 - x) 1 | _ => u 0 (1 - x) end.
Proof.
  intros Hk Hm x.
  assert (Hx : 0 <= x < 1).
  { unfold x. destruct Hk as [A B]. apply IZR_le in A. apply IZR_lt in B. lra. }
  unfold SurfacePerimeter; cbn [p_call].
  assert (Hm' : 0 <= INR m) by apply pos_INR.
  rewrite perim_value by lra. unfold rd.
  assert (K : 1 - x = IZR (100000000 - k) / 100000000) by (unfold x; rewrite minus_IZR; field).
  destruct m as [|[|[|[|m]]]]; [| | | |lia]; cbn [INR] in *;
  repeat match goal with |- context [Rlt_dec ?a ?b] => destruct (Rlt_dec a b); [try lra|try lra] end;
  cbn [fst snd].
  - replace (4 * ((0 + x) / 4)) with x by field. rewrite (Rround8_exact x k) by reflexivity. reflexivity.
  - replace (4 * ((1 + x) / 4) - 1) with x by field. rewrite (Rround8_exact x k) by reflexivity. reflexivity.
  - replace (3 - 4 * ((1 + 1 + x) / 4)) with (1 - x) by field.
    rewrite (Rround8_exact (1 - x) _ K). reflexivity.
  - replace (4 - 4 * ((1 + 1 + 1 + x) / 4)) with (1 - x) by field.
    rewrite (Rround8_exact (1 - x) _ K). reflexivity.
Qed.

Lemma perimeter_outside (u : surf R) t : 1 <= t -> p_call (SurfacePerimeter u) t = u 0 0.
Proof.
  intros H. unfold SurfacePerimeter; cbn [p_call]. rewrite perim_value by lra.
  repeat match goal with |- context [Rlt_dec ?a ?b] => destruct (Rlt_dec a b); [try lra|try lra] end.
  reflexivity.
Qed.

(** two parameters on the same side are visited in order *)
Lemma perimeter_monotone t t' k : (k < 4)%nat ->
  INR k / 4 <= t -> t <= t' -> t' < (INR k + 1) / 4 ->
  exists x x', 0 <= x /\ x <= x' /\ x' <= 1 /\ forall u : surf R,
    let at_ y := match k with 0%nat => u y 0 | 1%nat => u 1 y | 2%nat => u (1 - y) 1 | _ => u 0 (1 - y) end in
    p_call (SurfacePerimeter u) t = at_ x /\ p_call (SurfacePerimeter u) t' = at_ x'.
Proof.
  intros Hk H1 H2 H3. unfold SurfacePerimeter; cbn [p_call].
  destruct k as [|[|[|[|k]]]]; [| | | |lia]; cbn [INR] in *; rewrite !perim_value by lra; unfold rd;
  repeat match goal with |- context [Rlt_dec ?a ?b] => destruct (Rlt_dec a b); [try lra|try lra] end;
  cbn [fst snd].
  - exists (Rround 8 (4 * t)), (Rround 8 (4 * t')).
    pose proof (Rround8_01 (4 * t)). pose proof (Rround8_01 (4 * t')).
    pose proof (Rround8_mono (4 * t) (4 * t')).
    split; [lra|]. split; [lra|]. split; [lra|]. intros u. split; reflexivity.
  - exists (Rround 8 (4 * t - 1)), (Rround 8 (4 * t' - 1)).
    pose proof (Rround8_01 (4 * t - 1)). pose proof (Rround8_01 (4 * t' - 1)).
    pose proof (Rround8_mono (4 * t - 1) (4 * t' - 1)).
    split; [lra|]. split; [lra|]. split; [lra|]. intros u. split; reflexivity.
  - exists (1 - Rround 8 (3 - 4 * t)), (1 - Rround 8 (3 - 4 * t')).
    pose proof (Rround8_01 (3 - 4 * t)). pose proof (Rround8_01 (3 - 4 * t')).
    pose proof (Rround8_mono (3 - 4 * t') (3 - 4 * t)).
    split; [lra|]. split; [lra|]. split; [lra|]. intros u. split; cbv zeta; f_equal; ring.
  - exists (1 - Rround 8 (4 - 4 * t)), (1 - Rround 8 (4 - 4 * t')).
    pose proof (Rround8_01 (4 - 4 * t)). pose proof (Rround8_01 (4 - 4 * t')).
    pose proof (Rround8_mono (4 - 4 * t') (4 - 4 * t)).
    split; [lra|]. split; [lra|]. split; [lra|]. intros u. split; cbv zeta; f_equal; ring.
Qed.
