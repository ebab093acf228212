(** Specification vocabulary for curves: Bernstein form, linear functionals,
    affine maps, lists of real numbers. *)
From Coq Require Import Reals List.
From Verif Require Import M_Vector SpecR3.
Import ListNotations.
Local Open Scope R_scope.

(** linear functionals of a point (the coordinates, inner products, ...) *)
Definition linear_fun (f : pt -> R) : Prop :=
  forall a k b, f (plus_scaled a k b) = f a + k * f b.

(** maps that respect affine combinations of two points *)
Definition affine_map (A : pt -> pt) : Prop :=
  forall k a b, A (lerp k a b) = lerp k (A a) (A b).

(** Bernstein polynomial form of a sequence *)
Definition bernstein (n : nat) (t : R) (q : nat -> R) : R :=
  sum_f_R0 (fun i => C n i * (1 - t) ^ (n - i) * t ^ i * q i) n.

(** sum C(n,i) (1-t)^(n-i) t^i B_i, coordinate by coordinate *)
Definition bernstein_pt (B : list pt) (t : R) : pt :=
  let n := (length B - 1)%nat in
  V3 (bernstein n t (fun i => vx (nth i B origin)))
     (bernstein n t (fun i => vy (nth i B origin)))
     (bernstein n t (fun i => vz (nth i B origin))).

Definition Rsum (l : list R) : R := fold_right Rplus 0 l.

(** strictly / weakly increasing lists, stated on positions *)
Definition strictly_increasing (l : list R) : Prop :=
  forall i j, (i < j)%nat -> (j < length l)%nat -> nth i l 0 < nth j l 0.
Definition weakly_increasing (l : list R) : Prop :=
  forall i j, (i <= j)%nat -> (j < length l)%nat -> nth i l 0 <= nth j l 0.
