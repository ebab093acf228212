(** Specification vocabulary: the arched shape of HIFiRE 4, and root finders that
    refuse a bracket without a change of sign. *)
From Coq Require Import Reals ZArith.
From Verif Require Import Num NumR Py M_Vector SpecR3.
Local Open Scope R_scope.

(** the plane z = 0 bent into the parabola z = k x^2, lines across the plane
    becoming normals of the parabola *)
Definition arched_x (k : R) (p : pt) : pt :=
  let m := 2 * k * vx p in
  V3 (vx p - vz p * (m / sqrt (1 + m * m))) (vy p) (k * (vx p * vx p) + vz p / sqrt (1 + m * m)).
Definition arched_y (k : R) (p : pt) : pt :=
  let m := 2 * k * vy p in
  V3 (vx p) (vy p - vz p * (m / sqrt (1 + m * m))) (k * (vy p * vy p) + vz p / sqrt (1 + m * m)).
Definition hifire4_curved (xm ym : R) (p : pt) : pt := arched_y (ym / 10) (arched_x (xm / 20) p).

(** a whole number of millionths *)
Definition whole_micro (x : R) : Prop := exists k : Z, x = IZR k / 1000000.

(** what scipy's bisect does when the function has one sign at both ends *)
Definition refuses (bisect : (R -> res R) -> R -> R -> res R) : Prop :=
  forall f phi, (forall t, 0 <= t <= 1 -> f t = Ok (phi t)) -> 0 < phi 0 * phi 1 -> bisect f 0 1 = Raise ValueError.
