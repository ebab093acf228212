(** Specification vocabulary: Bezier curves of degree 3 and 4 by their Bernstein
    polynomials, and the wind frame of the waverider. *)
From Coq Require Import Reals ZArith.
From Verif Require Import Num NumR Py M_Vector SpecR3.
Local Open Scope R_scope.

Definition cubic (a b c d t : R) : R :=
  a * ((1 - t) * ((1 - t) * (1 - t))) + b * (3 * t * ((1 - t) * (1 - t))) + c * (3 * (t * t) * (1 - t)) + d * (t * (t * t)).
Definition quartic (a b c d e t : R) : R :=
  a * ((1 - t) * (1 - t) * ((1 - t) * (1 - t))) + b * (4 * t * ((1 - t) * ((1 - t) * (1 - t)))) + c * (6 * (t * t) * ((1 - t) * (1 - t)))
  + d * (4 * (t * (t * t)) * (1 - t)) + e * (t * t * (t * t)).

(** the upper half (z <= 0) of a body, with a flat underside *)
Definition lidded (p : pt) : pt := V3 (vx p) (vy p) (Rmin (vz p) 0).

(** from the frame in which the vehicle is drawn (nose towards +x, upwards -z,
    right wing towards +y) to one in which the wind blows along +x and upwards
    is +y, the nose then being raised by the angle a *)
Definition wind (a : R) (p : pt) : pt :=
  V3 (- vx p * cos a - vz p * sin a) (vx p * sin a - vz p * cos a) (- vy p).

(** h is the ordinate of the profile (X, Y) at a parameter in a bracket, of
    width tol, of one with abscissa x *)
Definition ordinate_near (X Y : R -> R) (x tol h : R) : Prop :=
  exists t a b, 0 <= a <= t /\ t <= b <= 1 /\ b - a <= tol /\ X a <= x <= X b /\ h = Y t.
