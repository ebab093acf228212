(** Specification vocabulary: root finders that bracket a root, and where the
    control surfaces and fins of the D-21 end. *)
From Coq Require Import Reals.
From Verif Require Import Num NumR Py M_Vector SpecR3 SpecHtv SpecX43.
Local Open Scope R_scope.

(** what bisection promises for a function that changes sign on the unit
    interval: the result lies in a bracket of width tol at whose ends the
    function has both signs *)
Definition brackets (tol : R) (bisect : (R -> res R) -> R -> R -> res R) : Prop :=
  forall f phi, (forall t, 0 <= t <= 1 -> f t = Ok (phi t)) -> phi 0 <= 0 <= phi 1 ->
    exists t a b, bisect f 0 1 = Ok t /\ 0 <= a <= t /\ t <= b <= 1 /\ b - a <= tol /\ phi a <= 0 <= phi b.
(** both ends are evaluated first; a root at the left one counts before one at
    the right one *)
Definition exact_ends (bisect : (R -> res R) -> R -> R -> res R) : Prop :=
  forall f a b, a <= b -> (f a = Ok 0 -> is_ok (f b) -> bisect f a b = Ok a) /\
    forall fa, f a = Ok fa -> fa <> 0 -> f b = Ok 0 -> bisect f a b = Ok b.
Definition bisects (tol : R) (bisect : (R -> res R) -> R -> R -> res R) : Prop :=
  in_interval bisect /\ brackets tol bisect /\ exact_ends bisect.

(** the two ends of the trailing edge of the right wing's flap, turned by fa
    degrees towards +z *)
Definition d21_flap_inner (Lw fa : R) : pt :=
  V3 (- Lw - Lw / 10 * cos (degrees fa)) 0 (- (1 / 4) + Lw / 10 * sin (degrees fa)).
Definition d21_flap_outer (Lw W fa : R) : pt :=
  V3 (- Lw - Lw / 10 * cos (degrees fa)) W (Lw / 10 * sin (degrees fa)).

(** half a turn about the x axis *)
Definition half_turn (p : pt) : pt := V3 (vx p) (- vy p) (- vz p).
