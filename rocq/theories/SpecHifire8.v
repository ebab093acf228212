(** Specification vocabulary for HIFiRE 8: rolling about the x axis. *)
From Coq Require Import Reals.
From Verif Require Import M_Vector SpecR3.
Local Open Scope R_scope.

(** turned about the x axis, y towards z *)
Definition rolled (a : R) (p : pt) : pt := V3 (vx p) (vy p * cos a - vz p * sin a) (vy p * sin a + vz p * cos a).

(** the radius at x of a body tapering from the radius b at 0 to a at l *)
Definition tapered (l b a x : R) : R := b - x * ((b - a) / l).
