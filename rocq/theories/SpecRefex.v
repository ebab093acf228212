(** Vocabulary for the ReFEX. *)
From Coq Require Import Reals List.
From Verif Require Import Num NumR M_Vector SpecR3.
Local Open Scope R_scope.

(** p turned about the axis through (x, ., 0) along y by the angle a *)
Definition pitched (x a : R) (p : pt) : pt :=
  V3 (x + (vx p - x) * cos a + vz p * sin a) (vy p) (- (vx p - x) * sin a + vz p * cos a).
