(** Specification vocabulary for bodies of revolution about the x axis. *)
From Coq Require Import Reals List.
From Verif Require Import M_Vector SpecR3.
Import ListNotations.
Local Open Scope R_scope.

(** the area of the regular n-gon inscribed in the unit circle *)
Definition ngon (n : nat) : R := INR n / 2 * sin (2 * PI / INR n).

(** the volume, divided by the area of the unit disc, of the frustum of a cone
    between the radii vy p at vx p and vy q at vx q *)
Definition frustum (p q : pt) : R := (vx q - vx p) * (vy p * vy p + vy p * vy q + vy q * vy q) / 3.

(** the frusta under a profile cut at equal steps of its parameter *)
Definition frusta (n : nat) (g : R -> pt) : R :=
  fold_right Rplus 0 (map (fun k => frustum (g (INR k / INR n)) (g (INR (S k) / INR n))) (seq 0 n)).

(** profiles joined end to end, the first starting and the last ending on the axis *)
Definition on_axis (p : pt) : Prop := vy p = 0 /\ vz p = 0.
Fixpoint joined_from (p : pt) (gs : list (R -> pt)) : Prop :=
  match gs with [] => on_axis p | g :: gs' => g 0 = p /\ joined_from (g 1) gs' end.
Definition closed_profile (gs : list (R -> pt)) : Prop :=
  match gs with [] => True | g :: _ => on_axis (g 0) /\ joined_from (g 0) gs end.
Definition planar (g : R -> pt) : Prop := forall t, 0 <= t <= 1 -> vz (g t) = 0.

(** a chain of straight lines through the given points *)
Definition straight (p q : pt) (t : R) : pt := V3 ((1 - t) * vx p + t * vx q) ((1 - t) * vy p + t * vy q) ((1 - t) * vz p + t * vz q).
Fixpoint legs (ps : list pt) : list (pt * pt) :=
  match ps with p :: ((q :: _) as ps') => (p, q) :: legs ps' | _ => [] end.
