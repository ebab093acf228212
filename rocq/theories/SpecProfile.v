(** Specification vocabulary for profiles of bodies of revolution about the x
    axis: which way they run and how far they stay from the axis. *)
From Coq Require Import Reals List.
From Verif Require Import NumR Py M_Vector M_Path SpecR3 SpecPath SpecPoly SpecSurf SpecLathe.
Import ListNotations.
Local Open Scope R_scope.

(** x never increases; x never decreases *)
Definition retreating (g : R -> pt) : Prop := forall s t, 0 <= s <= t -> t <= 1 -> vx (g t) <= vx (g s).
Definition advancing (g : R -> pt) : Prop := forall s t, 0 <= s <= t -> t <= 1 -> vx (g s) <= vx (g t).
(** off the axis except perhaps at the ends, and no further from it than H *)
Definition above (g : R -> pt) : Prop := forall t, 0 < t < 1 -> 0 < vy (g t).
Definition below (H : R) (g : R -> pt) : Prop := forall t, 0 <= t <= 1 -> vy (g t) <= H.

(** a path that can be evaluated everywhere, has a positive length, and draws
    such a profile from a to b towards smaller x *)
Definition draws (H : R) (p : path R) (a b : pt) : Prop :=
  total_path p /\ (exists l, p_len p = Ok l /\ 0 < l) /\
  exists g, evaluates01 p g /\ g 0 = a /\ g 1 = b /\ planar g /\ retreating g /\ above g /\ below H g.
