(** Specification vocabulary for wings and fins: seams between patches. *)
From Coq Require Import Reals List String.
From Verif Require Import NumR Py M_Vector SpecR3 M_Path SpecPoly M_Surface SpecSurf.
Local Open Scope R_scope.

(** along side eu, at parameter t, patch u agrees (in the sense of close) with
    patch v along its side ev at parameter f t *)
Definition seam (u : surf R) (eu : side) (v : surf R) (ev : side) (f : R -> R)
           (close : pt -> pt -> Prop) : Prop :=
  forall t, 0 <= t <= 1 -> exists P Q,
    u (fst (on_side eu t)) (snd (on_side eu t)) = Ok P /\
    v (fst (on_side ev (f t))) (snd (on_side ev (f t))) = Ok Q /\ close P Q.

(** the same for two named patches *)
Definition joined (d : dict (surf R)) (a : string) (ea : side) (b : string) (eb : side)
           (f : R -> R) (close : pt -> pt -> Prop) : Prop :=
  exists u v, dget d a = Some u /\ dget d b = Some v /\ seam u ea v eb f close.

Definition same (P Q : pt) : Prop := P = Q.
Definition along (t : R) : R := t.
Definition reversed (t : R) : R := 1 - t.

(** the end gap of a quarter ellipse of half thickness b and width at least W *)
Definition within (b W : R) (P Q : pt) : Prop :=
  (vx P - vx Q) * (vx P - vx Q) + (vy P - vy Q) * (vy P - vy Q)
    <= (b / 16331239353195370) * (b / 16331239353195370) /\
  Rabs (vz P - vz Q) <= b * (b * b) / (2 * (W * W) * (16331239353195370 * 16331239353195370)).
(** the half thickness taken at the position of the first point *)
Definition within_at (half : R -> R -> R) (W : R) (P Q : pt) : Prop :=
  within (half (vx P) (vy P)) W P Q.

(** the same, the first point lying above or below a point of the curve g *)
Definition within_over (g : R -> pt) (half : R -> R -> R) (W : R) (P Q : pt) : Prop :=
  (exists t, 0 <= t <= 1 /\ vx P = vx (g t) /\ vy P = vy (g t)) /\ within_at half W P Q.

(** a thickness function that moves points along z only, by h(x, y) *)
Definition vertical (f : R -> R -> option R -> res pt) (h : R -> R -> R) : Prop :=
  forall x y z, f x y z = Ok (V3 0 0 (h x y)).

(** the point moved along z by h(x, y); mean and half of the distance of two
    such surfaces *)
Definition lift (h : R -> R -> R) (p : pt) : pt := V3 (vx p) (vy p) (vz p + h (vx p) (vy p)).
Definition mid_h (a b : R -> R -> R) (x y : R) : R := (a x y + b x y) / 2.
Definition half_h (a b : R -> R -> R) (x y : R) : R := (b x y - a x y) / 2.

(** the point behind m at distance L, turned by the angle a *)
Definition tip (L a : R) (m : pt) : pt := V3 (vx m - L * cos a) (vy m) (vz m + L * sin a).

(** h is affine along the segment from a to b *)
Definition affine_between (h : R -> R -> R) (a b : pt) : Prop :=
  forall t, 0 <= t <= 1 ->
    h (vx (lerp t a b)) (vy (lerp t a b)) = (1 - t) * h (vx a) (vy a) + t * h (vx b) (vy b).
