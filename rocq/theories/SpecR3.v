(** Specification vocabulary: Euclidean 3-space over the reals.  Nothing here
    refers to the model's operations; only the coordinate record is shared. *)
From Coq Require Import Reals List.
From Verif Require Import M_Vector.
Import ListNotations.
Local Open Scope R_scope.

Notation pt := (vec R).

Definition inner (a b : pt) : R := vx a * vx b + vy a * vy b + vz a * vz b.
Definition nrm (a : pt) : R := sqrt (vx a * vx a + vy a * vy a + vz a * vz a).
Definition dist (a b : pt) : R :=
  sqrt ((vx a - vx b) * (vx a - vx b) + (vy a - vy b) * (vy a - vy b)
        + (vz a - vz b) * (vz a - vz b)).
Definition origin : pt := V3 0 0 0.
Definition ex : pt := V3 1 0 0.
Definition ey : pt := V3 0 1 0.
Definition ez : pt := V3 0 0 1.

(** a + k (b - a) *)
Definition lerp (k : R) (a b : pt) : pt :=
  V3 ((1 - k) * vx a + k * vx b) ((1 - k) * vy a + k * vy b)
     ((1 - k) * vz a + k * vz b).

(** a + k b *)
Definition plus_scaled (a : pt) (k : R) (b : pt) : pt :=
  V3 (vx a + k * vx b) (vy a + k * vy b) (vz a + k * vz b).

Definition translate (a v : pt) : pt :=
  V3 (vx a + vx v) (vy a + vy v) (vz a + vz v).

(** determinant of the matrix with columns a, b, c *)
Definition det3 (a b c : pt) : R :=
  vx a * (vy b * vz c - vy c * vz b)
  - vx b * (vy a * vz c - vy c * vz a)
  + vx c * (vy a * vz b - vy b * vz a).

Definition diff (a b : pt) : pt := V3 (vx a - vx b) (vy a - vy b) (vz a - vz b).
Definition scaled (k : R) (a : pt) : pt := V3 (k * vx a) (k * vy a) (k * vz a).
Definition crossR (a b : pt) : pt :=
  V3 (vy a * vz b - vz a * vy b) (vz a * vx b - vx a * vz b)
     (vx a * vy b - vy a * vx b).

(** right-handed orthonormal frames *)
Definition orthonormal (n t1 t2 : pt) : Prop :=
  inner n n = 1 /\ inner t1 t1 = 1 /\ inner t2 t2 = 1 /\
  inner n t1 = 0 /\ inner n t2 = 0 /\ inner t1 t2 = 0.
Definition right_handed (n t1 t2 : pt) : Prop :=
  orthonormal n t1 t2 /\ det3 n t1 t2 = 1.

(** maps of space *)
Definition isometry (f : pt -> pt) : Prop :=
  forall a b, dist (f a) (f b) = dist a b.
(** f(a) - f(b), the linear part of an affine map *)
Definition delta (f : pt -> pt) (v : pt) : pt :=
  V3 (vx (f v) - vx (f origin)) (vy (f v) - vy (f origin)) (vz (f v) - vz (f origin)).
Definition map_det (f : pt -> pt) : R :=
  det3 (delta f ex) (delta f ey) (delta f ez).
