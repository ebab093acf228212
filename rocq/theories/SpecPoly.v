(** Specification vocabulary for paths made of segments and sampled paths. *)
From Coq Require Import Reals List.
From Verif Require Import NumR Py M_Vector SpecR3 M_Path SpecPath.
Import ListNotations.
Local Open Scope R_scope.

(** the segments have these lengths *)
Definition lengths (segs : list (path R)) (ls : list R) : Prop :=
  Forall2 (fun s l => p_len s = Ok l) segs ls.

(** a path that can be evaluated everywhere *)
Definition total_path (s : path R) : Prop := forall t, is_ok (p_call s t).

(** breakpoints: prefix sums over the total *)
Definition breaks (ls : list R) : list R :=
  map (fun k => Rsum (firstn k ls) / Rsum ls) (seq 0 (S (length ls))).

(** position of t inside the k-th interval *)
Definition local_t (tv : list R) (k : nat) (t : R) : R :=
  (t - nth k tv 0) / (nth (S k) tv 0 - nth k tv 0).

(** parameter t belongs to segment k of n: closed above, the first and the last
    segment extend to infinity *)
Definition in_segment (n : nat) (tv : list R) (t : R) (k : nat) : Prop :=
  (k < n)%nat /\
  (k = 0%nat \/ nth k tv 0 < t) /\
  (k = (n - 1)%nat \/ t <= nth (S k) tv 0).

(** sum of f 0 .. f (n-1) *)
Fixpoint sumn (f : nat -> R) (n : nat) : R :=
  match n with O => 0 | S m => sumn f m + f m end.

(** length of the inscribed polygon with n equal parameter steps *)
Definition inscribed (g : R -> pt) (n : nat) : R :=
  sumn (fun i => dist (g (INR i / INR n)) (g (INR (S i) / INR n))) n.

(** the path evaluates to g everywhere *)
Definition evaluates (p : path R) (g : R -> pt) : Prop :=
  forall t, p_call p t = Ok (g t).

(** interpolation points of a closed spline: the first one is appended when the
    ends are further apart than the tolerance *)
Definition closed_points (pts : list pt) (closed : bool) (tol : R) : list pt :=
  if closed then
    (if Rltb tol (dist (nth 0 pts origin) (last pts origin))
     then pts ++ [nth 0 pts origin] else pts)
  else pts.

(** sampled arc length after k of n equal parameter steps *)
Definition arc_upto (g : R -> pt) (n k : nat) : R :=
  sumn (fun i => dist (g (INR i / INR n)) (g (INR (S i) / INR n))) k.

(** the piecewise linear arc length function through the samples has value L
    at parameter u *)
Definition sampled_arc (g : R -> pt) (n : nat) (u L : R) : Prop :=
  exists k, (k < n)%nat /\ INR k / INR n <= u <= INR (S k) / INR n /\
    L = arc_upto g n k + (u * INR n - INR k) * (arc_upto g n (S k) - arc_upto g n k).

(** angle between a-c and b-c, unit normal of the plane *)
Definition arc_normal (a b c : pt) : pt :=
  let N := crossR (diff a c) (diff b c) in scaled (/ nrm N) N.
Definition arc_angle (a b c : pt) (theta : R) : Prop :=
  0 < theta < PI /\
  nrm (diff a c) * nrm (diff b c) * cos theta = inner (diff a c) (diff b c).
(** a rotated about the axis through c by angle phi *)
Definition arc_point (a b c : pt) (phi : R) : pt :=
  plus_scaled (plus_scaled c (cos phi) (diff a c)) (sin phi)
              (crossR (arc_normal a b c) (diff a c)).

(** velocity of a moving point *)
Definition has_velocity (g : R -> pt) (t : R) (v : pt) : Prop :=
  derivable_pt_lim (fun s => vx (g s)) t (vx v) /\ derivable_pt_lim (fun s => vy (g s)) t (vy v) /\
  derivable_pt_lim (fun s => vz (g s)) t (vz v).
Definition has_acceleration (g : R -> pt) (t : R) (a : pt) : Prop :=
  exists v, (forall s, has_velocity g s (v s)) /\ has_velocity v t a.
(** a - 2b + c *)
Definition second_difference (a b c : pt) : pt :=
  V3 (vx a - 2 * vx b + vx c) (vy a - 2 * vy b + vy c) (vz a - 2 * vz b + vz c).
