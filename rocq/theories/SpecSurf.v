(** Specification vocabulary for surfaces. *)
From Coq Require Import Reals List String.
From Verif Require Import NumR Py M_Vector SpecR3 M_Path SpecPoly M_Surface.
Local Open Scope R_scope.

(** the surface evaluates to g everywhere *)
Definition surf_is (u : surf R) (g : R -> R -> pt) : Prop :=
  forall r s, u r s = Ok (g r s).

(** applying a map of space to a surface *)
Definition map_surf (f : pt -> pt) (u v : surf R) : Prop :=
  forall r s, (forall p, u r s = Ok p -> v r s = Ok (f p)) /\
              (forall e, u r s = Raise e -> v r s = Raise e).

(** agreement within 1e-5 + 1e-2 |b| per coordinate *)
Definition near1 (a b : R) : Prop := Rabs (a - b) <= 1 / 100000 + 1 / 100 * Rabs b.
Definition near (a b : pt) : Prop :=
  near1 (vx a) (vx b) /\ near1 (vy a) (vy b) /\ near1 (vz a) (vz b).

(** bilinear interpolation of four corners *)
Definition bilinear (p00 p10 p11 p01 : pt) (r s : R) : pt :=
  lerp s (lerp r p00 p10) (lerp r p01 p11).

(** the unit vector of a named axis *)
Definition axis_vec (axis : string) : pt :=
  if (axis =? "x")%string then ex else if (axis =? "y")%string then ey else ez.
Definition is_axis (axis : string) : Prop :=
  axis = "x"%string \/ axis = "y"%string \/ axis = "z"%string.

(** rotation by the right-hand rule about the axis k through c (Rodrigues) *)
Definition rodrigues (k c : pt) (a : R) (p : pt) : pt :=
  let v := diff p c in
  translate c (translate (plus_scaled (scaled (cos a) v) (sin a) (crossR k v))
                         (scaled ((1 - cos a) * inner k v) k)).

(** reflection in the plane through the origin with unit normal k *)
Definition reflect (k p : pt) : pt := plus_scaled p (- 2 * inner k p) k.

(** points of the plane through the origin orthogonal to an axis *)
Definition on_plane (axis : string) (p : pt) : Prop := inner p (axis_vec axis) = 0.

(** distance from the x axis *)
Definition radius_x (p : pt) : R := sqrt (vy p * vy p + vz p * vz p).

(** max-norm *)
Definition maxnorm (p : pt) : R := Rmax (Rabs (vx p)) (Rmax (Rabs (vy p)) (Rabs (vz p))).

(** the four edge curves meet (approximately) at the corners *)
Definition corners_near (gn ge gs gw : R -> pt) : Prop :=
  near (gs 0) (gw 0) /\ near (gs 1) (ge 0) /\ near (gn 0) (gw 1) /\ near (gn 1) (ge 1).

(** linear blend of the mismatches a - a' and b - b' *)
Definition blend_err (k : R) (a a' b b' : pt) : pt :=
  V3 ((1 - k) * (vx a - vx a') + k * (vx b - vx b'))
     ((1 - k) * (vy a - vy a') + k * (vy b - vy b'))
     ((1 - k) * (vz a - vz a') + k * (vz b - vz b')).

(** replacing the coordinate along an axis *)
Definition with_coord (axis : string) (d : R) (p : pt) : pt :=
  if (axis =? "x")%string then V3 d (vy p) (vz p)
  else if (axis =? "y")%string then V3 (vx p) d (vz p) else V3 (vx p) (vy p) d.
Definition coord (axis : string) (p : pt) : R := inner p (axis_vec axis).

(** edges of the parameter square *)
Inductive side := r0 | r1 | s0 | s1.
Definition on_side (e : side) (t : R) : R * R :=
  match e with r0 => (0, t) | r1 => (1, t) | s0 => (t, 0) | s1 => (t, 1) end.

(** the twelve edges of a cube, each as two (face, side) pairs *)
Definition cube_seams : list ((string * side) * (string * side)) :=
  (
  (("east", r0), ("south", r1)) :: (("east", r1), ("north", r1)) ::
  (("east", s0), ("bottom", r1)) :: (("east", s1), ("top", r1)) ::
  (("west", r0), ("south", r0)) :: (("west", r1), ("north", r0)) ::
  (("west", s0), ("bottom", r0)) :: (("west", s1), ("top", r0)) ::
  (("south", s0), ("bottom", s0)) :: (("south", s1), ("top", s0)) ::
  (("north", s0), ("bottom", s1)) :: (("north", s1), ("top", s1)) :: nil)%string.
Definition cube_faces : list string :=
  ("east" :: "west" :: "south" :: "north" :: "bottom" :: "top" :: nil)%string.

(** where the cross sections start, along the sweep axis *)
Definition section_origins (axis : string) (sections : list (surf R)) (os : list R) : Prop :=
  List.Forall2 (fun cs o => exists p, cs 0 0 = Ok p /\ coord axis p = o) sections os.
Definition strictly_decreasing (l : list R) : Prop :=
  forall i j, (i < j)%nat -> (j < List.length l)%nat -> List.nth j l 0 < List.nth i l 0.

(** the path evaluates to g on [0,1] *)
Definition evaluates01 (p : path R) (g : R -> pt) : Prop :=
  forall t, 0 <= t <= 1 -> p_call p t = Ok (g t).
