(** Specification vocabulary for triangle meshes: directed edges, closedness,
    area and volume.  Only the triangle record is shared with the model. *)
From Coq Require Import Reals List Permutation.
From Verif Require Import M_Vector M_Mesh SpecR3.
Import ListNotations.

Section Edges.
  Context {A : Type}.
  Definition edge := (A * A)%type.
  Definition flip (e : edge) : edge := (snd e, fst e).
  Definition flips (l : list edge) : list edge := map flip l.

  (** every directed edge occurs exactly as often as its reverse *)
  Definition balanced (l : list edge) : Prop := Permutation l (flips l).

  (** the edges come in opposite pairs *)
  Definition paired (l : list edge) : Prop :=
    exists es, Permutation l (es ++ flips es).

  (** consecutive points of f 0, f 1, ..., f n *)
  Definition chain (f : nat -> A) (n : nat) : list edge :=
    map (fun k => (f k, f (S k))) (seq 0 n).
End Edges.
Arguments edge A : clear implicits.

Definition tri_edges {T} (t : tri T) : list (edge (vec T)) :=
  [(t0 t, t1 t); (t1 t, t2 t); (t2 t, t0 t)].
Definition mesh_edges {T} (m : list (tri T)) : list (edge (vec T)) :=
  flat_map tri_edges m.

(** corner k of cell (i, j), counter-clockwise in the (r, s) plane *)
Definition corner (k i j : nat) : nat * nat :=
  match k with 0 => (i, j) | 1 => (S i, j) | 2 => (S i, S j) | 3 => (i, S j) | _ => (i, j) end.

(** A grid of vertices Q, each cell split into four triangles about its apex C,
    cell by cell with j running fastest *)
Section Grid.
  Context {T : Type}.
  Variables (Q C : nat -> nat -> vec T).
  Definition at_corner (p : nat * nat) : vec T := Q (fst p) (snd p).
  Definition cell_tri (i j k : nat) : tri T :=
    Tri (at_corner (corner k i j)) (at_corner (corner (S k) i j)) (C i j).
  Definition grid_mesh (ni nj : nat) : list (tri T) :=
    flat_map (fun i => flat_map (fun j => map (cell_tri i j) (seq 0 4)) (seq 0 nj)) (seq 0 ni).

  (** the four sides, run through counter-clockwise *)
  Definition south_side (ni : nat) := chain (fun i => Q i 0) ni.
  Definition east_side (ni nj : nat) := chain (fun j => Q ni j) nj.
  Definition north_side (ni nj : nat) := chain (fun i => Q i nj) ni.
  Definition west_side (nj : nat) := chain (fun j => Q 0 j) nj.
  Definition outline (ni nj : nat) : list (edge (vec T)) :=
    south_side ni ++ east_side ni nj ++ flips (north_side ni nj) ++ flips (west_side nj).
End Grid.

(** closed and consistently oriented *)
Definition watertight {T} (m : list (tri T)) : Prop := balanced (mesh_edges m).

Local Open Scope R_scope.
(** twice the area vector and six times the signed volume under a triangle *)
Definition area_vec (t : tri R) : pt := crossR (diff (t1 t) (t0 t)) (diff (t2 t) (t0 t)).
Definition vol6 (t : tri R) : R := det3 (t0 t) (t1 t) (t2 t).
Definition sum_vec (l : list pt) : pt := fold_right translate origin l.
Definition net_area (m : list (tri R)) : pt := sum_vec (map area_vec m).
Definition signed_volume (m : list (tri R)) : R :=
  fold_right Rplus 0 (map vol6 m) / 6.
Definition map_tri {A B} (f : vec A -> vec B) (t : tri A) : tri B :=
  Tri (f (t0 t)) (f (t1 t)) (f (t2 t)).
Definition map_mesh {A B} (f : vec A -> vec B) (m : list (tri A)) : list (tri B) :=
  map (map_tri f) m.

(** maps of the form p |-> f(0) + A p *)
Definition affine (f : pt -> pt) : Prop := forall p,
  f p = translate (f origin)
          (translate (scaled (vx p) (delta f ex))
             (translate (scaled (vy p) (delta f ey)) (scaled (vz p) (delta f ez)))).

Definition total_area2 (m : list (tri R)) : R :=
  fold_right Rplus 0 (map (fun t => nrm (area_vec t)) m).
