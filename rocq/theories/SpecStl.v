(** Specification vocabulary for the STL tools. *)
From Coq Require Import Reals List Permutation.
From Verif Require Import M_Vector M_Mesh SpecR3 SpecMesh.
Import ListNotations.
Local Open Scope R_scope.

(** what np.argsort returns: the indices of the entries in ascending order;
    the order of equal entries is left open *)
Definition sorts (col : list R) (idx : list nat) : Prop :=
  Permutation idx (seq 0 (length col)) /\
  forall i j, (i <= j < length col)%nat -> nth (nth i idx 0%nat) col 0 <= nth (nth j idx 0%nat) col 0.

(** the corners of a mesh *)
Definition is_corner (p : pt) (m : list (tri R)) : Prop := exists t, In t m /\ (p = t0 t \/ p = t1 t \/ p = t2 t).

(** every coordinate within d *)
Definition moved_less (d : R) (p q : pt) : Prop :=
  Rabs (vx p - vx q) < d /\ Rabs (vy p - vy q) < d /\ Rabs (vz p - vz q) < d.

(** m' is m with exactly those triangles turned over whose winding disagrees
    with the stored normal *)
Inductive faces : list (tri R) -> list pt -> list (tri R) -> Prop :=
| faces_nil : faces [] [] []
| faces_keep t n m ns m' : 0 <= inner (area_vec t) n -> faces m ns m' -> faces (t :: m) (n :: ns) (t :: m')
| faces_turn t n m ns m' : inner (area_vec t) n < 0 -> faces m ns m' ->
    faces (t :: m) (n :: ns) (Tri (t0 t) (t2 t) (t1 t) :: m').

(** one coordinate of the normals sums to zero up to 2^-23 of its total size *)
Definition cancels (f : pt -> R) (ns : list pt) : Prop :=
  Rabs (fold_right Rplus 0 (map f ns)) <= fold_right Rplus 0 (map (fun n => Rabs (f n)) ns) * / 8388608.
