(** Specification vocabulary for half bodies that are reflected. *)
From Coq Require Import Reals String List Permutation.
From Verif Require Import M_Vector M_Mesh SpecR3 SpecSurf SpecMesh.
Import ListNotations.
Local Open Scope R_scope.

(** all corners lie on the same side of the plane or in it *)
Definition one_side (axis : string) (m : list (tri R)) : Prop :=
  exists sign, (sign = 1 \/ sign = -1) /\
    forall e, In e (mesh_edges m) -> 0 <= sign * coord axis (fst e) /\ 0 <= sign * coord axis (snd e).
Definition in_plane (axis : string) (e : edge pt) : Prop := on_plane axis (fst e) /\ on_plane axis (snd e).
(** the mesh is closed except for edges in the plane *)
Definition open_in_plane (axis : string) (m : list (tri R)) : Prop :=
  exists es loose, Permutation (mesh_edges m) (es ++ flips es ++ loose) /\ Forall (in_plane axis) loose.
(** the mirror image with the triangles turned over *)
Definition turn_over (t : tri R) : tri R := Tri (t0 t) (t2 t) (t1 t).
