(** Vocabulary for what a vehicle delivers: one row for each component. *)
From Coq Require Import String Reals List.
From Verif Require Import Num NumR Py M_Vector SpecR3 M_Mesh M_Vehicle SpecMesh SpecFiles.
Import ListNotations.

(** name in the vehicle, stem of the file, triangles *)
Record row := mkRow { r_name : string; r_file : string; r_mesh : list (tri R) }.
Definition stl_of (stem : string) (prefix : option string) (r : row) : string :=
  ((match text prefix with Some p => p | None => stem end) ++ "-" ++ r_file r ++ ".stl")%string.
Definition chosen {A} (l : list (bool * A)) : list A := map snd (filter fst l).
(** the components are the rows, moved by f, and each is written to its file *)
Definition delivers (f : pt -> pt) (stem : string) (v : vehicle R) (h2 : heap R) (rows : list row) : Prop :=
  v_name v = stem /\ v_components v = map snd (v_named v) /\
  map (fun ki => (fst ki, mesh_of h2 (snd ki))) (v_named v) = map (fun r => (r_name r, Ok (map_mesh f (r_mesh r)))) rows /\
  forall prefix fs0, exists h3 fs, to_stl (mark_generated v) prefix h2 fs0 = (h3, fs, Ok tt) /\
    (forall r, In r rows -> dget fs (stl_of stem prefix r) = Some (map_mesh f (r_mesh r))) /\
    forall s, (forall r, In r rows -> s <> stl_of stem prefix r) -> dget fs s = dget fs0 s.
