(** Specification vocabulary for the STL files of a vehicle. *)
From Coq Require Import String List Arith Bool.
From Verif Require Import Num Py M_Mesh M_Vehicle SpecAdd.
Import ListNotations.
Local Open Scope string_scope.

(** an optional string that is not empty *)
Definition text (o : option string) : option string :=
  match o with Some EmptyString => None | _ => o end.

Section Files.
  Context {T : Type} {N : Num T}.
  Notation heap := (heap T).
  Notation vehicle := (vehicle T).

  Definition ghost_at (h : heap) (i : nat) : bool :=
    match nth_error (comps h) i with Some c => c_ghost c | None => true end.
  (** documented file name of component i when [no] components of its type
      come earlier: prefix and name tag if present, vehicle name otherwise *)
  Definition file_name (v : vehicle) (prefix : option string) (h : heap) (no i : nat) : string :=
    match text prefix, text (tag_at h i) with
    | Some p, Some n => p ++ "-" ++ n ++ ".stl"
    | Some p, None => p ++ "-" ++ type_at h i ++ "-" ++ str_nat no ++ ".stl"
    | None, Some n => n ++ ".stl"
    | None, None => v_name v ++ "-" ++ type_at h i ++ "-" ++ str_nat no ++ ".stl"
    end.
  Definition earlier (h : heap) (t : string) (l : list nat) : nat :=
    List.length (filter (fun j => String.eqb t (type_at h j)) l).
  (** file name and component, for all components of l that are not ghosts *)
  Fixpoint files (v : vehicle) (prefix : option string) (h : heap) (before l : list nat) : list (string * nat) :=
    match l with
    | [] => []
    | i :: l' => ((if ghost_at h i then [] else [(file_name v prefix h (earlier h (type_at h i) before) i, i)])
                  ++ files v prefix h (before ++ [i]) l')%list
    end.
  (** what reading the mesh of component i gives *)
  Definition mesh_of (h : heap) (i : nat) : res (list (tri T)) := snd (comp_mesh i h).
End Files.
