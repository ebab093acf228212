(** Specification vocabulary for vectors with identity. *)
From Coq Require Import List.
From Verif Require Import Num Py M_Vector M_VecHeap.
Import ListNotations.

Section Alias.
  Context {T : Type}.
  (** every vector that exists in h has the same coordinates in h' *)
  Definition unchanged (h h' : vheap T) : Prop :=
    forall l v, nth_error h l = Some v -> nth_error h' l = Some v.
  (** every vector other than l keeps its coordinates and l becomes v *)
  Definition only_changed (h : vheap T) (l : ref) (v : vec T) (h' : vheap T) : Prop :=
    nth_error h' l = Some v /\ forall k w, k <> l -> nth_error h k = Some w -> nth_error h' k = Some w.
  (** a reference to a vector that did not exist in h *)
  Definition fresh (h : vheap T) (l : ref) : Prop := nth_error h l = None.

  (** the references held by a path *)
  Fixpoint refs (p : hpath T) : list ref :=
    match p with
    | HLine a b => [a; b]
    | HBezier B => B
    | HArc a b c => [a; b; c]
    | HPoly segs _ => flat_map refs segs
    end.
  Definition live (h : vheap T) (ls : list ref) : Prop := Forall (fun l => nth_error h l <> None) ls.

  (** paths whose __call__ hands out one of their own points *)
  Inductive hands_out : hpath T -> ref -> Prop :=
  | ho_bezier b : hands_out (HBezier [b]) b
  | ho_poly s tv b : hands_out s b -> hands_out (HPoly [s] tv) b.

  (** no Polyline of several segments starts with such a path *)
  Inductive separate : hpath T -> Prop :=
  | sep_line a b : separate (HLine a b)
  | sep_bezier B : separate (HBezier B)
  | sep_arc a b c : separate (HArc a b c)
  | sep_poly segs tv : Forall separate segs ->
      (forall s0 s1 l b, segs = s0 :: s1 :: l -> ~ hands_out s0 b) -> separate (HPoly segs tv).
End Alias.
