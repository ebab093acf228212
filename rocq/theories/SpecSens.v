(** Specification vocabulary for the sensitivity study. *)
From Coq Require Import String Reals List.
From Verif Require Import M_Vector M_Mesh SpecR3.
Import ListNotations.
Local Open Scope R_scope.

(** corner i mod 3 of triangle i / 3 *)
Definition corner_of (m : list (tri R)) (i : nat) : pt :=
  match nth_error m (i / 3) with
  | Some t => match (i mod 3)%nat with 0%nat => t0 t | 1%nat => t1 t | _ => t2 t end
  | None => origin
  end.

(** corner i coincides with an earlier corner j in both meshes *)
Definition repeats (m m' : list (tri R)) (i : nat) : Prop :=
  exists j, (j < i)%nat /\ corner_of m j = corner_of m i /\ corner_of m' j = corner_of m' i.

(** one component of a point *)
Inductive axis := AX | AY | AZ.
Definition along (a : axis) (p : pt) : R := match a with AX => vx p | AY => vy p | AZ => vz p end.

(** all coordinates of a and b differ by less than tol *)
Definition within_tol (tol : R) (a b : pt) : Prop :=
  Rabs (vx a - vx b) < tol /\ Rabs (vy a - vy b) < tol /\ Rabs (vz a - vz b) < tol.

(** s occurs in t *)
Definition occurs (s t : string) : Prop := exists u v, t = (u ++ s ++ v)%string.

(** what the constructor is called with *)
Section Calls.
  Context {A H I : Type}.
  (** a state-changing function applied to a sequence of arguments: the
      arguments with the states in which they were passed, and the final state *)
  Variable f : A -> H -> H * I.
  Fixpoint calls (l : list A) (h : H) : list (A * H) :=
    match l with
    | [] => []
    | a :: l' => (a, h) :: calls l' (fst (f a h))
    end.
  Fixpoint state_after (l : list A) (h : H) : H :=
    match l with
    | [] => h
    | a :: l' => state_after l' (fst (f a h))
    end.
End Calls.

(** a dictionary with one value changed *)
Definition changed_at {A} (p : string) (g : A -> A) (d : list (string * A)) : list (string * A) :=
  map (fun kv => if String.eqb (fst kv) p then (fst kv, g (snd kv)) else kv) d.
