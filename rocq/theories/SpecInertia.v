(** Specification vocabulary for mass, centre of gravity and moments of inertia. *)
From Coq Require Import Reals String List.
From Verif Require Import Num NumR Py M_Vector M_Mesh M_Vehicle M_Inertia SpecFiles.
Import ListNotations.
Local Open Scope R_scope.

Fixpoint rsum {A} (f : A -> R) (l : list A) : R :=
  match l with [] => 0 | a :: l' => f a + rsum f l' end.

(** coordinates and entries by number *)
Definition coord (i : nat) (v : vec R) : R := match i with 0%nat => vx v | 1%nat => vy v | _ => vz v end.
Definition entry (i j : nat) (a : mat R) : R :=
  coord j (match i with 0%nat => row0 a | 1%nat => row1 a | _ => row2 a end).
Definition sqdist (a b : vec R) : R :=
  (vx a - vx b) * (vx a - vx b) + (vy a - vy b) * (vy a - vy b) + (vz a - vz b) * (vz a - vz b).

(** a rigid body: finitely many point masses *)
Definition body := list (R * vec R).
Definition body_mass (b : body) : R := rsum fst b.
(** c is the centre of mass of b *)
Definition centre (b : body) (c : vec R) : Prop :=
  forall i, (i < 3)%nat -> body_mass b * coord i c = rsum (fun mp => fst mp * coord i (snd mp)) b.
(** entry (i, j) of the moment of inertia of b about the point c *)
Definition moment (b : body) (c : vec R) (i j : nat) : R :=
  rsum (fun mp => fst mp * ((if Nat.eqb i j then sqdist (snd mp) c else 0)
                            - (coord i (snd mp) - coord i c) * (coord j (snd mp) - coord j c))) b.
(** the figures of a component are those of the body b *)
Definition describes (c : measures R) (b : body) : Prop :=
  b <> [] /\ Forall (fun mp => 0 < fst mp) b /\ m_mass c = body_mass b /\ centre b (m_cog c) /\
  forall i j, (i < 3)%nat -> (j < 3)%nat -> entry i j (m_inertia c) = moment b (m_cog c) i j.

Section Rows.
  Context {T : Type} {N : Num T}.
  (** what one line of the analysis is, for the component named in nc *)
  Definition figures (mp : list (tri T) -> T -> T * T * vec T * mat T) (areas : list (tri T) -> list T)
             (densities : dict T) (h : heap T) (nc : string * nat) (c : measures T) : Prop :=
    exists m rho, mesh_of h (snd nc) = Ok m /\ dget densities (fst nc) = Some rho /\
      mp m rho = (m_volume c, m_mass c, m_cog c, m_inertia c) /\
      m_area c = fold_left nadd (areas m) n0.
End Rows.
