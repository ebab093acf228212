(** Specification vocabulary for appending sensitivities to a mesh file. *)
From Coq Require Import String Reals List.
From Verif Require Import Py M_Vector SpecR3 SpecSens.
Import ListNotations.
Local Open Scope R_scope.

(** the columns that hold the position *)
Definition coords : list string := ["x"; "y"; "z"]%string.

(** the lines of three numbers are points; shorter lines are skipped *)
Inductive points_of : list (list R) -> list pt -> Prop :=
| points_nil : points_of [] []
| points_line x y z ls ps : points_of ls ps -> points_of ([x; y; z] :: ls) (V3 x y z :: ps)
| points_skip l ls ps : (length l < 3)%nat -> points_of ls ps -> points_of (l :: ls) ps.

(** a data row lies within tol of p *)
Definition matches (tol : R) (p : pt) (r : dict R) : Prop :=
  exists x y z, dget r "x" = Some x /\ dget r "y" = Some y /\ dget r "z" = Some z /\ within_tol tol p (V3 x y z).
(** r is the first such row *)
Definition first_match (tol : R) (p : pt) (rows : list (dict R)) (r : dict R) : Prop :=
  exists l1 l2, rows = (l1 ++ r :: l2)%list /\ matches tol p r /\ forall q, In q l1 -> ~ matches tol p q.
(** values smaller than rtol count as zero *)
Definition unless_small (rtol : R) (v : option R) : option R :=
  match v with Some x => Some (if Rlt_dec (Rabs x) rtol then 0 else x) | None => None end.
(** l' is l without the first occurrence of k *)
Definition without_first (k : string) (l l' : list string) : Prop :=
  (~ In k l /\ l' = l) \/ (exists l1 l2, l = (l1 ++ k :: l2)%list /\ ~ In k l1 /\ l' = (l1 ++ l2)%list).
(** the columns of one parameter *)
Definition derivative_cols (p : string) : list string := ["dxd" ++ p; "dyd" ++ p; "dzd" ++ p]%string.
