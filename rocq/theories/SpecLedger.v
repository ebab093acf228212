(** Specification vocabulary for the mass of a vehicle assembled from parts. *)
From Coq Require Import Reals String List.
From Verif Require Import Num NumR Py M_Vector M_Path M_Surface M_Geometry M_Mesh M_Component M_Vehicle SpecR3 SpecMesh SpecSurf SpecVehicle SpecHtv L_Component L_Prism L_Hangar.
Import ListNotations.
Local Open Scope R_scope.

(** the options only turn or reflect the component, in any number *)
Definition is_turn (m : motion) : Prop := exists a axis, m = Turn a axis /\ is_axis axis.
Definition turns_only (p : plan) : Prop := p_modifier p = None /\ p_bends p = [] /\ Forall is_turn (p_motions p).

(** the part as its constructor describes it, before any option: the grids of
    its patches with S n cells along each side *)
Definition valued (u : surf R) : R -> R -> pt := fun r s => match u r s with Ok p => p | Raise _ => origin end.
Definition as_built (n : nat) (g : dict (surf R)) : list (tri R) := flat_map (fun kp => patch_grid n (valued (snd kp))) g.

(** what the options do to the volume counted for it: unreflected parts count
    once, reflected parts that replace the original count negatively, and a part
    with its mirror image counts nothing *)
Definition counted (p : plan) : R :=
  match p_axis p with None => 1 | Some _ => if p_append p then 0 else -1 end.

(** component i of heap h is a part, described by g, with options p *)
Definition stocked (h : heap R) (i : nat) (m : list (tri R)) (k : R) : Prop :=
  exists g p n, ready h i g p /\ turns_only p /\ unmeshed h i n /\ g <> [] /\ (forall u, In u (dvals g) -> on_square u) /\
    m = as_built n g /\ k = counted p.
