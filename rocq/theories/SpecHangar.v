(** Specification vocabulary for the vehicles of the hangar. *)
From Coq Require Import Reals String List.
From Verif Require Import Num NumR Py M_Vector M_Mesh M_Sens SpecR3 SpecSens.
Import ListNotations.
Local Open Scope R_scope.

Definition vertex_of (m : list (tri R)) (p : pt) : Prop := exists t, In t m /\ (p = t0 t \/ p = t1 t \/ p = t2 t).
Definition stretch (a b c : R) (p : pt) : pt := V3 (a * vx p) (b * vy p) (c * vz p).

(** the keyword k, or its default *)
Definition given (kw : dict (pval R)) (k : string) (default : R) : pval R :=
  match dget kw k with Some v => v | None => PNum default end.

(** the wedge: a rhombus with diagonals [chord] (along x) and [thickness]
    (along y), extruded over [wingspan] along z, centred at the origin *)
Definition wedge_corner (wingspan chord thickness : R) (k e : nat) : pt :=
  let z := match k with O => - wingspan / 2 | _ => wingspan / 2 end in
  match e with
  | O => V3 0 (thickness / 2) z
  | S O => V3 (- chord / 2) 0 z
  | S (S O) => V3 0 (- thickness / 2) z
  | _ => V3 (chord / 2) 0 z
  end.
Definition in_wedge (wingspan chord thickness : R) (p : pt) : Prop :=
  Rabs (2 * vx p) * thickness + Rabs (2 * vy p) * chord <= chord * thickness /\ Rabs (2 * vz p) <= wingspan.

(** the finner: nose cone, cylinder and flat base about the x axis *)
Definition finner_profile (diameter total_length nose_length : R) : list pt :=
  [V3 0 0 0; V3 nose_length (diameter / 2) 0; V3 total_length (diameter / 2) 0; V3 total_length 0 0].
(** the fin on top of it (towards +z): a triangle from its tip, at fin_length in
    front of the base, to the thickness at the base, extruded over fin_height *)
Definition fin_corner (diameter total_length fin_height fin_length thickness : R) (k e : nat) : pt :=
  let z := diameter / 2 + match k with O => 0 | _ => fin_height end in
  match e with
  | O => V3 (total_length - fin_length) 0 z
  | S O => V3 total_length (thickness / 2) z
  | S (S O) => V3 total_length 0 z
  | _ => V3 total_length (- thickness / 2) z
  end.
(** i quarter turns about the x axis *)
Fixpoint quarters (i : nat) (p : pt) : pt :=
  match i with O => p | S i' => let q := quarters i' p in V3 (vx q) (- vz q) (vy q) end.

(** corner i of a mesh that depends on a parameter moves with velocity v when the parameter is x *)
Definition velocity (F : R -> list (tri R)) (i : nat) (x : R) (v : pt) : Prop :=
  derivable_pt_lim (fun y => vx (corner_of (F y) i)) x (vx v) /\
  derivable_pt_lim (fun y => vy (corner_of (F y) i)) x (vy v) /\
  derivable_pt_lim (fun y => vz (corner_of (F y) i)) x (vz v).

(** points and meshes that depend affinely on a parameter *)
Definition affine1 (P : R -> pt) : Prop := forall x, P x = plus_scaled (P 0) x (diff (P 1) (P 0)).
Definition drifts (F : R -> list (tri R)) : Prop :=
  (forall x, length (F x) = length (F 0)) /\ forall i, affine1 (fun x => corner_of (F x) i).
Definition mesh_named (c : string) (ms : dict (list (tri R))) : list (tri R) :=
  match dget ms c with Some m => m | None => [] end.
