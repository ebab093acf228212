(** Specification vocabulary: a component and its mirror image. *)
From Coq Require Import Reals String List.
From Verif Require Import Num NumR Py M_Vector M_Path M_Surface M_Geometry M_Mesh M_Component M_Vehicle SpecR3 SpecSurf SpecVehicle.
Import ListNotations.
Local Open Scope R_scope.

(** arguments of add_component with perhaps a name and a reflection, and
    nothing else *)
Definition plain_args (name : option string) (ghost : bool) : add_args R := mkAdd name None true None None None None ghost.
Definition mirror_args (name : option string) (axis : string) (append ghost : bool) : add_args R :=
  mkAdd name (Some axis) append None None None None ghost.

(** component i is as its constructor left it: it generates the patches g,
    which can be evaluated on [0,1]^2, at the resolution n+1 *)
Definition untouched (h : heap R) (i : nat) (c : comp R) (g : dict (surf R)) (n : nat) : Prop :=
  nth_error (comps h) i = Some c /\
  (exists r rr rs, c_kind c = Own r (Ok (g, rr, rs)) /\ (r = true \/ patches_at h i = Some [])) /\
  plain_keys g /\ g <> [] /\
  (forall u, In u (dvals g) -> forall r s, 0 <= r <= 1 -> 0 <= s <= 1 -> is_ok (u r s)) /\
  planned c (mkPlan None [] None true []) /\
  c_mesh c = None /\ c_surfaces c = None /\ c_resolution c = ResInt (S n) /\ c_clustering c = no_clustering.
