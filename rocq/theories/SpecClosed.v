(** Specification vocabulary: the maps the options of a component stand for, on
    its own side and on the reflected one. *)
From Coq Require Import Reals String List.
From Verif Require Import Num NumR Py M_Vector M_Mesh SpecR3 SpecMesh SpecVehicle SpecHangar.
Import ListNotations.
Local Open Scope R_scope.

Definition straight (p : plan) (angle : R) (more : list motion) : pmap :=
  in_order (before_reflection p angle ++ after_reflection p more).
Definition folded (p : plan) (axis : string) (angle : R) (more : list motion) : pmap :=
  in_order (before_reflection p angle ++ mirrored_in axis :: after_reflection p more).
(** the map can be applied to every vertex *)
Definition defined_on (F : pmap) (m : list (tri R)) : Prop := forall q, vertex_of m q -> exists q', F q = Ok q'.
(** ... and keeps them apart *)
Definition apart_on (F : pmap) (m : list (tri R)) : Prop := forall a b, vertex_of m a -> vertex_of m b -> F a = F b -> a = b.
(** every map the options need: the reflected one if there is an axis, the
    straight one unless the reflection replaces the component *)
Definition options_defined (p : plan) (angle : R) (more : list motion) (m : list (tri R)) : Prop :=
  (p_axis p = None \/ p_append p = true -> defined_on (straight p angle more) m) /\
  forall axis, p_axis p = Some axis -> defined_on (folded p axis angle more) m.
