(** Specification vocabulary for the options given to add_component: the last
    value given for an option is the one the component has, and an option that
    is never given keeps its value. *)
From Coq Require Import String List Arith Bool ZArith.
From Verif Require Import Num Py M_Mesh M_Vehicle SpecAdd.
Import ListNotations.

(** [f a] is what the call a gives; the value was [before] and is [after] *)
Definition settled {A B} (f : A -> option B) (l : list A) (before after : option B) : Prop :=
  (Forall (fun a => f a = None) l /\ after = before) \/
  exists l1 a l2 v, l = l1 ++ a :: l2 /\ f a = Some v /\ Forall (fun x => f x = None) l2 /\ after = Some v.

Section Options.
  Context {T : Type} {N : Num T}.

  (** the options given for component i, in order *)
  Definition given_to (i : nat) (calls : list (nat * add_args T)) : list (add_args T) :=
    map snd (filter (fun ia => Nat.eqb i (fst ia)) calls).
  (** append_reflection only counts together with an axis *)
  Definition append_given (a : add_args T) : option bool :=
    match a_axis a with Some _ => Some (a_append a) | None => None end.
  Definition i_given (a : add_args T) := match a_clustering a with Some k => cl_i k | None => None end.
  Definition j_given (a : add_args T) := match a_clustering a with Some k => cl_j k | None => None end.

  (** what add_component never touches *)
  Definition same_body (c c' : comp T) : Prop :=
    c_type c' = c_type c /\ c_kind c' = c_kind c /\ c_patches c' = c_patches c /\
    c_res_r c' = c_res_r c /\ c_res_s c' = c_res_s c /\ c_resolution c' = c_resolution c /\
    c_surfaces c' = c_surfaces c /\ c_mesh c' = c_mesh c.

  Record shaped (given : list (add_args T)) (c c' : comp T) : Prop := {
    sh_body : same_body c c';
    sh_curvatures : settled a_curvatures given (c_curvatures c) (c_curvatures c');
    sh_transformations : settled a_transformations given (Some (c_transformations c)) (Some (c_transformations c'));
    sh_axis : settled a_axis given (c_axis c) (c_axis c');
    sh_append : settled append_given given (Some (c_append c)) (Some (c_append c'))
  }.
  (** Vehicle.add_component: clustering is merged by direction, ghost is always set *)
  Record configured (verbosity : Z) (given : list (add_args T)) (c c' : comp T) : Prop := {
    co_shaped : shaped given c c';
    co_modifier : settled a_modifier given (c_modifier c) (c_modifier c');
    co_i : settled i_given given (cl_i (c_clustering c)) (cl_i (c_clustering c'));
    co_j : settled j_given given (cl_j (c_clustering c)) (cl_j (c_clustering c'));
    co_ghost : settled (fun a => Some (a_ghost a)) given (Some (c_ghost c)) (Some (c_ghost c'));
    co_name : settled a_name given (c_name c) (c_name c');
    co_verbosity : c_verbosity c' = match given with
                                    | [] => c_verbosity c
                                    | _ => if Z.eqb verbosity 0 then 0%Z else Z.max (c_verbosity c) verbosity
                                    end
  }.
  (** CompositeComponent.add_component: clustering is replaced as a whole; name,
      modifier and ghost cannot be given *)
  Record child_configured (given : list (add_args T)) (c c' : comp T) : Prop := {
    cc_shaped : shaped given c c';
    cc_clustering : settled a_clustering given (Some (c_clustering c)) (Some (c_clustering c'));
    cc_rest : c_modifier c' = c_modifier c /\ c_ghost c' = c_ghost c /\ c_name c' = c_name c
  }.

  (** types a composite accepts *)
  Definition fits (t : string) : bool :=
    existsb (String.eqb t) ["fin"; "wing"; "swept"; "revolved"; "sphere"; "cube"]%string.
  Definition fitting (h : heap T) (calls : list (nat * add_args T)) : list (nat * add_args T) :=
    filter (fun ia => fits (type_at h (fst ia))) calls.
End Options.
