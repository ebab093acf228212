(** Specification vocabulary for histories of calls on a vehicle. *)
From Coq Require Import String List Bool.
From Verif Require Import Num Py M_Vehicle.
Import ListNotations.

Section History.
  Context {T : Type} {N : Num T}.
  Notation heap := (heap T).
  Notation vehicle := (vehicle T).

  (** calls on a vehicle *)
  Inductive call :=
  | Add (i : nat) (a : add_args T)
  | Queue (a : transformations T)
  | Generate
  | Transform (a : transformations T)
  | Rename (name : string).
  Definition run (o : call) (s : heap * vehicle) : heap * vehicle * res unit :=
    let '(h, v) := s in
    match o with
    | Add i a => add_component v i a h
    | Queue a => (h, add_vehicle_transformations v (coerced a), Ok tt)
    | Generate => generate v h
    | Transform a => let '(h', r) := transform_vehicle v (coerced a) h in (h', v, r)
    | Rename n => (h, mkVehicle (v_components v) n (v_angle v) (v_verbosity v) (v_generated v) (v_counts v)
                        (v_enumerated v) (v_named v) (v_transformations v), Ok tt)
    end.
  (** a history; the caller catches exceptions.  Each call is recorded with the
      state before it and its result. *)
  Fixpoint history (l : list call) (s : heap * vehicle) : list (call * (heap * vehicle) * res unit) * (heap * vehicle) :=
    match l with
    | [] => ([], s)
    | o :: l' => let '(s', r) := run o s in let '(tr, s'') := history l' s' in ((o, s, r) :: tr, s'')
    end.

  (** calls on one component *)
  Inductive comp_call := Call (t : transformation T) | Regenerate | WholePipeline (angle : T) | Uncache.
  Definition call_comp (i : nat) (o : comp_call) (h : heap) : heap :=
    match o with
    | Call t => fst (call_method t i h)
    | Regenerate => fst (generate_patches i h)
    | WholePipeline a => fst (generate_component a i h)
    | Uncache => fst (reset_cache i h)
    end.
  Definition call_all (i : nat) (l : list comp_call) (h : heap) : heap := fold_left (fun h o => call_comp i o h) l h.

  (** operations on the patches of components; the caller catches exceptions *)
  Inductive patch_op := Method (t : transformation T) (i : nat) | Patches (i : nat) | Generation (angle : T) (l : list nat).
  Definition run_op (o : patch_op) : M (T := T) unit :=
    match o with
    | Method t i => call_method t i
    | Patches i => generate_patches i
    | Generation angle l => iterM (generate_component angle) l
    end.
  Definition run_ops (l : list patch_op) (h : heap) : heap := fold_left (fun h o => fst (run_op o h)) l h.

  (** children added to the composite j *)
  Fixpoint add_children (j : nat) (l : list (nat * add_args T)) (h : heap) : heap :=
    match l with [] => h | (i, a) :: l' => add_children j l' (fst (composite_add j i a h)) end.
End History.
Arguments patch_op T : clear implicits.
Arguments comp_call T : clear implicits.
Arguments call T : clear implicits.
