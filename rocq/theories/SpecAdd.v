(** Specification vocabulary for histories of Vehicle.add_component. *)
From Coq Require Import String List Arith Bool.
From Verif Require Import Num Py M_Vehicle.
Import ListNotations.
Local Open Scope string_scope.

Section Adds.
  Context {T : Type} {N : Num T}.
  Notation heap := (heap T).
  Notation vehicle := (vehicle T).

  (** a history of add_component calls; the caller catches exceptions *)
  Fixpoint adds (v : vehicle) (calls : list (nat * add_args T)) (h : heap) : heap * vehicle :=
    match calls with
    | [] => (h, v)
    | (i, a) :: calls' => let '(h', v', _) := add_component v i a h in adds v' calls' h'
    end.

  Definition type_at (h : heap) (i : nat) : string :=
    match nth_error (comps h) i with Some c => c_type c | None => "" end.
  (** types a vehicle accepts *)
  Definition accepts (t : string) : bool :=
    existsb (String.eqb t) ["fin"; "wing"; "swept"; "revolved"; "composite"].
  Definition accepted (h : heap) (calls : list (nat * add_args T)) : list (nat * add_args T) :=
    filter (fun ia => accepts (type_at h (fst ia))) calls.
  (** the accepted components of one type, in order of addition *)
  Definition of_type (h : heap) (t : string) (calls : list (nat * add_args T)) : list nat :=
    filter (fun i => String.eqb t (type_at h i)) (map fst (accepted h calls)).

  (** name tags: [tag i] is the current tag of component i, [before t] the
      number of components of type t added so far *)
  Fixpoint names (h : heap) (tag : nat -> option string) (before : string -> nat)
           (calls : list (nat * add_args T)) : list (string * nat) :=
    match calls with
    | [] => []
    | (i, a) :: calls' =>
        let t := type_at h i in
        if accepts t then
          (match a_name a with
           | Some n => n
           | None => match tag i with
                     | Some EmptyString | None => t ++ "_" ++ str_nat (S (before t))
                     | Some n => n
                     end
           end, i)
          :: names h (fun j => if Nat.eqb i j then match a_name a with Some n => Some n | None => tag i end else tag j)
                  (fun u => if String.eqb t u then S (before u) else before u) calls'
        else names h tag before calls'
    end.
  Definition tag_at (h : heap) (i : nat) : option string :=
    match nth_error (comps h) i with Some c => c_name c | None => None end.
  Definition given_names (h : heap) (calls : list (nat * add_args T)) : list (string * nat) :=
    names h (tag_at h) (fun _ => 0) calls.
  (** the last component with a name *)
  Definition last_named (l : list (string * nat)) (s : string) : option nat :=
    match filter (fun p => String.eqb s (fst p)) (rev l) with p :: _ => Some (snd p) | [] => None end.
End Adds.
