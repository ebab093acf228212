(** Python runtime notions used by the model: exceptions as values,
    insertion-ordered dictionaries, f-string formatting of integers. *)
From Coq Require Import List String ZArith Ascii DecimalString.
Import ListNotations.
Local Open Scope string_scope.

(** Exception classes that the modelled code can raise.  [GenericError] is a
    bare [raise Exception(...)]. *)
Inductive exn :=
| GenericError | ValueError | TypeError | IndexError | KeyError
| AttributeError | ZeroDivisionError | UnboundLocalError
| NotImplementedError | RuntimeError | OSError.

Inductive res (A : Type) :=
| Ok (a : A)
| Raise (e : exn).
Arguments Ok {A} a.
Arguments Raise {A} e.

Definition bind {A B} (r : res A) (k : A -> res B) : res B :=
  match r with Ok a => k a | Raise e => Raise e end.

Notation "'let!' x ':=' a 'in' b" := (bind a (fun x => b))
  (at level 200, x name, a at level 100, b at level 200).
Notation "'let!' ( x , y ) ':=' a 'in' b" := (bind a (fun '(x, y) => b))
  (at level 200, x name, y name, a at level 100, b at level 200).

Definition is_ok {A} (r : res A) : Prop := exists a, r = Ok a.

(** List indexing with a non-negative index: IndexError when out of range. *)
Definition py_nth {A} (l : list A) (i : nat) : res A :=
  match nth_error l i with Some a => Ok a | None => Raise IndexError end.

(** l[-1] *)
Definition py_last {A} (l : list A) : res A :=
  match l with
  | [] => Raise IndexError
  | _ => py_nth l (List.length l - 1)
  end.

Fixpoint mapM {A B} (f : A -> res B) (l : list A) : res (list B) :=
  match l with
  | [] => Ok []
  | a :: l' => let! b := f a in let! bs := mapM f l' in Ok (b :: bs)
  end.

(** Python dict with string keys: association list in insertion order. *)
Section Dict.
  Context {A : Type}.
  Definition dict := list (string * A).

  Fixpoint dget (d : dict) (k : string) : option A :=
    match d with
    | [] => None
    | (k', v) :: d' => if String.eqb k k' then Some v else dget d' k
    end.

  (** d[k] = v : overwrite keeps the position, a new key goes to the end. *)
  Fixpoint dset (d : dict) (k : string) (v : A) : dict :=
    match d with
    | [] => [(k, v)]
    | (k', v') :: d' =>
        if String.eqb k k' then (k', v) :: d' else (k', v') :: dset d' k v
    end.

  Definition dkeys (d : dict) : list string := map fst d.
  Definition dvals (d : dict) : list A := map snd d.

  (** d.update(other) / successive assignments *)
  Definition dupdate (d other : dict) : dict :=
    fold_left (fun acc kv => dset acc (fst kv) (snd kv)) other d.

  (** d[k] : KeyError when absent *)
  Definition dlookup (d : dict) (k : string) : res A :=
    match dget d k with Some v => Ok v | None => Raise KeyError end.
End Dict.
Arguments dict A : clear implicits.

Definition dmap {A B} (f : A -> B) (d : dict A) : dict B :=
  map (fun kv => (fst kv, f (snd kv))) d.

(** f"{n}" for a non-negative integer *)
Definition str_nat (n : nat) : string :=
  NilEmpty.string_of_uint (Nat.to_uint n).
