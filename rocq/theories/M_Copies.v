(** Model of copy.deepcopy on composites: components/component.py:166-172 with
    the memo of the copy module. *)
From Coq Require Import String List Arith.
From Verif Require Import Num Py M_Surface M_Component M_Vehicle.
Import ListNotations.

Section Copies.
  Context {T : Type} {N : Num T}.

  (** memo: id of an object, id of its copy *)
  Fixpoint copied (memo : list (nat * nat)) (a : nat) : option nat :=
    match memo with
    | [] => None
    | (x, y) :: memo => if Nat.eqb x a then Some y else copied memo a
    end.

  (* component.py:168-172 for the attribute components of a composite
     (composite.py:51): a child that was copied before is taken from the memo.
     Simplified: dictionaries are not in the memo, so two children that share
     theirs would be given one each; children that are composites themselves,
     which composite.py:94 refuses, are not modelled. *)
  Fixpoint copy_children (memo : list (nat * nat)) (l : list nat) : M (T := T) (list nat) :=
    match l with
    | [] => ret []
    | a :: l =>
        match copied memo a with
        | Some b => bindM (copy_children memo l) (fun l' => ret (b :: l'))
        | None => bindM (deepcopy_comp a) (fun b =>
                  bindM (copy_children ((a, b) :: memo) l) (fun l' => ret (b :: l')))
        end
    end.

  (* component.py:166-172.  Python copies the attributes in the order of their
     assignment, the patches (component.py:107) before the children
     (composite.py:51); neither copy reads what the other makes, so the model
     takes the children first. *)
  Definition deepcopy_any (i : nat) : M (T := T) nat :=
    bindM (get_comp i) (fun c =>
    match c_kind c with
    | Own _ _ => deepcopy_comp i
    | Composite l =>
        bindM (copy_children [] l) (fun l' =>
        bindM (get_dict (c_patches c)) (fun d =>
        bindM (new_dict d) (fun r =>
          new_comp (set_kind (set_patches c r) (Composite l')))))
    end).
End Copies.
