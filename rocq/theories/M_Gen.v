(** Model of src/hypervehicle/generator.py: parametric generators.

    An object is its instance dictionary; attributes not found there are looked
    up in the dictionaries of its classes in method resolution order.  Setting
    an attribute always writes the instance dictionary (properties and
    __setattr__ overrides are not modelled).  The __init__ of a subclass is a
    list of assignments to attributes and the call of Generator.__init__; the
    right-hand sides may read attributes.  The body of create_instance is any
    function of the attributes. *)
From Coq Require Import String List.
From Verif Require Import Py.
Import ListNotations.
Local Open Scope string_scope.

Section Gen.
  Context {A V : Type}.

  Definition attrs := string -> res A.
  Fixpoint class_attr (mro : list (dict A)) (k : string) : res A :=
    match mro with
    | [] => Raise AttributeError
    | c :: mro' => match dget c k with Some v => Ok v | None => class_attr mro' k end
    end.
  (* getattr(self, k) *)
  Definition getattr (mro : list (dict A)) (self : dict A) : attrs := fun k =>
    match dget self k with Some v => Ok v | None => class_attr mro k end.

  (* generator.py:18-24 -- for item in kwargs: setattr(self, item, kwargs[item]) *)
  Definition generator_init (kwargs self : dict A) : dict A :=
    fold_left (fun self kv => dset self (fst kv) (snd kv)) kwargs self.

  Inductive stmt :=
  | SetAttr (k : string) (e : attrs -> res A)     (* self.k = e *)
  | SuperInit.                                    (* the call of Generator.__init__ with kwargs *)

  Record generator := mkGen {
    g_classes : list (dict A);
    g_init : list stmt;
    g_create : attrs -> res V }.

  Fixpoint run_init (mro : list (dict A)) (kwargs : dict A) (body : list stmt) (self : dict A) : res (dict A) :=
    match body with
    | [] => Ok self
    | SetAttr k e :: body' => let! v := e (getattr mro self) in run_init mro kwargs body' (dset self k v)
    | SuperInit :: body' => run_init mro kwargs body' (generator_init kwargs self)
    end.

  (* the call of the class with keywords: "self" is the name of a positional parameter *)
  Definition instantiate (g : generator) (kwargs : dict A) : res (dict A) :=
    if existsb (String.eqb "self") (dkeys kwargs) then Raise TypeError
    else run_init (g_classes g) kwargs (g_init g) [].

  Section Call.
    Variable call : A -> res V.       (* calling an attribute value without arguments *)
    (* instance.create_instance(): an instance attribute hides the method *)
    Definition create_instance (g : generator) (self : dict A) : res V :=
      match dget self "create_instance" with
      | Some v => call v
      | None => g_create g (getattr (g_classes g) self)
      end.
    Definition make_vehicle (g : generator) (kwargs : dict A) : res V :=
      let! self := instantiate g kwargs in create_instance g self.
  End Call.
End Gen.
Arguments stmt A : clear implicits.
Arguments generator A V : clear implicits.
Arguments attrs A : clear implicits.
