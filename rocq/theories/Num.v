(** Arithmetic interface.

    The geometry code of hypervehicle computes with Python/numpy numbers.  The
    model is generic in that arithmetic: every geometric definition takes an
    instance of [Num].  Theorems quantified over [Num T] hold for IEEE doubles
    with any libm; theorems about real geometry use the instance [NumR]. *)
From Coq Require Import ZArith.

Class Num (T : Type) := {
  nadd : T -> T -> T;
  nsub : T -> T -> T;
  nmul : T -> T -> T;
  ndiv : T -> T -> T;          (* numpy division: never raises *)
  nneg : T -> T;
  nabs : T -> T;
  nsqrt : T -> T;              (* np.sqrt *)
  nsin : T -> T;               (* np.sin *)
  ncos : T -> T;               (* np.cos *)
  ntan : T -> T;               (* np.tan *)
  natan2 : T -> T -> T;        (* np.arctan2 *)
  npow : T -> T -> T;          (* ** and np.power *)
  nmod : T -> T -> T;          (* Python % *)
  nround : Z -> T -> T;        (* Python round(x, digits) *)
  nstore : T -> T;             (* storing into a numpy-stl mesh (float32) *)
  npi : T;                     (* np.pi *)
  nZ : Z -> T;                 (* integer literals *)
  nlit : Z -> Z -> T;          (* decimal literals: numerator, denominator *)
  neqb : T -> T -> bool;
  nltb : T -> T -> bool;
  nleb : T -> T -> bool
}.

Section Derived.
  Context {T : Type} {N : Num T}.
  (* literals 0, 1, 2, 0.5, 0.25 of the Python sources *)
  Definition n0 : T := nZ 0.
  Definition n1 : T := nZ 1.
  Definition n2 : T := nZ 2.
  Definition nhalf : T := nlit 1 2.
  Definition nquarter : T := nlit 1 4.
  (* x**2 in vector.py:119,148 and utilities.py; modelled as x*x *)
  Definition nsq (x : T) : T := nmul x x.
  (* Python's min/max keep the first of equal arguments *)
  Definition nmin (a b : T) : T := if nltb b a then b else a.
  Definition nmax (a b : T) : T := if nltb a b then b else a.
  (* a Python int index used as a number, e.g. utilities.py:147 *)
  Definition nnat (k : nat) : T := nZ (Z.of_nat k).
  (* np.deg2rad(x) = x * (pi / 180), used in component.py:210 *)
  Definition ndeg2rad (x : T) : T := nmul x (ndiv npi (nZ 180)).
  (* numpy scalar comparison a > b *)
  Definition ngtb (a b : T) : bool := nltb b a.
End Derived.
