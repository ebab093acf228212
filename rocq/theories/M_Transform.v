(** Model of src/hypervehicle/transformations.py. *)
From Coq Require Import ZArith String List.
From Verif Require Import Num Py M_Vector M_Surface M_Geometry M_Component M_Vehicle.
Import ListNotations.
Local Open Scope string_scope.

(* transformations.py:1 *)
Definition CART3D {T} {N : Num T} : list (transformation T) :=
  [("rotate", [ANum (nZ 180); AStr "z"]); ("rotate", [ANum (nZ 90); AStr "x"])].
