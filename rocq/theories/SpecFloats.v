(** Specification vocabulary for floating-point results: the real number a double
    stands for. *)
From Coq Require Import Reals ZArith List.
From Flocq Require Import Core BinarySingleNaN.
From Verif Require Import Num NumF M_Vector M_Path M_Mesh.
Import ListNotations.

Definition finite_vec (v : vec b64) : Prop :=
  is_finite (vx v) = true /\ is_finite (vy v) = true /\ is_finite (vz v) = true.
Definition finite_tri (t : tri b64) : Prop := finite_vec (t0 t) /\ finite_vec (t1 t) /\ finite_vec (t2 t).
(** zero whatever its sign *)
Definition real_vec (v : vec b64) : vec R := V3 (B2R (vx v)) (B2R (vy v)) (B2R (vz v)).
(** x ** 1.0 is x (IEEE 754-2019 pow(x, 1) = x; CPython calls the C library) *)
Definition exact_pow_one (L : libm) : Prop := forall x, lm_pow L x (of_Z 1) = x.
Definition origin64 : vec b64 := V3 (of_Z 0) (of_Z 0) (of_Z 0).

(** the box [0,1] x [-1,2] x [-1,2]: two cross sections of four lines *)
Definition box64_corner (k : nat) (e : nat) : vec b64 :=
  let x := of_Z (Z.of_nat k) in let a := of_Z (-1) in let b := of_Z 2 in
  match e with 0 => V3 x a a | 1 => V3 x b a | 2 => V3 x b b | _ => V3 x a b end.
Definition float_box (L : libm) : list (list (path b64)) :=
  map (fun k => map (fun e => Line (N := NumF L) (box64_corner k e) (box64_corner k (Nat.modulo (S e) 4))) [0; 1; 2; 3]) [0; 1].

(** m + 2 cross sections of four lines through the corners c k 0 ... c k 3 *)
Definition line_sections {T} (N : Num T) (c : nat -> nat -> vec T) (m : nat) : list (list (path T)) :=
  map (fun k => map (fun e => Line (c k e) (c k (Nat.modulo (S e) 4))) [0; 1; 2; 3]) (seq 0 (m + 2)).
(** coordinates at most M *)
Definition size_at_most (M : R) (v : vec b64) : Prop :=
  (Rabs (B2R (vx v)) <= M /\ Rabs (B2R (vy v)) <= M /\ Rabs (B2R (vz v)) <= M)%R.
(** a floating point vector or triangle close to a real one *)
Definition near_vec (e : R) (p : vec b64) (q : vec R) : Prop :=
  finite_vec p /\
  (Rabs (B2R (vx p) - vx q) <= e /\ Rabs (B2R (vy p) - vy q) <= e /\ Rabs (B2R (vz p) - vz q) <= e)%R.
Definition near_tri (e : R) (s : tri b64) (t : tri R) : Prop :=
  near_vec e (t0 s) (t0 t) /\ near_vec e (t1 s) (t1 t) /\ near_vec e (t2 s) (t2 t).
(** two edges with ends this close *)
Definition edges_within (e : R) (a b : vec b64 * vec b64) : Prop :=
  forall f, In f [vx; vy; vz] -> (Rabs (B2R (f (fst a)) - B2R (f (fst b))) <= e /\ Rabs (B2R (f (snd a)) - B2R (f (snd b))) <= e)%R.
