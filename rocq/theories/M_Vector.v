(** Model of src/hypervehicle/geometry/vector.py (pure part).
    Objects are modelled by their coordinates; the methods that mutate a
    vector in place are modelled again, on a heap, in M_VecHeap.v. *)
From Coq Require Import ZArith.
From Verif Require Import Num Py.

(* vector.py:6-41 -- class Vector3, coordinates _x _y _z *)
Record vec (T : Type) := V3 { vx : T; vy : T; vz : T }.
Arguments V3 {T} vx vy vz.
Arguments vx {T} v.
Arguments vy {T} v.
Arguments vz {T} v.

Section Vector.
  Context {T : Type} {N : Num T}.

  (* vector.py:61-63 -- __neg__: multiplies each coordinate by -1 *)
  Definition vneg (v : vec T) : vec T :=
    V3 (nmul (nZ (-1)) (vx v)) (nmul (nZ (-1)) (vy v)) (nmul (nZ (-1)) (vz v)).

  (* vector.py:65-76 -- __add__ (argument already known to be a Vector3) *)
  Definition vadd (a b : vec T) : vec T :=
    V3 (nadd (vx a) (vx b)) (nadd (vy a) (vy b)) (nadd (vz a) (vz b)).

  (* vector.py:78-89 -- __sub__ *)
  Definition vsub (a b : vec T) : vec T :=
    V3 (nsub (vx a) (vx b)) (nsub (vy a) (vy b)) (nsub (vz a) (vz b)).

  (* vector.py:91-101 -- __truediv__.  Division by zero is numpy's (no
     exception): every use in the library divides by a numpy scalar or by a
     non-zero literal. *)
  Definition vdiv (v : vec T) (d : T) : vec T :=
    V3 (ndiv (vx v) d) (ndiv (vy v) d) (ndiv (vz v) d).

  (* vector.py:103-115 -- __mul__ and __rmul__ *)
  Definition vscale (v : vec T) (k : T) : vec T :=
    V3 (nmul (vx v) k) (nmul (vy v) k) (nmul (vz v) k).

  (* vector.py:121-124 -- __eq__ (second operand already a Vector3) *)
  Definition veqb (a b : vec T) : bool :=
    andb (andb (neqb (vx a) (vx b)) (neqb (vy a) (vy b))) (neqb (vz a) (vz b)).

  (* vector.py:146-148 -- __abs__; x**2 is modelled as x*x *)
  Definition vabs (v : vec T) : T :=
    nsqrt (nadd (nadd (nsq (vx v)) (nsq (vy v))) (nsq (vz v))).

  (* vector.py:174-177 -- norm: np.linalg.norm of the coordinate array.  The
     round trip of each coordinate through str() is exact and not modelled. *)
  Definition vnorm (v : vec T) : T :=
    nsqrt (nadd (nadd (nsq (vx v)) (nsq (vy v))) (nsq (vz v))).

  (* vector.py:169-172 -- unit *)
  Definition vunit (v : vec T) : vec T := vdiv v (vnorm v).

  (* vector.py:179-181 -- normalize: value the receiver has afterwards *)
  Definition vnormalize (v : vec T) : vec T := vdiv v (vabs v).

  (* vector.py:235-240 -- dot *)
  Definition vdot (a b : vec T) : T :=
    nadd (nadd (nmul (vx a) (vx b)) (nmul (vy a) (vy b))) (nmul (vz a) (vz b)).

  (* vector.py:259-264 -- cross_product *)
  Definition cross_product (v1 v2 : vec T) : vec T :=
    V3 (nsub (nmul (vy v1) (vz v2)) (nmul (vy v2) (vz v1)))
       (nsub (nmul (vx v2) (vz v1)) (nmul (vx v1) (vz v2)))
       (nsub (nmul (vx v1) (vy v2)) (nmul (vx v2) (vy v1))).

  (* vector.py:203-217 -- transform_to_global_frame: resulting coordinates.
     Line 208 multiplies t2.y by self.y, not by self.z; modelled as written. *)
  Definition transform_to_global_frame (v n t1 t2 : vec T) (c : option (vec T))
    : vec T :=
    let new_x := nadd (nadd (nmul (vx v) (vx n)) (nmul (vy v) (vx t1)))
                      (nmul (vz v) (vx t2)) in
    let new_y := nadd (nadd (nmul (vx v) (vy n)) (nmul (vy v) (vy t1)))
                      (nmul (vy v) (vy t2)) in
    let new_z := nadd (nadd (nmul (vx v) (vz n)) (nmul (vy v) (vz t1)))
                      (nmul (vz v) (vz t2)) in
    match c with
    | Some c => V3 (nadd new_x (vx c)) (nadd new_y (vy c)) (nadd new_z (vz c))
    | None => V3 new_x new_y new_z
    end.

  (* vector.py:219-233 -- transform_to_local_frame: resulting coordinates *)
  Definition transform_to_local_frame (v n t1 t2 : vec T) (c : option (vec T))
    : vec T :=
    let v := match c with Some c => vsub v c | None => v end in
    V3 (vdot v n) (vdot v t1) (vdot v t2).

  (* np.isclose(a, b, rtol, atol) for finite a, b: |a-b| <= atol + rtol*|b| *)
  Definition np_isclose (a b rtol atol : T) : bool :=
    nleb (nabs (nsub a b)) (nadd atol (nmul rtol (nabs b))).

  (* vector.py:243-256 -- approximately_equal_vectors, default tolerances *)
  Definition approximately_equal_vectors (v1 v2 : vec T) : bool :=
    let rel_tol := nlit 1 100 in
    let abs_tol := nlit 1 100000 in
    andb (np_isclose (vx v1) (vx v2) rel_tol abs_tol)
      (andb (np_isclose (vy v1) (vy v2) rel_tol abs_tol)
            (np_isclose (vz v1) (vz v2) rel_tol abs_tol)).
End Vector.
