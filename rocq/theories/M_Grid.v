(** Model of StructuredGrid (src/hypervehicle/geometry/surface.py 143-202),
    which evaluates paths and surfaces on whole numpy arrays.  The rest of the
    model evaluates them on numbers; here a value is a number or an array, and
    the type check of Vector3.__init__ is explicit. *)
From Coq Require Import List ZArith Bool String.
From Verif Require Import Num Py M_Vector.
Import ListNotations.

(** a Python/numpy value: a number or a two-dimensional array, row by row *)
Inductive dyn (T : Type) := Scalar (x : T) | Array (a : list (list T)).
Arguments Scalar {T} x.
Arguments Array {T} a.

Section Grid.
  Context {T : Type} {N : Num T}.
  Notation D := (dyn T).

  (** numpy's elementwise binary operations on arrays of one shape.  Shapes
      that differ raise ValueError; the stretching of length-one axes, which
      cannot occur in a grid, is not modelled. *)
  Fixpoint zip_row {A} (f : A -> A -> res A) (a b : list A) : res (list A) :=
    match a, b with
    | [], [] => Ok []
    | x :: a', y :: b' => let! z := f x y in let! zs := zip_row f a' b' in Ok (z :: zs)
    | _, _ => Raise ValueError
    end.
  Definition dbin (f : T -> T -> T) (a b : D) : res D :=
    match a, b with
    | Scalar x, Scalar y => Ok (Scalar (f x y))
    | Scalar x, Array b => Ok (Array (map (map (f x)) b))
    | Array a, Scalar y => Ok (Array (map (map (fun x => f x y)) a))
    | Array a, Array b =>
        let! c := zip_row (zip_row (fun x y => Ok (f x y))) a b in Ok (Array c)
    end.
  Definition dun (f : T -> T) (a : D) : D :=
    match a with Scalar x => Scalar (f x) | Array a => Array (map (map f) a) end.
  Definition dadd := dbin nadd.
  Definition dsub := dbin nsub.
  Definition dmul := dbin nmul.
  Definition ddiv := dbin ndiv.

  (* vector.py:11-41 -- Vector3.__init__ with three coordinates: x must be a
     number, y and z are not checked *)
  Definition Vector3 (x y z : D) : res (vec D) :=
    match x with Scalar _ => Ok (V3 x y z) | Array _ => Raise ValueError end.

  (* vector.py:65-115 -- +, -, * build a new Vector3 *)
  Definition dvadd (a b : vec D) : res (vec D) :=
    let! x := dadd (vx a) (vx b) in let! y := dadd (vy a) (vy b) in let! z := dadd (vz a) (vz b) in
    Vector3 x y z.
  Definition dvsub (a b : vec D) : res (vec D) :=
    let! x := dsub (vx a) (vx b) in let! y := dsub (vy a) (vy b) in let! z := dsub (vz a) (vz b) in
    Vector3 x y z.
  Definition dvscale (a : vec D) (k : D) : res (vec D) :=
    let! x := dmul (vx a) k in let! y := dmul (vy a) k in let! z := dmul (vz a) k in
    Vector3 x y z.

  (** a Path or a ParametricSurface called with numbers or arrays *)
  Definition dpath := D -> res (vec D).
  Definition dsurf := D -> D -> res (vec D).

  Definition dvec (v : vec T) : vec D := V3 (Scalar (vx v)) (Scalar (vy v)) (Scalar (vz v)).

  (* path.py:42-43 -- Line.__call__ *)
  Definition dLine (p0 p1 : vec T) : dpath := fun t =>
    let! t' := dsub (Scalar n1) t in
    let! a := dvscale (dvec p0) t' in
    let! b := dvscale (dvec p1) t in
    dvadd a b.

  (* path.py:73-82 -- Bezier.__call__ *)
  Fixpoint dbez_pass (t : D) (m : nat) (Q : list (vec D)) : res (list (vec D)) :=
    match m, Q with
    | S m', a :: ((b :: _) as Q') =>
        let! t' := dsub (Scalar n1) t in
        let! u := dvscale a t' in
        let! v := dvscale b t in
        let! w := dvadd u v in
        let! ws := dbez_pass t m' Q' in
        Ok (w :: ws)
    | _, _ => Ok Q
    end.
  Fixpoint dbez_loop (t : D) (m : nat) (Q : list (vec D)) : res (list (vec D)) :=
    match m with
    | 0%nat => Ok Q
    | S m' => let! Q' := dbez_pass t m Q in dbez_loop t m' Q'
    end.
  Definition dBezier (B : list (vec T)) : dpath := fun t =>
    match B with
    | [b] => Ok (dvec b)
    | _ => let! Q := dbez_loop t (List.length B - 1) (map dvec B) in py_nth Q 0
    end.

  (* surface.py:98-121 -- CoonsPatch.__call__ *)
  Definition dCoons (north east south west : dpath) (p00 p10 p01 p11 offset : vec T) : dsurf := fun r s =>
    let! south_r := south r in
    let! north_r := north r in
    let! west_s := west s in
    let! east_s := east s in
    let! s' := dsub (Scalar n1) s in
    let! a := dvscale south_r s' in
    let! b := dvscale north_r s in
    let! ab := dvadd a b in
    let! r' := dsub (Scalar n1) r in
    let! c := dvscale west_s r' in
    let! abc := dvadd ab c in
    let! d := dvscale east_s r in
    let! abcd := dvadd abc d in
    let! e := dvscale (dvec p00) r' in let! e := dvscale e s' in
    let! f := dvscale (dvec p01) r' in let! f := dvscale f s in
    let! ef := dvadd e f in
    let! g := dvscale (dvec p10) r in let! g := dvscale g s' in
    let! efg := dvadd ef g in
    let! h := dvscale (dvec p11) r in let! h := dvscale h s in
    let! efgh := dvadd efg h in
    let! p := dvsub abcd efgh in
    dvadd p (dvec offset).

  (* geometry.py:529-540 -- ConePatch.__call__ *)
  Definition dCone (x0 x1 r0 r1 angle0 angle1 : T) : dsurf := fun r s =>
    let! s' := dsub (Scalar n1) s in
    let! r' := dsub (Scalar n1) r in
    let! a0 := dmul (Scalar angle0) s' in let! a1 := dmul (Scalar angle1) s in
    let! angle := dadd a0 a1 in
    let! y0 := dmul (Scalar r0) (dun ncos angle) in
    let! z0 := dmul (Scalar r0) (dun nsin angle) in
    let! y1 := dmul (Scalar r1) (dun ncos angle) in
    let! z1 := dmul (Scalar r1) (dun nsin angle) in
    let! xa := dmul (Scalar x0) r' in let! xb := dmul (Scalar x1) r in let! x := dadd xa xb in
    let! ya := dmul y0 r' in let! yb := dmul y1 r in let! y := dadd ya yb in
    let! za := dmul z0 r' in let! zb := dmul z1 r in let! z := dadd za zb in
    Vector3 x y z.

  (** a ClusterFunction called on an array works element by element; [None]
      stands for an entry that is not a ClusterFunction (surface.py:158-161) *)
  Definition cluster := option (T -> T).
  Definition cl_call (c : cluster) (a : D) : D :=
    match c with Some f => dun f a | None => a end.

  (** any object handed to StructuredGrid: a ParametricSurface, whose call
      returns some value, or something else *)
  Inductive object (V : Type) := ASurface (call : D -> D -> res V) | NotASurface.
  Arguments ASurface {V} call.
  Arguments NotASurface {V}.

  (* surface.py:187-188 -- np.fromfunction(lambda i, j: i, (niv, njv)) etc. *)
  Definition index_i (niv njv : nat) : D := Array (map (fun i => map (fun _ => nnat i) (seq 0 njv)) (seq 0 niv)).
  Definition index_j (niv njv : nat) : D := Array (map (fun _ => map nnat (seq 0 njv)) (seq 0 niv)).

  (* surface.py:174-202 -- generate; returns the vertices *)
  Definition generate {V} (surface : object V) (niv njv : Z) (cf_list : list cluster) : res V :=
    match surface with
    | NotASurface => Raise GenericError
    | ASurface call =>
        if (niv <? 2)%Z then Raise GenericError
        else if (njv <? 2)%Z then Raise GenericError
        else
          let! r := ddiv (index_i (Z.to_nat niv) (Z.to_nat njv)) (Scalar (nZ (niv - 1))) in
          let! s := ddiv (index_j (Z.to_nat niv) (Z.to_nat njv)) (Scalar (nZ (njv - 1))) in
          let! c0 := py_nth cf_list 0 in let rNorth := cl_call c0 r in
          let! c1 := py_nth cf_list 1 in let sEast := cl_call c1 s in
          let! c2 := py_nth cf_list 2 in let rSouth := cl_call c2 r in
          let! c3 := py_nth cf_list 3 in let sWest := cl_call c3 s in
          let! r' := dsub (Scalar n1) r in
          let! a := dmul r' sWest in
          let! b := dmul r sEast in
          let! sdash := dadd a b in
          let! s' := dsub (Scalar n1) s in
          let! c := dmul s' rSouth in
          let! d := dmul s rNorth in
          let! rdash := dadd c d in
          call rdash sdash
    end.

  (** keyword binding of a call: an unexpected keyword, or a required
      parameter left out, is a TypeError before the body runs *)
  Definition bind_keywords (required params given : list string) : res unit :=
    if forallb (fun k => existsb (String.eqb k) params) given &&
       forallb (fun k => existsb (String.eqb k) given) required
    then Ok tt else Raise TypeError.
  Definition grid_params : list string :=
    ["surface"; "niv"; "njv"; "cf_list"; "tags"; "label"]%string.

  (* surface.py:148-164 -- StructuredGrid(surface, niv, njv, cf_list) *)
  Definition StructuredGrid {V} (surface : object V) (niv njv : Z) (cf_list : option (list cluster)) : res V :=
    let! _ := bind_keywords ["surface"%string] grid_params ["surface"; "niv"; "njv"; "cf_list"]%string in
    generate surface niv njv (match cf_list with Some l => l | None => [None; None; None; None] end).

  (* surface.py:204-209 -- subgrid: everything after its first statement is
     left out, because that statement raises *)
  Definition subgrid {V} (rest : res V) : res V :=
    let! _ := bind_keywords ["surface"%string] grid_params ["empty"%string] in rest.
End Grid.
Arguments object T V : clear implicits.
Arguments ASurface {T V} call.
Arguments NotASurface {T V}.
