(** Model of src/hypervehicle/geometry/surface.py (CoonsPatch).
    StructuredGrid is modelled in M_Grid.v, where Python's dynamic types are
    represented. *)
From Coq Require Import List ZArith Bool.
From Verif Require Import Num Py M_Vector M_Path.
Import ListNotations.

(* surface.py:9-18 -- a ParametricSurface is its __call__(r, s) *)
Definition surf (T : Type) := T -> T -> res (vec T).

Section Surface.
  Context {T : Type} {N : Num T}.

  (* surface.py:24-35 -- fields of a CoonsPatch *)
  Record coons := mkCoons {
    c_north : path T; c_east : path T; c_south : path T; c_west : path T;
    c_p00 : vec T; c_p10 : vec T; c_p11 : vec T; c_p01 : vec T;
    c_offset : vec T
  }.

  (* surface.py:47 -- default offset Vector3(0, 0, 0) *)
  Definition zero_offset : vec T := V3 n0 n0 n0.

  (* surface.py:51-71 -- construction from four edges *)
  Definition Coons_edges (north east south west : path T) (offset : vec T)
    : res coons :=
    let! p00 := p_call south n0 in
    let! p10 := p_call south n1 in
    let! p01 := p_call north n0 in
    let! p11 := p_call north n1 in
    let! p00_alt := p_call west n0 in
    let! p10_alt := p_call east n0 in
    let! p01_alt := p_call west n1 in
    let! p11_alt := p_call east n1 in
    if negb (approximately_equal_vectors p00 p00_alt) then Raise GenericError else
    if negb (approximately_equal_vectors p10 p10_alt) then Raise GenericError else
    if negb (approximately_equal_vectors p01 p01_alt) then Raise GenericError else
    if negb (approximately_equal_vectors p11 p11_alt) then Raise GenericError else
    Ok (mkCoons north east south west p00 p10 p11 p01 offset).

  (* surface.py:73-82 -- construction from four corners *)
  Definition Coons_corners (p00 p10 p11 p01 : vec T) (offset : vec T) : coons :=
    mkCoons (Line p01 p11) (Line p10 p11) (Line p00 p10) (Line p00 p01)
            p00 p10 p11 p01 offset.

  (* surface.py:37-88 -- __init__ with optional arguments *)
  Definition CoonsPatch_init (north east south west : option (path T))
             (p00 p10 p11 p01 : option (vec T)) (offset : vec T) : res coons :=
    match north, east, south, west with
    | Some n, Some e, Some s, Some w => Coons_edges n e s w offset
    | _, _, _, _ =>
        match p00, p10, p11, p01 with
        | Some a, Some b, Some c, Some d => Ok (Coons_corners a b c d offset)
        | _, _, _, _ => Raise GenericError
        end
    end.

  (* surface.py:99-120 -- __call__ *)
  Definition Coons_call (c : coons) (r s : T) : res (vec T) :=
    let! south_r := p_call (c_south c) r in
    let! north_r := p_call (c_north c) r in
    let! west_s := p_call (c_west c) s in
    let! east_s := p_call (c_east c) s in
    let a := vadd (vadd (vadd (vscale south_r (nsub n1 s)) (vscale north_r s))
                        (vscale west_s (nsub n1 r)))
                  (vscale east_s r) in
    let b := vadd (vadd (vadd (vscale (vscale (c_p00 c) (nsub n1 r)) (nsub n1 s))
                              (vscale (vscale (c_p01 c) (nsub n1 r)) s))
                        (vscale (vscale (c_p10 c) r) (nsub n1 s)))
                  (vscale (vscale (c_p11 c) r) s) in
    Ok (vadd (vsub a b) (c_offset c)).

  (* surface.py:122-130 -- __add__ (deep copy with a new offset) *)
  Definition Coons_add (c : coons) (o : vec T) : coons :=
    mkCoons (c_north c) (c_east c) (c_south c) (c_west c)
            (c_p00 c) (c_p10 c) (c_p11 c) (c_p01 c) (vadd (c_offset c) o).

  (* surface.py:132-140 -- __sub__ *)
  Definition Coons_sub (c : coons) (o : vec T) : coons :=
    mkCoons (c_north c) (c_east c) (c_south c) (c_west c)
            (c_p00 c) (c_p10 c) (c_p11 c) (c_p01 c) (vsub (c_offset c) o).

  (* CoonsPatch(north=..., east=..., south=..., west=...) used as a surface *)
  Definition CoonsPatch (north east south west : path T) : res (surf T) :=
    let! c := Coons_edges north east south west zero_offset in
    Ok (Coons_call c).
End Surface.
Arguments coons T : clear implicits.
