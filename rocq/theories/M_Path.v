(** Model of src/hypervehicle/geometry/path.py *)
From Coq Require Import List ZArith Bool.
From Verif Require Import Num Py M_Vector.
Import ListNotations.

(* path.py:7-27 -- class Path: an object with __call__ and length() *)
Record path (T : Type) := mkPath {
  p_call : T -> res (vec T);
  p_len : res T
}.
Arguments mkPath {T} p_call p_len.
Arguments p_call {T} p t.
Arguments p_len {T} p.

Section Path.
  Context {T : Type} {N : Num T}.

  (* path.py:23-27 -- the sampling loop of Path.length, for i in [is] *)
  Fixpoint path_length_loop (call : T -> res (vec T)) (dt : T)
           (is : list nat) (p0 : vec T) (length : T) : res T :=
    match is with
    | [] => Ok length
    | i :: is' =>
        let! p1 := call (nmul (nnat (i + 1)) dt) in
        path_length_loop call dt is' p1 (nadd length (vabs (vsub p1 p0)))
    end.

  (* path.py:18-27 -- Path.length(n); n = 0 makes 1.0/n raise *)
  Definition Path_length (call : T -> res (vec T)) (n : nat) : res T :=
    let! p0 := call n0 in
    if Nat.eqb n 0 then Raise ZeroDivisionError else
    let dt := ndiv n1 (nnat n) in
    path_length_loop call dt (seq 0 n) p0 n0.

  (* path.py:18 -- default n=20 *)
  Definition default_length (call : T -> res (vec T)) : res T :=
    Path_length call 20.

  (* path.py:30-46 -- class Line (the argument copies are values here) *)
  Definition Line (p0 p1 : vec T) : path T :=
    mkPath (fun t => Ok (vadd (vscale p0 (nsub n1 t)) (vscale p1 t)))
           (Ok (vabs (vsub p1 p0))).

  (* path.py:48-54 -- Line.__add__ *)
  Definition Line_add (p0 p1 offset : vec T) : path T :=
    Line (vadd p0 offset) (vadd p1 offset).

  (* path.py:80-81 -- inner loop: Q[i] = Q[i]*(1-t) + Q[i+1]*t for i < m,
     in place and in increasing i (so Q[i+1] is still the old value) *)
  Fixpoint bez_pass (t : T) (m : nat) (Q : list (vec T)) : list (vec T) :=
    match m, Q with
    | S m', a :: ((b :: _) as Q') =>
        vadd (vscale a (nsub n1 t)) (vscale b t) :: bez_pass t m' Q'
    | _, _ => Q
    end.

  (* path.py:79-81 -- outer loop, with n_order - k passes remaining *)
  Fixpoint bez_loop (t : T) (m : nat) (Q : list (vec T)) : list (vec T) :=
    match m with
    | 0 => Q
    | S m' => bez_loop t m' (bez_pass t m Q)
    end.

  (* path.py:73-82 -- Bezier.__call__ ; an empty control list makes Q[0]
     raise IndexError *)
  Definition Bezier_call (B : list (vec T)) (t : T) : res (vec T) :=
    match B with
    | [b] => Ok b
    | _ => py_nth (bez_loop t (List.length B - 1) B) 0
    end.

  (* path.py:57-82 -- class Bezier; length() is inherited *)
  Definition Bezier (B : list (vec T)) : path T :=
    mkPath (Bezier_call B) (default_length (Bezier_call B)).

  (* path.py:85-88 -- Polyline object *)
  Record polyline := mkPoly { pl_segments : list (path T); pl_t_values : list T }.

  (* path.py:104-107 -- running total of the segment lengths *)
  Fixpoint cumulative (segs : list (path T)) (t_total : T) : res (list T * T) :=
    match segs with
    | [] => Ok ([], t_total)
    | s :: segs' =>
        let! l := p_len s in
        let t_total' := nadd t_total l in
        let! (ts, tot) := cumulative segs' t_total' in
        Ok (t_total' :: ts, tot)
    end.

  (* path.py:102-109 -- reset_breakpoints.  Segment lengths are numpy scalars
     so dividing by a zero total does not raise; without any segment the total
     is the Python float 0.0 and the division raises. *)
  Definition reset_breakpoints (segs : list (path T)) : res (list T) :=
    match segs with
    | [] => Raise ZeroDivisionError
    | _ =>
        let! (ts, t_total) := cumulative segs n0 in
        Ok (map (fun t => ndiv t t_total) (n0 :: ts))
    end.

  (* path.py:90-100 -- Polyline.__init__ *)
  Definition Polyline_init (segments : list (path T)) (closed : bool)
             (tolerance : T) : res polyline :=
    let! segs :=
      (if closed then
         let! s0 := py_nth segments 0 in
         let! sl := py_last segments in
         let! p0 := p_call s0 n0 in
         let! p1 := p_call sl n1 in
         Ok (if ngtb (vabs (vsub p1 p0)) tolerance
             then segments ++ [Line p0 p1] else segments)
       else Ok segments) in
    let! ts := reset_breakpoints segs in
    Ok (mkPoly segs ts).

  (* path.py:127-135 -- the masked sum over segments i, i+1, ... ; [n] is the
     number of segments and [f] the accumulator *)
  Fixpoint poly_loop (t : T) (n i : nat) (segs : list (path T))
           (tv : list T) (f : vec T) : res (vec T) :=
    match segs, tv with
    | s :: segs', tl :: ((tu :: _) as tv') =>
        let t_local := ndiv (nsub t tl) (nsub tu tl) in
        let isokay :=
          if Nat.eqb i 0 then nleb t_local n1
          else if Nat.eqb i (n - 1) then ngtb t_local n0
          else andb (ngtb t_local n0) (nleb t_local n1) in
        let! p := p_call s t_local in
        poly_loop t n (S i) segs' tv'
                  (vadd f (vscale p (if isokay then n1 else n0)))
    | _, _ => Ok f
    end.

  (* path.py:119-136 -- Polyline.__call__.  The in-place [f *= 0.0] is a value
     here; its effect on shared vectors is modelled in M_VecHeap.v. *)
  Definition Polyline_call (pl : polyline) (t : T) : res (vec T) :=
    match pl_segments pl with
    | [] => Raise IndexError
    | [s] => p_call s t
    | s0 :: _ =>
        let! f := p_call s0 t in
        poly_loop t (List.length (pl_segments pl)) 0 (pl_segments pl)
                  (pl_t_values pl) (vscale f n0)
    end.

  (* path.py:138-142 -- Polyline.length *)
  Fixpoint sum_lengths (segs : list (path T)) (L : T) : res T :=
    match segs with
    | [] => Ok L
    | s :: segs' => let! l := p_len s in sum_lengths segs' (nadd L l)
    end.

  Definition polyline_path (pl : polyline) : path T :=
    mkPath (Polyline_call pl) (sum_lengths (pl_segments pl) n0).

  (* path.py:90 -- Polyline(segments), default closed=False, tolerance=1e-10 *)
  Definition Polyline (segments : list (path T)) : res (path T) :=
    let! pl := Polyline_init segments false (nlit 1 10000000000) in
    Ok (polyline_path pl).

  (* path.py:185-188 -- one Gauss-Seidel sweep over the interior weights:
     [dprev] is the updated d[i-1], [ds] are the old d[i], d[i+1], ...,
     [ps] the points from index i; returns new d's and the largest change *)
  Fixpoint gs_sweep (dprev : vec T) (ds ps : list (vec T)) (max_diff : T)
    : list (vec T) * T :=
    match ds, ps with
    | d :: ((dn :: _) as ds'), p :: ps' =>
        let d' := vscale (vsub (vsub (vscale p (nZ 6)) dprev) dn) nquarter in
        let max_diff' := nmax max_diff (vabs (vsub d' d)) in
        let '(rest, md) := gs_sweep d' ds' ps' max_diff' in
        (d' :: rest, md)
    | _, _ => (ds, max_diff)
    end.

  (* path.py:183-190 -- up to [k] sweeps, stopping when max_diff < tolerance *)
  Fixpoint gs_iterate (k : nat) (tolerance : T) (d points : list (vec T))
    : list (vec T) :=
    match k with
    | 0 => d
    | S k' =>
        match d, points with
        | d0 :: ds, _ :: ps =>
            let '(ds', md) := gs_sweep d0 ds ps n0 in
            if nltb md tolerance then d0 :: ds'
            else gs_iterate k' tolerance (d0 :: ds') points
        | _, _ => d
        end
    end.

  (* path.py:193-203 -- control points of the cubic segments *)
  Fixpoint spline_segments (points d : list (vec T)) : list (list (vec T)) :=
    match points, d with
    | p :: ((pn :: _) as ps), di :: ((dn :: _) as ds) =>
        [p;
         vdiv (vadd (vscale di n2) dn) (nZ 3);
         vdiv (vadd di (vscale dn n2)) (nZ 3);
         pn] :: spline_segments ps ds
    | _, _ => []
    end.

  (* path.py:173-175 -- points after the optional closing point; an empty
     list with closed=True raises IndexError *)
  Definition spline_points (points : list (vec T)) (closed : bool) (tolerance : T)
    : res (list (vec T)) :=
    if closed then
      let! p0 := py_nth points 0 in
      let! pl := py_last points in
      Ok (if ngtb (vabs (vsub p0 pl)) tolerance then points ++ [p0] else points)
    else Ok points.

  (* path.py:145-204 -- Spline.__init__ *)
  Definition Spline_init (points : list (vec T)) (closed : bool) (tolerance : T)
    : res polyline :=
    let! pts := spline_points points closed tolerance in
    let d := gs_iterate 50 tolerance pts pts in
    Polyline_init (map Bezier (spline_segments pts d)) closed tolerance.

  (* path.py:231-277 -- Arc.evaluate_position_and_length *)
  Definition Arc_eval (a b c : vec T) (t : T) : res (vec T * T) :=
    let ca := vsub a c in
    let ca_mag := vabs ca in
    let cb := vsub b c in
    let cb_mag := vabs cb in
    if ngtb (nabs (nsub ca_mag cb_mag)) (nlit 1 100000) then Raise GenericError
    else
      let tangent1 := vnormalize ca in
      let n := cross_product ca cb in
      if ngtb (vabs n) n0 then
        let n := vnormalize n in
        let tangent2 := cross_product n tangent1 in
        let cb_local := transform_to_local_frame cb tangent1 tangent2 n None in
        if ngtb (nabs (vz cb_local)) (nlit 1 1000000) then Raise GenericError
        else
          let theta := natan2 (vy cb_local) (vx cb_local) in
          let l := nmul theta cb_mag in
          let theta := nmul theta t in
          let loc := V3 (nmul (ncos theta) cb_mag) (nmul (nsin theta) cb_mag)
                        (nmul n0 theta) in
          Ok (transform_to_global_frame loc tangent1 tangent2 n (Some c), l)
      else Raise GenericError.

  (* path.py:210-229 -- class Arc *)
  Definition Arc (a b c : vec T) : path T :=
    mkPath (fun t => let! (p, _) := Arc_eval a b c t in Ok p)
           (let! (_, l) := Arc_eval a b c n1 in Ok l).

  (* path.py:313-318 -- sampling loop of set_arc_lengths *)
  Fixpoint arc_length_loop (call : T -> res (vec T)) (dt : T) (is : list nat)
           (p0 : vec T) (L : T) : res (list (T * T)) :=
    match is with
    | [] => Ok []
    | i :: is' =>
        let ti := nmul dt (nnat i) in
        let! p1 := call ti in
        let L' := nadd L (vabs (vsub p1 p0)) in
        let! rest := arc_length_loop call dt is' p1 L' in
        Ok ((L', ti) :: rest)
    end.

  (* path.py:298-321 -- set_arc_lengths: table of (arc length, parameter) *)
  Definition arc_table (call : T -> res (vec T)) (n : nat) : res (list (T * T)) :=
    let dt := ndiv n1 (nnat n) in
    let! p0 := call n0 in
    let! rows := arc_length_loop call dt (seq 1 n) p0 n0 in
    Ok ((n0, n0) :: rows).

  (* numpy contract: np.interp(x, xp, fp, left, right) for ascending xp.
     [interp_scan] continues from the row (x0, y0) with x0 <= x. *)
  Fixpoint interp_scan (x x0 y0 : T) (rows : list (T * T)) : T :=
    match rows with
    | [] => y0
    | (x1, y1) :: rows' =>
        if nleb x1 x then interp_scan x x1 y1 rows'
        else if neqb x0 x then y0
        else nadd (nmul (ndiv (nsub y1 y0) (nsub x1 x0)) (nsub x x0)) y0
    end.

  Definition np_interp (x : T) (table : list (T * T)) (left right : T) : T :=
    match table with
    | [] => left
    | (x0, y0) :: rows =>
        if ngtb x (fst (last table (x0, y0))) then right
        else if nltb x x0 then left
        else interp_scan x x0 y0 rows
    end.

  (* path.py:323-333 -- underlying_t *)
  Definition underlying_t (table : list (T * T)) (t : T) : T :=
    let L_target := nmul t (fst (last table (n0, n0))) in
    np_interp L_target table n0 n1.

  (* path.py:280-344 -- class ArcLengthParameterizedPath *)
  Definition ArcLengthParameterizedPath_n (p : path T) (n : nat) : res (path T) :=
    if Nat.ltb n 1 then Raise RuntimeError else
    let! table := arc_table (p_call p) n in
    Ok (mkPath (fun t => p_call p (underlying_t table t)) (p_len p)).

  (* path.py:287 -- default n=1000 *)
  Definition ArcLengthParameterizedPath (p : path T) : res (path T) :=
    ArcLengthParameterizedPath_n p (Z.to_nat 1000).

  (* path.py:347-368 -- roberts; beta is a Python float, so beta = 1 makes
     the first division raise *)
  Definition roberts (eta alpha beta : T) : res T :=
    let d := nsub beta n1 in
    if neqb d n0 then Raise ZeroDivisionError else
    let lmbda := ndiv (nadd beta n1) d in
    let lmbda := npow lmbda (ndiv (nsub eta alpha) (nsub n1 alpha)) in
    let etabar := nadd (nsub (nmul (nadd beta (nmul n2 alpha)) lmbda) beta)
                       (nmul n2 alpha) in
    Ok (ndiv etabar (nmul (nadd (nmul n2 alpha) n1) (nadd n1 lmbda))).

  (* path.py:371-415 -- clustered_roberts *)
  Definition clustered_roberts (eta : T) (end1 end2 : bool) (beta : T) : res T :=
    let cluster := negb (orb (andb (negb end1) (negb end2)) (nltb beta n1)) in
    let alpha := if andb end1 end2 then nhalf
                 else if orb end1 end2 then n0 else nhalf in
    let reverse := andb end1 (negb end2) in
    if cluster then
      let eta := if reverse then nsub n1 eta else eta in
      let! etabar := roberts eta alpha beta in
      Ok (if reverse then nsub n1 etabar else etabar)
    else Ok eta.

  (* numpy contract: np.linspace(lo, hi, num); the last sample is set to hi *)
  Definition np_linspace (lo hi : T) (num : nat) : list T :=
    match num with
    | 0 => []
    | 1 => [lo]
    | S (S m) =>
        let step := ndiv (nsub hi lo) (nnat (S m)) in
        map (fun i => nadd (nmul (nnat i) step) lo) (seq 0 (S m)) ++ [hi]
    end.

  (* path.py:418-453 -- distribute_points (array code written per element) *)
  Definition distribute_points (t1 t2 : T) (n : nat) (end1 end2 : bool) (beta : T)
    : res (list T) :=
    mapM (fun eta =>
            let! etabar := clustered_roberts eta end1 end2 beta in
            Ok (nadd (nmul (nsub n1 etabar) t1) (nmul etabar t2)))
         (np_linspace n0 n1 (n + 1)).

  (* path.py:470-487 -- LinearFunction *)
  Definition LinearFunction (x : T) : res T := Ok x.
  (* path.py:490-512 -- RobertsFunction *)
  Definition RobertsFunction (end0 end1 : bool) (beta x : T) : res T :=
    clustered_roberts x end0 end1 beta.
  (* path.py:514-516 -- RobertsFunction.distribute_parameter_values(nv), nv >= 1 *)
  Definition roberts_distribute (end0 end1 : bool) (beta : T) (nv : nat) :=
    distribute_points n0 n1 (nv - 1) end0 end1 beta.
End Path.
Arguments polyline T : clear implicits.
