(** Model of src/hypervehicle/geometry/geometry.py *)
From Coq Require Import List ZArith Bool String.
From Verif Require Import Num Py M_Vector M_Path M_Surface.
Import ListNotations.
Local Open Scope string_scope.

Section Geometry.
  Context {T : Type} {N : Num T}.

  (* geometry.py:7-36 -- SubRangedPath; length() is the underlying length *)
  Definition SubRangedPath (p : path T) (t0 t1 : T) : path T :=
    mkPath (fun t => p_call p (nadd t0 (nmul t (nsub t1 t0)))) (p_len p).

  (* geometry.py:39-43 -- ReversedPath *)
  Definition ReversedPath (p : path T) : path T := SubRangedPath p n1 n0.

  (* geometry.py:68-91 -- ElipsePath.__call__ *)
  Definition Elipse_call (centre : vec T) (thickness LE_width : T) (side : string)
             (r : T) : res (vec T) :=
    let a := LE_width in
    let b := nabs thickness in
    let! theta :=
      (if String.eqb side "bot" then
         Ok (nadd n0 (ndiv (nmul r npi) n2))
       else if String.eqb side "top" then
         Ok (nadd (ndiv (nneg npi) n2) (ndiv (nmul r npi) n2))
       else Raise GenericError) in
    let x_elipse := ndiv (nmul a b)
                         (nsqrt (nadd (nmul b b) (nsq (nmul a (ntan theta))))) in
    let y_elipse := nmul x_elipse (ntan theta) in
    let angle := ndiv npi n2 in
    let x := nmul x_elipse (ncos angle) in
    let y := nmul x_elipse (nsin angle) in
    let z := y_elipse in
    Ok (vadd centre (V3 x y z)).

  (* geometry.py:46-91 -- ElipsePath *)
  Definition ElipsePath (centre : vec T) (thickness LE_width : T) (side : string)
    : path T :=
    let call := Elipse_call centre thickness LE_width side in
    mkPath call (default_length call).

  (* a user function f(x, y, z): z may be omitted by the caller *)
  Definition tfun := T -> T -> option T -> res (vec T).

  (* geometry.py:94-115 -- OffsetPathFunction; called with x=, y= only *)
  Definition OffsetPathFunction (line : path T) (f : tfun) : path T :=
    let call := fun t =>
      let! pos := p_call line t in
      let! offset := f (vx pos) (vy pos) None in
      Ok (vadd pos offset) in
    mkPath call (default_length call).

  (* geometry.py:118-140 -- GeometricMeanPathFunction *)
  Definition GeometricMeanPathFunction (l1 l2 : path T) : path T :=
    let call := fun t =>
      let! p1 := p_call l1 t in
      let! p2 := p_call l2 t in
      Ok (vscale (vadd p1 p2) nhalf) in
    mkPath call (default_length call).

  (* geometry.py:143-162 -- OffsetPatchFunction (evaluates the surface twice;
     surfaces are deterministic here) *)
  Definition OffsetPatchFunction (u : surf T) (f : tfun) : surf T :=
    fun r s =>
      let! pos := u r s in
      let! offset := f (vx pos) (vy pos) (Some (vz pos)) in
      let! pos' := u r s in
      Ok (vadd pos' offset).

  (* geometry.py:215-223 and 274-282 -- direction of the leading edge ellipse *)
  Definition le_angle (line : path T) (t : T) : res T :=
    if neqb t n0 then Ok (ndiv npi n2)
    else if neqb t n1 then Ok n0
    else
      let dt := nmin (nmin (nlit 1 1000) (nabs (nsub n1 t))) (nabs (nsub t n0)) in
      let! plus := p_call line (nadd t dt) in
      let! minus := p_call line (nsub t dt) in
      Ok (nadd (natan2 (nsub (vy plus) (vy minus)) (nsub (vx plus) (vx minus)))
               (ndiv npi n2)).

  (* geometry.py:165-232 -- LeadingEdgePatchFunction *)
  Definition LeadingEdgePatchFunction (centralLine : path T) (thickness_function : tfun)
             (LE_width_function : T -> res T) (t0 t1 : T) (side : string) : surf T :=
    fun t_raw r =>
      let t := nsub t1 (nmul t_raw (nsub t1 t0)) in
      let! pos := p_call centralLine t in
      let! th := thickness_function (vx pos) (vy pos) None in
      let! LE_width := LE_width_function t in
      let elipse := ElipsePath (V3 n0 n0 n0) (vz th) LE_width side in
      let! elipse_norm := ArcLengthParameterizedPath elipse in
      let! pos_elipse := p_call elipse_norm r in
      let x_elipse := vy pos_elipse in
      let z_elipse := vz pos_elipse in
      let! angle := le_angle centralLine t in
      let! base := p_call centralLine t in
      Ok (vadd base (V3 (nmul x_elipse (ncos angle)) (nmul x_elipse (nsin angle))
                        z_elipse)).

  (* geometry.py:235-289 -- MeanLeadingEdgePatchFunction *)
  Definition MeanLeadingEdgePatchFunction (mean_line guide_line : path T)
             (LE_width_function : T -> res T) (t0 t1 : T) (side : string) : surf T :=
    fun t_raw r =>
      let t := nsub t1 (nmul t_raw (nsub t1 t0)) in
      let! mean_point := p_call mean_line t in
      let! guide_point := p_call guide_line t in
      let thickness := nsub (vz mean_point) (vz guide_point) in
      let! LE_width := LE_width_function t in
      let elipse := ElipsePath (V3 n0 n0 n0) thickness LE_width side in
      let! elipse_norm := ArcLengthParameterizedPath elipse in
      let! pos_elipse := p_call elipse_norm r in
      let x_elipse := vy pos_elipse in
      let z_elipse := vz pos_elipse in
      let! angle := le_angle mean_line t in
      Ok (vadd mean_point (V3 (nmul x_elipse (ncos angle))
                              (nmul x_elipse (nsin angle)) z_elipse)).

  (* geometry.py:292-320 -- FlatLeadingEdgePatchFunction *)
  Definition FlatLeadingEdgePatchFunction (path1 path2 : path T) (t0 t1 : T) : surf T :=
    fun t_raw r =>
      let t := nsub t1 (nmul t_raw (nsub t1 t0)) in
      let! point1 := p_call path1 t in
      let! point2 := p_call path2 t in
      Ok (V3 (vx point1) (vy point1)
             (nadd (nmul (nsub n1 r) (vz point1)) (nmul r (vz point2)))).

  (* geometry.py:323-344 -- TrailingEdgePath *)
  Definition TrailingEdgePath (A0 B0 : vec T) (f : tfun) : path T :=
    let call := fun r =>
      let! pos := p_call (Line A0 B0) r in
      let! offset := f (vx pos) (vy pos) None in
      Ok (vadd pos offset) in
    mkPath call (default_length call).

  (* geometry.py:371-406 -- TrailingEdgePatch.preparation *)
  Definition TrailingEdgePatch (A0 B0 : vec T) (TE_path : path T)
             (flap_length flap_angle : T) (side : string) : res (surf T) :=
    let z := nadd n0 (nmul flap_length (nsin flap_angle)) in
    let edge := Line (V3 (nsub (vx A0) flap_length) (vy A0) z)
                     (V3 (nsub (vx B0) flap_length) (vy B0) z) in
    let mk (south north : path T) :=
      let! s0 := p_call south n0 in
      let! m0 := p_call north n0 in
      let! s1 := p_call south n1 in
      let! m1 := p_call north n1 in
      CoonsPatch north (Line s1 m1) south (Line s0 m0) in
    if String.eqb side "top" then mk edge TE_path
    else if String.eqb side "bot" then mk TE_path edge
    else Raise GenericError.

  (* geometry.py:431-470 -- MeanTrailingEdgePatch.preparation *)
  Definition MeanTrailingEdgePatch (mean_line TE_path : path T)
             (flap_length flap_angle : T) (side : string) : res (surf T) :=
    let mk (south north : path T) :=
      let! s0 := p_call south n0 in
      let! m0 := p_call north n0 in
      let! s1 := p_call south n1 in
      let! m1 := p_call north n1 in
      CoonsPatch north (Line s1 m1) south (Line s0 m0) in
    let edge := fun (a b : vec T) =>
      let shift := fun (p : vec T) =>
        V3 (nsub (vx p) (nmul flap_length (ncos flap_angle))) (vy p)
           (nadd (vz p) (nmul flap_length (nsin flap_angle))) in
      Line (shift a) (shift b) in
    if String.eqb side "top" then
      let! a := p_call mean_line n0 in
      let! b := p_call mean_line n1 in
      mk (edge a b) TE_path
    else if String.eqb side "bot" then
      let! a := p_call mean_line n0 in
      let! b := p_call mean_line n1 in
      mk TE_path (edge a b)
    else Raise GenericError.

  (* a curvature function f(x, y) *)
  Definition cfun := T -> T -> res T.

  (* geometry.py:487-507 -- CurvedPatch.__call__; a direction other than "x"
     or "y" falls off the end and returns None *)
  Definition CurvedPatch_call (u : surf T) (direction : string)
             (fn fun_dash : option cfun) (r s : T) : res (option (vec T)) :=
    match fn, fun_dash with
    | Some f, Some fd =>
        let! pos := u r s in
        let! offset := f (vx pos) (vy pos) in
        let! slope := fd (vx pos) (vy pos) in
        let angle := natan2 slope n1 in
        if String.eqb direction "x" then
          Ok (Some (V3 (nsub (vx pos) (nmul (vz pos) (nsin angle)))
                       (vy pos)
                       (nadd (nmul (vz pos) (ncos angle)) offset)))
        else if String.eqb direction "y" then
          Ok (Some (V3 (vx pos)
                       (nsub (vy pos) (nmul (vz pos) (nsin angle)))
                       (nadd offset (nmul (vz pos) (ncos angle)))))
        else Ok None
    | _, _ => Raise GenericError
    end.

  (* geometry.py:473-507 -- CurvedPatch used as a surface: reading .x of the
     None returned for an unknown direction raises AttributeError *)
  Definition CurvedPatch (u : surf T) (direction : string) (fn fun_dash : option cfun)
    : surf T :=
    fun r s =>
      let! o := CurvedPatch_call u direction fn fun_dash r s in
      match o with Some v => Ok v | None => Raise AttributeError end.

  (* geometry.py:529-540 -- ConePatch *)
  Definition ConePatch (x0 x1 r0 r1 angle0 angle1 : T) : surf T :=
    fun r s =>
      let angle := nadd (nmul angle0 (nsub n1 s)) (nmul angle1 s) in
      let y0 := nmul r0 (ncos angle) in
      let z0 := nmul r0 (nsin angle) in
      let y1 := nmul r1 (ncos angle) in
      let z1 := nmul r1 (nsin angle) in
      Ok (V3 (nadd (nmul x0 (nsub n1 r)) (nmul x1 r))
             (nadd (nmul y0 (nsub n1 r)) (nmul y1 r))
             (nadd (nmul z0 (nsub n1 r)) (nmul z1 r))).

  (* geometry.py:556-568 -- RevolvedPatch *)
  Definition RevolvedPatch (line : path T) (angle0 angle1 : T) : surf T :=
    fun r s =>
      let angle := nadd (nmul angle0 (nsub n1 s)) (nmul angle1 s) in
      let! point := p_call line r in
      Ok (V3 (vx point)
             (nadd (nmul (vy point) (ncos angle)) (nmul (vz point) (nsin angle)))
             (nsub (nmul (vz point) (ncos angle)) (nmul (vy point) (nsin angle)))).

  (* attribute lookup on an object's attribute table *)
  Definition getattr (self : dict T) (name : string) : res T :=
    match dget self name with Some v => Ok v | None => Raise AttributeError end.

  (* geometry.py:588-595 -- BluntConePatch.__init__: the attributes it sets *)
  Definition BluntCone_init (x0 y0 rn rb L angle0 angle1 : T) : dict T :=
    [("L", L); ("x0", x0); ("y0", y0); ("rn", rn); ("rb", rb);
     ("angle0", angle0); ("angle1", angle1)].

  (* geometry.py:601-613 -- BluntConePatch.__call__, attribute by attribute *)
  Definition BluntCone_call (self : dict T) (r s : T) : res (vec T) :=
    let! angle0 := getattr self "angle0" in
    let! angle1 := getattr self "angle1" in
    let angle := nadd (nmul angle0 (nsub n1 s)) (nmul angle1 s) in
    let! x0 := getattr self "x0" in
    let! r0 := getattr self "r0" in
    let y0 := nmul r0 (ncos angle) in
    let z0 := nmul r0 (nsin angle) in
    let! x1 := getattr self "x1" in
    let! r1 := getattr self "r1" in
    let y1 := nmul r1 (ncos angle) in
    let z1 := nmul r1 (nsin angle) in
    Ok (V3 (nadd (nmul x0 (nsub n1 r)) (nmul x1 r))
           (nadd (nmul y0 (nsub n1 r)) (nmul y1 r))
           (nadd (nmul z0 (nsub n1 r)) (nmul z1 r))).

  (* geometry.py:571-613 -- class BluntConePatch *)
  Definition BluntConePatch (x0 y0 rn rb L angle0 angle1 : T) : surf T :=
    BluntCone_call (BluntCone_init x0 y0 rn rb L angle0 angle1).

  (* geometry.py:917-939 -- SurfacePerimeter.__call__ *)
  Definition perimeter_rs (t : T) : T * T :=
    let f := nquarter in
    let rem := nmod t f in
    if nltb t (nlit 1 4) then (nround 8 (ndiv rem f), n0)
    else if nltb t (nlit 1 2) then (n1, nround 8 (ndiv rem f))
    else if nltb t (nlit 3 4) then (nround 8 (nsub n1 (ndiv rem f)), n1)
    else if nltb t n1 then (n0, nround 8 (nsub n1 (ndiv rem f)))
    else (n0, n0).

  Definition SurfacePerimeter (u : surf T) : path T :=
    let call := fun t => u (fst (perimeter_rs t)) (snd (perimeter_rs t)) in
    mkPath call (default_length call).

  (* getattr(v, axis) *)
  Definition vget (v : vec T) (axis : string) : res T :=
    if String.eqb axis "x" then Ok (vx v)
    else if String.eqb axis "y" then Ok (vy v)
    else if String.eqb axis "z" then Ok (vz v)
    else Raise AttributeError.

  Fixpoint list_min (m : T) (l : list T) : T :=
    match l with [] => m | a :: l' => list_min (if nltb a m then a else m) l' end.
  Fixpoint list_max (m : T) (l : list T) : T :=
    match l with [] => m | a :: l' => list_max (if nltb m a then a else m) l' end.

  (* geometry.py:632-644 -- fields of a SweptPatch *)
  Record swept := mkSwept {
    sw_axis : string;
    sw_origins : list T;
    sw_perimeters : list (path T);
    sw_min : T;
    sw_dist : T
  }.

  (* geometry.py:620-644 -- SweptPatch.__init__; no cross section at all makes
     min() raise ValueError *)
  Definition SweptPatch_init (cross_sections : list (surf T)) (sweep_axis : string)
    : res swept :=
    let! origins := mapM (fun cs => let! p := cs n0 n0 in vget p sweep_axis)
                         cross_sections in
    match origins with
    | [] => Raise ValueError
    | o :: os =>
        let mn := list_min o os in
        let mx := list_max o os in
        if neqb mn mx then Raise GenericError else
        Ok (mkSwept sweep_axis origins (map SurfacePerimeter cross_sections)
                    mn (nsub mx mn))
    end.

  (* geometry.py:654-659 -- index search; [i] is the index of the head of
     [rest] and [olast] is section_origins[-1] *)
  Fixpoint swept_search (dist olast : T) (len i : nat) (rest : list T) : res nat :=
    match rest with
    | [] => Ok (i - 1)     (* loop finished without break: i = last index *)
    | lv :: rest' =>
        if neqb dist olast then Ok (len - 2)
        else if nleb lv dist then
          match rest' with
          | [] => Raise IndexError
          | nx :: _ => if nltb dist nx then Ok i
                       else swept_search dist olast len (S i) rest'
          end
        else swept_search dist olast len (S i) rest'
    end.

  (* geometry.py:669-677 -- interpolation of one coordinate *)
  Definition swept_interp (lo up dist ls us : T) : T :=
    nadd lo (ndiv (nmul (nsub dist ls) (nsub up lo)) (nsub us ls)).

  (* geometry.py:649-677 -- SweptPatch.__call__ *)
  Definition Swept_call (w : swept) (r s : T) : res (vec T) :=
    let dist := nadd (sw_min w) (nmul r (sw_dist w)) in
    let! olast := py_last (sw_origins w) in
    let! i := swept_search dist olast (List.length (sw_origins w)) 0 (sw_origins w) in
    let! pl := py_nth (sw_perimeters w) i in
    let! lps := p_call pl s in
    let! pu := py_nth (sw_perimeters w) (i + 1) in
    let! ups := p_call pu s in
    let! ls := py_nth (sw_origins w) i in
    let! us := py_nth (sw_origins w) (i + 1) in
    let coord := fun axis (f : vec T -> T) =>
      if String.eqb (sw_axis w) axis then dist
      else swept_interp (f lps) (f ups) dist ls us in
    Ok (V3 (coord "x" vx) (coord "y" vy) (coord "z" vz)).

  (* index of the first element satisfying f: np.where(...)[0][0] *)
  Fixpoint first_index (f : T -> bool) (l : list T) (i : nat) : option nat :=
    match l with
    | [] => None
    | a :: l' => if f a then Some i else first_index f l' (S i)
    end.

  (* geometry.py:700-715 -- SweptPatchfromEdges.__call__.  When index_above is
     0 the index -1 wraps around to the last edge, as in Python. *)
  Definition SweptPatchfromEdges (edges : list (path T)) : surf T :=
    fun r s =>
      let n := List.length edges in
      let slices := np_linspace n0 n1 n in
      match first_index (fun x => neqb x r) slices 0 with
      | Some i => let! e := py_nth edges i in p_call e s
      | None =>
          match first_index (fun x => ngtb x r) slices 0 with
          | None => Raise IndexError
          | Some ia =>
              let ib := match ia with 0 => n - 1 | S k => k end in
              let! ea := py_nth edges ia in
              let! above := p_call ea s in
              let! eb := py_nth edges ib in
              let! below := p_call eb s in
              let! sa := py_nth slices ia in
              let! sb := py_nth slices ib in
              let alpha := ndiv (nsub r sb) (nsub sa sb) in
              Ok (vadd (vscale below (nsub n1 alpha)) (vscale above alpha))
          end
      end.

  (* str.lower() on the axis names that occur *)
  Definition lower_axis (a : string) : string :=
    if String.eqb a "X" then "x" else if String.eqb a "Y" then "y"
    else if String.eqb a "Z" then "z" else a.

  (* geometry.py:735-752 -- RotatedPatch applied to one point (already a
     difference to [point]); unknown axis: x is unbound *)
  Definition rotate_vec (angle : T) (axis : string) (pos : vec T) : res (vec T) :=
    if String.eqb axis "x" then
      Ok (V3 (vx pos)
             (nsub (nmul (vy pos) (ncos angle)) (nmul (vz pos) (nsin angle)))
             (nadd (nmul (vy pos) (nsin angle)) (nmul (vz pos) (ncos angle))))
    else if String.eqb axis "y" then
      Ok (V3 (nadd (nmul (vx pos) (ncos angle)) (nmul (vz pos) (nsin angle)))
             (vy pos)
             (nadd (nmul (nneg (vx pos)) (nsin angle)) (nmul (vz pos) (ncos angle))))
    else if String.eqb axis "z" then
      Ok (V3 (nsub (nmul (vx pos) (ncos angle)) (nmul (vy pos) (nsin angle)))
             (nadd (nmul (vx pos) (nsin angle)) (nmul (vy pos) (ncos angle)))
             (vz pos))
    else Raise UnboundLocalError.

  (* geometry.py:718-752 -- RotatedPatch *)
  Definition RotatedPatch (u : surf T) (angle : T) (axis : string) (point : vec T)
    : surf T :=
    fun r s =>
      let! p := u r s in
      let! q := rotate_vec angle (lower_axis axis) (vsub p point) in
      Ok (vadd q point).

  (* geometry.py:767-782 -- MirroredPatch on one point *)
  Definition mirror_vec (axis : string) (pos : vec T) : vec T :=
    if String.eqb axis "x" then V3 (nmul (vx pos) (nZ (-1))) (vy pos) (vz pos)
    else if String.eqb axis "y" then V3 (vx pos) (nmul (vy pos) (nZ (-1))) (vz pos)
    else if String.eqb axis "z" then V3 (vx pos) (vy pos) (nmul (vz pos) (nZ (-1)))
    else V3 (vx pos) (vy pos) (vz pos).

  (* geometry.py:755-782 -- MirroredPatch *)
  Definition MirroredPatch (u : surf T) (axis : string) : surf T :=
    fun r s => let! p := u r s in Ok (mirror_vec (lower_axis axis) p).

  (* geometry.py:803-832 (and 863-892) -- unit cube face coordinates *)
  Definition cube_face (face : string) (r s : T) : res (vec T) :=
    let u := fun q => nadd (nZ (-1)) (nmul n2 q) in
    if String.eqb face "east" then Ok (V3 n1 (u r) (u s))
    else if String.eqb face "west" then Ok (V3 (nZ (-1)) (u r) (u s))
    else if String.eqb face "south" then Ok (V3 (u r) (nZ (-1)) (u s))
    else if String.eqb face "north" then Ok (V3 (u r) n1 (u s))
    else if String.eqb face "bottom" then Ok (V3 (u r) (u s) (nZ (-1)))
    else if String.eqb face "top" then Ok (V3 (u r) (u s) n1)
    else Raise ValueError.

  (* geometry.py:785-838 -- CubePatch *)
  Definition CubePatch (a : T) (centre : vec T) (face : string) : surf T :=
    fun r s =>
      let! p := cube_face face r s in
      Ok (V3 (nadd (nmul (vx p) a) (vx centre))
             (nadd (nmul (vy p) a) (vy centre))
             (nadd (nmul (vz p) a) (vz centre))).

  (* geometry.py:894-896 -- cube-to-sphere factor for coordinates u, v *)
  Definition sphere_factor (u v : T) : T :=
    nsqrt (nadd (nsub (nsub n1 (nmul (nmul nhalf u) u)) (nmul (nmul nhalf v) v))
                (ndiv (nmul (nmul (nmul v v) u) u) (nZ 3))).

  (* geometry.py:841-902 -- SpherePatch *)
  Definition SpherePatch (radius : T) (centre : vec T) (face : string) : surf T :=
    fun r s =>
      let! p := cube_face face r s in
      let x := vx p in let y := vy p in let z := vz p in
      let x_dash := nmul x (sphere_factor z y) in
      let y_dash := nmul y (sphere_factor z x) in
      let z_dash := nmul z (sphere_factor y x) in
      Ok (V3 (nadd (nmul x_dash radius) (vx centre))
             (nadd (nmul y_dash radius) (vy centre))
             (nadd (nmul z_dash radius) (vz centre))).
End Geometry.
Arguments swept T : clear implicits.
Arguments tfun T : clear implicits.
Arguments cfun T : clear implicits.
