(** Model of the mesher in src/hypervehicle/utilities.py:16-147 and of the mesh
    methods of components/component.py:185-202, 251-306, 364-499. *)
From Coq Require Import ZArith Bool String List.
From Verif Require Import Num Py M_Vector M_Path M_Surface M_Geometry.
Import ListNotations.

(** one row of numpy-stl's mesh.vectors *)
Record tri (T : Type) := Tri { t0 : vec T; t1 : vec T; t2 : vec T }.
Arguments Tri {T} t0 t1 t2.
Arguments t0 {T} t.
Arguments t1 {T} t.
Arguments t2 {T} t.

Section Mesh.
  Context {T : Type} {N : Num T}.

  (* utilities.py:144-147 -- default_vertex_func.  steps=1 divides the Python
     float 1.0 by the Python int 0.  (0*dx)**spacing with a negative spacing
     (ZeroDivisionError in Python) is not modelled: npow is total. *)
  Definition default_vertex_func (lb ub : T) (steps : nat) (spacing : T)
    : res (list T) :=
    if Nat.eqb steps 1 then Raise ZeroDivisionError else
    let span := nsub ub lb in
    let dx := ndiv n1 (nZ (Z.of_nat steps - 1)) in
    Ok (map (fun i => nadd lb (nmul (npow (nmul (nnat i) dx) spacing) span))
            (seq 0 steps)).

  (* utilities.py:69-80 -- vertex list in one direction; [m] is the number of
     points a clustering function is sampled at *)
  Definition vertex_list (f : option (T -> res T)) (m steps : nat) (spacing : T)
    : res (list T) :=
    match f with
    | Some f => mapM f (np_linspace n0 n1 m)
    | None => default_vertex_func n0 n1 steps spacing
    end.

  (* utilities.py:115-117 -- centre of a cell *)
  Definition cell_centre (pos00 pos10 pos01 pos11 : vec T) : vec T :=
    let mean := fun f : vec T -> T =>
      nmul nquarter (nadd (nadd (nadd (f pos00) (f pos10)) (f pos01)) (f pos11)) in
    V3 (mean vx) (mean vy) (mean vz).

  (* utilities.py:82,120-122 -- storing np.array([x, y_mult*y, z]) into the
     single-precision array mesh.vectors *)
  Definition store_vertex (mirror_y : bool) (p : vec T) : vec T :=
    V3 (nstore (vx p))
       (nstore (nmul (nZ (if mirror_y then -1 else 1)) (vy p)))
       (nstore (vz p)).

  (* utilities.py:108-140 -- the four triangles of cell (i, j) *)
  Definition cell_triangles (u : surf T) (mirror_y : bool) (r_list s_list : list T)
             (i j : nat) : res (list (tri T)) :=
    let! ri := py_nth r_list i in
    let! sj := py_nth s_list j in
    let! pos00 := u ri sj in
    let! ri1 := py_nth r_list (i + 1) in
    let! pos10 := u ri1 sj in
    let! sj1 := py_nth s_list (j + 1) in
    let! pos01 := u ri sj1 in
    let! pos11 := u ri1 sj1 in
    let pc := cell_centre pos00 pos10 pos01 pos11 in
    let st := store_vertex mirror_y in
    Ok [Tri (st pos00) (st pos10) (st pc); Tri (st pos10) (st pos11) (st pc);
        Tri (st pos11) (st pos01) (st pc); Tri (st pos01) (st pos00) (st pc)].

  (* utilities.py:104-142 -- the double loop *)
  Definition mesh_cells (u : surf T) (mirror_y : bool) (r_list s_list : list T)
             (ni nj : nat) : res (list (tri T)) :=
    let! rows := mapM (fun i =>
        let! cells := mapM (cell_triangles u mirror_y r_list s_list i) (seq 0 nj) in
        Ok (concat cells)) (seq 0 ni) in
    Ok (concat rows).

  (* utilities.py:16-141 -- surfce_to_stl.  Line 77 samples the j clustering
     function at ni + 1 points, as written.  Negative ni, nj not modelled. *)
  Definition surfce_to_stl (u : surf T) (ni nj : nat) (si sj : T) (mirror_y : bool)
             (i_clustering j_clustering : option (T -> res T)) : res (list (tri T)) :=
    let! r_list := vertex_list i_clustering (ni + 1) (ni + 1) si in
    let! s_list := vertex_list j_clustering (ni + 1) (nj + 1) sj in
    mesh_cells u mirror_y r_list s_list ni nj.

  (* a component's _clustering dictionary: the keyword arguments passed on *)
  Record clustering := mkClustering {
    cl_i : option (T -> res T);
    cl_j : option (T -> res T)
  }.
  Definition no_clustering : clustering := mkClustering None None.

  (* component.py:284-291 -- wrapper of Component.surface; si, sj, mirror_y
     have their defaults *)
  Definition mesh_patch (c : clustering) (u : surf T) (res_r res_s : nat)
    : res (list (tri T)) :=
    surfce_to_stl u res_r res_s n1 n1 false (cl_i c) (cl_j c).

  (** stl_resolution: an int, or a dictionary of ints per edge *)
  Inductive resolution := ResInt (n : nat) | ResDict (d : dict nat).

  (* component.py:268-279 -- case list: both directions get patch_res_r *)
  Definition case_list (patches : dict (surf T)) (r : resolution)
             (patch_res_r patch_res_s : dict nat)
    : res (list (string * surf T * nat * nat)) :=
    match r with
    | ResInt n => Ok (map (fun kp => (fst kp, snd kp, n, n)) patches)
    | ResDict _ =>
        mapM (fun kp =>
                let! a := dlookup patch_res_r (fst kp) in
                let! b := dlookup patch_res_r (fst kp) in
                Ok (fst kp, snd kp, a, b)) patches
    end.

  (* component.py:259-306 -- Component.surface: surfaces per patch, in patch
     order.  The process pool is modelled by its contract (starmap returns the
     results in order). *)
  Definition component_surface (patches : dict (surf T)) (r : resolution)
             (patch_res_r patch_res_s : dict nat) (c : clustering)
    : res (dict (list (tri T))) :=
    match patches with
    | [] => Raise GenericError
    | _ =>
        let! cases := case_list patches r patch_res_r patch_res_s in
        let! results := mapM (fun cs =>
            let '(k, u, a, b) := cs in
            let! m := mesh_patch c u a b in Ok (k, m)) cases in
        Ok (dupdate [] results)
    end.

  (* component.py:195-200 -- concatenation of all surfaces *)
  Definition concat_surfaces (s : dict (list (tri T))) : list (tri T) :=
    concat (dvals s).
End Mesh.
Arguments clustering T : clear implicits.
