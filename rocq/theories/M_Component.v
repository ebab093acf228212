(** Model of the component classes: components/component.py:168-249 (operations
    on the patch dictionary) and the generate_patches methods of swept.py,
    revolved.py, polygon.py.  Everything here is a function of the dictionary;
    object identity is added in M_Vehicle.v. *)
From Coq Require Import ZArith Bool String List.
From Verif Require Import Num Py M_Vector M_Path M_Surface M_Geometry M_Mesh.
Import ListNotations.
Local Open Scope string_scope.

Section Component.
  Context {T : Type} {N : Num T}.
  Notation patches := (dict (surf T)).

  (* geometry.py:724 -- default rotation point Vector3(x=0, y=0, z=0) *)
  Definition default_point : vec T := V3 n0 n0 n0.

  (* component.py:208-210 -- rotate *)
  Definition rotate_patches (angle : T) (axis : string) (d : patches) : patches :=
    dmap (fun u => RotatedPatch u (ndeg2rad angle) axis default_point) d.

  (* component.py:212-221 -- translate by a Vector3 or by a function *)
  Definition const_offset (v : vec T) : tfun T := fun _ _ _ => Ok v.
  Definition translate_patches (f : tfun T) (d : patches) : patches :=
    dmap (fun u => OffsetPatchFunction u f) d.

  (* component.py:228-231 -- apply_modifier *)
  Definition modify_patches (f : option (tfun T)) (d : patches) : patches :=
    match f with
    | Some f => dmap (fun u => OffsetPatchFunction u f) d
    | None => d
    end.

  (* one entry of _curvatures: (direction, function, derivative) *)
  Definition curvature := (string * option (cfun T) * option (cfun T))%type.

  (* component.py:174-183 -- curve *)
  Definition curve_patches (cs : option (list curvature)) (d : patches) : patches :=
    match cs with
    | Some cs =>
        fold_left (fun d c => let '(dir, f, fd) := c in
                              dmap (fun u => CurvedPatch u dir f fd) d) cs d
    | None => d
    end.

  (* f"{key}_mirrored" *)
  Definition mirrored_key (k : string) : string := k ++ "_mirrored".

  (* component.py:233-249 -- reflect; [own] is self._reflection_axis *)
  Definition reflect_patches (own : option string) (append : bool) (arg : option string)
             (d : patches) : patches :=
    let axis := match own with Some a => Some a | None => arg end in
    match axis with
    | None => d
    | Some axis =>
        let mirrored := dupdate [] (map (fun kp =>
              (mirrored_key (fst kp), MirroredPatch (snd kp) axis)) d) in
        if append then dupdate d mirrored else mirrored
    end.

  (* revolved.py:27-31 *)
  Definition revolved_angle (i : nat) : T := ndiv (nmul (nnat i) npi) n2.
  Definition revolved_patches (line : path T) : patches :=
    map (fun i => ("revolved_fuse_" ++ str_nat i,
                   RevolvedPatch line (revolved_angle i) (revolved_angle (i + 1))))
        (seq 0 4).

  (* polygon.py:29-32 and 58-62 *)
  Definition face_names : list string := ["east"; "west"; "south"; "north"; "bottom"; "top"].
  Definition cube_patches (a : T) (centre : vec T) : patches :=
    map (fun face => (face, CubePatch a centre face)) face_names.
  Definition sphere_patches (r : T) (centre : vec T) : patches :=
    map (fun face => (face, SpherePatch r centre face)) face_names.

  (* swept.py:44-70 -- one cross section: number of edges, then the loop over
     pairs (i, ip) *)
  Definition edges_meet (cs : list (path T)) (i : nat) : res unit :=
    let ip := if Nat.ltb i (List.length cs - 1) then i + 1 else 0 in
    let! ei := py_nth cs i in
    let! p1 := p_call ei n1 in
    let! eip := py_nth cs ip in
    let! p0 := p_call eip n0 in
    let small := nlit 1 1000000000000 in
    if ngtb (nabs (nsub (vx p0) (vx p1))) small
       || ngtb (nabs (nsub (vy p0) (vy p1))) small
       || ngtb (nabs (nsub (vz p0) (vz p1))) small
    then Raise GenericError else Ok tt.

  Definition check_section (n_edges : nat) (cs : list (path T)) : res unit :=
    if negb (Nat.eqb (List.length cs) n_edges) then Raise GenericError else
    let! _ := mapM (edges_meet cs) (seq 0 (List.length cs)) in Ok tt.

  (* swept.py:71-86 -- options for closed ends *)
  Definition check_ends (close_ends : bool) (n_edges : nat) (r : resolution) : res unit :=
    if close_ends && negb (Nat.eqb n_edges 4) then Raise GenericError else
    match close_ends, r with
    | true, ResDict d =>
        let! e0 := dlookup d "e0" in
        let! e2 := dlookup d "e2" in
        let! e1 := dlookup d "e1" in
        let! e3 := dlookup d "e3" in
        if negb (Nat.eqb e0 e2) || negb (Nat.eqb e1 e3) then Raise GenericError
        else Ok tt
    | _, _ => Ok tt
    end.

  (* swept.py:11-86 -- __init__: returns n_edges *)
  Definition Swept_init (sections : list (list (path T))) (close_ends : bool)
             (r : resolution) : res nat :=
    let! first := py_nth sections 0 in
    let n_edges := List.length first in
    let! _ := mapM (check_section n_edges) sections in
    let! _ := check_ends close_ends n_edges r in
    Ok n_edges.

  (* a patch with its resolutions *)
  Definition sized := (string * surf T * nat * nat)%type.

  (* swept.py:96-101, 113-118, 126-131 -- patch_res_r and patch_res_s *)
  Definition swept_res (r : resolution) (kr ks : string) : res (nat * nat) :=
    match r with
    | ResInt n => Ok (n, n)
    | ResDict d => let! a := dlookup d kr in let! b := dlookup d ks in Ok (a, b)
    end.

  (* swept.py:88-101 -- one swept patch per edge *)
  Definition swept_side (sections : list (list (path T))) (r : resolution) (ne : nat)
    : res sized :=
    let! edges := mapM (fun cs => py_nth cs ne) sections in
    let! rs := swept_res r "sweep" ("e" ++ str_nat ne) in
    Ok ("swept_patch_" ++ str_nat ne, SweptPatchfromEdges edges, fst rs, snd rs).

  (* swept.py:103-118 -- front end *)
  Definition swept_end_0 (sections : list (list (path T))) (r : resolution) : res sized :=
    let! edges := py_nth sections 0 in
    let! south := py_nth edges 0 in
    let! east := py_nth edges 1 in
    let! e2 := py_nth edges 2 in
    let! e3 := py_nth edges 3 in
    let! c := CoonsPatch (ReversedPath e2) east south (ReversedPath e3) in
    let! rs := swept_res r "e0" "e1" in
    Ok ("swept_patch_end_0", c, fst rs, snd rs).

  (* swept.py:119-131 -- rear end *)
  Definition swept_end_1 (sections : list (list (path T))) (r : resolution) : res sized :=
    let! edges := py_last sections in
    let! e0 := py_nth edges 0 in
    let! e3 := py_nth edges 3 in
    let! north := py_nth edges 2 in
    let! west := py_nth edges 1 in
    let! c := CoonsPatch north (ReversedPath e3) (ReversedPath e0) west in
    let! rs := swept_res r "e0" "e1" in
    Ok ("swept_patch_end_1", c, fst rs, snd rs).

  (* swept.py:88-131 -- generate_patches *)
  Definition swept_patches (sections : list (list (path T))) (n_edges : nat)
             (close_ends : bool) (r : resolution) : res (list sized) :=
    let! sides := mapM (swept_side sections r) (seq 0 n_edges) in
    if close_ends then
      let! a := swept_end_0 sections r in
      let! b := swept_end_1 sections r in
      Ok (sides ++ [a; b])%list
    else Ok sides.

  Definition sized_patches (l : list sized) : patches :=
    map (fun x => let '(k, u, _, _) := x in (k, u)) l.
  Definition sized_res_r (l : list sized) : dict nat :=
    map (fun x => let '(k, _, a, _) := x in (k, a)) l.
  Definition sized_res_s (l : list sized) : dict nat :=
    map (fun x => let '(k, _, _, b) := x in (k, b)) l.

  (* composite.py:126-132 -- merging the children's patches; f"{key}_{ix}" *)
  Definition merged_patches (children : list patches) : patches :=
    dupdate [] (concat (map (fun xd =>
        map (fun kp => (fst kp ++ "_" ++ str_nat (fst xd), snd kp)) (snd xd))
      (combine (seq 0 (List.length children)) children))).

  (* component.py:185-200 with a component whose caches are empty: the mesh
     built from a patch dictionary *)
  Definition fresh_mesh (d : patches) (r : resolution) (rr rs : dict nat)
             (c : clustering T) : res (list (tri T)) :=
    let! s := component_surface d r rr rs c in Ok (concat_surfaces s).
End Component.
