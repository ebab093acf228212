(** Model of the STL tools of components/component.py: stl_check (364-444) and
    stl_repair (446-499). *)
From Coq Require Import ZArith Bool String List.
From Verif Require Import Num Py M_Vector M_Mesh.
Import ListNotations.

Section Stl.
  Context {T : Type} {N : Num T}.

  (* np.cross(v1 - v0, v2 - v0); numpy-stl fills mesh.normals with the same
     expression when a mesh is created *)
  Definition tri_cross (t : tri T) : vec T :=
    let a := V3 (nsub (vx (t1 t)) (vx (t0 t))) (nsub (vy (t1 t)) (vy (t0 t))) (nsub (vz (t1 t)) (vz (t0 t))) in
    let b := V3 (nsub (vx (t2 t)) (vx (t0 t))) (nsub (vy (t2 t)) (vy (t0 t))) (nsub (vz (t2 t)) (vz (t0 t))) in
    V3 (nsub (nmul (vy a) (vz b)) (nmul (vz a) (vy b)))
       (nsub (nmul (vz a) (vx b)) (nmul (vx a) (vz b)))
       (nsub (nmul (vx a) (vy b)) (nmul (vy a) (vx b))).
  Definition mesh_normals (m : list (tri T)) : list (vec T) := map tri_cross m.

  Definition nsum (l : list T) : T := fold_left nadd l n0.
  Definition column (f : vec T -> T) (l : list (vec T)) : list T := map f l.

  (* component.py:373-386 -- projected area: |sum of normals| against
     eps32 * sum of |normals|, per coordinate; eps32 = 2^-23 *)
  Definition eps32 : T := nlit 1 8388608.
  Definition project_check (normals : list (vec T)) : bool :=
    forallb (fun f => nleb (nabs (nsum (column f normals)))
                           (nmul (nsum (map nabs (column f normals))) eps32)) [vx; vy; vz].

  (* tuples of floats as set elements: compared coordinate-wise *)
  Definition vec_eqb (a b : vec T) : bool :=
    neqb (vx a) (vx b) && neqb (vy a) (vy b) && neqb (vz a) (vz b).
  Definition edge_eqb (e f : vec T * vec T) : bool :=
    vec_eqb (fst e) (fst f) && vec_eqb (snd e) (snd f).
  (* equality of frozenset((a, b)) *)
  Definition uedge_eqb (e f : vec T * vec T) : bool :=
    edge_eqb e f || edge_eqb e (snd f, fst f).
  (* the elements of a set, one per equivalence class *)
  Fixpoint dedup {A} (eqb : A -> A -> bool) (l : list A) : list A :=
    match l with
    | [] => []
    | a :: r => a :: filter (fun b => negb (eqb a b)) (dedup eqb r)
    end.

  (* component.py:390-392 -- triangles whose winding disagrees with the normal *)
  Definition reversed_flags (m : list (tri T)) (normals : list (vec T)) : list bool :=
    map (fun tn => let c := tri_cross (fst tn) in let n := snd tn in
           nltb (nsum [nmul (vx c) (vx n); nmul (vy c) (vy n); nmul (vz c) (vz n)]) n0)
        (combine m normals).
  Definition orient (rev : bool) (e : vec T * vec T) : vec T * vec T :=
    if rev then (snd e, fst e) else e.
  (* component.py:394-404 -- all (0,1) edges, then (1,2), then (2,0) *)
  Definition all_edges (m : list (tri T)) (normals : list (vec T)) : list (vec T * vec T) :=
    let flags := reversed_flags m normals in
    concat (map (fun f => map (fun bt => orient (fst bt) (f (snd bt))) (combine flags m))
      [(fun t => (t0 t, t1 t)); (fun t => (t1 t, t2 t)); (fun t => (t2 t, t0 t))]).

  (* component.py:364-444 -- stl_check; printing and the unused tally of
     unpaired edges (431-442) are not modelled *)
  Definition stl_check (m : list (tri T)) (normals : list (vec T))
             (project_area matching_lines : bool) : res bool :=
    let flag1 := if project_area then project_check normals else true in
    if negb matching_lines then Raise UnboundLocalError else
    let directed := dedup edge_eqb (all_edges m normals) in
    let undirected := dedup uedge_eqb directed in
    let edge_check := Nat.eqb (List.length directed) (3 * List.length m) in
    let pair_check := Nat.eqb (List.length directed) (2 * List.length undirected) in
    Ok (flag1 && edge_check && pair_check).

  (** ** stl_repair *)
  (* component.py:459-485 -- find_groups; [sort_i] is np.argsort(vector) *)
  Record gstate := mkG { g_groups : list (list nat); g_li : list nat; g_count : bool; g_x0 : T }.
  Definition group_step (vector : list T) (sort_i : list nat) (small : T) (s : gstate) (i : nat) : gstate :=
    let at_ k := nth (nth k sort_i 0) vector n0 in
    let x0 := if g_count s then g_x0 s else at_ i in
    let x1 := at_ (i + 1) in
    let s1 :=
      if nltb (nabs (nsub x1 x0)) small then
        if g_count s
        then mkG (g_groups s) (g_li s ++ [nth (i + 1) sort_i 0]) true x0
        else mkG (g_groups s) (g_li s ++ [nth i sort_i 0; nth (i + 1) sort_i 0]) true x0
      else mkG (g_groups s ++ [g_li s]) [] false x0 in
    if Nat.eqb i (List.length vector - 2) && g_count s1
    then mkG (g_groups s1 ++ [g_li s1]) (g_li s1) (g_count s1) (g_x0 s1) else s1.
  Definition find_groups (vector : list T) (sort_i : list nat) (small : T) : list (list nat) :=
    g_groups (fold_left (group_step vector sort_i small) (seq 0 (List.length vector - 1))
                        (mkG [] [] false n0)).

  (* np.mean(vectors[common], axis=0), in the order of the indices *)
  Definition mean_vec (vs : list (vec T)) (common : list nat) : vec T :=
    let col f := map (fun i => f (nth i vs (V3 n0 n0 n0))) common in
    let mean f := ndiv (nsum (col f)) (nnat (List.length common)) in
    V3 (mean vx) (mean vy) (mean vz).
  Definition mem (i : nat) (l : list nat) : bool := existsb (Nat.eqb i) l.
  Definition common3 (n : nat) (ix iy iz : list nat) : list nat :=
    filter (fun i => mem i ix && mem i iy && mem i iz) (seq 0 n).
  Definition common2 (n : nat) (ix iy : list nat) : list nat :=
    filter (fun i => mem i ix && mem i iy) (seq 0 n).
  Definition merge (vs : list (vec T)) (common : list nat) : list (vec T) :=
    match common with
    | [] => vs
    | _ => let m := mean_vec vs common in
           map (fun iv => if mem (fst iv) common then m else snd iv)
               (combine (seq 0 (List.length vs)) vs)
    end.
  (* component.py:487-499 *)
  Definition merge_all (iix iiy iiz : list (list nat)) (vs : list (vec T)) : list (vec T) :=
    fold_left (fun vs ix =>
      fold_left (fun vs iy =>
        match common2 (List.length vs) ix iy with
        | [] => vs
        | _ => fold_left (fun vs iz => merge vs (common3 (List.length vs) ix iy iz)) iiz vs
        end) iiy vs) iix vs.

  (* np.vstack((v0, v1, v2)) and back *)
  Definition stack (m : list (tri T)) : list (vec T) := map t0 m ++ map t1 m ++ map t2 m.
  Definition unstack (n : nat) (vs : list (vec T)) : list (tri T) :=
    map (fun k => let at_ j := nth j vs (V3 n0 n0 n0) in Tri (at_ k) (at_ (n + k)) (at_ (2 * n + k))) (seq 0 n).
  Definition stl_repair (argsort : list T -> list nat) (small : T) (m : list (tri T)) : list (tri T) :=
    let vs := stack m in
    let groups f := let col := column f vs in find_groups col (argsort col) small in
    unstack (List.length m) (merge_all (groups vx) (groups vy) (groups vz) vs).
End Stl.
