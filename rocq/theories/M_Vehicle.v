(** Model of components as objects and of vehicles:
    components/component.py:85-331, components/composite.py, vehicle.py:15-422
    and 482-495.

    Components are references into a heap of component objects; the [patches]
    attribute of a component is a reference into a heap of dictionaries, so
    that sharing (shallow copies, one component added twice) is visible.
    Every operation returns the new heap also when it raises.

    Not modelled: sharing of the patch_res_r, patch_res_s and _clustering
    dictionaries and of argument objects (Vector3 offsets, lists of
    transformations) -- these are values here; printing; edges and params;
    partially filled dictionaries when generate_patches raises half-way (the
    dictionary is left as it was). *)
From Coq Require Import ZArith Bool String List.
From Verif Require Import Num Py M_Vector M_Path M_Surface M_Geometry M_Mesh M_Component.
Import ListNotations.
Local Open Scope string_scope.

(** Python truth value of an optional string *)
Definition truthy (o : option string) : bool :=
  match o with Some s => negb (String.eqb s "") | None => false end.

Fixpoint list_set {A} (l : list A) (i : nat) (a : A) : list A :=
  match l, i with
  | [], _ => []
  | _ :: l', 0 => a :: l'
  | x :: l', S i' => x :: list_set l' i' a
  end.

Section Vehicle.
  Context {T : Type} {N : Num T}.
  Notation patches := (dict (surf T)).
  Notation mesh := (list (tri T)).

  (** an argument of a transformation *)
  Inductive arg := ANum (x : T) | AStr (s : string) | AVec (v : vec T) | AFun (f : tfun T).
  (** (method name, args...) *)
  Definition transformation := (string * list arg)%type.

  (** what generate_patches does: a component class builds its patches from its
      parameters, and either writes them into self.patches (Wing, Swept,
      Revolved, Cube, Sphere) or replaces self.patches (Fin); a composite
      merges those of its children *)
  Inductive kind :=
  | Own (replaces : bool) (gen : res (patches * dict nat * dict nat))
  | Composite (children : list nat).

  Record comp := mkComp {
    c_type : string;
    c_kind : kind;
    c_patches : nat;
    c_res_r : dict nat;
    c_res_s : dict nat;
    c_resolution : resolution;
    c_surfaces : option (dict mesh);
    c_mesh : option mesh;
    c_curvatures : option (list (curvature (T := T)));
    c_clustering : clustering T;
    c_transformations : list transformation;
    c_modifier : option (tfun T);
    c_axis : option string;
    c_append : bool;
    c_ghost : bool;
    c_name : option string;
    c_verbosity : Z
  }.
  Record heap := mkHeap { dicts : list patches; comps : list comp }.

  (** attribute assignments *)
  Definition set_patches c r := mkComp (c_type c) (c_kind c) r (c_res_r c) (c_res_s c) (c_resolution c)
    (c_surfaces c) (c_mesh c) (c_curvatures c) (c_clustering c) (c_transformations c) (c_modifier c)
    (c_axis c) (c_append c) (c_ghost c) (c_name c) (c_verbosity c).
  Definition set_res c rr rs := mkComp (c_type c) (c_kind c) (c_patches c) rr rs (c_resolution c)
    (c_surfaces c) (c_mesh c) (c_curvatures c) (c_clustering c) (c_transformations c) (c_modifier c)
    (c_axis c) (c_append c) (c_ghost c) (c_name c) (c_verbosity c).
  Definition set_cache c su me := mkComp (c_type c) (c_kind c) (c_patches c) (c_res_r c) (c_res_s c) (c_resolution c)
    su me (c_curvatures c) (c_clustering c) (c_transformations c) (c_modifier c)
    (c_axis c) (c_append c) (c_ghost c) (c_name c) (c_verbosity c).
  Definition set_kind c k := mkComp (c_type c) k (c_patches c) (c_res_r c) (c_res_s c) (c_resolution c)
    (c_surfaces c) (c_mesh c) (c_curvatures c) (c_clustering c) (c_transformations c) (c_modifier c)
    (c_axis c) (c_append c) (c_ghost c) (c_name c) (c_verbosity c).
  Definition set_name c n := mkComp (c_type c) (c_kind c) (c_patches c) (c_res_r c) (c_res_s c) (c_resolution c)
    (c_surfaces c) (c_mesh c) (c_curvatures c) (c_clustering c) (c_transformations c) (c_modifier c)
    (c_axis c) (c_append c) (c_ghost c) n (c_verbosity c).

  (** computations on the heap *)
  Definition M (A : Type) := heap -> heap * res A.
  Definition ret {A} (a : A) : M A := fun h => (h, Ok a).
  Definition throw {A} (e : exn) : M A := fun h => (h, Raise e).
  Definition bindM {A B} (m : M A) (k : A -> M B) : M B := fun h =>
    match m h with (h', Ok a) => k a h' | (h', Raise e) => (h', Raise e) end.
  Definition lift {A} (r : res A) : M A := fun h => (h, r).
  Fixpoint iterM {A} (f : A -> M unit) (l : list A) : M unit :=
    match l with [] => ret tt | a :: l' => bindM (f a) (fun _ => iterM f l') end.

  (* A reference that is not in the heap cannot arise in Python; RuntimeError
     stands for it. *)
  Definition get_comp (i : nat) : M comp := fun h =>
    match nth_error (comps h) i with Some c => (h, Ok c) | None => (h, Raise RuntimeError) end.
  Definition put_comp (i : nat) (c : comp) : M unit := fun h =>
    (mkHeap (dicts h) (list_set (comps h) i c), Ok tt).
  Definition get_dict (r : nat) : M patches := fun h =>
    match nth_error (dicts h) r with Some d => (h, Ok d) | None => (h, Raise RuntimeError) end.
  Definition put_dict (r : nat) (d : patches) : M unit := fun h =>
    (mkHeap (list_set (dicts h) r d) (comps h), Ok tt).
  Definition new_dict (d : patches) : M nat := fun h =>
    (mkHeap (dicts h ++ [d]) (comps h), Ok (List.length (dicts h))).

  (** in-place change of self.patches *)
  Definition on_patches (f : comp -> patches -> patches) (i : nat) : M unit :=
    bindM (get_comp i) (fun c =>
    bindM (get_dict (c_patches c)) (fun d => put_dict (c_patches c) (f c d))).

  (** self.patches = d *)
  Definition rebind_patches (i : nat) (d : patches) : M unit :=
    bindM (get_comp i) (fun c =>
    bindM (new_dict d) (fun r => put_comp i (set_patches c r))).

  (* component.py:208-231, 174-183 *)
  Definition comp_rotate (angle : T) (axis : string) := on_patches (fun _ => rotate_patches angle axis).
  Definition comp_translate (f : tfun T) := on_patches (fun _ => translate_patches f).
  Definition comp_apply_modifier := on_patches (fun c => modify_patches (c_modifier c)).
  Definition comp_curve := on_patches (fun c => curve_patches (c_curvatures c)).

  (* component.py:233-249 -- reflect: with append_reflection the dictionary is
     updated in place, otherwise the attribute is bound to a new dictionary *)
  Definition comp_reflect (axis : option string) (i : nat) : M unit :=
    bindM (get_comp i) (fun c =>
    bindM (get_dict (c_patches c)) (fun d =>
    let d' := reflect_patches (c_axis c) (c_append c) axis d in
    match c_axis c, axis with
    | None, None => ret tt
    | _, _ => if c_append c then put_dict (c_patches c) d' else rebind_patches i d'
    end)).

  (* getattr(component, name)(args): vehicle.py:297-298, component.py:224-226.
     The methods that act on patches are modelled; any other name raises
     AttributeError here, although in Python other attributes (surface,
     stl_check, ...) could be named. *)
  Definition call_method (t : transformation) (i : nat) : M unit :=
    let '(name, args) := t in
    if String.eqb name "rotate" then
      match args with
      | [] => comp_rotate n0 "y" i
      | [ANum a] => comp_rotate a "y" i
      | [ANum a; AStr ax] => comp_rotate a ax i
      | _ => throw TypeError
      end
    else if String.eqb name "translate" then
      match args with
      | [AVec v] => comp_translate (const_offset v) i
      | [AFun f] => comp_translate f i
      | _ => throw TypeError
      end
    else if String.eqb name "reflect" then
      match args with
      | [] => comp_reflect None i
      | [AStr ax] => comp_reflect (Some ax) i
      | _ => throw TypeError
      end
    else if String.eqb name "curve" then
      match args with [] => comp_curve i | _ => throw TypeError end
    else if String.eqb name "apply_modifier" then
      match args with [] => comp_apply_modifier i | _ => throw TypeError end
    else throw AttributeError.

  (* component.py:223-226 -- transform *)
  Definition comp_transform (i : nat) : M unit :=
    bindM (get_comp i) (fun c => iterM (fun t => call_method t i) (c_transformations c)).

  (* generate_patches of the classes other than CompositeComponent *)
  Definition generate_own (i : nat) : M unit :=
    bindM (get_comp i) (fun c =>
    match c_kind c with
    | Own replaces gen =>
        bindM (lift gen) (fun g =>
        let '(d, rr, rs) := g in
        bindM (put_comp i (set_res c (dupdate (c_res_r c) rr) (dupdate (c_res_s c) rs))) (fun _ =>
        if replaces then rebind_patches i d
        else on_patches (fun _ old => dupdate old d) i))
    | Composite _ => throw RuntimeError
    end).

  Definition patches_of (i : nat) : M patches :=
    bindM (get_comp i) (fun c => get_dict (c_patches c)).
  Fixpoint all_patches (l : list nat) : M (list patches) :=
    match l with
    | [] => ret []
    | i :: l' => bindM (patches_of i) (fun d => bindM (all_patches l') (fun ds => ret (d :: ds)))
    end.

  (* composite.py:121-132 -- generate_patches.  A composite inside a composite
     cannot be added (composite_add below), so children are generated with
     generate_own. *)
  Definition generate_patches (i : nat) : M unit :=
    bindM (get_comp i) (fun c =>
    match c_kind c with
    | Own _ _ => generate_own i
    | Composite children =>
        bindM (iterM generate_own children) (fun _ =>
        bindM (all_patches children) (fun ds => rebind_patches i (merged_patches ds)))
    end).

  (* component.py:259-306 -- surface: self.surfaces is bound to an empty
     dictionary before the patches are meshed *)
  Definition comp_surface (resolution : option resolution) (i : nat) : M unit :=
    bindM (get_comp i) (fun c =>
    bindM (get_dict (c_patches c)) (fun d =>
    match d with
    | [] => throw GenericError
    | _ =>
        let r := match resolution with Some r => r | None => c_resolution c end in
        bindM (lift (case_list d r (c_res_r c) (c_res_s c))) (fun cases =>
        bindM (put_comp i (set_cache c (Some []) (c_mesh c))) (fun _ =>
        bindM (lift (mapM (fun cs => let '(k, u, a, b) := cs in
                                     let! m := mesh_patch (c_clustering c) u a b in Ok (k, m)) cases)) (fun results =>
        put_comp i (set_cache c (Some (dupdate [] results)) (c_mesh c)))))
    end)).

  (* component.py:185-202 -- mesh.  A Mesh is false when it has no triangles;
     np.concatenate of an empty list raises ValueError. *)
  Definition comp_mesh (i : nat) : M mesh :=
    bindM (get_comp i) (fun c =>
    match c_mesh c with
    | Some (t :: m) => ret (t :: m)
    | _ =>
        bindM (match c_surfaces c with None => comp_surface None i | Some _ => ret tt end) (fun _ =>
        bindM (get_comp i) (fun c =>
        match c_surfaces c with
        | None | Some [] => throw ValueError
        | Some s => let m := concat_surfaces s in
                    bindM (put_comp i (set_cache c (c_surfaces c) (Some m))) (fun _ => ret m)
        end))
    end).

  (* component.py:160-172 -- copy.copy and copy.deepcopy: the reference of the
     new component.  Deep copies of composites (which copy the children) are
     in M_Copies.v. *)
  Definition new_comp (c : comp) : M nat := fun h =>
    (mkHeap (dicts h) (comps h ++ [c]), Ok (List.length (comps h))).
  Definition copy_comp (i : nat) : M nat := bindM (get_comp i) new_comp.
  Definition deepcopy_comp (i : nat) : M nat :=
    bindM (get_comp i) (fun c =>
    match c_kind c with
    | Composite _ => throw NotImplementedError
    | Own _ _ =>
        bindM (get_dict (c_patches c)) (fun d =>
        bindM (new_dict d) (fun r => new_comp (set_patches c r)))
    end).

  (** ** vehicles *)

  (* vehicle.py:24-48; analysis attributes are in M_Inertia.v *)
  Record vehicle := mkVehicle {
    v_components : list nat;
    v_name : string;
    v_angle : T;
    v_verbosity : Z;
    v_generated : bool;
    v_counts : dict nat;
    v_enumerated : dict nat;
    v_named : dict nat;
    v_transformations : list transformation
  }.
  Definition new_vehicle : vehicle := mkVehicle [] "vehicle" n0 1%Z false [] [] [] [].

  (* vehicle.py:16-22 with components/constants.py *)
  Definition allowable : list string := ["fin"; "wing"; "swept"; "revolved"; "composite"].
  (* composite.py:27-34 *)
  Definition composite_allowable : list string := ["fin"; "wing"; "swept"; "revolved"; "sphere"; "cube"].
  Definition str_in (s : string) (l : list string) : bool := existsb (String.eqb s) l.

  (** keyword arguments of add_component, except the component itself *)
  Record add_args := mkAdd {
    a_name : option string;
    a_axis : option string;
    a_append : bool;
    a_curvatures : option (list (curvature (T := T)));
    a_clustering : option (clustering T);
    a_transformations : option (list transformation);
    a_modifier : option (tfun T);
    a_ghost : bool
  }.
  Definition default_add : add_args := mkAdd None None true None None None None false.

  Definition or_else {A} (o : option A) (d : A) : A := match o with Some a => a | None => d end.
  Definition over {A} (new old : option A) : option A := match new with Some _ => new | None => old end.

  (* component.py:357-362 -- add_clustering_options *)
  Definition add_clustering (old new : clustering T) : clustering T :=
    mkClustering (over (cl_i new) (cl_i old)) (over (cl_j new) (cl_j old)).

  (* vehicle.py:135-166 -- options stored on the component *)
  Definition with_options (verbosity : Z) (a : add_args) (c : comp) : comp :=
    mkComp (c_type c) (c_kind c) (c_patches c) (c_res_r c) (c_res_s c) (c_resolution c)
      (c_surfaces c) (c_mesh c)
      (over (a_curvatures a) (c_curvatures c))
      (match a_clustering a with Some k => add_clustering (c_clustering c) k | None => c_clustering c end)
      (or_else (a_transformations a) (c_transformations c))
      (over (a_modifier a) (c_modifier c))
      (over (a_axis a) (c_axis c))
      (match a_axis a with Some _ => a_append a | None => c_append c end)
      (a_ghost a)
      (over (a_name a) (c_name c))
      (if Z.eqb verbosity 0 then 0%Z else Z.max (c_verbosity c) verbosity).

  (* f"{componenttype}_{count}" *)
  Definition enum_name (t : string) (n : nat) : string := t ++ "_" ++ str_nat n.

  (* vehicle.py:73-198 -- add_component *)
  Definition add_component (v : vehicle) (i : nat) (a : add_args) : heap -> heap * vehicle * res unit := fun h =>
    match nth_error (comps h) i with
    | None => (h, v, Raise RuntimeError)
    | Some c =>
        if str_in (c_type c) allowable then
          let c' := with_options (v_verbosity v) a c in
          let count := or_else (dget (v_counts v) (c_type c)) 0 + 1 in
          let name := match a_name a with
                      | Some n => n
                      | None => if truthy (c_name c) then or_else (c_name c) "" else enum_name (c_type c) count
                      end in
          (mkHeap (dicts h) (list_set (comps h) i c'),
           mkVehicle (v_components v ++ [i]) (v_name v) (v_angle v) (v_verbosity v) (v_generated v)
             (dset (v_counts v) (c_type c) count)
             (dset (v_enumerated v) (enum_name (c_type c) count) i)
             (dset (v_named v) name i) (v_transformations v),
           Ok tt)
        else (h, v, Raise GenericError)
    end.

  (* composite.py:51-119 -- CompositeComponent.add_component on the composite j:
     no name, modifier or ghost; clustering replaces *)
  Definition composite_add (j i : nat) (a : add_args) : M unit :=
    bindM (get_comp j) (fun p =>
    bindM (get_comp i) (fun c =>
    match c_kind p with
    | Own _ _ => throw AttributeError
    | Composite children =>
        if str_in (c_type c) composite_allowable then
          let a' := mkAdd None (a_axis a) (a_append a) (a_curvatures a) None (a_transformations a) None (c_ghost c) in
          let c' := with_options (c_verbosity p) a' c in
          let c'' := match a_clustering a with
                     | Some k => mkComp (c_type c') (c_kind c') (c_patches c') (c_res_r c') (c_res_s c')
                         (c_resolution c') (c_surfaces c') (c_mesh c') (c_curvatures c') k
                         (c_transformations c') (c_modifier c') (c_axis c') (c_append c') (c_ghost c') (c_name c')
                         (c_verbosity c')
                     | None => c' end in
          bindM (put_comp i c'') (fun _ =>
          bindM (get_comp j) (fun p => put_comp j (set_kind p (Composite (children ++ [i])))))
        else throw GenericError
    end)).

  (* vehicle.py:284-302 -- transform (list form) *)
  Definition reset_cache (i : nat) : M unit :=
    bindM (get_comp i) (fun c => put_comp i (set_cache c None None)).
  Definition transform_comp (ts : list transformation) (i : nat) : M unit :=
    bindM (iterM (fun t => call_method t i) ts) (fun _ => reset_cache i).
  Definition transform_vehicle (v : vehicle) (ts : list transformation) : M unit :=
    if v_generated v then iterM (transform_comp ts) (v_components v) else throw GenericError.

  (* vehicle.py:245-267, in the list form *)
  Definition add_vehicle_transformations (v : vehicle) (ts : list transformation) : vehicle :=
    mkVehicle (v_components v) (v_name v) (v_angle v) (v_verbosity v) (v_generated v) (v_counts v)
      (v_enumerated v) (v_named v) (v_transformations v ++ ts).

  (* vehicle.py:265-266, 290-292 -- isinstance(transformations, tuple) *)
  Inductive transformations := ATuple (t : transformation) | AList (ts : list transformation).
  Definition coerced (a : transformations) : list transformation :=
    match a with ATuple t => [t] | AList ts => ts end.

  (* vehicle.py:206-227 -- one component *)
  Definition generate_component (angle : T) (i : nat) : M unit :=
    bindM (generate_patches i) (fun _ =>
    bindM (comp_apply_modifier i) (fun _ =>
    bindM (comp_curve i) (fun _ =>
    bindM (comp_rotate angle "y" i) (fun _ =>
    bindM (comp_reflect None i) (fun _ => comp_transform i))))).

  Definition mark_generated (v : vehicle) : vehicle :=
    mkVehicle (v_components v) (v_name v) (v_angle v) (v_verbosity v) true (v_counts v)
      (v_enumerated v) (v_named v) (v_transformations v).

  (* vehicle.py:200-243 -- generate, without analysis on generation *)
  Definition generate (v : vehicle) : heap -> heap * vehicle * res unit := fun h =>
    match iterM (generate_component (v_angle v)) (v_components v) h with
    | (h, Raise e) => (h, v, Raise e)
    | (h, Ok _) =>
        let v := mark_generated v in
        match v_transformations v with
        | [] => (h, v, Ok tt)
        | ts => let '(h, r) := transform_vehicle v ts h in (h, v, r)
        end
    end.

  (** ** writing STL files; a file system is a dictionary of meshes *)

  (* vehicle.py:330-350 -- file name of a component; [no] counts the components
     of the same type so far *)
  Definition stl_name (v : vehicle) (prefix : option string) (c : comp) (no : nat) : string :=
    if truthy prefix then
      if truthy (c_name c) then or_else prefix "" ++ "-" ++ or_else (c_name c) "" ++ ".stl"
      else or_else prefix "" ++ "-" ++ c_type c ++ "-" ++ str_nat no ++ ".stl"
    else if truthy (c_name c) then or_else (c_name c) "" ++ ".stl"
    else v_name v ++ "-" ++ c_type c ++ "-" ++ str_nat no ++ ".stl".

  (* component.py:314-331 *)
  Definition write_comp (name : string) (i : nat) (h : heap) (fs : dict mesh) : heap * dict mesh * res unit :=
    match nth_error (comps h) i with
    | None => (h, fs, Raise RuntimeError)
    | Some c =>
        if c_ghost c then (h, fs, Ok tt) else
        match comp_mesh i h with
        | (h, Ok m) => (h, dset fs name m, Ok tt)
        | (h, Raise e) => (h, fs, Raise e)
        end
    end.

  Fixpoint write_all (v : vehicle) (prefix : option string) (l : list nat) (types : dict nat)
           (h : heap) (fs : dict mesh) : heap * dict mesh * res unit :=
    match l with
    | [] => (h, fs, Ok tt)
    | i :: l' =>
        match nth_error (comps h) i with
        | None => (h, fs, Raise RuntimeError)
        | Some c =>
            let no := or_else (dget types (c_type c)) 0 in
            match write_comp (stl_name v prefix c no) i h fs with
            | (h, fs, Ok _) => write_all v prefix l' (dset types (c_type c) (no + 1)) h fs
            | (h, fs, Raise e) => (h, fs, Raise e)
            end
        end
    end.
  (* vehicle.py:304-354 -- to_stl(prefix) up to the STL files; the analysis and
     property files are in M_Output *)
  Definition to_stl (v : vehicle) (prefix : option string) (h : heap) (fs : dict mesh) :=
    write_all v prefix (v_components v) [] h fs.

  (* vehicle.py:409-416 -- with merge=True: the files passed to merge_stls *)
  Definition merge_requests (v : vehicle) (h : heap) : list string :=
    flat_map (fun kc => match nth_error (comps h) (snd kc) with
                        | Some c => if c_ghost c then [] else [fst kc ++ ".stl"]
                        | None => []
                        end) (v_named v).
End Vehicle.
Arguments comp T : clear implicits.
Arguments heap T : clear implicits.
Arguments vehicle T : clear implicits.
Arguments kind T : clear implicits.
Arguments arg T : clear implicits.
Arguments transformation T : clear implicits.
Arguments transformations T : clear implicits.
Arguments add_args T : clear implicits.
