(** Properties C49-C58, C71, C77: components as objects, composites and
    vehicles (components/component.py, components/composite.py, vehicle.py). *)
From Coq Require Import Reals Lra ZArith String List Lia.
From Verif Require Import Num NumR Py M_Vector SpecR3 M_Path M_Surface M_Geometry M_Mesh M_Component M_Vehicle
  SpecSurf SpecVehicle SpecAdd SpecOptions SpecHistory SpecFiles
  L_Mesh L_Strings L_Component L_Composite L_Heap L_Pipeline L_Generate L_Twice L_Adds L_Options L_Cache L_VehOps L_Files L_Merge L_Children L_Copies.
Import ListNotations.
Local Open Scope R_scope.

(** ** an example: a wing with an appended reflection, a fin that is a ghost,
    a cube, and a composite of two swept parts *)
Definition sheet (z : R) : surf R := fun r s => Ok (V3 r s z).
Definition part (t : string) (replaces : bool) (g : dict (surf R)) (r : nat) (axis name : option string) (ghost : bool) : comp R :=
  mkComp t (Own replaces (Ok (g, [], []))) r [] [] (ResInt 2) None None None no_clustering
    [written (Slide (V3 1 0 0))] None axis true ghost name 1.
Definition pair_of (l : list nat) (r : nat) : comp R :=
  mkComp "composite" (Composite l) r [] [] (ResInt 2) None None None no_clustering [] None None true false None 1.
Definition wing_patches : dict (surf R) := [("top"%string, sheet 1); ("bottom"%string, sheet 0)].
Definition garage : heap R := mkHeap [[]; []; []; []; []; []]
  [part "wing" false wing_patches 0 (Some "y"%string) None false;
   part "fin" true [("f"%string, sheet 2)] 1 None (Some "tail"%string) true;
   part "cube" false [("c"%string, sheet 3)] 2 None None false;
   part "swept" false [("s"%string, sheet 4)] 3 None None false;
   part "swept" false [("s"%string, sheet 5)] 4 None None false;
   pair_of [3; 4]%nat 5].
Definition named (s : string) : add_args R := mkAdd (Some s) None true None None None None false.

Lemma separate_by (h : heap R) l : map c_patches (comps h) = l -> NoDup l -> Forall (fun r => r < length (dicts h))%nat l -> separate h.
Proof.
  intros <- ND FA. split.
  - intros j Hj. unfold patches_at. apply nth_error_Some in Hj. destruct (nth_error (comps h) j) as [c|] eqn:E; [|congruence].
    apply nth_error_Some. rewrite Forall_forall in FA. apply FA, in_map. eapply nth_error_In, E.
  - intros j k c c' Hj Hk NE EQ. apply NE. rewrite NoDup_nth_error in ND. apply ND.
    + rewrite map_length. eapply nth_some_lt, Hj.
    + rewrite !nth_error_map, Hj, Hk. cbn. congruence.
Qed.

(** C49: bookkeeping of add_component, for every history of calls *)
Theorem C49_bookkeeping {T} {N : Num T} calls (h : heap T) :
  let v := snd (adds new_vehicle calls h) in
  v_components v = map fst (accepted h calls) /\
  (forall t, or_else (dget (v_counts v) t) 0%nat = length (of_type h t calls)) /\
  (forall t, of_type h t calls = [] -> dget (v_counts v) t = None) /\
  (forall t k, dget (v_enumerated v) (t ++ "_" ++ str_nat (S k))%string = nth_error (of_type h t calls) k) /\
  NoDup (dkeys (v_enumerated v)) /\ length (v_enumerated v) = length (accepted h calls).
Proof. exact (adds_all calls h). Qed.
Theorem C49_rejects {T} {N : Num T} (v : vehicle T) i a (h : heap T) c : nth_error (comps h) i = Some c -> accepts (c_type c) = false ->
  add_component v i a h = (h, v, Raise GenericError).
Proof. exact (add_rejects v i a h c). Qed.
Example C49_meets : let calls := [(0, default_add); (2, default_add); (1, named "t"); (0, default_add)]%nat in
  let v := snd (adds new_vehicle calls garage) in
  v_components v = [0; 1; 0]%nat /\ dget (v_counts v) "wing" = Some 2%nat /\ dget (v_enumerated v) "wing_2" = Some 0%nat.
Proof. repeat split. Qed.

(** C49: the options of a component after any history of calls *)
Theorem C49_options {T} {N : Num T} (v : vehicle T) calls (h : heap T) i c : nth_error (comps h) i = Some c ->
  dicts (fst (adds v calls h)) = dicts h /\ length (comps (fst (adds v calls h))) = length (comps h) /\
  exists c', nth_error (comps (fst (adds v calls h))) i = Some c' /\
    configured (v_verbosity v) (given_to i (accepted h calls)) c c'.
Proof. exact (adds_options calls v h i c). Qed.
Example C49_options_meets :
  let a := mkAdd (Some "w"%string) (Some "x"%string) false None (Some (mkClustering None (Some (fun x => Ok x)))) None None true in
  let b := mkAdd None None true None (Some (mkClustering (Some (fun x => Ok x)) None)) (Some []) None false in
  let c := nth_error (comps (fst (adds new_vehicle [(0, a); (1, a); (0, b)]%nat garage))) 0 in
  option_map c_axis c = Some (Some "x"%string) /\ option_map c_append c = Some false /\
  option_map c_transformations c = Some [] /\ option_map c_name c = Some (Some "w"%string) /\
  option_map c_ghost c = Some false /\
  option_map (fun c => (cl_i (c_clustering c), cl_j (c_clustering c))) c = Some (Some (fun x => Ok x), Some (fun x => Ok x)).
Proof. repeat split. Qed.

(** C50: the name table, for every history of calls *)
Theorem C50_last_wins {T} {N : Num T} calls (h : heap T) :
  let v := snd (adds new_vehicle calls h) in
  (forall s, dget (v_named v) s = last_named (given_names h calls) s) /\
  (length (v_named v) = length (v_components v) <-> NoDup (map fst (given_names h calls))) /\
  map snd (given_names h calls) = v_components v.
Proof. exact (named_all calls h). Qed.
Theorem C50_default_names_distinct {T} {N : Num T} calls (h : heap T) :
  (forall ia, In ia calls -> a_name (snd ia) = None /\ tag_at h (fst ia) = None) ->
  NoDup (map fst (given_names h calls)).
Proof. exact (unnamed_distinct calls h). Qed.
Example C50_meets :
  let calls := [(0, named "a"); (1, named "a"); (3, default_add); (4, default_add)]%nat in
  given_names garage calls = [("a", 0); ("a", 1); ("swept_1", 3); ("swept_2", 4)]%nat%string /\
  dget (v_named (snd (adds new_vehicle calls garage))) "a" = Some 1%nat /\
  given_names garage [(3, default_add); (4, default_add)]%nat = [("swept_1", 3); ("swept_2", 4)]%nat%string.
Proof. repeat split. Qed.

(** C51: the documented pipeline, for every vehicle *)
Theorem C51_pipeline (v : vehicle R) h more : separate h ->
  NoDup (flat_map (with_children h) (v_components v)) ->
  (forall i, In i (v_components v) -> exists g p, ready h i g p) ->
  v_transformations v = map written more -> Forall motion_ok more ->
  exists h', generate v h = (h', mark_generated v, Ok tt) /\ separate h' /\
    (forall i g p, In i (v_components v) -> ready h i g p ->
       exists d, patches_at h' i = Some d /\ finished p (v_angle v) more g d) /\
    (forall j, ~ In j (flat_map (with_children h) (v_components v)) -> patches_at h' j = patches_at h j).
Proof. exact (generate_pipeline v h more). Qed.
Definition wing_plan : plan := mkPlan None [] (Some "y"%string) true [Slide (V3 1 0 0)].
Lemma garage_separate : separate garage.
Proof.
  eapply separate_by; [reflexivity| |]; cbn; repeat constructor; cbn; intuition discriminate.
Qed.
Lemma garage_wing : ready garage 0 wing_patches wing_plan.
Proof.
  split; [|split; [|split]].
  - left. eexists _, false, [], []. split; [reflexivity|]. split; [reflexivity|]. split; [|right; reflexivity].
    repeat constructor; cbn; intuition discriminate.
  - split; [repeat constructor; cbn; intuition discriminate|]. intros k [<-|[<-|[]]]; cbn; intuition discriminate.
  - split; [intros a E; injection E as <-; right; left; reflexivity|]. repeat constructor.
  - eexists. split; [reflexivity|]. repeat split. right. auto.
Qed.
Lemma garage_pair : exists g, ready garage 5 g (mkPlan None [] None true []).
Proof.
  eexists. split; [|split; [|split]].
  - right. eexists _, [3; 4]%nat, [[("s"%string, sheet 4)]; [("s"%string, sheet 5)]]. split; [reflexivity|]. split; [reflexivity|].
    split; [|reflexivity]. repeat constructor; eexists _, false, [], []; (split; [reflexivity|]; split; [reflexivity|]; split; [|right; reflexivity]);
    repeat constructor; cbn; intuition discriminate.
  - split; [cbn; repeat constructor; cbn; intuition discriminate|]. intros k [<-|[<-|[]]]; cbn; intuition discriminate.
  - split; [discriminate|constructor].
  - eexists. split; [reflexivity|]. repeat split. right. auto.
Qed.
Example C51_meets : exists v : vehicle R, v_components v = [0; 5]%nat /\ separate garage /\
  NoDup (flat_map (with_children garage) (v_components v)) /\
  (forall i, In i (v_components v) -> exists g p, ready garage i g p).
Proof.
  exists (mkVehicle [0; 5]%nat "v" 3 1 false [] [] [] []). split; [reflexivity|]. split; [exact garage_separate|]. split.
  - cbn. repeat constructor; cbn; intuition discriminate.
  - intros i [<-|[<-|[]]]; [exists wing_patches, wing_plan; exact garage_wing|].
    destruct garage_pair as [g H]. exists g, (mkPlan None [] None true []). exact H.
Qed.

(** C52: a second generate() *)
Theorem C52_twice (v : vehicle R) h more : separate h ->
  NoDup (flat_map (with_children h) (v_components v)) ->
  (forall i, In i (v_components v) -> exists g p, ready h i g p) ->
  v_transformations v = map written more -> Forall motion_ok more ->
  exists h1 h2, generate v h = (h1, mark_generated v, Ok tt) /\ generate (mark_generated v) h1 = (h2, mark_generated v, Ok tt) /\
    forall i g p, In i (v_components v) -> ready h i g p ->
      exists d1 d2, patches_at h1 i = Some d1 /\ patches_at h2 i = Some d2 /\
        (p_axis p = None \/ ~ writes_in_place h i -> d2 = d1) /\
        (forall axis, p_axis p = Some axis -> writes_in_place h i -> keys_apart g ->
           let F := in_order (before_reflection p (v_angle v) ++ mirrored_in axis :: after_reflection p more) in
           if p_append p then exists e1 e2 extra, d1 = e1 ++ e2 /\ d2 = d1 ++ extra /\
              dkeys e2 = map mirror_key (dkeys g) /\ relates mirror_key F e2 extra
           else exists extra, d2 = extra ++ d1 /\ relates mirror_key F d1 extra).
Proof. exact (generate_twice v h more). Qed.
Example C52_meets : p_axis wing_plan = Some "y"%string /\ writes_in_place garage 0 /\ keys_apart wing_patches /\ ready garage 0 wing_patches wing_plan.
Proof.
  split; [reflexivity|]. split; [eexists _, _; split; reflexivity|]. split; [|exact garage_wing].
  unfold keys_apart. cbn. repeat constructor; cbn; intuition discriminate.
Qed.

(** C53: meshes are cached, whatever happens to the patches afterwards *)
Theorem C53_stale {T} {N : Num T} l (h h' : heap T) i t m : comp_mesh i h = (h', Ok (t :: m)) ->
  comp_mesh i (run_ops l h') = (run_ops l h', Ok (t :: m)).
Proof. intros H. destruct (mesh_stored i h h' _ H) as (c & E & K). exact (stale_mesh l h' i c t m E K). Qed.
(** C53: but Vehicle.transform makes the next mesh a new one *)
Theorem C53_refreshed {T} {N : Num T} (v : vehicle T) ts (h h' : heap T) i c d : transform_vehicle v ts h = (h', Ok tt) -> In i (v_components v) ->
  nth_error (comps h') i = Some c -> nth_error (dicts h') (c_patches c) = Some d ->
  snd (comp_mesh i h') = fresh_mesh d (c_resolution c) (c_res_r c) (c_res_s c) (c_clustering c).
Proof. intros H I E F. exact (transform_refreshes v ts h h' i c d H I (view_intro h' i c d E F)). Qed.
(** a component that has patches already *)
Definition hangar : heap R := mkHeap [[("s"%string, sheet 4)]; []] [part "swept" false [("s"%string, sheet 4)] 0 None None false; part "swept" false [("s"%string, fun _ _ => Raise ZeroDivisionError)] 1 None None false].
Lemma hangar_mesh : exists t m, snd (comp_mesh 0 hangar) = Ok (t :: m).
Proof.
  erewrite (fresh_comp_mesh 0 hangar) by reflexivity.
  destruct (mesh_patch01 (sheet 4) (fun r s => V3 r s 4) 1) as (m & E & _); [reflexivity|].
  assert (L : m <> []).
  { pose proof (mesh_patch_default (sheet 4) 1 1 (fun i j => V3 (INR i / INR 2) (INR j / INR 2) 4)) as D.
    rewrite E in D. specialize (D ltac:(reflexivity)). injection D as ->. discriminate. }
  destruct m as [|t m]; [congruence|]. exists t, m.
  cbn [c_resolution c_clustering part c_res_r c_res_s].
  erewrite (fresh_mesh_int [("s"%string, sheet 4)] 2 [] [] no_clustering [t :: m]); [cbn; rewrite app_nil_r; reflexivity|discriminate| |constructor; [exact E|constructor]].
  repeat constructor. intros [].
Qed.
Example C53_meets : exists h' t m, comp_mesh 0 hangar = (h', Ok (t :: m)).
Proof.
  destruct hangar_mesh as (t & m & E). destruct (comp_mesh 0 hangar) as [h' r] eqn:EH. cbn in E. subst r. exists h', t, m. reflexivity.
Qed.
Example C53_meets_refreshed : exists v ts h', transform_vehicle v ts hangar = (h', Ok tt) /\ In 0%nat (v_components v) /\ ts <> [].
Proof.
  exists (mark_generated (mkVehicle [0%nat] "v" 3 1 false [] [] [] [])), [written (Slide (V3 1 2 3))].
  eexists. split; [reflexivity|]. split; [left; reflexivity|discriminate].
Qed.

(** C77: a failed attempt to mesh a component makes all later attempts fail,
    whatever happens to its patches, until its caches are reset *)
Theorem C77_sticky_failure {T} {N : Num T} (h h' : heap T) i c d e :
  nth_error (comps h) i = Some c -> nth_error (dicts h) (c_patches c) = Some d ->
  c_mesh c = None -> c_surfaces c = None -> d <> [] ->
  is_ok (case_list d (c_resolution c) (c_res_r c) (c_res_s c)) ->
  comp_mesh i h = (h', Raise e) ->
  forall l, comp_mesh i (run_ops l h') = (run_ops l h', Raise ValueError).
Proof. intros E F. exact (failed_mesh i h c d e h' (view_intro h i c d E F)). Qed.
Example C77_meets : let h := fst (generate_patches 1 hangar) in exists h', comp_mesh 1 h = (h', Raise ZeroDivisionError).
Proof. eexists. reflexivity. Qed.

(** C54: before generate() has completed, transform() is refused *)
Theorem C54_refused {T} {N : Num T} l (h h' : heap T) (v : vehicle T) tr : history l (h, new_vehicle) = (tr, (h', v)) ->
  (forall s0 r, In (Generate, s0, r) tr -> r <> Ok tt /\ v_transformations (snd s0) = []) ->
  forall a, run (Transform a) (h', v) = (h', v, Raise GenericError).
Proof. exact (transform_refused l h h' v tr). Qed.
(** C54: afterwards it is never refused, and moves every patch of every
    component, also of components added later (whose patches may be empty) *)
Theorem C54_applies l (h h' : heap R) (v : vehicle R) tr s0 ms : history l (h, new_vehicle) = (tr, (h', v)) ->
  In (Generate, s0, Ok tt) tr -> separate h' -> NoDup (v_components v) ->
  (forall i, In i (v_components v) -> i < length (comps h'))%nat -> Forall motion_ok ms ->
  exists h'', run (Transform (AList (map written ms))) (h', v) = (h'', v, Ok tt) /\
    (forall i, ~ In i (v_components v) -> patches_at h'' i = patches_at h' i) /\
    (forall i d, In i (v_components v) -> patches_at h' i = Some d ->
       exists d', patches_at h'' i = Some d' /\ relates same_key (in_order (map motion_map ms)) d d').
Proof. exact (transform_applies l h h' v tr s0 ms). Qed.
Theorem C54_tuple {T} {N : Num T} t (s : heap T * vehicle T) :
  run (Transform (ATuple t)) s = run (Transform (AList [t])) s /\ run (Queue (ATuple t)) s = run (Queue (AList [t])) s.
Proof. split; reflexivity. Qed.
Example C54_meets : exists h' v tr, history [Add 0 default_add; Transform (ATuple (written (Slide (V3 1 0 0))))] (garage, new_vehicle) = (tr, (h', v)) /\
  (forall s0 r, In (Generate, s0, r) tr -> r <> Ok tt /\ v_transformations (snd s0) = []).
Proof. eexists _, _, _. split; [reflexivity|]. intros s0 r [H|[H|[]]]; discriminate. Qed.
Example C54_meets_applies : exists h' v tr s0, history [Add 0 default_add; Generate; Add 1 default_add] (garage, new_vehicle) = (tr, (h', v)) /\
  In (Generate, s0, Ok tt) tr /\ separate h' /\ v_components v = [0; 1]%nat /\ patches_at h' 1 = Some [].
Proof.
  eexists _, _, _, _. split; [reflexivity|]. split; [right; left; reflexivity|]. split; [|split; reflexivity].
  eapply separate_by; [reflexivity| |]; cbn; repeat constructor; cbn; intuition discriminate.
Qed.

(** C55: to_stl writes exactly the documented files; of two components with the
    same file name the later one wins *)
Theorem C55_files {T} {N : Num T} (v : vehicle T) prefix (h : heap T) fs0 :
  (forall i, In i (v_components v) -> (i < length (comps h))%nat) ->
  (forall i, In i (v_components v) -> ghost_at h i = false -> is_ok (mesh_of h i)) ->
  exists h' fs, to_stl v prefix h fs0 = (h', fs, Ok tt) /\
    forall s, match last_named (files v prefix h [] (v_components v)) s with
              | Some i => exists m, mesh_of h i = Ok m /\ dget fs s = Some m
              | None => dget fs s = dget fs0 s
              end.
Proof. exact (to_stl_writes v prefix h fs0). Qed.
(** C55: if a component cannot be meshed, the files before it are written and
    the others are not *)
Theorem C55_stops {T} {N : Num T} (v : vehicle T) prefix (h : heap T) fs0 i0 :
  (forall i, In i (v_components v) -> (i < length (comps h))%nat) ->
  In i0 (v_components v) -> ghost_at h i0 = false -> ~ is_ok (mesh_of h i0) ->
  exists done f i rest e h' fs, files v prefix h [] (v_components v) = (done ++ (f, i) :: rest)%list /\
    (forall g j, In (g, j) done -> is_ok (mesh_of h j)) /\ mesh_of h i = Raise e /\
    to_stl v prefix h fs0 = (h', fs, Raise e) /\
    forall s, match last_named done s with
              | Some i => exists m, mesh_of h i = Ok m /\ dget fs s = Some m
              | None => dget fs s = dget fs0 s
              end.
Proof. exact (to_stl_stops v prefix h fs0 i0). Qed.
(** C55: components without name tags get different files *)
Theorem C55_untagged_distinct {T} {N : Num T} (v : vehicle T) prefix (h : heap T) l :
  (forall i, In i l -> text (tag_at h i) = None) -> NoDup (map fst (files v prefix h [] l)).
Proof. exact (untagged_files v prefix h l). Qed.
Example C55_meets : exists v : vehicle R, v_components v = [0]%nat /\ is_ok (mesh_of hangar 0) /\
  files v (Some "p"%string) hangar [] (v_components v) = [("p-swept-0.stl"%string, 0%nat)].
Proof.
  exists (mkVehicle [0%nat] "v" 3 1 false [] [] [] []). split; [reflexivity|]. split; [|reflexivity].
  destruct hangar_mesh as (t & m & E). exists (t :: m). exact E.
Qed.
(** a ghost has no file but counts *)
Example C55_ghosts : let h := fst (adds new_vehicle [(3, mkAdd None None true None None None None true); (4, default_add)]%nat garage) in
  files (mkVehicle [3; 4]%nat "v" 3 1 false [] [] [] []) None h [] [3; 4]%nat = [("v-swept-1.stl"%string, 4%nat)].
Proof. reflexivity. Qed.

(** C56: merge=True asks only for files that were written iff no prefix is
    given and all components with files carry name tags *)
Theorem C56_merge_iff {T} {N : Num T} calls (h : heap T) prefix : let '(h', v) := adds new_vehicle calls h in
  NoDup (v_components v) -> NoDup (map fst (given_names h calls)) ->
  (exists i, In i (v_components v) /\ ghost_at h' i = false) ->
  ((forall f, In f (merge_requests v h') -> In f (map fst (files v prefix h' [] (v_components v)))) <->
   (text prefix = None /\ forall i, In i (v_components v) -> ghost_at h' i = false -> text (tag_at h' i) <> None)).
Proof. exact (merge_iff calls h prefix). Qed.
Example C56_meets : let calls := [(0, default_add); (3, named "body")]%nat in
  let '(h', v) := adds new_vehicle calls garage in
  v_components v = [0; 3]%nat /\ map fst (given_names garage calls) = ["wing_1"; "body"]%string /\ ghost_at h' 0 = false /\
  merge_requests v h' = ["wing_1.stl"; "body.stl"]%string /\
  map fst (files v None h' [] (v_components v)) = ["vehicle-wing-0.stl"; "body.stl"]%string.
Proof. repeat split. Qed.

(** C57: the patches of a composite are exactly those of its children *)
Theorem C57_merged (h : heap R) i c children gs : separate h -> NoDup (with_children h i) ->
  nth_error (comps h) i = Some c -> c_kind c = Composite children -> Forall2 (builds_own h) children gs ->
  exists h' d, generate_patches i h = (h', Ok tt) /\ patches_at h' i = Some d /\
    length d = fold_right Nat.add 0%nat (map (@length _) gs) /\
    (forall k ix u, dget d (k ++ "_" ++ str_nat ix)%string = Some u <-> exists g, nth_error gs ix = Some g /\ dget g k = Some u) /\
    (forall s, In s (dkeys d) -> exists k ix g, s = (k ++ "_" ++ str_nat ix)%string /\ nth_error gs ix = Some g /\ In k (dkeys g)).
Proof. exact (composite_patches h i c children gs). Qed.
Example C57_meets : separate garage /\ NoDup (with_children garage 5) /\
  Forall2 (builds_own garage) [3; 4]%nat [[("s"%string, sheet 4)]; [("s"%string, sheet 5)]].
Proof.
  split; [exact garage_separate|]. split; [cbn; repeat constructor; cbn; intuition discriminate|].
  repeat constructor; eexists _, false, [], []; (split; [reflexivity|]; split; [reflexivity|]; split; [|right; reflexivity]);
    repeat constructor; cbn; intuition discriminate.
Qed.

(** C57: the children are those of the accepted classes, in the order added *)
Theorem C57_children {T} {N : Num T} j l (h : heap T) p ch : nth_error (comps h) j = Some p -> c_kind p = Composite ch ->
  c_type p = "composite"%string ->
  nth_error (comps (add_children j l h)) j = Some (set_kind p (Composite (ch ++ map fst (fitting h l)))).
Proof. intros Ej EK ET. apply (children_all l j h p ch Ej EK ET). Qed.
(** C57: anything else, in particular a composite, is refused *)
Theorem C57_rejects {T} {N : Num T} j i a (h : heap T) p ch : nth_error (comps h) j = Some p -> c_kind p = Composite ch ->
  (i < length (comps h))%nat -> fits (type_at h i) = false -> composite_add j i a h = (h, Raise GenericError).
Proof.
  intros Ej EK L F. destruct (child_no j i a h p ch Ej EK F) as (e & E & G). rewrite E, G by exact L. reflexivity.
Qed.
Example C57_children_meets :
  option_map c_kind (nth_error (comps (add_children 5 [(2, default_add); (5, default_add); (0, default_add)]%nat garage)) 5)
    = Some (Composite [3; 4; 2; 0]%nat) /\ fits (type_at garage 5) = false.
Proof. repeat split. Qed.

(** C58: options given for the children of a composite are stored on them *)
Theorem C58_stored {T} {N : Num T} j l (h : heap T) p ch i c : nth_error (comps h) j = Some p -> c_kind p = Composite ch ->
  c_type p = "composite"%string -> i <> j -> nth_error (comps h) i = Some c ->
  exists c', nth_error (comps (add_children j l h)) i = Some c' /\ child_configured (given_to i (fitting h l)) c c'.
Proof. intros Ej EK ET. apply (children_all l j h p ch Ej EK ET). Qed.
(** C58: but they change nothing *)
Theorem C58_ignored {T} {N : Num T} j (l l' : list (nat * add_args T)) (h : heap T) c angle :
  map fst l' = map fst l -> nth_error (comps h) j = Some c -> c_type c = "composite"%string ->
  let r1 := generate_component angle j (add_children j l h) in
  let r2 := generate_component angle j (add_children j l' h) in
  snd r2 = snd r1 /\ dicts (fst r2) = dicts (fst r1) /\ nth_error (comps (fst r2)) j = nth_error (comps (fst r1)) j.
Proof. exact (child_options_ignored j l l' h c angle). Qed.
Definition many_options : add_args R := mkAdd None (Some "x"%string) true (Some [written_bend (mkBend true (fun _ _ => Ok 1) (fun _ _ => Ok 2))])
  None (Some [written (Slide (V3 9 9 9))]) None false.
Example C58_meets : let r := generate_component 0 5 (add_children 5 [(0, many_options)]%nat garage) in
  snd r = Ok tt /\ option_map (@length _) (patches_at (fst r) 5) = Some 4%nat /\
  option_map c_axis (nth_error (comps (fst r)) 0) = Some (Some "x"%string).
Proof. repeat split. Qed.

(** C71: moving a shallow copy moves the original *)
Theorem C71_shallow_shares (h : heap R) i c d ms : nth_error (comps h) i = Some c -> patches_at h i = Some d -> Forall motion_ok ms ->
  exists h1 j h2 d', copy_comp i h = (h1, Ok j) /\ j <> i /\
    iterM (fun t => call_method t j) (map written ms) h1 = (h2, Ok tt) /\
    patches_at h2 j = Some d' /\ patches_at h2 i = Some d' /\ relates same_key (in_order (map motion_map ms)) d d'.
Proof. exact (shallow_moves h i c d ms). Qed.
(** C71: unless the copy is first reflected without appending *)
Theorem C71_shallow_reflected (h : heap R) i c d axis ms : separate h -> nth_error (comps h) i = Some c -> patches_at h i = Some d ->
  c_append c = false -> c_axis c = None \/ c_axis c = Some axis ->
  exists h1 j h2 h3, copy_comp i h = (h1, Ok j) /\ call_method ("reflect"%string, [AStr axis]) j h1 = (h2, Ok tt) /\
    iterM (fun t => call_method t j) (map written ms) h2 = (h3, Ok tt) /\ separate h3 /\ patches_at h3 i = Some d.
Proof. exact (shallow_reflects h i c d axis ms). Qed.
(** C71: a deep copy and the original are independent *)
Theorem C71_deep_independent (h : heap R) i c d g r : separate h -> nth_error (comps h) i = Some c -> patches_at h i = Some d -> c_kind c = Own r g ->
  exists h1 j, deepcopy_comp i h = (h1, Ok j) /\ j <> i /\ separate h1 /\ patches_at h1 j = Some d /\ patches_at h1 i = Some d /\
    forall l, patches_at (call_all j l h1) i = Some d /\ nth_error (comps (call_all j l h1)) i = Some c /\
              patches_at (call_all i l h1) j = Some d.
Proof. exact (deep_independent h i c d g r). Qed.
Example C71_meets : exists c d r g, separate hangar /\ nth_error (comps hangar) 0 = Some c /\ patches_at hangar 0 = Some d /\ d <> [] /\ c_kind c = Own r g.
Proof.
  eexists _, _, _, _. split; [|split; [reflexivity|split; [reflexivity|split; [discriminate|reflexivity]]]].
  eapply separate_by; [reflexivity| |]; cbn; repeat constructor; cbn; intuition discriminate.
Qed.

Print Assumptions C49_options. Print Assumptions C57_children. Print Assumptions C57_rejects. Print Assumptions C58_stored.
Print Assumptions C49_bookkeeping. Print Assumptions C49_rejects. Print Assumptions C50_last_wins.
Print Assumptions C50_default_names_distinct. Print Assumptions C51_pipeline. Print Assumptions C52_twice.
Print Assumptions C53_stale. Print Assumptions C53_refreshed. Print Assumptions C77_sticky_failure.
Print Assumptions C54_refused. Print Assumptions C54_applies. Print Assumptions C54_tuple.
Print Assumptions C55_files. Print Assumptions C55_stops. Print Assumptions C55_untagged_distinct.
Print Assumptions C56_merge_iff. Print Assumptions C57_merged. Print Assumptions C58_ignored.
Print Assumptions C71_shallow_shares. Print Assumptions C71_shallow_reflected. Print Assumptions C71_deep_independent.
