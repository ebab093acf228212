(** Parts with any options, clustering functions and vehicle transformations. *)
From Coq Require Import String Reals Lra ZArith List Permutation Lia Bool.
From Verif Require Import Num NumR Py M_Vector SpecR3 M_Path M_Surface M_Geometry M_Mesh M_Component M_Stl M_Common M_Wing M_Fin M_Vehicle M_VecHeap M_Sens M_Gen M_Hangar M_Htv M_X43
  SpecPath SpecPoly SpecSurf SpecMesh SpecComp SpecVehicle SpecAdd SpecPrism SpecHangar SpecWing SpecFin SpecPair SpecHtv SpecFiles SpecHalf SpecCluster
  L_Vector L_Line L_Polyline L_Coons L_Curves L_Wing L_Fin L_Component L_Mesh L_Heap L_Volume L_Rigid L_Reflect L_Pipeline L_Generate L_Cache L_Closed L_Cluster L_Edges L_Prism L_Block L_Hangar L_Pair L_Htv L_Parts L_Parts2 L_Parts3 P_Component P_Vehicle P_Htv P_Closed.
From Verif Require Import M_Wing.
Import ListNotations.
Local Open Scope R_scope.

(** ** clustering as a change of parameters *)
Definition spaced (gi gj : R -> R) (g : dict (surf R)) : dict (surf R) := dmap (fun u r s => u (gi r) (gj s)) g.
Lemma evenly_spaced g : spaced (fun t => t) (fun t => t) g = g.
Proof. unfold spaced, dmap. rewrite <- (map_id g) at 2. apply map_ext. intros [k u]. reflexivity. Qed.
Lemma spaced_mesh f gi gj n g :
  flat_map (patch_grid n) (map (fun v r s => v (gi r) (gj s)) (map (fun u r s => f (u r s)) (values_of (dvals g)))) = moved_grid f n (spaced gi gj g).
Proof. unfold moved_grid, spaced, values_of, dvals, dmap. rewrite !map_map. reflexivity. Qed.
Lemma spaced_length f gi gj n g : length (moved_grid f n (spaced gi gj g)) = (length g * (4 * (S n * S n)))%nat.
Proof. rewrite moved_length. unfold spaced, dmap. rewrite map_length. reflexivity. Qed.
(** a body of revolution with clustering, under any map *)
Lemma turned_spaced F line g n gi gj : evaluates01 line g -> keeps_ends gi -> keeps_ends gj ->
  vy (g 0) = 0 -> vz (g 0) = 0 -> vy (g 1) = 0 -> vz (g 1) = 0 -> watertight (moved_grid F n (spaced gi gj (revolved_patches line))).
Proof.
  intros H Ki Kj Y0 Z0 Y1 Z1. apply closed_moved.
  assert (Pi : places (Some (fun t => Ok (gi t))) gi) by (intros t _; reflexivity).
  assert (Pj : places (Some (fun t => Ok (gj t))) gj) by (intros t _; reflexivity).
  destruct (revolved_clustered line g n _ _ gi gj H Pi Pj Ki Kj Y0 Z0 Y1 Z1) as (m & Em & W).
  destruct (revolved_grid n line g H) as [_ Sq]. pose proof (values_of_ok _ Sq) as V.
  rewrite (dict_clustered _ _ gi gj _ _ n [] [] Pi Pj Ki Kj (proj1 (revolved_fine line)) ltac:(discriminate) V) in Em. apply ok_inj in Em. subst m.
  rewrite <- moved_id, <- spaced_mesh. erewrite map_ext with (l := map _ _); [|reflexivity]. rewrite map_map. exact W.
Qed.
Lemma spaced_corner F n gi gj (g : dict (surf R)) key u r s p : In (key, u) g -> keeps_ends gi -> keeps_ends gj ->
  (r = 0 \/ r = 1) -> (s = 0 \/ s = 1) -> u r s = Ok p -> vertex_of (moved_grid F n (spaced gi gj g)) (F p).
Proof.
  intros I (I0 & I1 & _) (J0 & J1 & _) Hr Hs E.
  assert (N0 : INR 0 / INR (S n) = 0) by (cbn [INR]; unfold Rdiv; ring).
  assert (N1 : INR (S n) / INR (S n) = 1) by (field; apply not_0_INR; lia).
  apply (node_moved F n (spaced gi gj g) key (fun r s => u (gi r) (gj s)) (if Req_EM_T r 0 then 0 else S n) (if Req_EM_T s 0 then 0 else S n)).
  - apply (in_map (fun kv => (fst kv, fun r s => snd kv (gi r) (gj s))) g (key, u) I).
  - destruct (Req_EM_T r 0); lia.
  - destruct (Req_EM_T s 0); lia.
  - rewrite <- E. destruct Hr as [-> | ->], Hs as [-> | ->]; repeat match goal with |- context [Req_EM_T ?a ?b] => destruct (Req_EM_T a b); try lra end; rewrite ?N0, ?N1, ?I0, ?I1, ?J0, ?J1; reflexivity.
Qed.

(** ** wings whose thickness is given over their planform only *)
Lemma chord_moved_on F bisect (w : wing R) d g ft lo hi n : (forall p, vy p = 0 -> vy (F p) = 0) ->
  wing_patches bisect w = Ok d -> evaluates (w_line w) g -> g 0 = w_B0 w ->
  vertical_on lo hi (w_top w) ft -> lo <= vx (w_A0 w) <= hi -> lo <= vx (w_A1 w) <= hi ->
  vy (w_A0 w) = 0 -> vy (w_A1 w) = 0 -> exists e, In e (mesh_edges (moved_grid F n d)) /\ in_plane "y" e.
Proof.
  intros HF E V G0 VT L0 L1 Y0 Y1.
  destruct (root_chord bisect w d g lo hi ft E V G0 VT L0 L1) as (u & rest & -> & Hu).
  unfold moved_grid. cbn [dvals map snd values_of flat_map].
  set (v := fun r s => F match u r s with Ok p => p | Raise _ => origin end).
  destruct (south_edge n v) as (e & Ie & He). exists e. split; [unfold mesh_edges; rewrite flat_map_app; apply in_or_app; left; exact Ie|].
  assert (X : forall i, (i <= S n)%nat -> on_plane "y" (grid_of n v i 0)).
  { intros i Hi. unfold grid_of, v. replace (INR 0 / INR (S n)) with 0 by (cbn [INR]; unfold Rdiv; ring).
    destruct (Hu (INR i / INR (S n))) as [z Ez]; [apply ratio01; lia|]. rewrite Ez.
    match goal with |- on_plane _ (F ?p) => assert (Z : vy (F p) = 0) by (apply HF; unfold lerp; cbn; rewrite Y0, Y1; ring); revert Z; generalize (F p) end.
    intros p Z. unfold on_plane, SpecSurf.coord, inner. cbn. rewrite Z. ring. }
  unfold in_plane. destruct He as [[-> ->]|[-> ->]]; split; apply X; lia.
Qed.
(** moving the mesh of a half and its mirror image together does not hide the
    edges in the plane *)
Lemma reflected_open_moved (A : pt -> pt) axis (m : list (tri R)) e : is_axis axis -> In e (mesh_edges m) -> in_plane axis e ->
  let whole := map_mesh A (m ++ map_mesh (reflect (axis_vec axis)) m) in stl_check whole (mesh_normals whole) false true = Ok false.
Proof.
  intros B I [P1 P2] whole. destruct (C45_decides whole) as (b & EB & HB).
  rewrite EB. f_equal. destruct b; [exfalso|reflexivity]. destruct (proj1 HB eq_refl) as [ND _]. clear HB EB.
  unfold whole in ND. rewrite map_mesh_edges, mesh_edges_app, map_mesh_edges in ND. apply NoDup_map_inv in ND.
  assert (I2 : In e (map (fun e => (reflect (axis_vec axis) (fst e), reflect (axis_vec axis) (snd e))) (mesh_edges m))).
  { apply in_map_iff. exists e. split; [|exact I]. rewrite !L_Half.reflect_fix by assumption. destruct e; reflexivity. }
  destruct (in_split _ _ I) as (l1 & l2 & S1). rewrite S1 in ND at 1. rewrite <- app_assoc in ND. cbn [app] in ND.
  apply NoDup_remove_2 in ND. apply ND. apply in_or_app. right. apply in_or_app. right. exact I2.
Qed.

(** ** vehicles of parts with any options *)
Definition routes_of (p : plan) (angle : R) (more : list motion) (f f2 : pt -> pt) : Prop :=
  motion_total (before_reflection p angle ++ after_reflection p more) f /\
  forall axis, p_axis p = Some axis -> motion_total (before_reflection p angle ++ mirrored_in axis :: after_reflection p more) f2.
Definition entered_with (h : heap R) (ds : list (dict (surf R))) (cs : list (comp R)) (k : nat) (g : dict (surf R)) (n : nat) (p : plan) (gi gj : R -> R) : Prop :=
  exists c b ci cj, nth_error cs k = Some c /\ c_kind c = Own b (Ok (g, [], [])) /\ fine_keys (dkeys g) /\ g <> [] /\ (forall u, In u (dvals g) -> on_square u) /\
    (b = true \/ exists d, c_patches c = (length (dicts h) + d)%nat /\ nth_error ds d = Some []) /\ planned c p /\ plan_ok p /\
    c_mesh c = None /\ c_surfaces c = None /\ c_resolution c = ResInt (S n) /\ c_clustering c = mkClustering ci cj /\
    places ci gi /\ places cj gj /\ keeps_ends gi /\ keeps_ends gj.
Theorem options_generate (v : vehicle R) h ds cs ks more (part : nat -> dict (surf R)) (res : nat -> nat) (pl : nat -> plan) (gi gj : nat -> R -> R) (f f2 : nat -> pt -> pt) :
  separate (ext h ds cs) -> v_components v = map (fun k => length (comps h) + k)%nat ks -> NoDup ks -> v_transformations v = map written more -> Forall motion_ok more ->
  (forall k, In k ks -> entered_with h ds cs k (part k) (res k) (pl k) (gi k) (gj k)) -> (forall k, In k ks -> routes_of (pl k) (v_angle v) more (f k) (f2 k)) ->
  exists h2, generate v (ext h ds cs) = (h2, mark_generated v, Ok tt) /\ length (comps h2) = (length (comps h) + length cs)%nat /\
    (forall k c, nth_error cs k = Some c -> ghost_at h2 (length (comps h) + k) = c_ghost c /\ type_at h2 (length (comps h) + k) = c_type c /\ tag_at h2 (length (comps h) + k) = c_name c) /\
    forall k, In k ks -> mesh_of h2 (length (comps h) + k) = Ok (planned_mesh (pl k) (f k) (f2 k) (res k) (spaced (gi k) (gj k) (part k))).
Proof.
  intros SP VC NDk VT OM H HM. set (C := length (comps h)) in *. set (h1 := ext h ds cs) in *.
  assert (NE : forall k, nth_error (comps h1) (C + k) = nth_error cs k) by (intros k; unfold h1, ext, C; cbn [comps]; apply nth_ext).
  assert (RD : forall k, In k ks -> ready h1 (C + k) (part k) (pl k)).
  { intros k Hk. destruct (H k Hk) as (c & b & ci & cj & E & K & F & _ & _ & D & P & O & _). unfold h1, C. eapply own_ready; eauto. }
  assert (ND : NoDup (flat_map (with_children h1) (v_components v))).
  { rewrite VC. clear - NDk H NE. induction NDk as [|k l N _ IH]; [constructor|]. cbn [map flat_map].
    destruct (H k (or_introl eq_refl)) as (c & b & ci & cj & E & K & _). unfold with_children at 1. rewrite NE, E, K. cbn [app]. constructor.
    - intros I. apply in_flat_map in I as (j & Hj & I). apply in_map_iff in Hj as (k' & <- & Hk').
      destruct (H k' (or_intror Hk')) as (c' & b' & ci' & cj' & E' & K' & _). unfold with_children in I. rewrite NE, E', K' in I. destruct I as [I|[]].
      assert (k' = k) by lia. subst. contradiction.
    - apply IH. intros k' Hk'. apply H. right. exact Hk'. }
  assert (RD' : forall i, In i (v_components v) -> exists g p, ready h1 i g p).
  { intros i Hi. rewrite VC in Hi. apply in_map_iff in Hi as (k & <- & Hk). eexists _, _. exact (RD k Hk). }
  destruct (generated_meshes v h1 more SP ND RD' VT OM) as (h2 & A & LN & SO & _).
  destruct (generated_mesh v h1 more SP ND RD' VT OM) as (h2' & A' & Q). rewrite A in A'. injection A' as <-.
  exists h2. split; [exact A|]. split; [rewrite LN; unfold h1, ext, C; cbn [comps]; apply app_length|]. split.
  - intros k c E. rewrite <- NE in E. destruct (SO _ _ E) as (c' & E' & S). destruct (so_inv _ _ S) as (O1 & _ & _ & _ & _ & _ & _ & _ & _ & O2 & O3).
    unfold ghost_at, type_at, tag_at. rewrite E', O1, O2, O3. auto.
  - intros k Hk. destruct (H k Hk) as (c & b & ci & cj & E & K & F & NG & Sq & D & P & O & C1 & C2 & C3 & C4 & Pi & Pj & Ki & Kj).
    pose proof (values_of_ok (dvals (part k)) Sq) as V.
    assert (I : In (C + k)%nat (v_components v)) by (rewrite VC; apply in_map_iff; eauto).
    assert (E' : nth_error (comps h1) (C + k) = Some c) by (rewrite NE; exact E).
    destruct (Q _ _ _ _ _ I (RD k Hk) E' C1 C2 C3) as (d & rr & rs & FI & ->). rewrite C4. clear Q.
    destruct (HM k Hk) as [M1 M2]. unfold finished in FI. pose proof (proj1 F) as NDg.
    pose proof (plain_nodup (part k) (proj1 (proj2 (RD k Hk)))) as ND2.
    unfold planned_mesh. destruct (p_axis (pl k)) as [axis|] eqn:AX.
    + specialize (M2 axis eq_refl). destruct (p_append (pl k)).
      * destruct FI as (d1 & d2 & -> & Q1 & Q2).
        rewrite (dict_clustered ci cj (gi k) (gj k) _ (map (fun u r s => f k (u r s)) (values_of (dvals (part k))) ++ map (fun u r s => f2 k (u r s)) (values_of (dvals (part k))))); try assumption.
        -- rewrite map_app, flat_map_app, !spaced_mesh. reflexivity.
        -- unfold dkeys. rewrite map_app. change (map fst d1) with (dkeys d1). change (map fst d2) with (dkeys d2).
           rewrite (L_Hangar.relates_keys _ _ _ _ Q1), (L_Hangar.relates_keys _ _ _ _ Q2). unfold same_key. rewrite map_id. exact ND2.
        -- intros X. apply app_eq_nil in X as [-> _]. inversion Q1. congruence.
        -- unfold dvals. rewrite map_app. apply Forall2_app; [apply (relates_values _ _ _ _ _ _ Q1 M1 V)|apply (relates_values _ _ _ _ _ _ Q2 M2 V)].
      * cbn [app]. rewrite (dict_clustered ci cj (gi k) (gj k) _ (map (fun u r s => f2 k (u r s)) (values_of (dvals (part k))))); try assumption.
        -- rewrite spaced_mesh. reflexivity.
        -- rewrite (L_Hangar.relates_keys _ _ _ _ FI). apply L_Pipeline.NoDup_app_r' in ND2. exact ND2.
        -- intros ->. inversion FI. congruence.
        -- apply (relates_values _ _ _ _ _ _ FI M2 V).
    + rewrite (dict_clustered ci cj (gi k) (gj k) _ (map (fun u r s => f k (u r s)) (values_of (dvals (part k))))); try assumption.
      * rewrite spaced_mesh. reflexivity.
      * rewrite (L_Hangar.relates_keys _ _ _ _ FI). unfold same_key. rewrite map_id. exact NDg.
      * intros ->. inversion FI. congruence.
      * apply (relates_values _ _ _ _ _ _ FI M1 V).
Qed.
Lemma places_none : places None (fun t => t).
Proof. intros t _. reflexivity. Qed.
Lemma keeps_id : keeps_ends (fun t => t).
Proof. split; [reflexivity|]. split; [reflexivity|]. intros t Ht. exact Ht. Qed.
