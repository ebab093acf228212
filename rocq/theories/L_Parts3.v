(** Parts with curvatures: meshes of patches under a map that need not be affine. *)
From Coq Require Import String Reals Lra ZArith List Permutation Lia Bool.
From Verif Require Import Num NumR Py M_Vector SpecR3 M_Path M_Surface M_Geometry M_Mesh M_Component M_Common M_Wing M_Fin M_Vehicle M_VecHeap M_Sens M_Gen M_Hangar M_Htv M_X43
  SpecPath SpecPoly SpecSurf SpecMesh SpecComp SpecVehicle SpecAdd SpecPrism SpecHangar SpecWing SpecFin SpecPair SpecHtv SpecFiles SpecHalf
  L_Vector L_Line L_Polyline L_Coons L_Curves L_Wing L_Fin L_Component L_Mesh L_Heap L_Volume L_Rigid L_Reflect L_Pipeline L_Generate L_Cache L_Closed L_Cluster L_Edges L_Prism L_Block L_Hangar L_Pair L_Htv L_Parts L_Parts2.
Import ListNotations.
Local Open Scope R_scope.

(** ** polylines *)
Lemma segs_evaluate (segs : list (path R)) ls s0 s1 p0 p1 : segs <> [] -> lengths segs ls -> Forall (fun l => 0 < l) ls -> Forall total_path segs ->
  nth_error segs 0 = Some s0 -> nth_error segs (length segs - 1) = Some s1 -> p_call s0 0 = Ok p0 -> p_call s1 1 = Ok p1 ->
  exists q g, Polyline segs = Ok q /\ evaluates q g /\ g 0 = p0 /\ g 1 = p1.
Proof.
  intros Hn Hl Hp Ht E0 E1 P0 P1. pose proof (init_open segs ls (nlit 1 10000000000) Hn Hl) as IO.
  unfold Polyline. rewrite IO. cbn [bind].
  exists (polyline_path (mkPoly segs (breaks ls))), (fun t => match Polyline_call (mkPoly segs (breaks ls)) t with Ok p => p | Raise _ => origin end).
  split; [reflexivity|].
  destruct (polyline_values_all segs ls _ _ Hn Hl Hp Ht IO) as (V0 & V1 & _).
  split; [|split].
  - intros t. cbn [p_call polyline_path].
    destruct (polyline_one_segment segs ls _ _ t Hn Hl Hp Ht IO) as (k & s & _ & _ & Es & E).
    destruct (proj1 (Forall_forall _ _) Ht s (nth_error_In _ _ Es) (local_t (pl_t_values (mkPoly segs (breaks ls))) k t)) as [p Ep].
    rewrite E, Ep. reflexivity.
  - rewrite (V0 s0 E0), P0. reflexivity.
  - rewrite (V1 s1 E1), P1. reflexivity.
Qed.

(** ** meshes of moved patches *)
Definition moved_grid (F : pt -> pt) (n : nat) (g : dict (surf R)) : list (tri R) :=
  flat_map (patch_grid n) (map (fun u r s => F (u r s)) (values_of (dvals g))).
Lemma moved_id n g : moved_grid (fun p => p) n g = wing_grid n g.
Proof. unfold moved_grid, wing_grid. f_equal. rewrite <- (map_id (values_of (dvals g))) at 2. reflexivity. Qed.
Lemma moved_same F G n g : (forall p, F p = G p) -> moved_grid F n g = moved_grid G n g.
Proof.
  intros H. unfold moved_grid. induction (values_of (dvals g)) as [|u l IH]; [reflexivity|]. cbn [map flat_map]. f_equal; [|exact IH].
  apply patch_grid_same. intros r s _ _. apply H.
Qed.
Lemma moved_affine A F n g : affine A -> moved_grid (fun p => A (F p)) n g = map_mesh A (moved_grid F n g).
Proof. intros H. unfold moved_grid. rewrite <- grids_affine by exact H. rewrite map_map. reflexivity. Qed.
Lemma moved_length F n g : length (moved_grid F n g) = (length g * (4 * (S n * S n)))%nat.
Proof.
  unfold moved_grid. rewrite <- (map_length snd g). change (map snd g) with (dvals g). unfold values_of. rewrite map_map.
  induction (dvals g) as [|u l IH]; [reflexivity|]. cbn [map flat_map length]. rewrite app_length, IH. unfold patch_grid. rewrite grid_mesh_length. lia.
Qed.
Lemma outline_moved (F : pt -> pt) n v : outline (grid_of n (fun r s => F (v r s))) (S n) (S n) = map (on_edge F) (outline (grid_of n v) (S n) (S n)).
Proof.
  assert (C : forall (g : nat -> pt) k, chain (fun i => F (g i)) k = map (on_edge F) (chain g k)) by (intros g k; unfold chain; rewrite map_map; reflexivity).
  unfold outline. rewrite !map_app. rewrite <- !flips_on. unfold south_side, east_side, north_side, west_side. rewrite <- !C. reflexivity.
Qed.
(** a closed mesh of patches stays closed when every node is moved by one map *)
Lemma closed_moved F n g : watertight (wing_grid n g) -> watertight (moved_grid F n g).
Proof.
  unfold watertight, moved_grid, wing_grid. rewrite !(reduces_balanced _ _ (flat_reduces n _)). intros H.
  rewrite map_map. erewrite map_ext; [|intros v; apply outline_moved]. rewrite <- (map_map (fun v => outline (grid_of n v) (S n) (S n)) (map (on_edge F))).
  rewrite <- concat_map. apply balanced_on, H.
Qed.
Lemma node_moved F n (g : dict (surf R)) key u i j p : In (key, u) g -> (i <= S n)%nat -> (j <= S n)%nat ->
  u (INR i / INR (S n)) (INR j / INR (S n)) = Ok p -> vertex_of (moved_grid F n g) (F p).
Proof.
  intros I Hi Hj E.
  pose proof (node_vertex n [("x"%string, fun r s => Ok (F match u r s with Ok q => q | Raise _ => origin end))] "x" _ i j (F p) (or_introl eq_refl) Hi Hj) as V.
  cbv beta in V. rewrite E in V. destruct (V eq_refl) as (t & Ht & Hp). exists t. split; [|exact Hp].
  unfold wing_grid in Ht. cbn [dvals map snd values_of flat_map] in Ht. rewrite app_nil_r in Ht.
  unfold moved_grid, values_of, dvals. apply in_flat_map. eexists. split; [|exact Ht]. rewrite !map_map.
  exact (in_map (fun x => fun r s => F match snd x r s with Ok q => q | Raise _ => origin end) _ _ I).
Qed.
(** the root chord of a wing, moved within the plane of symmetry *)
Lemma chord_moved F bisect (w : wing R) d g ft n : (forall p, vy p = 0 -> vy (F p) = 0) ->
  wing_patches bisect w = Ok d -> evaluates (w_line w) g -> g 0 = w_B0 w ->
  vertical (w_top w) ft -> vy (w_A0 w) = 0 -> vy (w_A1 w) = 0 -> exists e, In e (mesh_edges (moved_grid F n d)) /\ in_plane "y" e.
Proof.
  intros HF E V G0 VT Y0 Y1. set (lo := Rmin (vx (w_A0 w)) (vx (w_A1 w))). set (hi := Rmax (vx (w_A0 w)) (vx (w_A1 w))).
  destruct (root_chord bisect w d g lo hi ft E V G0) as (u & rest & -> & Hu).
  - intros x y z _. apply VT.
  - split; [apply Rmin_l|apply Rmax_l].
  - split; [apply Rmin_r|apply Rmax_r].
  - unfold moved_grid. cbn [dvals map snd values_of flat_map].
    set (v := fun r s => F match u r s with Ok p => p | Raise _ => origin end).
    destruct (south_edge n v) as (e & Ie & He). exists e. split; [unfold mesh_edges; rewrite flat_map_app; apply in_or_app; left; exact Ie|].
    assert (X : forall i, (i <= S n)%nat -> on_plane "y" (grid_of n v i 0)).
    { intros i Hi. unfold grid_of, v. replace (INR 0 / INR (S n)) with 0 by (cbn [INR]; unfold Rdiv; ring).
      destruct (Hu (INR i / INR (S n))) as [z Ez]; [apply ratio01; lia|]. rewrite Ez.
      match goal with |- on_plane _ (F ?p) => assert (Z : vy (F p) = 0) by (apply HF; unfold lerp; cbn; rewrite Y0, Y1; ring); revert Z; generalize (F p) end.
      intros p Z. unfold on_plane, SpecSurf.coord, inner. cbn. rewrite Z. ring. }
    unfold in_plane. destruct He as [[-> ->]|[-> ->]]; split; apply X; lia.
Qed.

(** ** vehicles of parts with any options whose maps are total *)
Definition planned_mesh (p : plan) (f f2 : pt -> pt) (n : nat) (g : dict (surf R)) : list (tri R) :=
  match p_axis p with
  | None => moved_grid f n g
  | Some _ => (if p_append p then moved_grid f n g else []) ++ moved_grid f2 n g
  end.
Definition maps_of (p : plan) (angle : R) (f f2 : pt -> pt) : Prop :=
  motion_total (before_reflection p angle ++ after_reflection p []) f /\
  forall axis, p_axis p = Some axis -> motion_total (before_reflection p angle ++ mirrored_in axis :: after_reflection p []) f2.
Definition entered (h : heap R) (ds : list (dict (surf R))) (cs : list (comp R)) (k : nat) (g : dict (surf R)) (n : nat) (p : plan) : Prop :=
  exists c b, nth_error cs k = Some c /\ c_kind c = Own b (Ok (g, [], [])) /\ fine_keys (dkeys g) /\ g <> [] /\ (forall u, In u (dvals g) -> on_square u) /\
    (b = true \/ exists d, c_patches c = (length (dicts h) + d)%nat /\ nth_error ds d = Some []) /\ planned c p /\ plan_ok p /\
    c_mesh c = None /\ c_surfaces c = None /\ c_resolution c = ResInt (S n) /\ c_clustering c = no_clustering.
Theorem plans_generate (v : vehicle R) h ds cs ks (part : nat -> dict (surf R)) (res : nat -> nat) (pl : nat -> plan) (f f2 : nat -> pt -> pt) :
  separate (ext h ds cs) -> v_components v = map (fun k => length (comps h) + k)%nat ks -> NoDup ks -> v_transformations v = [] ->
  (forall k, In k ks -> entered h ds cs k (part k) (res k) (pl k)) -> (forall k, In k ks -> maps_of (pl k) (v_angle v) (f k) (f2 k)) ->
  exists h2, generate v (ext h ds cs) = (h2, mark_generated v, Ok tt) /\ length (comps h2) = (length (comps h) + length cs)%nat /\
    (forall k c, nth_error cs k = Some c -> ghost_at h2 (length (comps h) + k) = c_ghost c /\ type_at h2 (length (comps h) + k) = c_type c /\ tag_at h2 (length (comps h) + k) = c_name c) /\
    forall k, In k ks -> mesh_of h2 (length (comps h) + k) = Ok (planned_mesh (pl k) (f k) (f2 k) (res k) (part k)).
Proof.
  intros SP VC NDk VT H HM. set (C := length (comps h)) in *. set (h1 := ext h ds cs) in *.
  assert (NE : forall k, nth_error (comps h1) (C + k) = nth_error cs k) by (intros k; unfold h1, ext, C; cbn [comps]; apply nth_ext).
  assert (RD : forall k, In k ks -> ready h1 (C + k) (part k) (pl k)).
  { intros k Hk. destruct (H k Hk) as (c & b & E & K & F & _ & _ & D & P & O & _). unfold h1, C. eapply own_ready; eauto. }
  assert (UN : forall k, In k ks -> unmeshed h1 (C + k) (res k)).
  { intros k Hk. destruct (H k Hk) as (c & b & E & K & F & _ & _ & D & P & _ & U). exists c. split; [rewrite NE; exact E|exact U]. }
  assert (ND : NoDup (flat_map (with_children h1) (v_components v))).
  { rewrite VC. clear - NDk H NE. induction NDk as [|k l N _ IH]; [constructor|]. cbn [map flat_map].
    destruct (H k (or_introl eq_refl)) as (c & b & E & K & _). unfold with_children at 1. rewrite NE, E, K. cbn [app]. constructor.
    - intros I. apply in_flat_map in I as (j & Hj & I). apply in_map_iff in Hj as (k' & <- & Hk').
      destruct (H k' (or_intror Hk')) as (c' & b' & E' & K' & _). unfold with_children in I. rewrite NE, E', K' in I. destruct I as [I|[]].
      assert (k' = k) by lia. subst. contradiction.
    - apply IH. intros k' Hk'. apply H. right. exact Hk'. }
  assert (RD' : forall i, In i (v_components v) -> exists g p, ready h1 i g p).
  { intros i Hi. rewrite VC in Hi. apply in_map_iff in Hi as (k & <- & Hk). eexists _, _. exact (RD k Hk). }
  destruct (generated_meshes v h1 [] SP ND RD' VT ltac:(constructor)) as (h2 & A & LN & SO & Q).
  pose proof (reflected_meshes v h1 [] SP ND RD' VT ltac:(constructor) h2 A) as RM.
  exists h2. split; [exact A|]. split; [rewrite LN; unfold h1, ext, C; cbn [comps]; apply app_length|]. split.
  - intros k c E. rewrite <- NE in E. destruct (SO _ _ E) as (c' & E' & S). destruct (so_inv _ _ S) as (O1 & _ & _ & _ & _ & _ & _ & _ & _ & O2 & O3).
    unfold ghost_at, type_at, tag_at. rewrite E', O1, O2, O3. auto.
  - intros k Hk. destruct (H k Hk) as (c & b & E & K & F & NG & Sq & _). pose proof (values_of_ok (dvals (part k)) Sq) as V.
    assert (I : In (C + k)%nat (v_components v)) by (rewrite VC; apply in_map_iff; eauto).
    pose proof (RD k Hk) as Rk. pose proof (UN k Hk) as Uk. destruct (HM k Hk) as [M1 M2]. unfold planned_mesh. destruct (p_axis (pl k)) as [axis|] eqn:AX.
    + exact (RM _ _ _ _ (values_of (dvals (part k))) axis (f k) (f2 k) I Rk Uk NG V AX M1 (M2 axis eq_refl)).
    + exact (Q _ _ _ _ (values_of (dvals (part k))) (f k) I Rk Uk NG V AX M1).
Qed.
