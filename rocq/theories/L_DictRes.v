(** Dictionary resolutions; swept components with one section; degenerate edges. *)
From Coq Require Import Reals Lra ZArith String List Permutation Lia Bool.
From Verif Require Import Num NumR Py M_Vector SpecR3 M_Path M_Surface M_Geometry M_Mesh M_Component M_Stl
  SpecPath SpecPoly SpecSurf SpecMesh SpecComp L_Vector L_Spline L_Rigid L_Roberts L_Swept L_Edges L_Mesh
  L_Volume L_Component L_SweptComp L_CubeMesh L_RevolvedComp L_Reflect L_Stl.
Import ListNotations.
Local Open Scope R_scope.

(** the number of triangles given to each patch *)
Definition patch_count (d : dict nat) (k : string) : nat :=
  match dget d k with Some a => (4 * a * a)%nat | None => 0%nat end.
Definition total (l : list nat) : nat := fold_right Nat.add 0%nat l.

Lemma mesh_patch_length (u : surf R) a b m : mesh_patch no_clustering u a b = Ok m -> length m = (4 * a * b)%nat.
Proof.
  unfold mesh_patch, no_clustering. cbn [cl_i cl_j]. intros H.
  destruct a as [|a]; [rewrite surfce_zero_i in H; discriminate|].
  destruct b as [|b].
  { destruct (vertex_list_none a (n1 : R) 0) as (rs & Er & _); [lia|].
    rewrite (surfce_zero_j u false (S a) n1 n1 None rs Er) in H. discriminate. }
  apply surfce_grid in H as (rs & ss & P & _ & _ & _ & ->). apply grid_mesh_length.
Qed.
Lemma dict_res_length (d : dict (surf R)) x rr rs m : NoDup (dkeys d) ->
  fresh_mesh d (ResDict x) rr rs no_clustering = Ok m ->
  length m = total (map (patch_count rr) (dkeys d)).
Proof.
  intros ND H. unfold fresh_mesh, component_surface in H. destruct d as [|kp d]; [discriminate|].
  set (dd := kp :: d) in *. clearbody dd. clear kp d.
  destruct (case_list _ _ _ _) as [cs|] eqn:Ec in H; [|discriminate]. cbn [bind] in H.
  destruct (mapM _ cs) as [r|] eqn:Er; [|discriminate]. cbn [bind] in H. injection H as <-.
  assert (K : dkeys r = dkeys dd /\ length (concat (dvals r)) = total (map (patch_count rr) (dkeys dd))).
  { cbn [case_list] in Ec. apply mapM_inv in Ec. apply mapM_inv in Er. clear ND. revert r Er.
    induction Ec as [|[k u] [[[k' u'] a] b] dd cs E _ IH]; intros r Er; inversion Er as [|? y ? r' E2 Er']; subst; [split; reflexivity|].
    destruct (IH r' Er') as [I1 I2]. cbn [fst snd] in E. unfold dlookup in E.
    destruct (dget rr k) as [c|] eqn:Ek; cbn [bind] in E; [|discriminate]. injection E as <- <- <- <-.
    destruct (mesh_patch no_clustering u c c) as [mm|] eqn:Em; cbn [bind] in E2; [|discriminate]. injection E2 as <-.
    cbn [dkeys dvals map fst snd concat total fold_right]. split; [f_equal; exact I1|].
    rewrite app_length. change (map snd r') with (dvals r'). rewrite I2, (mesh_patch_length _ _ _ _ Em).
    unfold patch_count at 2. rewrite Ek. reflexivity. }
  destruct K as [K1 K2]. rewrite dupdate_nil by (rewrite K1; exact ND). exact K2.
Qed.

(** one cross section: the sweep needs a second one *)
Lemma single_edge_raises (e : path R) s r : r <> 0 -> 0 <= r -> SweptPatchfromEdges [e] r s = Raise IndexError.
Proof.
  intros H0 H. unfold SweptPatchfromEdges. cbn [length np_linspace first_index]. numR.
  replace (Reqb 0 r) with false by (symmetry; apply Reqb_false; lra).
  unfold ngtb. numR. replace (Rltb r 0) with false by (symmetry; apply Rltb_false; lra). reflexivity.
Qed.
Lemma single_section (cs : list (path R)) close k rr l n : (0 < k)%nat ->
  swept_patches [cs] k close rr = Ok l ->
  ~ is_ok (fresh_mesh (sized_patches l) (ResInt (S n)) (sized_res_r l) (sized_res_s l) no_clustering).
Proof.
  intros Hk H. unfold swept_patches in H. destruct k as [|k]; [lia|].
  destruct (mapM (swept_side [cs] rr) (seq 0 (S k))) as [sides|] eqn:E; [|discriminate]. cbn [bind] in H.
  apply mapM_inv in E. cbn [seq] in E. inversion E as [|? x ? sides' E1 _]; subst.
  unfold swept_side in E1. cbn [mapM] in E1. destruct (py_nth cs 0) as [e|] eqn:Ee; cbn [bind] in E1; [|discriminate].
  destruct (swept_res rr "sweep" _) as [q|]; cbn [bind] in E1; [|discriminate]. injection E1 as <-.
  assert (I : In ("swept_patch_0"%string, SweptPatchfromEdges [e]) (sized_patches l)).
  { destruct close.
    - destruct (swept_end_0 _ _); cbn [bind] in H; [|discriminate].
      destruct (swept_end_1 _ _); cbn [bind] in H; [|discriminate]. injection H as <-. left. reflexivity.
    - injection H as <-. left. reflexivity. }
  destruct (mesh_patch no_clustering (SweptPatchfromEdges [e]) (S n) (S n)) as [m|x] eqn:Em.
  - exfalso. revert Em. apply not_eq_sym. intros Em. symmetry in Em.
    refine (surfce_raise (SweptPatchfromEdges [e]) false n n 1 1 (S n) 0 IndexError _ _ _ _); [lia|lia| |exists m; exact Em].
    rewrite vertex_last. apply single_edge_raises; lra.
  - apply (fresh_mesh_int_raise _ _ _ _ _ _ _ _ I Em).
Qed.

(** the mesh of a line revolved from a point on the axis has an edge of length zero *)
Lemma revolved_degenerate line g n : evaluates01 line g -> vy (g 0) = 0 -> vz (g 0) = 0 ->
  exists mesh, fresh_mesh (revolved_patches line) (ResInt (S n)) [] [] no_clustering = Ok mesh /\
    In (g 0, g 0) (mesh_edges mesh) /\ stl_check mesh (mesh_normals mesh) false true = Ok false.
Proof.
  intros E Hy Hz. destruct (revolved_mesh line g n E) as (ms & A & B).
  exists (concat ms). split; [apply (revolved_fresh line g n ms A E)|].
  assert (I : In (g 0, g 0) (mesh_edges (concat ms))).
  { cbn [seq map] in B. inversion B as [|mm ? ms' ? E1 _]; subst.
    set (Q := grid_of n (rev_val g 0)) in *. cbn [concat]. rewrite mesh_edges_app. apply in_or_app. left.
    unfold mesh_edges. apply in_flat_map.
    set (C := fun i j => mean4 (Q i j) (Q (S i) j) (Q i (S j)) (Q (S i) (S j))).
    exists (cell_tri Q C 0 0 3). split.
    - rewrite <- (grid_mesh_nth Q C (S n) (S n) 0 0 3 (cell_tri Q C 0 0 3)) by lia. apply nth_In.
      rewrite grid_mesh_length. lia.
    - unfold tri_edges. left. cbn [cell_tri t0 t1 at_corner corner fst snd].
      unfold cell_tri. cbn [t0 t1 at_corner corner fst snd]. unfold at_corner. cbn [fst snd].
      unfold Q, grid_of, rev_val. rewrite ratio_0, !turn_axis by auto. reflexivity. }
  split; [exact I|]. apply (stl_check_degenerate _ _ I). reflexivity.
Qed.

(** swept components: dictionary resolutions, and open sweeps *)
Lemma swept_side_inv sections r e x : swept_side sections r e = Ok x ->
  exists u a b, x = ("swept_patch_" ++ str_nat e, u, a, b)%string /\
    swept_res r "sweep" ("e" ++ str_nat e) = Ok (a, b).
Proof.
  unfold swept_side. destruct (mapM _ sections) as [es|]; cbn [bind]; [|discriminate].
  destruct (swept_res r _ _) as [[a b]|]; cbn [bind]; [|discriminate]. intros H. injection H as <-. eauto 6.
Qed.
Lemma bindE {A B} (x : res A) (f : A -> res B) b : bind x f = Ok b -> exists a, x = Ok a /\ f a = Ok b.
Proof. destruct x; cbn [bind]; [eauto|discriminate]. Qed.
Lemma swept_end_inv sections r : 
  (forall x, swept_end_0 sections r = Ok x -> exists u a b, x = ("swept_patch_end_0"%string, u, a, b) /\ swept_res r "e0" "e1" = Ok (a, b)) /\
  (forall x, swept_end_1 sections r = Ok x -> exists u a b, x = ("swept_patch_end_1"%string, u, a, b) /\ swept_res r "e0" "e1" = Ok (a, b)).
Proof.
  split; intros x; [unfold swept_end_0|unfold swept_end_1]; intros H;
  repeat (let y := fresh "y" in apply bindE in H as (y & ? & H)); injection H as <-;
  match goal with K : swept_res _ _ _ = Ok ?y |- _ => destruct y as [a b] end; eauto 6.
Qed.
Lemma swept_dict_count sections d a b l m : dget d "sweep" = Some a -> dget d "e0" = Some b ->
  swept_patches sections 4 true (ResDict d) = Ok l ->
  fresh_mesh (sized_patches l) (ResDict d) (sized_res_r l) (sized_res_s l) no_clustering = Ok m ->
  length m = (16 * (a * a) + 8 * (b * b))%nat.
Proof.
  intros Ha Hb H Hm. unfold swept_patches in H.
  apply bindE in H as (sides & E & H). apply bindE in H as (x0 & E0 & H). apply bindE in H as (x1 & E1 & H).
  injection H as <-. apply swept_end_inv in E0 as (u0 & a0 & b0 & -> & R0). apply swept_end_inv in E1 as (u1 & a1 & b1 & -> & R1).
  assert (A0 : a0 = b /\ a1 = b).
  { cbn [swept_res] in R0, R1. unfold dlookup in R0, R1. rewrite Hb in R0, R1. cbn [bind] in R0, R1.
    apply bindE in R0 as (? & _ & R0). apply bindE in R1 as (? & _ & R1). injection R0 as <- <-. injection R1 as <- <-. auto. }
  destruct A0 as [-> ->].
  assert (K : exists v0 v1 v2 v3 c0 c1 c2 c3, sides =
     [("swept_patch_0", v0, a, c0); ("swept_patch_1", v1, a, c1); ("swept_patch_2", v2, a, c2); ("swept_patch_3", v3, a, c3)]%string).
  { apply mapM_inv in E. cbn [seq] in E.
    repeat match goal with F : Forall2 _ (_ :: _) _ |- _ => inversion F; subst; clear F end.
    match goal with F : Forall2 _ [] _ |- _ => inversion F; subst; clear F end.
    repeat match goal with F : swept_side _ _ _ = Ok _ |- _ =>
      apply swept_side_inv in F as (? & ? & ? & -> & F); cbn [swept_res] in F; unfold dlookup in F; rewrite Ha in F;
      cbn [bind] in F; apply bindE in F as (? & _ & F); injection F as <- <- end.
    cbn. repeat eexists. }
  destruct K as (v0 & v1 & v2 & v3 & c0 & c1 & c2 & c3 & ->).
  apply dict_res_length in Hm.
  - rewrite Hm. cbn. lia.
  - cbn. repeat constructor; cbn; intuition discriminate.
Qed.
Lemma open_patches n sections k : (forall cs, In cs sections -> length cs = n) ->
  is_ok (swept_patches (T := R) sections n false (ResInt k)).
Proof.
  intros H. unfold swept_patches.
  assert (K : is_ok (mapM (swept_side sections (ResInt k)) (seq 0 n))).
  { apply mapM_is_ok, Forall_forall. intros e He. apply in_seq in He. unfold swept_side.
    assert (Q : is_ok (mapM (fun cs => py_nth cs e) sections)).
    { apply mapM_is_ok, Forall_forall. intros cs Hc. unfold py_nth.
      destruct (nth_error cs e) eqn:En; [eexists; reflexivity|]. apply nth_error_None in En. rewrite (H cs Hc) in En. lia. }
    destruct Q as [edges ->]. cbn [bind swept_res]. eexists. reflexivity. }
  destruct K as [l ->]. eexists. reflexivity.
Qed.

(** mirrored meshes, uniform grids, coverage *)
Lemma surfce_mirror u ni nj si sj P :
  (forall i j, (i <= S ni)%nat -> (j <= S nj)%nat ->
     u (vertex (S ni) si i) (vertex (S nj) sj j) = Ok (P i j)) ->
  exists m, surfce_to_stl u (S ni) (S nj) si sj false None None = Ok m /\
    surfce_to_stl u (S ni) (S nj) si sj true None None = Ok (map_mesh (fun p => V3 (vx p) (- vy p) (vz p)) m).
Proof.
  intros H. eexists. split; [apply (surfce_default u false ni nj si sj P H)|].
  rewrite (surfce_default u true ni nj si sj P H). f_equal.
  assert (K : forall (f : pt -> pt) Q C a b, map_mesh f (grid_mesh Q C a b) = grid_mesh (fun i j => f (Q i j)) (fun i j => f (C i j)) a b).
  { intros f Q C a b. unfold map_mesh, grid_mesh. rewrite !flat_map_concat_map, concat_map, map_map. apply f_equal. apply map_ext.
    intros i. rewrite !flat_map_concat_map, concat_map, map_map. apply f_equal. apply map_ext. intros j.
    rewrite map_map. apply map_ext. intros k. reflexivity. }
  rewrite K. apply grid_mesh_ext; intros i j _ _; [reflexivity|].
  unfold mean4, mirY. apply vec_ext; cbn; field.
Qed.
Lemma default_vertex_uniform lb ub n k : (k <= S n)%nat ->
  exists l, default_vertex_func lb ub (S (S n)) 1 = Ok l /\ nth k l 0 = lb + INR k / INR (S n) * (ub - lb).
Proof.
  intros Hk. eexists. split; [apply default_vertex_value|].
  set (f := fun k => lb + vertex (S n) 1 k * (ub - lb)).
  rewrite (nth_indep _ 0 (f 0%nat)) by (rewrite map_length, seq_length; lia).
  rewrite map_nth, seq_nth by lia. unfold f. rewrite vertex_default. reflexivity.
Qed.
Lemma clustering_covers g ni nj :
  (forall x y, 0 <= x -> x < y -> y <= 1 -> g x < g y) -> g 1 = 1 -> (S nj <= S ni)%nat ->
  (g (INR (S nj) / INR (S ni)) = 1 <-> nj = ni).
Proof.
  intros Hg H1 Hn. split.
  - intros H. destruct (Nat.eq_dec nj ni) as [|N]; [auto|exfalso].
    assert (L : INR (S nj) / INR (S ni) < 1).
    { rewrite <- (ratio_1 ni). apply INR_ratio_lt. lia. }
    pose proof (Hg _ 1 (ratio_pos ni (S nj)) L (Rle_refl 1)). lra.
  - intros ->. rewrite ratio_1. exact H1.
Qed.
