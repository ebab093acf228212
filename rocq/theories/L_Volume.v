(** Area and volume of meshes; meshes of mapped patches. *)
From Coq Require Import Reals Lra ZArith String List Permutation Lia.
From Verif Require Import Num NumR Py M_Vector SpecR3 M_Path M_Surface M_Geometry M_Mesh
  SpecPath SpecPoly SpecSurf SpecMesh L_Vector L_Roberts L_Rigid L_Edges L_Mesh.
Import ListNotations.
Local Open Scope R_scope.

(** ** sums over edges *)
Definition esum (f : edge pt -> R) (l : list (edge pt)) : R := fold_right Rplus 0 (map f l).
Lemma esum_app f a b : esum f (a ++ b) = esum f a + esum f b.
Proof. unfold esum. induction a; cbn; [ring|]. rewrite IHa. ring. Qed.
Lemma esum_perm f a b : Permutation a b -> esum f a = esum f b.
Proof. unfold esum. induction 1; cbn in *; lra. Qed.
Lemma esum_flips f a : (forall e, f (flip e) = - f e) -> esum f (flips a) = - esum f a.
Proof. intros H. unfold esum, flips. induction a; cbn; [ring|]. rewrite H, IHa. ring. Qed.
Lemma esum_balanced f a : (forall e, f (flip e) = - f e) -> balanced a -> esum f a = 0.
Proof. intros H B. pose proof (esum_perm f _ _ B) as P. rewrite esum_flips in P by auto. lra. Qed.

Definition asum (m : list (tri R)) (f : tri R -> R) : R := fold_right Rplus 0 (map f m).
Lemma asum_app m m' f : asum (m ++ m') f = asum m f + asum m' f.
Proof. unfold asum. induction m; cbn; [ring|]. rewrite IHm. ring. Qed.
Lemma asum_ext m f g : (forall t, f t = g t) -> asum m f = asum m g.
Proof. intros H. unfold asum. induction m; cbn; rewrite ?H, ?IHm; reflexivity. Qed.
Lemma asum_map m h f : asum (map h m) f = asum m (fun t => f (h t)).
Proof. unfold asum. rewrite map_map. reflexivity. Qed.
Lemma asum_lin m a f b g : asum m (fun t => a * f t + b * g t) = a * asum m f + b * asum m g.
Proof. unfold asum. induction m; cbn; [ring|]. rewrite IHm. ring. Qed.
Lemma asum_scale m a f : asum m (fun t => a * f t) = a * asum m f.
Proof. unfold asum. induction m; cbn; [ring|]. rewrite IHm. ring. Qed.
Lemma asum_edges m (f : edge pt -> R) :
  asum m (fun t => f (t0 t, t1 t) + f (t1 t, t2 t) + f (t2 t, t0 t)) = esum f (mesh_edges m).
Proof.
  unfold asum, esum, mesh_edges. induction m as [|t m IH]; [reflexivity|].
  cbn [map fold_right flat_map tri_edges app]. rewrite IH. ring.
Qed.
Lemma volume_asum m : signed_volume m = asum m vol6 / 6. Proof. reflexivity. Qed.
Lemma net_coord m : net_area m = V3 (asum m (fun t => vx (area_vec t))) (asum m (fun t => vy (area_vec t)))
                                    (asum m (fun t => vz (area_vec t))).
Proof. unfold net_area, sum_vec, asum. induction m; cbn; [reflexivity|]. rewrite IHm. reflexivity. Qed.

Lemma watertight_net_area m : watertight m -> net_area m = origin.
Proof.
  intros W. rewrite net_coord. unfold origin.
  rewrite (asum_ext m _ (fun t => (fun e : edge pt => vx (crossR (fst e) (snd e))) (t0 t, t1 t)
    + (fun e : edge pt => vx (crossR (fst e) (snd e))) (t1 t, t2 t)
    + (fun e : edge pt => vx (crossR (fst e) (snd e))) (t2 t, t0 t)))
    by (intros t; unfold area_vec, crossR, diff; cbn; ring).
  rewrite (asum_edges m (fun e => vx (crossR (fst e) (snd e)))).
  rewrite (asum_ext m (fun t => vy (area_vec t)) (fun t => (fun e : edge pt => vy (crossR (fst e) (snd e))) (t0 t, t1 t)
    + (fun e : edge pt => vy (crossR (fst e) (snd e))) (t1 t, t2 t)
    + (fun e : edge pt => vy (crossR (fst e) (snd e))) (t2 t, t0 t)))
    by (intros t; unfold area_vec, crossR, diff; cbn; ring).
  rewrite (asum_edges m (fun e => vy (crossR (fst e) (snd e)))).
  rewrite (asum_ext m (fun t => vz (area_vec t)) (fun t => (fun e : edge pt => vz (crossR (fst e) (snd e))) (t0 t, t1 t)
    + (fun e : edge pt => vz (crossR (fst e) (snd e))) (t1 t, t2 t)
    + (fun e : edge pt => vz (crossR (fst e) (snd e))) (t2 t, t0 t)))
    by (intros t; unfold area_vec, crossR, diff; cbn; ring).
  rewrite (asum_edges m (fun e => vz (crossR (fst e) (snd e)))).
  rewrite !esum_balanced; auto; intros [a b]; unfold crossR; cbn; ring.
Qed.

(** ** moving meshes *)
Lemma map_mesh_edges {A B} (f : vec A -> vec B) m :
  mesh_edges (map_mesh f m) = map (fun e => (f (fst e), f (snd e))) (mesh_edges m).
Proof.
  unfold mesh_edges, map_mesh. induction m as [|t m IH]; [reflexivity|].
  cbn [map flat_map]. rewrite map_app. apply (f_equal2 (@app _)); [reflexivity|exact IH].
Qed.
Lemma watertight_map {A B} (f : vec A -> vec B) m : watertight m -> watertight (map_mesh f m).
Proof.
  unfold watertight, balanced. rewrite map_mesh_edges. intros H.
  apply (Permutation_map (fun e => (f (fst e), f (snd e)))) in H.
  unfold flips in *. rewrite map_map in *. exact H.
Qed.

Lemma volume_translate m v : watertight m -> signed_volume (map_mesh (translate v) m) = signed_volume m.
Proof.
  intros W. rewrite !volume_asum. f_equal. unfold map_mesh. rewrite asum_map.
  transitivity (asum m (fun t => 1 * vol6 t + 1 * inner v (area_vec t))).
  - apply asum_ext. intros t. unfold vol6, det3, inner, area_vec, crossR, diff, map_tri, translate; cbn; ring.
  - rewrite asum_lin.
    transitivity (asum m vol6 + inner v (net_area m)).
    + rewrite net_coord. unfold inner. cbn [vx vy vz].
      assert (E : asum m (fun t => vx v * vx (area_vec t) + vy v * vy (area_vec t) + vz v * vz (area_vec t)) =
        asum m (fun t => vx v * vx (area_vec t)) + asum m (fun t => vy v * vy (area_vec t)) + asum m (fun t => vz v * vz (area_vec t))).
      { unfold asum. clear. induction m as [|t m IH]; cbn [map fold_right]; [ring|]. rewrite IH. ring. }
      rewrite E, !asum_scale. ring.
    + rewrite watertight_net_area by auto. unfold inner, origin; cbn; ring.
Qed.

Definition linpart (f : pt -> pt) (p : pt) : pt :=
  translate (scaled (vx p) (delta f ex)) (translate (scaled (vy p) (delta f ey)) (scaled (vz p) (delta f ez))).
Lemma volume_linear m f : signed_volume (map_mesh (linpart f) m) = map_det f * signed_volume m.
Proof.
  rewrite !volume_asum. unfold map_mesh. rewrite asum_map.
  rewrite (asum_ext m _ (fun t => map_det f * vol6 t)).
  - rewrite asum_scale. field.
  - intros t. unfold map_det, linpart, map_tri, vol6. cbn [t0 t1 t2]. generalize (delta f ex) (delta f ey) (delta f ez). intros a b c.
    unfold det3, translate, scaled; cbn; ring.
Qed.
Lemma volume_affine m f : affine f -> watertight m ->
  signed_volume (map_mesh f m) = map_det f * signed_volume m.
Proof.
  intros A W. rewrite <- volume_linear.
  rewrite <- (volume_translate (map_mesh (linpart f) m) (f origin)) by (apply watertight_map, W).
  f_equal. unfold map_mesh. rewrite map_map. apply map_ext. intros t. unfold map_tri. cbn.
  rewrite !(A (t0 t)), !(A (t1 t)), !(A (t2 t)). reflexivity.
Qed.
Lemma volume_fix0 m f : affine f -> f origin = origin -> signed_volume (map_mesh f m) = map_det f * signed_volume m.
Proof.
  intros A H. rewrite <- volume_linear. f_equal. unfold map_mesh. apply map_ext. intros t.
  unfold map_tri. rewrite (A (t0 t)), (A (t1 t)), (A (t2 t)), H.
  f_equal; unfold linpart, translate, origin; apply vec_ext; cbn; ring.
Qed.

Lemma rodrigues_affine axis c a : is_axis axis -> affine (rodrigues (axis_vec axis) c a).
Proof.
  intros [-> | [-> | ->]] p; unfold axis_vec; cbn [String.eqb Ascii.eqb Bool.eqb];
  unfold delta; rewrite ?rod_x, ?rod_y, ?rod_z; unfold translate, scaled, origin, ex, ey, ez; apply vec_ext; cbn; ring.
Qed.
Lemma reflect_affine k : affine (reflect k).
Proof. intros p. unfold delta, reflect, plus_scaled, inner, translate, scaled, origin, ex, ey, ez; apply vec_ext; cbn; ring. Qed.
Lemma translate_affine v : affine (translate v).
Proof. intros p. unfold delta, translate, scaled, origin, ex, ey, ez; apply vec_ext; cbn; ring. Qed.
Lemma reflect_origin k : reflect k origin = origin.
Proof. unfold reflect, plus_scaled, inner, origin; apply vec_ext; cbn; ring. Qed.
Lemma rodrigues_origin axis a : is_axis axis -> rodrigues (axis_vec axis) origin a origin = origin.
Proof.
  intros [-> | [-> | ->]]; unfold axis_vec; cbn [String.eqb Ascii.eqb Bool.eqb];
  rewrite ?rod_x, ?rod_y, ?rod_z; unfold origin; apply vec_ext; cbn; ring.
Qed.
Lemma signed_volume_app m m' : signed_volume (m ++ m') = signed_volume m + signed_volume m'.
Proof. rewrite !volume_asum, asum_app. field. Qed.

(** ** the mesh of a mapped patch *)
Definition rmap {A B} (f : A -> B) (r : res A) : res B := let! a := r in Ok (f a).
Lemma mapM_rmap {A B} (f g : A -> res B) h l : (forall a, In a l -> g a = rmap h (f a)) ->
  mapM g l = rmap (map h) (mapM f l).
Proof.
  induction l as [|a l IH]; intros H; cbn [mapM]; [reflexivity|].
  rewrite H by (left; auto). rewrite IH by auto with datatypes. destruct (f a); cbn; [|reflexivity].
  destruct (mapM f l); reflexivity.
Qed.

Lemma map_surf_rmap f u v r s : map_surf f u v -> v r s = rmap f (u r s).
Proof. intros H. destruct (H r s) as [A B]. destruct (u r s); cbn; auto. Qed.

Lemma affine_mean f : affine f -> forall a b c d, f (mean4 a b c d) = mean4 (f a) (f b) (f c) (f d).
Proof.
  intros A a b c d. rewrite (A (mean4 a b c d)), (A a), (A b), (A c), (A d).
  generalize (f origin) (delta f ex) (delta f ey) (delta f ez). intros.
  unfold mean4, translate, scaled; apply vec_ext; cbn; field.
Qed.

Lemma store_false (p : pt) : store_vertex false p = p.
Proof. rewrite store_R. reflexivity. Qed.
Lemma centre_false (a b c d : pt) : cell_centre a b c d = mean4 a b c d.
Proof. unfold cell_centre, mean4. numR. apply vec_ext; cbn; field. Qed.

Lemma cell_map f u v rs ss i j : affine f -> map_surf f u v ->
  cell_triangles v false rs ss i j = rmap (map (map_tri f)) (cell_triangles u false rs ss i j).
Proof.
  intros A M. unfold cell_triangles.
  destruct (py_nth rs i) as [r|]; [|reflexivity]. cbn [bind].
  destruct (py_nth ss j) as [s|]; [|reflexivity]. cbn [bind].
  rewrite (map_surf_rmap f u v r s M). destruct (u r s) as [p1|]; [|reflexivity]. cbn [bind rmap].
  destruct (py_nth rs (i + 1)) as [r'|]; [|reflexivity]. cbn [bind].
  rewrite (map_surf_rmap f u v r' s M). destruct (u r' s) as [p2|]; [|reflexivity]. cbn [bind rmap].
  destruct (py_nth ss (j + 1)) as [s'|]; [|reflexivity]. cbn [bind].
  rewrite (map_surf_rmap f u v r s' M). destruct (u r s') as [p3|]; [|reflexivity]. cbn [bind rmap].
  rewrite (map_surf_rmap f u v r' s' M). destruct (u r' s') as [p4|]; [|reflexivity]. cbn [bind rmap].
  rewrite !store_false, !centre_false. cbn [map map_tri t0 t1 t2].
  unfold map_tri; cbn [t0 t1 t2]. rewrite !affine_mean by auto. reflexivity.
Qed.

Lemma mesh_cells_map f u v rs ss ni nj : affine f -> map_surf f u v ->
  mesh_cells v false rs ss ni nj = rmap (map_mesh f) (mesh_cells u false rs ss ni nj).
Proof.
  intros A M. unfold mesh_cells.
  rewrite (mapM_rmap (fun i => let! cells := mapM (cell_triangles u false rs ss i) (seq 0 nj) in Ok (concat cells))
                     _ (map (map_tri f))).
  - destruct (mapM _ (seq 0 ni)) as [rows|]; [|reflexivity]. cbn [rmap bind].
    unfold map_mesh. rewrite concat_map. reflexivity.
  - intros i _. rewrite (mapM_rmap (cell_triangles u false rs ss i) _ (map (map_tri f)))
      by (intros; apply cell_map; auto).
    destruct (mapM _ (seq 0 nj)) as [cells|]; [|reflexivity]. cbn [rmap bind]. rewrite concat_map. reflexivity.
Qed.

Lemma mesh_patch_map f u v c a b : affine f -> map_surf f u v ->
  mesh_patch c v a b = rmap (map_mesh f) (mesh_patch c u a b).
Proof.
  intros A M. unfold mesh_patch, surfce_to_stl.
  destruct (vertex_list (cl_i c) _ _ _); [|reflexivity]. cbn [bind].
  destruct (vertex_list (cl_j c) _ _ _); [|reflexivity]. cbn [bind].
  apply mesh_cells_map; auto.
Qed.
