(** Meshes of Cube and Sphere components: area and volume. *)
From Coq Require Import Reals Lra Psatz ZArith String List Permutation Lia Bool.
From Verif Require Import Num NumR Py M_Vector SpecR3 M_Path M_Surface M_Geometry M_Mesh M_Component
  SpecPath SpecPoly SpecSurf SpecMesh SpecComp L_Vector L_Spline L_Rigid L_Roberts L_Swept L_Cube L_Edges L_Mesh
  L_Volume L_Component L_SweptComp.
Import ListNotations.
Local Open Scope R_scope.

(** ** meshes of parallelograms *)
Lemma asum_flat_const {A} (f : A -> list (tri R)) l h K : (forall a, In a l -> asum (f a) h = K) ->
  asum (flat_map f l) h = INR (length l) * K.
Proof.
  induction l as [|a l IH]; intros H; cbn [flat_map length].
  - unfold asum. cbn. ring.
  - rewrite asum_app, (H a) by (left; reflexivity).
    rewrite IH by (intros b Hb; apply H; right; exact Hb). rewrite S_INR. ring.
Qed.
Lemma asum_grid Q C ni nj h K :
  (forall i j, (i < ni)%nat -> (j < nj)%nat -> asum (map (cell_tri Q C i j) (seq 0 4)) h = K) ->
  asum (grid_mesh Q C ni nj) h = INR ni * INR nj * K.
Proof.
  intros H. unfold grid_mesh.
  rewrite (asum_flat_const _ _ _ (INR nj * K)).
  - rewrite seq_length. ring.
  - intros i Hi. apply in_seq in Hi. rewrite (asum_flat_const _ _ _ K); [rewrite seq_length; reflexivity|].
    intros j Hj. apply in_seq in Hj. apply H; lia.
Qed.

Definition lattice (o u v : pt) (i j : nat) : pt :=
  translate o (translate (scaled (INR i) u) (scaled (INR j) v)).
Definition lattice_mesh o u v ni nj : list (tri R) :=
  grid_mesh (lattice o u v) (fun i j => mean4 (lattice o u v i j) (lattice o u v (S i) j)
    (lattice o u v i (S j)) (lattice o u v (S i) (S j))) ni nj.

Ltac open_cell := unfold asum; cbn [map seq fold_right];
  unfold cell_tri, at_corner, corner, area_vec, vol6, det3, crossR, diff, mean4, lattice, translate, scaled;
  cbn [vx vy vz t0 t1 t2 fst snd]; rewrite !S_INR.

Lemma lattice_area o u v ni nj :
  net_area (lattice_mesh o u v ni nj) = scaled (2 * (INR ni * INR nj)) (crossR u v).
Proof.
  unfold lattice_mesh. rewrite net_coord.
  rewrite (asum_grid _ _ _ _ (fun t => vx (area_vec t)) (2 * vx (crossR u v))),
    (asum_grid _ _ _ _ (fun t => vy (area_vec t)) (2 * vy (crossR u v))),
    (asum_grid _ _ _ _ (fun t => vz (area_vec t)) (2 * vz (crossR u v))).
  - unfold scaled. apply vec_ext; cbn [vx vy vz]; ring.
  - intros i j _ _. open_cell. field.
  - intros i j _ _. open_cell. field.
  - intros i j _ _. open_cell. field.
Qed.
Lemma lattice_volume o u v ni nj :
  signed_volume (lattice_mesh o u v ni nj) = INR ni * INR nj * det3 o u v / 3.
Proof.
  rewrite volume_asum. unfold lattice_mesh.
  rewrite (asum_grid _ _ _ _ vol6 (2 * det3 o u v)).
  - field.
  - intros i j _ _. open_cell. field.
Qed.

(** ** the six faces of a cube *)
Definition face_origin (a : R) (c : pt) (face : string) : pt :=
  translate c (scaled a (if String.eqb face "east" then V3 1 (-1) (-1)
    else if String.eqb face "north" then V3 (-1) 1 (-1)
    else if String.eqb face "top" then V3 (-1) (-1) 1 else V3 (-1) (-1) (-1))).
Definition face_u (face : string) : pt :=
  if String.eqb face "east" then ey else if String.eqb face "west" then ey else ex.
Definition face_v (face : string) : pt :=
  if String.eqb face "bottom" then ey else if String.eqb face "top" then ey else ez.

Lemma cube_face_mesh a c face n : In face cube_faces ->
  mesh_patch no_clustering (CubePatch a c face) (S n) (S n)
  = Ok (lattice_mesh (face_origin a c face) (scaled (2 * a / INR (S n)) (face_u face))
          (scaled (2 * a / INR (S n)) (face_v face)) (S n) (S n)).
Proof.
  intros H. assert (Hn : INR (S n) <> 0) by (apply not_0_INR; lia).
  apply mesh_patch_default. intros i j Hi Hj.
  face_cases H; unfold CubePatch, cube_face, face_origin, face_u, face_v; cbn [String.eqb Ascii.eqb Bool.eqb bind];
    numR; f_equal; unfold lattice, translate, scaled, ex, ey, ez; apply vec_ext; cbn [vx vy vz]; field; auto.
Qed.

Definition cube_mesh a c n : list (tri R) :=
  concat (map (fun face => lattice_mesh (face_origin a c face) (scaled (2 * a / INR (S n)) (face_u face))
          (scaled (2 * a / INR (S n)) (face_v face)) (S n) (S n)) cube_faces).
Lemma cube_mesh_ok a c n :
  fresh_mesh (cube_patches a c) (ResInt (S n)) [] [] no_clustering = Ok (cube_mesh a c n).
Proof.
  apply fresh_mesh_int; [discriminate| |].
  - cbn. repeat constructor; cbn; intuition discriminate.
  - cbn [cube_patches face_names map dvals snd]. unfold cube_faces. cbn [map].
    repeat (constructor; [apply cube_face_mesh; cbn; auto 10|]). constructor.
Qed.
Lemma net_area_app m m' : net_area (m ++ m') = translate (net_area m) (net_area m').
Proof. rewrite !net_coord, !asum_app. reflexivity. Qed.

Lemma cube_volume a c n : signed_volume (cube_mesh a c n) = 8 / 3 * (a * a) * (vx c - vy c + vz c).
Proof.
  assert (Hn : INR (S n) <> 0) by (apply not_0_INR; lia).
  unfold cube_mesh, cube_faces. cbn [map concat]. rewrite !signed_volume_app, !lattice_volume.
  assert (E : signed_volume [] = 0) by (rewrite volume_asum; cbn; lra). rewrite E.
  unfold det3, face_origin, face_u, face_v. cbn [String.eqb Ascii.eqb Bool.eqb].
  unfold translate, scaled, ex, ey, ez. cbn [vx vy vz]. field. auto.
Qed.
Lemma cube_net_area a c n : net_area (cube_mesh a c n) = scaled (16 * (a * a)) (V3 1 (-1) 1).
Proof.
  assert (Hn : INR (S n) <> 0) by (apply not_0_INR; lia).
  unfold cube_mesh, cube_faces. cbn [map concat]. rewrite !net_area_app, !lattice_area.
  unfold crossR, face_origin, face_u, face_v. cbn [String.eqb Ascii.eqb Bool.eqb].
  unfold translate, scaled, ex, ey, ez. apply vec_ext; cbn [vx vy vz net_area sum_vec map fold_right origin]; field; auto.
Qed.
Lemma cube_not_watertight a c n : a <> 0 -> ~ watertight (cube_mesh a c n).
Proof.
  intros Ha W. apply watertight_net_area in W. rewrite cube_net_area in W.
  apply (f_equal (@vx R)) in W. cbn in W. apply Ha. nra.
Qed.

(** ** spheres *)
Definition px (m : list (tri R)) : R := vx (net_area m).
Definition fx (e : edge pt) : R := vx (crossR (fst e) (snd e)).
Lemma fx_flip e : fx (flip e) = - fx e.
Proof. destruct e as [a b]. unfold fx, flip, crossR. cbn. ring. Qed.
Lemma px_edges m : px m = esum fx (mesh_edges m).
Proof.
  unfold px. rewrite net_coord. cbn [vx]. rewrite <- asum_edges. apply asum_ext.
  intros t. unfold fx, area_vec, crossR, diff. cbn. ring.
Qed.
Lemma px_app m m' : px (m ++ m') = px m + px m'.
Proof. unfold px. rewrite net_area_app. reflexivity. Qed.
Lemma esum_paired f l : (forall e, f (flip e) = - f e) -> paired l -> esum f l = 0.
Proof. intros H P. apply esum_balanced; auto using paired_balanced. Qed.
Lemma px_reduces m o : reduces (mesh_edges m) o -> px m = esum fx o.
Proof.
  intros (p & P & H). rewrite px_edges, (esum_perm _ _ _ H), esum_app, (esum_paired fx p fx_flip P). ring.
Qed.
Lemma px_translate v m : px (map_mesh (translate v) m) = px m.
Proof.
  unfold px. rewrite !net_coord. cbn [vx]. unfold map_mesh. rewrite asum_map. apply asum_ext.
  intros t. unfold area_vec, crossR, diff, map_tri, translate. cbn. ring.
Qed.
Lemma px_reflect_x m : px (map_mesh (reflect ex) m) = px m.
Proof.
  unfold px. rewrite !net_coord. cbn [vx]. unfold map_mesh. rewrite asum_map. apply asum_ext.
  intros t. unfold area_vec, crossR, diff, map_tri, reflect, plus_scaled, inner, ex. cbn. ring.
Qed.
Lemma px_reflect_yz k m : k = ey \/ k = ez -> px (map_mesh (reflect k) m) = - px m.
Proof.
  intros [-> | ->]; unfold px; rewrite !net_coord; cbn [vx]; unfold map_mesh; rewrite asum_map.
  - transitivity (-1 * asum m (fun t => vx (area_vec t))); [rewrite <- asum_scale|ring]. apply asum_ext.
    intros t. unfold area_vec, crossR, diff, map_tri, reflect, plus_scaled, inner, ey. cbn. ring.
  - transitivity (-1 * asum m (fun t => vx (area_vec t))); [rewrite <- asum_scale|ring]. apply asum_ext.
    intros t. unfold area_vec, crossR, diff, map_tri, reflect, plus_scaled, inner, ez. cbn. ring.
Qed.

(** opposite faces of a sphere are mirror images with the same parameters *)
Lemma sphere_opposite rad : 
  map_surf (reflect ex) (SpherePatch rad origin "east") (SpherePatch rad origin "west") /\
  map_surf (reflect ey) (SpherePatch rad origin "south") (SpherePatch rad origin "north") /\
  map_surf (reflect ez) (SpherePatch rad origin "bottom") (SpherePatch rad origin "top").
Proof.
  assert (SF : forall u v : R, sphere_factor u v = sqrt (1 - u * u / 2 - v * v / 2 + u * u * (v * v) / 3)).
  { intros u v. unfold sphere_factor. numR. f_equal. field. }
  assert (MS : forall f (u v : surf R), (forall r s, exists p, u r s = Ok p /\ v r s = Ok (f p)) -> map_surf f u v).
  { intros f u v H r s. destruct (H r s) as (p & E1 & E2). rewrite E1, E2. split; intros q Eq; congruence. }
  split; [|split]; apply MS; intros r s;
    unfold SpherePatch; cbn [cube_face String.eqb Ascii.eqb Bool.eqb bind vx vy vz];
    (eexists; split; [reflexivity|]); rewrite !SF; numR; f_equal;
    unfold reflect, plus_scaled, inner, ex, ey, ez, origin; apply vec_ext; cbn [vx vy vz];
    replace (-1 * -1) with (1 * 1) by ring; ring.
Qed.
Lemma sphere_translate rad c face :
  map_surf (translate c) (SpherePatch rad origin face) (SpherePatch rad c face).
Proof.
  intros r s. unfold SpherePatch. destruct (cube_face face r s) as [p|e]; cbn [bind]; split; intros ? E;
    try discriminate; injection E as <-; auto.
  f_equal. numR. unfold translate, origin. apply vec_ext; cbn; ring.
Qed.

(** the east face bounds a region of non-zero projected area *)
Definition sS (u : R) : R := sqrt (1 / 2 - u * u / 6).
Lemma sS_pos u : -1 <= u <= 1 -> 0 < sS u.
Proof. intros H. apply sqrt_lt_R0. nra. Qed.
Lemma sS_le u v : -1 <= u <= 1 -> u * u <= v * v -> v * v <= 1 -> sS v <= sS u.
Proof. intros H K L. apply sqrt_le_1; nra. Qed.
Lemma sS_mono u v : -1 <= u -> u < v -> v <= 1 -> u * sS v < v * sS u.
Proof.
  intros H K L. pose proof (sS_pos u ltac:(lra)). pose proof (sS_pos v ltac:(lra)).
  destruct (Rle_lt_dec 0 u).
  - pose proof (sS_le u v ltac:(lra) ltac:(nra) ltac:(nra)). nra.
  - destruct (Rle_lt_dec 0 v); [nra|].
    pose proof (sS_le v u ltac:(lra) ltac:(nra) ltac:(nra)). nra.
Qed.
Lemma esum_along_pos n g (s : R) : (forall a b, 0 <= a -> a < b -> b <= 1 -> 0 < s * fx (g a, g b)) ->
  0 < s * esum fx (along n g).
Proof.
  intros H. unfold along, chain, esum. rewrite map_map.
  assert (A : forall l, (forall k, In k l -> (k <= n)%nat) ->
    0 <= s * fold_right Rplus 0 (map (fun k => fx (g (INR k / INR (S n)), g (INR (S k) / INR (S n)))) l)).
  { induction l as [|k l IH]; intros Hl; cbn [map fold_right]; [lra|].
    rewrite Rmult_plus_distr_l. apply Rplus_le_le_0_compat; [|apply IH; intros; apply Hl; right; auto].
    left. apply H.
    - apply ratio01. specialize (Hl k (or_introl eq_refl)); lia.
    - apply INR_ratio_lt; lia.
    - apply ratio01. specialize (Hl k (or_introl eq_refl)); lia. }
  cbn [seq map fold_right]. rewrite Rmult_plus_distr_l. apply Rplus_lt_le_0_compat.
  - apply H; [apply ratio01; lia|apply INR_ratio_lt; lia|apply ratio01; lia].
  - apply A. intros k Hk. apply in_seq in Hk. lia.
Qed.

Definition east_val (rad : R) (r s : R) : pt :=
  let y := -1 + 2 * r in let z := -1 + 2 * s in
  V3 (sphere_factor z y * rad) (y * sphere_factor z 1 * rad) (z * sphere_factor y 1 * rad).
Lemma east_value rad r s : SpherePatch rad origin "east" r s = Ok (east_val rad r s).
Proof.
  unfold SpherePatch, east_val. cbn [cube_face String.eqb Ascii.eqb Bool.eqb bind vx vy vz].
  f_equal. numR. unfold origin. apply vec_ext; cbn [vx vy vz]; ring.
Qed.
Lemma sf_one (u : R) : u = 1 \/ u = -1 -> sphere_factor u (1:R) = sqrt (1 / 3).
Proof. intros H. unfold sphere_factor. numR. f_equal. destruct H as [-> | ->]; field. Qed.
Lemma sf_sS (u : R) : sphere_factor u (1:R) = sS u.
Proof. unfold sphere_factor, sS. numR. f_equal. field. Qed.

Lemma east_area rad n m : rad <> 0 ->
  mesh_patch no_clustering (SpherePatch rad origin "east") (S n) (S n) = Ok m -> 0 < px m.
Proof.
  intros Hr E.
  destruct (mesh_patch01 (SpherePatch rad origin "east") (east_val rad) n) as (m' & E' & R1).
  { intros. apply east_value. }
  assert (m' = m) by congruence. subst m'.
  rewrite (px_reduces _ _ R1), outline_along, !esum_app, !esum_flips by apply fx_flip.
  set (k := sqrt (1 / 3)). assert (K : 0 < k) by (apply sqrt_lt_R0; lra).
  assert (K1 : sS 1 = k) by (unfold sS, k; f_equal; field).
  assert (K2 : sS (-1) = k) by (unfold sS, k; f_equal; field).
  assert (Q : 0 < rad * rad) by nra.
  assert (MM : forall a b, 0 <= a -> a < b -> b <= 1 ->
     0 < rad * rad * k * ((-1 + 2 * b) * sS (-1 + 2 * a) - (-1 + 2 * a) * sS (-1 + 2 * b))).
  { intros a b H1 H2 H3. apply Rmult_lt_0_compat; [apply Rmult_lt_0_compat; auto|].
    pose proof (sS_mono (-1 + 2 * a) (-1 + 2 * b)). lra. }
  assert (P1 : 0 < 1 * esum fx (along n (fun r => east_val rad r 0))).
  { apply esum_along_pos. intros a b H1 H2 H3. specialize (MM a b H1 H2 H3).
    unfold fx, east_val, crossR. cbn [fst snd vx vy vz]. rewrite !sf_sS.
    replace (-1 + 2 * 0) with (-1) by ring. rewrite K2. lra. }
  assert (P2 : 0 < 1 * esum fx (along n (fun s => east_val rad 1 s))).
  { apply esum_along_pos. intros a b H1 H2 H3. specialize (MM a b H1 H2 H3).
    unfold fx, east_val, crossR. cbn [fst snd vx vy vz]. rewrite !sf_sS.
    replace (-1 + 2 * 1) with 1 by ring. rewrite K1. lra. }
  assert (P3 : 0 < -1 * esum fx (along n (fun r => east_val rad r 1))).
  { apply esum_along_pos. intros a b H1 H2 H3. specialize (MM a b H1 H2 H3).
    unfold fx, east_val, crossR. cbn [fst snd vx vy vz]. rewrite !sf_sS.
    replace (-1 + 2 * 1) with 1 by ring. rewrite K1. lra. }
  assert (P4 : 0 < -1 * esum fx (along n (fun s => east_val rad 0 s))).
  { apply esum_along_pos. intros a b H1 H2 H3. specialize (MM a b H1 H2 H3).
    unfold fx, east_val, crossR. cbn [fst snd vx vy vz]. rewrite !sf_sS.
    replace (-1 + 2 * 0) with (-1) by ring. rewrite K2. lra. }
  lra.
Qed.

Lemma sphere_face_ok rad n face : In face cube_faces ->
  exists m, mesh_patch no_clustering (SpherePatch rad origin face) (S n) (S n) = Ok m.
Proof.
  intros H.
  assert (V : exists g, forall r s, SpherePatch rad origin face r s = Ok (g r s)).
  { face_cases H; eexists; intros r s; unfold SpherePatch; cbn [cube_face String.eqb Ascii.eqb Bool.eqb bind]; reflexivity. }
  destruct V as [g V]. destruct (mesh_patch01 (SpherePatch rad origin face) g n) as (m & E & _); [intros; apply V|].
  exists m. exact E.
Qed.
Lemma reflect_det k : k = ex \/ k = ey \/ k = ez -> map_det (reflect k) = -1.
Proof.
  intros [-> | [-> | ->]]; unfold map_det, det3, delta, reflect, plus_scaled, inner, ex, ey, ez, origin; cbn; ring.
Qed.

(** the mesh of a sphere: never watertight; no volume at the origin *)
Lemma sphere_mesh rad c n :
  exists m, fresh_mesh (sphere_patches rad c) (ResInt (S n)) [] [] no_clustering = Ok m /\
    (rad <> 0 -> ~ watertight m) /\ (c = origin -> signed_volume m = 0).
Proof.
  destruct (sphere_face_ok rad n "east") as [me Ee]; [cbn; auto 10|].
  destruct (sphere_face_ok rad n "south") as [ms Es]; [cbn; auto 10|].
  destruct (sphere_face_ok rad n "bottom") as [mb Eb]; [cbn; auto 10|].
  destruct (sphere_opposite rad) as (O1 & O2 & O3).
  pose proof (mesh_patch_map _ _ _ no_clustering (S n) (S n) (reflect_affine ex) O1) as Ew. rewrite Ee in Ew. cbn in Ew.
  pose proof (mesh_patch_map _ _ _ no_clustering (S n) (S n) (reflect_affine ey) O2) as En. rewrite Es in En. cbn in En.
  pose proof (mesh_patch_map _ _ _ no_clustering (S n) (S n) (reflect_affine ez) O3) as Et. rewrite Eb in Et. cbn in Et.
  set (tr := map_mesh (translate c) : list (tri R) -> list (tri R)).
  exists (concat [tr me; tr (map_mesh (reflect ex) me); tr ms; tr (map_mesh (reflect ey) ms); tr mb; tr (map_mesh (reflect ez) mb)]).
  split; [|split].
  - apply fresh_mesh_int; [discriminate| |].
    + cbn. repeat constructor; cbn; intuition discriminate.
    + cbn [sphere_patches face_names map dvals snd].
      repeat (constructor; [rewrite (mesh_patch_map _ _ _ no_clustering (S n) (S n) (translate_affine c) (sphere_translate rad c _));
        first [rewrite Ee | rewrite Ew | rewrite Es | rewrite En | rewrite Eb | rewrite Et]; reflexivity|]).
      constructor.
  - intros Hr W. apply watertight_net_area in W. apply (f_equal (@vx R)) in W.
    change (px (concat [tr me; tr (map_mesh (reflect ex) me); tr ms; tr (map_mesh (reflect ey) ms); tr mb; tr (map_mesh (reflect ez) mb)]) = 0) in W.
    cbn [concat] in W. rewrite !px_app in W. unfold tr in W. rewrite !px_translate, px_reflect_x, !px_reflect_yz in W by auto.
    pose proof (east_area rad n me Hr Ee). unfold px in W at 7. cbn in W. lra.
  - intros ->. assert (I : forall m, tr m = m).
    { intros m. unfold tr, map_mesh. rewrite <- (map_id m) at 2. apply map_ext. intros [a b d]. unfold map_tri. cbn.
      f_equal; apply vec_ext; unfold translate, origin; cbn; ring. }
    rewrite !I. cbn [concat]. rewrite !signed_volume_app, !volume_fix0, !reflect_det by auto using reflect_affine, reflect_origin.
    assert (E : signed_volume [] = 0) by (rewrite volume_asum; cbn; lra). rewrite E. ring.
Qed.
