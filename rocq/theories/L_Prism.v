(** The volume of a sweep of translated sections. *)
From Coq Require Import Reals Lra ZArith String List Permutation Lia Bool.
From Verif Require Import Num NumR Py M_Vector SpecR3 M_Path M_Surface M_Geometry M_Mesh M_Component
  SpecPath SpecPoly SpecSurf SpecMesh SpecComp SpecPrism L_Vector L_Curves L_Coons L_Roberts L_Swept L_Edges L_Mesh
  L_Volume L_Component L_SweptComp.
Import ListNotations.
Local Open Scope R_scope.

(** ** sums *)
Definition sumn (n : nat) (F : nat -> R) : R := fold_right Rplus 0 (map F (seq 0 n)).
Lemma fold_perm (l k : list R) : Permutation l k -> fold_right Rplus 0 l = fold_right Rplus 0 k.
Proof. induction 1; cbn; lra. Qed.
Lemma sumn_ext n F G : (forall i, (i < n)%nat -> F i = G i) -> sumn n F = sumn n G.
Proof. intros H. unfold sumn. f_equal. apply map_ext_in. intros i Hi. apply H. apply in_seq in Hi. lia. Qed.
Lemma sumn_S n F : sumn (S n) F = sumn n F + F n.
Proof. unfold sumn. rewrite seq_S, map_app. cbn. generalize (map F (seq 0 n)). induction l; cbn; lra. Qed.
Lemma sumn_plus n F G : sumn n (fun i => F i + G i) = sumn n F + sumn n G.
Proof. induction n; [cbn; ring|]. rewrite !sumn_S, IHn. ring. Qed.
Lemma sumn_scale n k F : sumn n (fun i => k * F i) = k * sumn n F.
Proof. induction n; [cbn; ring|]. rewrite !sumn_S, IHn. ring. Qed.
Lemma sumn_tele n (f : nat -> R) : sumn n (fun i => f (S i) - f i) = f n - f 0%nat.
Proof. induction n; [cbn; ring|]. rewrite sumn_S, IHn. ring. Qed.
Lemma sumn_head n F : sumn (S n) F = F 0%nat + sumn n (fun i => F (S i)).
Proof. induction n; [cbn; ring|]. rewrite sumn_S, IHn, (sumn_S n (fun i => F (S i))). ring. Qed.
Lemma sumn_rev n F : sumn n F = sumn n (fun i => F (n - 1 - i)%nat).
Proof.
  revert F. induction n as [|n IH]; intros F; [reflexivity|].
  rewrite sumn_head, (IH (fun i => F (S i))), sumn_S.
  replace (S n - 1 - n)%nat with 0%nat by lia. rewrite Rplus_comm. f_equal.
  apply sumn_ext. intros i Hi. f_equal. lia.
Qed.

Lemma asum_flat {A} (f : A -> list (tri R)) l h : asum (flat_map f l) h = fold_right Rplus 0 (map (fun a => asum (f a) h) l).
Proof. induction l; cbn [flat_map map fold_right]; [reflexivity|]. rewrite asum_app, IHl. reflexivity. Qed.
Lemma asum_grid_sum Q C ni nj h : asum (grid_mesh Q C ni nj) h =
  sumn ni (fun i => sumn nj (fun j => asum (map (cell_tri Q C i j) (seq 0 4)) h)).
Proof.
  unfold grid_mesh, sumn. rewrite asum_flat. f_equal. apply map_ext. intros i. rewrite asum_flat. reflexivity.
Qed.

(** ** a strip of parallelograms: p j along one side, w i along the other *)
Definition strip (p w : nat -> pt) (i j : nat) : pt := translate (p j) (w i).
Definition centred (Q : nat -> nat -> pt) (i j : nat) : pt := mean4 (Q i j) (Q (S i) j) (Q i (S j)) (Q (S i) (S j)).

Lemma strip_cell p w i j : asum (map (cell_tri (strip p w) (centred (strip p w)) i j) (seq 0 4)) vol6 =
  -2 * inner (diff (w (S i)) (w i)) (crossR (p j) (p (S j)))
  + 2 * inner (w i) (crossR (w (S i)) (diff (p (S j)) (p j))).
Proof.
  unfold asum. cbn [seq map fold_right]. unfold cell_tri, at_corner, corner, centred, strip, vol6.
  cbn [fst snd t0 t1 t2]. generalize (w i) (w (S i)) (p j) (p (S j)). intros [a b c] [a' b' c'] [x y z] [x' y' z'].
  unfold det3, mean4, translate, inner, diff, crossR. cbn [vx vy vz]. field.
Qed.

Definition xyz_sum (n : nat) (F : nat -> pt) : pt := V3 (sumn n (fun k => vx (F k))) (sumn n (fun k => vy (F k))) (sumn n (fun k => vz (F k))).
Lemma inner_sum n a F : sumn n (fun k => inner a (F k)) = inner a (xyz_sum n F).
Proof.
  unfold inner, xyz_sum. cbn [vx vy vz]. rewrite !sumn_plus, !sumn_scale. reflexivity.
Qed.
Lemma tele_pt n p : xyz_sum n (fun j => diff (p (S j)) (p j)) = diff (p n) (p 0%nat).
Proof. unfold xyz_sum, diff. cbn [vx vy vz]. rewrite (sumn_tele n (fun j => vx (p j))), (sumn_tele n (fun j => vy (p j))), (sumn_tele n (fun j => vz (p j))). reflexivity. Qed.
Lemma cross_dist w w' p q : inner w (crossR w' (diff p q)) = inner (crossR w w') (diff p q).
Proof. unfold inner, crossR, diff; cbn; ring. Qed.

Lemma strip_volume p w ni nj :
  asum (grid_mesh (strip p w) (centred (strip p w)) ni nj) vol6 =
  -2 * inner (diff (w ni) (w 0%nat)) (xyz_sum nj (fun j => crossR (p j) (p (S j))))
  + 2 * inner (xyz_sum ni (fun i => crossR (w i) (w (S i)))) (diff (p nj) (p 0%nat)).
Proof.
  rewrite asum_grid_sum.
  rewrite (sumn_ext ni _ (fun i => -2 * inner (xyz_sum nj (fun j => crossR (p j) (p (S j)))) (diff (w (S i)) (w i))
     + 2 * inner (diff (p nj) (p 0%nat)) (crossR (w i) (w (S i))))).
  - rewrite sumn_plus, !sumn_scale, !inner_sum, tele_pt. unfold inner. ring.
  - intros i _.
    rewrite (sumn_ext nj _ (fun j => -2 * inner (diff (w (S i)) (w i)) (crossR (p j) (p (S j))) + 2 * inner (crossR (w i) (w (S i))) (diff (p (S j)) (p j))))
      by (intros j _; rewrite strip_cell, cross_dist; reflexivity).
    rewrite sumn_plus, !sumn_scale, !inner_sum, tele_pt. unfold inner. ring.
Qed.

(** ** opposite caps: Q' is Q run through backwards in i, moved by v *)
Lemma caps_volume Q Q' v n nj : (forall i j, (i <= n)%nat -> (j <= nj)%nat -> Q' i j = translate (Q (n - i)%nat j) v) ->
  asum (grid_mesh Q (centred Q) n nj) vol6 + asum (grid_mesh Q' (centred Q') n nj) vol6 =
  - inner v (net_area (grid_mesh Q (centred Q) n nj)).
Proof.
  intros H.
  assert (E : asum (grid_mesh Q' (centred Q') n nj) vol6 =
              - asum (grid_mesh Q (centred Q) n nj) (fun t => 1 * vol6 t + 1 * inner v (area_vec t))).
  { rewrite !asum_grid_sum. rewrite (sumn_rev n (fun i => sumn nj (fun j => asum (map (cell_tri Q (centred Q) i j) (seq 0 4)) _))).
    rewrite <- (Rmult_1_l (sumn n (fun i => sumn nj (fun j => asum (map (cell_tri Q _ _ _) _) _)))), <- Ropp_mult_distr_l_reverse, <- sumn_scale.
    apply sumn_ext. intros i Hi. rewrite <- sumn_scale. apply sumn_ext. intros j Hj.
    unfold asum. cbn [seq map fold_right]. unfold cell_tri, at_corner, corner, centred.
    cbn [fst snd]. rewrite !H by lia.
    replace (n - i)%nat with (S (n - 1 - i)) by lia. replace (n - S i)%nat with (n - 1 - i)%nat by lia.
    unfold vol6, area_vec. cbn [t0 t1 t2]. set (k := (n - 1 - i)%nat).
    generalize (Q k j) (Q (S k) j) (Q k (S j)) (Q (S k) (S j)). intros [a b c] [a' b' c'] [x y z] [x' y' z']. destruct v as [u1 u2 u3].
    unfold det3, mean4, translate, inner, diff, crossR. cbn [vx vy vz]. field. }
  rewrite E, asum_lin.
  assert (F : asum (grid_mesh Q (centred Q) n nj) (fun t => inner v (area_vec t)) = inner v (net_area (grid_mesh Q (centred Q) n nj))).
  { rewrite net_coord. generalize (grid_mesh Q (centred Q) n nj). intros m. unfold inner. cbn [vx vy vz]. unfold asum.
    induction m as [|t m IH]; cbn [map fold_right]; [ring|]. rewrite IH. ring. }
  rewrite F. ring.
Qed.

(** net area from the outline *)
Definition edge_area (l : list (edge pt)) : pt := sum_vec (map (fun e => crossR (fst e) (snd e)) l).
Lemma sum_vec_coord l : sum_vec l = V3 (fold_right Rplus 0 (map vx l)) (fold_right Rplus 0 (map vy l)) (fold_right Rplus 0 (map vz l)).
Proof. induction l as [|a l IH]; cbn; [reflexivity|]. change (fold_right translate origin l) with (sum_vec l). rewrite IH. reflexivity. Qed.
Lemma edge_area_coord l : edge_area l = V3 (esum (fun e => vx (crossR (fst e) (snd e))) l) (esum (fun e => vy (crossR (fst e) (snd e))) l)
   (esum (fun e => vz (crossR (fst e) (snd e))) l).
Proof. unfold edge_area. rewrite sum_vec_coord, !map_map. reflexivity. Qed.
Lemma edge_area_app a b : edge_area (a ++ b) = translate (edge_area a) (edge_area b).
Proof. rewrite !edge_area_coord, !esum_app. reflexivity. Qed.
Lemma edge_area_perm a b : Permutation a b -> edge_area a = edge_area b.
Proof. intros H. rewrite !edge_area_coord. f_equal; apply esum_perm, H. Qed.
Lemma edge_area_paired l : paired l -> edge_area l = origin.
Proof.
  intros H. apply paired_balanced in H. rewrite edge_area_coord.
  unfold origin. f_equal; apply esum_balanced; auto; intros [a b]; unfold crossR; cbn; ring.
Qed.
Lemma net_area_edges m : net_area m = edge_area (mesh_edges m).
Proof.
  rewrite net_coord, edge_area_coord, <- !asum_edges.
  f_equal; apply asum_ext; intros t; unfold area_vec, crossR, diff; cbn; ring.
Qed.
Lemma net_area_reduces m o : reduces (mesh_edges m) o -> net_area m = edge_area o.
Proof.
  intros (p & P & H). rewrite net_area_edges, (edge_area_perm _ _ H), edge_area_app, (edge_area_paired p P).
  unfold translate, origin. apply vec_ext; cbn; ring.
Qed.
Lemma edge_area_chain f n : edge_area (chain f n) = xyz_sum n (fun j => crossR (f j) (f (S j))).
Proof. rewrite edge_area_coord. unfold xyz_sum, sumn, esum, chain. rewrite !map_map. reflexivity. Qed.

(** ** the mesh of a closed SweptComponent, patch by patch *)
Definition patch_grid (n : nat) (v : R -> R -> pt) : list (tri R) :=
  grid_mesh (grid_of n v) (centred (grid_of n v)) (S n) (S n).
Lemma grids_of_patches n (us : list (surf R)) vs :
  Forall2 (fun u v => forall rr s, 0 <= rr <= 1 -> 0 <= s <= 1 -> u rr s = Ok (v rr s)) us vs ->
  Forall2 (fun u mm => mesh_patch no_clustering u (S n) (S n) = Ok mm) us (map (patch_grid n) vs).
Proof.
  intros V. induction V as [|u v us vs H _ IH]; [constructor|]. constructor; [|exact IH].
  apply (mesh_patch_default u n n (grid_of n v)). intros i j Hi Hj. apply H; apply ratio01; lia.
Qed.
Lemma swept_mesh m sections g n : length sections = S (S m) -> sections_are 4 sections g ->
  loops_close 4 (S (S m)) g ->
  exists l, swept_patches sections 4 true (ResInt (S n)) = Ok l /\
    map fst (sized_patches l) = ["swept_patch_0"; "swept_patch_1"; "swept_patch_2"; "swept_patch_3";
       "swept_patch_end_0"; "swept_patch_end_1"]%string /\
    fresh_mesh (sized_patches l) (ResInt (S n)) (sized_res_r l) (sized_res_s l) no_clustering =
    Ok (flat_map (patch_grid n) [side_val m g 0; side_val m g 1; side_val m g 2; side_val m g 3; cap0 g; cap1 m g])%nat.
Proof.
  intros L G J.
  destruct (closed_patches m sections g (ResInt (S n)) L G J) as (l & El & u0 & u1 & u2 & u3 & v0 & v1 & Ed & V).
  { intros; eexists; reflexivity. } { eexists; reflexivity. }
  exists l. split; [exact El|]. split; [rewrite Ed; reflexivity|].
  rewrite flat_map_concat_map. apply fresh_mesh_int.
  - rewrite Ed. discriminate.
  - rewrite Ed. cbn. repeat constructor; cbn; intuition discriminate.
  - rewrite Ed. change (map snd _) with [u0; u1; u2; u3; v0; v1]. apply grids_of_patches, V.
Qed.

(** ** sections that are translates of the first *)
Section Prism.
  Variables (m n : nat) (g : nat -> nat -> R -> pt) (w : nat -> pt).
  Hypothesis J : loops_close 4 (S (S m)) g.
  Hypothesis W : forall k e t, (k <= S m)%nat -> (e < 4)%nat -> 0 <= t <= 1 -> g k e t = translate (g 0%nat e t) (w k).

  Lemma w_first : w 0%nat = origin.
  Proof using W. pose proof (W 0%nat 0%nat 0 ltac:(lia) ltac:(lia) ltac:(lra)) as H. destruct (g 0%nat 0%nat 0) as [a b c], (w 0%nat) as [x y z].
    unfold translate in H. cbn in H. injection H as H1 H2 H3. unfold origin. apply vec_ext; cbn; lra. Qed.
  Lemma side_strip e : (e < 4)%nat -> forall i j, (i <= S n)%nat -> (j <= S n)%nat ->
    grid_of n (side_val m g e) i j = strip (fun j => g 0%nat e (INR j / INR (S n))) (fun i => blend m w (INR i / INR (S n))) i j.
  Proof using W.
    intros He i j Hi Hj. unfold grid_of, side_val, strip. 
    rewrite (blend_ext m _ (fun k => translate (g 0%nat e (INR j / INR (S n))) (w k))) by (intros k Hk; apply W; auto; apply ratio01; lia).
    unfold blend, lerp, translate. apply vec_ext; cbn [vx vy vz]; ring.
  Qed.
  Lemma cap_reversed r s : 0 <= r <= 1 -> 0 <= s <= 1 -> cap1 m g r s = translate (cap0 g (1 - r) s) (w (S m)).
  Proof using W J.
    intros Hr Hs. destruct (j0 m g J 0%nat) as (J1 & J2 & J3 & J4); [lia|].
    unfold cap1, cap0, coons_val.
    rewrite !(W (S m)) by (lia || lra).
    replace (1 - (1 - r)) with r by ring. replace (1 - 0) with 1 by ring. replace (1 - 1) with 0 by ring.
    rewrite ?J1, ?J2, ?J3, ?J4.
    unfold translate, origin. apply vec_ext; cbn [vx vy vz]; ring.
  Qed.

  Lemma centred_ext Q Q' ni nj : (forall i j, (i <= ni)%nat -> (j <= nj)%nat -> Q i j = Q' i j) ->
    grid_mesh Q (centred Q) ni nj = grid_mesh Q' (centred Q') ni nj.
  Proof using . clear. intros H. apply grid_mesh_ext; [exact H|]. intros i j Hi Hj. unfold centred. rewrite !H by lia. reflexivity. Qed.

  Definition ring_area : pt := edge_area (loop4 (S n) (g 0%nat)).
  Lemma side_volume e : (e < 4)%nat -> asum (patch_grid n (side_val m g e)) vol6 =
    -2 * inner (w (S m)) (edge_area (chords (S n) (g 0%nat e)))
    + 2 * inner (xyz_sum (S n) (fun i => crossR (blend m w (INR i / INR (S n))) (blend m w (INR (S i) / INR (S n)))))
         (diff (g 0%nat e 1) (g 0%nat e 0)).
  Proof using W.
    intros He. unfold patch_grid. rewrite (centred_ext _ _ _ _ (side_strip e He)), strip_volume.
    rewrite !ratio_0, !ratio_1, blend_0, blend_1, w_first. unfold chords. rewrite edge_area_chain.
    replace (diff (w (S m)) origin) with (w (S m)) by (unfold diff, origin; apply vec_ext; cbn; ring). reflexivity.
  Qed.
  Lemma sides_volume : fold_right Rplus 0 (map (fun e => asum (patch_grid n (side_val m g e)) vol6) (seq 0 4)) =
    -2 * inner (w (S m)) ring_area.
  Proof using W J.
    cbn [seq map fold_right]. rewrite !side_volume by lia. destruct (j0 m g J 0%nat) as (J1 & J2 & J3 & J4); [lia|].
    rewrite J1, J2, J3, J4. unfold ring_area, loop4. rewrite !edge_area_app.
    generalize (xyz_sum (S n) (fun i => crossR (blend m w (INR i / INR (S n))) (blend m w (INR (S i) / INR (S n))))).
    intros x. unfold inner, diff, translate. cbn [vx vy vz]. ring.
  Qed.
  Lemma cap0_area : net_area (patch_grid n (cap0 g)) = ring_area.
  Proof using J.
    apply net_area_reduces. eapply reduces_trans; [apply grid_reduces|]. exact (cap0_outline m g n J).
  Qed.
  Lemma prism_volume : signed_volume (flat_map (patch_grid n)
     [side_val m g 0; side_val m g 1; side_val m g 2; side_val m g 3; cap0 g; cap1 m g]%nat)
    = - inner (w (S m)) (vector_area (loop4 (S n) (g 0%nat))).
  Proof using W J.
    rewrite volume_asum. cbn [flat_map]. rewrite !asum_app. pose proof sides_volume as HS. cbn [seq map fold_right] in HS.
    assert (HC : asum (patch_grid n (cap0 g)) vol6 + asum (patch_grid n (cap1 m g)) vol6 = - inner (w (S m)) ring_area).
    { rewrite <- cap0_area. apply caps_volume. intros i j Hi Hj. unfold grid_of. rewrite cap_reversed by (apply ratio01; lia).
      rewrite ratio_rev by lia. reflexivity. }
    change (asum [] vol6) with 0. unfold vector_area. change (sum_vec _) with ring_area.
    replace (inner (w (S m)) (scaled (1 / 2) ring_area)) with (1 / 2 * inner (w (S m)) ring_area) by (unfold inner, scaled; cbn [vx vy vz]; field).
    lra.
  Qed.
End Prism.

(** C88 *)
Lemma swept_prism m sections g w n : length sections = S (S m) -> sections_are 4 sections g ->
  loops_close 4 (S (S m)) g ->
  (forall k e t, (k <= S m)%nat -> (e < 4)%nat -> 0 <= t <= 1 -> g k e t = translate (g 0%nat e t) (w k)) ->
  exists l mesh, swept_patches sections 4 true (ResInt (S n)) = Ok l /\
    fresh_mesh (sized_patches l) (ResInt (S n)) (sized_res_r l) (sized_res_s l) no_clustering = Ok mesh /\
    signed_volume mesh = - inner (w (S m)) (vector_area (loop4 (S n) (g 0%nat))).
Proof.
  intros L G J W. destruct (swept_mesh m sections g n L G J) as (l & E1 & _ & E2).
  exists l. eexists. split; [exact E1|]. split; [exact E2|]. exact (prism_volume m n g w J W).
Qed.

(** straight edges contribute their end points only *)
Lemma chords_straight n a b : (0 < n)%nat -> edge_area (chords n (fun t => lerp t a b)) = crossR a b.
Proof.
  intros Hn. unfold chords. rewrite edge_area_chain. unfold xyz_sum.
  assert (INR n <> 0) by (apply not_0_INR; lia).
  assert (forall x : R, sumn n (fun _ => x) = INR n * x) as K.
  { intros x. clear. induction n; [cbn; ring|]. rewrite sumn_S, IHn, S_INR. ring. }
  assert (C : forall k, crossR (lerp (INR k / INR n) a b) (lerp (INR (S k) / INR n) a b) = scaled (1 / INR n) (crossR a b)).
  { intros k. rewrite S_INR. unfold lerp, crossR, scaled. apply vec_ext; cbn [vx vy vz]; field; auto. }
  rewrite (sumn_ext n _ (fun _ => vx (scaled (1 / INR n) (crossR a b)))) by (intros; rewrite C; reflexivity).
  rewrite (sumn_ext n (fun k => vy _) (fun _ => vy (scaled (1 / INR n) (crossR a b)))) by (intros; rewrite C; reflexivity).
  rewrite (sumn_ext n (fun k => vz _) (fun _ => vz (scaled (1 / INR n) (crossR a b)))) by (intros; rewrite C; reflexivity).
  rewrite !K. unfold scaled, crossR. apply vec_ext; cbn [vx vy vz]; field; auto.
Qed.
Lemma quad_area n a b c d f : (forall e, f e = nth e [fun t => lerp t a b; fun t => lerp t b c; fun t => lerp t c d; fun t => lerp t d a] (fun _ => origin)) ->
  vector_area (loop4 (S n) f) = vector_area (quad a b c d).
Proof.
  intros H. unfold vector_area. f_equal. fold (edge_area (loop4 (S n) f)). fold (edge_area (quad a b c d)).
  unfold loop4. rewrite !edge_area_app, !H. cbn [nth]. rewrite !chords_straight by lia.
  unfold edge_area, quad. cbn [map sum_vec fold_right fst snd]. unfold translate, origin. apply vec_ext; cbn [vx vy vz]; ring.
Qed.
