(** Meshes with clustering functions: the even mesh of a reparametrised patch. *)
From Coq Require Import String Reals Lra ZArith List Permutation Lia Bool.
From Verif Require Import Num NumR Py M_Vector SpecR3 M_Path M_Surface M_Geometry M_Mesh M_Component
  SpecPath SpecPoly SpecSurf SpecMesh SpecComp SpecCluster L_Vector L_Line L_Roberts L_Swept L_Edges L_Mesh L_Coons L_Component L_SweptComp L_RevolvedComp L_Prism L_Hangar.
Import ListNotations.
Local Open Scope R_scope.

Lemma vertices_placed c g n : places c g ->
  exists l, vertex_list c (S n + 1) (S n + 1) 1 = Ok l /\ forall k, (k <= S n)%nat -> nth_error l k = Some (g (node n k)).
Proof.
  intros P. destruct c as [f|].
  - cbn [vertex_list]. rewrite (mapM_ok f g).
    + eexists. split; [reflexivity|]. intros k Hk. rewrite nth_error_map.
      rewrite (nth_error_nth' _ 0) by (rewrite linspace_length; lia). cbn [option_map]. replace (S n + 1)%nat with (S (S n)) by lia.
      rewrite slice_nth by exact Hk. reflexivity.
    + intros x Hx. apply In_nth with (d := 0) in Hx as (k & Hk & <-). rewrite linspace_length in Hk. replace (S n + 1)%nat with (S (S n)) in * by lia.
      rewrite slice_nth by lia. apply (P (INR k / INR (S n))), ratio01. lia.
  - cbn [vertex_list]. replace (S n + 1)%nat with (S (S n)) by lia. change (n0 : R) with 0. change (n1 : R) with 1. rewrite default_vertex_value. eexists. split; [reflexivity|].
    intros k Hk. rewrite nth_error_map, (nth_error_nth' _ 0%nat) by (rewrite seq_length; lia). rewrite seq_nth by lia. cbn [option_map Nat.add].
    rewrite vertex_default. f_equal. unfold node. rewrite (P (INR k / INR (S n))) by (apply ratio01; lia). ring.
Qed.

Lemma patch_clustered ci cj gi gj u v n : places ci gi -> places cj gj -> keeps_ends gi -> keeps_ends gj ->
  (forall r s, 0 <= r <= 1 -> 0 <= s <= 1 -> u r s = Ok (v r s)) ->
  mesh_patch (mkClustering ci cj) u (S n) (S n) = Ok (patch_grid n (fun r s => v (gi r) (gj s))).
Proof.
  intros Pi Pj (_ & _ & Ki) (_ & _ & Kj) H. unfold mesh_patch, surfce_to_stl. cbn [cl_i cl_j].
  destruct (vertices_placed ci gi n Pi) as (rl & Er & Hr). destruct (vertices_placed cj gj n Pj) as (sl & Es & Hs). change (n1 : R) with 1. rewrite Er, Es. cbn [bind].
  rewrite (mesh_cells_grid u false rl sl (S n) (S n) (grid_of n (fun r s => v (gi r) (gj s)))).
  - f_equal. unfold patch_grid. apply grid_mesh_ext; intros i j Hi Hj; [apply store_R|]. unfold centred, centres. apply centre_R.
  - intros i j Hi Hj. do 2 eexists. split; [apply Hr, Hi|]. split; [apply Hs, Hj|]. unfold grid_of. apply H; [apply Ki|apply Kj]; apply ratio01; assumption.
Qed.
Lemma dict_clustered ci cj gi gj (d : dict (surf R)) vs n rr rs : places ci gi -> places cj gj -> keeps_ends gi -> keeps_ends gj ->
  NoDup (dkeys d) -> d <> [] -> values01 (dvals d) vs ->
  fresh_mesh d (ResInt (S n)) rr rs (mkClustering ci cj) = Ok (flat_map (patch_grid n) (map (fun v r s => v (gi r) (gj s)) vs)).
Proof.
  intros Pi Pj Ki Kj ND NE V. rewrite flat_map_concat_map. apply fresh_mesh_int; [exact NE|exact ND|]. rewrite map_map. unfold values01 in V.
  induction V as [|u v us vs H _ IH]; [constructor|]. constructor; [|exact IH]. apply patch_clustered; assumption.
Qed.

(** a flat mesh list and its outlines *)
Lemma flat_reduces n vs : reduces (mesh_edges (flat_map (patch_grid n) vs)) (concat (map (fun v => outline (grid_of n v) (S n) (S n)) vs)).
Proof.
  induction vs as [|v vs IH]; [apply reduces_refl|]. cbn [flat_map map concat]. rewrite mesh_edges_app. apply reduces_app; [apply grid_reduces|exact IH].
Qed.

(** ** bodies of revolution *)
Theorem revolved_clustered line g n ci cj gi gj : evaluates01 line g -> places ci gi -> places cj gj -> keeps_ends gi -> keeps_ends gj ->
  vy (g 0) = 0 -> vz (g 0) = 0 -> vy (g 1) = 0 -> vz (g 1) = 0 ->
  exists m, fresh_mesh (revolved_patches line) (ResInt (S n)) [] [] (mkClustering ci cj) = Ok m /\ watertight m.
Proof.
  intros H Pi Pj Ki Kj Y0 Z0 Y1 Z1. eexists. split.
  { apply (dict_clustered ci cj gi gj _ (map (fun i => rev_val g i) (seq 0 4))); try assumption.
    - cbn. repeat constructor; cbn; intuition discriminate.
    - discriminate.
    - unfold values01. cbn [revolved_patches map seq dvals snd]. repeat (constructor; [intros r s Hr _; apply (rev_patch line g); assumption|]). constructor. }
  unfold watertight. rewrite (reduces_balanced _ _ (flat_reduces n _)). cbn [map seq concat]. rewrite !outline_along, app_nil_r.
  destruct Ki as (I0 & I1 & _). destruct Kj as (J0 & J1 & _). rewrite ?I0, ?I1, ?J0, ?J1.
  set (S' k := along n (fun r => rev_val g k (gi r) 0)).
  assert (N0 : forall k, along n (fun r => rev_val g k (gi r) 1) = S' (k + 1)%nat).
  { intros k. apply along_ext. intros t _. apply rev_seam. }
  assert (N3 : along n (fun r => rev_val g 3 (gi r) 1) = S' 0%nat).
  { apply along_ext. intros t _. apply rev_seam_last. }
  rewrite N3, !N0. cbn [Nat.add]. fold (S' 0%nat) (S' 1%nat) (S' 2%nat) (S' 3%nat).
  assert (E1 : forall k, balanced (along n (fun s => rev_val g k 1 (gj s)))).
  { intros k. apply (along_loop n _ (g 1)). intros t _. apply turn_axis; auto. }
  assert (W1 : forall k, balanced (flips (along n (fun s => rev_val g k 0 (gj s))))).
  { intros k. apply balanced_flips, (along_loop n _ (g 0)). intros t _. apply turn_axis; auto. }
  generalize (E1 0%nat) (E1 1%nat) (E1 2%nat) (E1 3%nat) (W1 0%nat) (W1 1%nat) (W1 2%nat) (W1 3%nat).
  generalize (along n (fun s => rev_val g 0 1 (gj s))) (along n (fun s => rev_val g 1 1 (gj s)))
    (along n (fun s => rev_val g 2 1 (gj s))) (along n (fun s => rev_val g 3 1 (gj s)))
    (flips (along n (fun s => rev_val g 0 0 (gj s)))) (flips (along n (fun s => rev_val g 1 0 (gj s))))
    (flips (along n (fun s => rev_val g 2 0 (gj s)))) (flips (along n (fun s => rev_val g 3 0 (gj s)))).
  generalize (S' 0%nat) (S' 1%nat) (S' 2%nat) (S' 3%nat). clear.
  intros x0 x1 x2 x3 e0 e1 e2 e3 w0 w1 w2 w3 B0 B1 B2 B3 C0 C1 C2 C3.
  apply (balanced_perm ((concat [x0; flips x1; x1; flips x2; x2; flips x3; x3; flips x0]) ++ e0 ++ e1 ++ e2 ++ e3 ++ w0 ++ w1 ++ w2 ++ w3)).
  - transitivity (concat ([x0; flips x1; x1; flips x2; x2; flips x3; x3; flips x0] ++ [e0; e1; e2; e3; w0; w1; w2; w3])).
    + rewrite concat_app. cbn [concat]. rewrite !app_nil_r. reflexivity.
    + transitivity (concat [x0; e0; flips x1; w0; x1; e1; flips x2; w1; x2; e2; flips x3; w2; x3; e3; flips x0; w3]).
      * apply perm_concat. cbn [app]. perm_solve.
      * cbn [concat]. rewrite !app_nil_r, <- !app_assoc. reflexivity.
  - apply balanced_app; [|repeat apply balanced_app; auto].
    apply (balanced_atoms _ [x0; x1; x2; x3]). cbn [map app]. perm_solve.
Qed.

(** ** closed sweeps *)
Section Sweep.
  Variables (m : nat) (sections : list (list (path R))) (g : nat -> nat -> R -> pt) (n : nat).
  Variables (ci cj : option (R -> res R)) (gi gj : R -> R).
  Hypothesis L : length sections = S (S m).
  Hypothesis G : sections_are 4 sections g.
  Hypothesis J : loops_close 4 (S (S m)) g.
  Hypotheses (Pi : places ci gi) (Pj : places cj gj) (Ki : keeps_ends gi) (Kj : keeps_ends gj).
  Let X e := along n (fun rr => side_val m g e (gi rr) 0).
  Let F e := along n (fun t => g 0%nat e (gj t)).
  Let B e := along n (fun t => g (S m) e (gj t)).

  Lemma sweep_edges : exists l mesh, swept_patches sections 4 true (ResInt (S n)) = Ok l /\
    fresh_mesh (sized_patches l) (ResInt (S n)) (sized_res_r l) (sized_res_s l) (mkClustering ci cj) = Ok mesh /\
    reduces (mesh_edges mesh)
      ((X 0 ++ B 0 ++ flips (X 1) ++ flips (F 0)) ++ (X 1 ++ B 1 ++ flips (X 2) ++ flips (F 1)) ++
       (X 2 ++ B 2 ++ flips (X 3) ++ flips (F 2)) ++ (X 3 ++ B 3 ++ flips (X 0) ++ flips (F 3)) ++
       (along n (fun t => g 0 0 (gi t)) ++ F 1 ++ flips (along n (fun t => g 0 2 (1 - gi t))) ++ flips (along n (fun t => g 0 3 (1 - gj t)))) ++
       (along n (fun t => g (S m) 0 (1 - gi t)) ++ along n (fun t => g (S m) 3 (1 - gj t)) ++ flips (along n (fun t => g (S m) 2 (gi t))) ++ flips (B 1)))%nat.
  Proof using L G J Pi Pj Ki Kj.
    destruct (closed_patches m sections g (ResInt (S n)) L G J) as (l & El & u0 & u1 & u2 & u3 & v0 & v1 & Ed & V).
    { intros; eexists; reflexivity. } { eexists; reflexivity. }
    exists l. eexists. split; [exact El|]. split.
    { apply (dict_clustered ci cj gi gj _ [side_val m g 0; side_val m g 1; side_val m g 2; side_val m g 3; cap0 g; cap1 m g]%nat); try assumption.
      - rewrite Ed. cbn. repeat constructor; cbn; intuition discriminate.
      - rewrite Ed. discriminate.
      - rewrite Ed. exact V. }
    eapply reduces_trans; [apply flat_reduces|]. cbn [map concat]. rewrite app_nil_r.
    destruct Ki as (I0 & I1 & _). destruct Kj as (J0 & J1 & _).
    assert (SO : forall e, (e < 4)%nat -> outline (grid_of n (fun r s => side_val m g e (gi r) (gj s))) (S n) (S n) = X e ++ B e ++ flips (X (next_edge 4 e)) ++ flips (F e)).
    { intros e He. rewrite outline_along, I0, I1, J0, J1. apply f_equal2; [reflexivity|]. apply f_equal2.
      - apply along_ext. intros t _. apply blend_1.
      - apply f_equal2; f_equal; apply along_ext; intros t _; [apply (side_s1 m g J); exact He|apply blend_0]. }
    rewrite !SO by lia. cbn [next_edge Nat.eqb]. do 4 (apply reduces_app; [apply reduces_refl|]).
    pose proof (j0 m g J 0%nat ltac:(lia)) as (K1 & K2 & K3 & K4). pose proof (j0 m g J (S m) ltac:(lia)) as (M1 & M2 & M3 & M4).
    apply reduces_app.
    - destruct (coons_val_sides (fun t => g 0%nat 2%nat (1 - t)) (g 0%nat 1%nat) (g 0%nat 0%nat) (fun t => g 0%nat 3%nat (1 - t)))
        as (V0 & V1 & V2 & V3);
        try (replace (1 - 0) with 1 by ring); try (replace (1 - 1) with 0 by ring); try congruence.
      rewrite outline_along, I0, I1, J0, J1.
      rewrite (along_ext n (fun t => cap0 g (gi t) 0) _ (fun t _ => V2 (gi t))), (along_ext n (fun t => cap0 g 1 (gj t)) _ (fun t _ => V1 (gj t))),
        (along_ext n (fun t => cap0 g (gi t) 1) _ (fun t _ => V3 (gi t))), (along_ext n (fun t => cap0 g 0 (gj t)) _ (fun t _ => V0 (gj t))).
      apply reduces_refl.
    - destruct (coons_val_sides (g (S m) 2%nat) (fun t => g (S m) 3%nat (1 - t)) (fun t => g (S m) 0%nat (1 - t)) (g (S m) 1%nat))
        as (V0 & V1 & V2 & V3);
        try (replace (1 - 0) with 1 by ring); try (replace (1 - 1) with 0 by ring); try congruence.
      rewrite outline_along, I0, I1, J0, J1.
      rewrite (along_ext n (fun t => cap1 m g (gi t) 0) _ (fun t _ => V2 (gi t))), (along_ext n (fun t => cap1 m g 1 (gj t)) _ (fun t _ => V1 (gj t))),
        (along_ext n (fun t => cap1 m g (gi t) 1) _ (fun t _ => V3 (gi t))), (along_ext n (fun t => cap1 m g 0 (gj t)) _ (fun t _ => V0 (gj t))).
      apply reduces_refl.
  Qed.

  Lemma along_nodes f h : (forall k, (k <= S n)%nat -> f (node n k) = h (node n k)) -> along n f = along n h.
  Proof using. intros H. apply chain_ext. exact H. Qed.
  Lemma along_back (f : R -> pt) a b : (forall k, (k <= S n)%nat -> a (node n (S n - k)) = 1 - b (node n k)) ->
    Permutation (along n (fun t => f (1 - b t))) (flips (along n (fun t => f (a t)))).
  Proof using.
    intros H. unfold along. rewrite (chain_ext _ (fun k => f (a (node n (S n - k))))).
    - apply (chain_rev (fun k => f (a (node n k)))).
    - intros k Hk. rewrite H by exact Hk. reflexivity.
  Qed.

  Theorem sweep_closed : alike n gi gj -> even_handed n gj -> exists l mesh, swept_patches sections 4 true (ResInt (S n)) = Ok l /\
    fresh_mesh (sized_patches l) (ResInt (S n)) (sized_res_r l) (sized_res_s l) (mkClustering ci cj) = Ok mesh /\ watertight mesh.
  Proof using L G J Pi Pj Ki Kj.
    intros A EV. destruct sweep_edges as (l & mesh & E1 & E2 & RE). exists l, mesh. split; [exact E1|]. split; [exact E2|].
    unfold watertight. rewrite (reduces_balanced _ _ RE). clear RE E1 E2.
    assert (EI : forall k, (k <= S n)%nat -> gj (node n (S n - k)) = 1 - gi (node n k)) by (intros k Hk; rewrite (EV k Hk), (A k Hk); reflexivity).
    assert (Q1 : Permutation (along n (fun t => g 0%nat 0%nat (gi t))) (F 0%nat)) by (rewrite (along_nodes (fun t => g 0%nat 0%nat (gi t)) (fun t => g 0%nat 0%nat (gj t))); [reflexivity|]; intros k Hk; rewrite (A k Hk); reflexivity).
    assert (Q2 : Permutation (flips (along n (fun t => g 0%nat 2%nat (1 - gi t)))) (F 2%nat)) by (rewrite <- (flips_flips (F 2%nat)); apply Permutation_map, (along_back (g 0%nat 2%nat) gj gi EI)).
    assert (Q3 : Permutation (flips (along n (fun t => g 0%nat 3%nat (1 - gj t)))) (F 3%nat)) by (rewrite <- (flips_flips (F 3%nat)); apply Permutation_map, (along_back (g 0%nat 3%nat) gj gj EV)).
    assert (Q4 : Permutation (along n (fun t => g (S m) 0%nat (1 - gi t))) (flips (B 0%nat))) by apply (along_back (g (S m) 0%nat) gj gi EI).
    assert (Q5 : Permutation (along n (fun t => g (S m) 3%nat (1 - gj t))) (flips (B 3%nat))) by apply (along_back (g (S m) 3%nat) gj gj EV).
    assert (Q6 : Permutation (flips (along n (fun t => g (S m) 2%nat (gi t)))) (flips (B 2%nat))) by (rewrite (along_nodes (fun t => g (S m) 2%nat (gi t)) (fun t => g (S m) 2%nat (gj t))); [reflexivity|]; intros k Hk; rewrite (A k Hk); reflexivity).
    eapply balanced_perm.
    { symmetry. apply Permutation_app_head, Permutation_app_head, Permutation_app_head, Permutation_app_head.
      apply Permutation_app; [apply Permutation_app; [exact Q1|apply Permutation_app_head, Permutation_app; [exact Q2|exact Q3]]|].
      apply Permutation_app; [exact Q4|]. apply Permutation_app; [exact Q5|]. apply Permutation_app; [exact Q6|reflexivity]. }
    generalize (X 0%nat) (X 1%nat) (X 2%nat) (X 3%nat) (B 0%nat) (B 1%nat) (B 2%nat) (B 3%nat) (F 0%nat) (F 1%nat) (F 2%nat) (F 3%nat). clear.
    intros x0 x1 x2 x3 b0 b1 b2 b3 f0 f1 f2 f3. rewrite <- !app_assoc.
    match goal with |- balanced ?t =>
      let rec atoms t := match t with ?a ++ ?b => let l := atoms b in constr:(a :: l) | ?a => constr:([a]) end in
      let l := atoms t in replace t with (concat l) by (cbn [concat]; rewrite app_nil_r; reflexivity) end.
    apply (balanced_atoms _ [x0; x1; x2; x3; b0; b1; b2; b3; f0; f1; f2; f3]). cbn [map app]. perm_solve.
  Qed.
End Sweep.
