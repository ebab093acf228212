(** Bodies of revolution: chains of revolved profiles are closed; their volume. *)
From Coq Require Import Reals Lra ZArith String List Permutation Lia Bool.
From Verif Require Import Num NumR Py M_Vector SpecR3 M_Path M_Surface M_Geometry M_Mesh M_Component
  SpecPath SpecPoly SpecSurf SpecMesh SpecComp SpecPrism SpecLathe L_Vector L_Spline L_Rigid L_Roberts L_Swept L_Edges L_Mesh
  L_Volume L_Component L_SweptComp L_CubeMesh L_RevolvedComp L_Prism L_Hangar.
Import ListNotations.
Local Open Scope R_scope.

Definition four (g : R -> pt) : list (R -> R -> pt) := map (fun i => rev_val g i) (seq 0 4).
Definition lathe_mesh (n : nat) (gs : list (R -> pt)) : list (tri R) := flat_map (patch_grid n) (flat_map four gs).
Definition ring (n : nat) (p : pt) : list (edge pt) :=
  flat_map (fun k => along n (fun s => rev_val (fun _ => p) k 0 s)) (seq 0 4).

Lemma four_values line g : evaluates01 line g -> values01 (dvals (revolved_patches line)) (four g).
Proof.
  intros H. unfold values01, four. cbn [revolved_patches map seq dvals snd].
  repeat (constructor; [intros r s Hr _; apply (rev_patch line g); assumption|]). constructor.
Qed.

Lemma ring_reduces n g : reduces (mesh_edges (flat_map (patch_grid n) (four g))) (ring n (g 1) ++ flips (ring n (g 0))).
Proof.
  rewrite flat_map_concat_map. unfold four.
  eapply reduces_trans.
  { apply (reduces_concat _ (map (fun k => outline (grid_of n (rev_val g k)) (S n) (S n)) (seq 0 4))).
    cbn [map seq]. repeat (constructor; [apply grid_reduces|]). constructor. }
  cbn [map seq concat]. rewrite !outline_along, app_nil_r.
  set (S' k := along n (fun r => rev_val g k r 0)).
  assert (N0 : forall k, along n (fun r => rev_val g k r 1) = S' (k + 1)%nat).
  { intros k. apply along_ext. intros t _. apply rev_seam. }
  assert (N3 : along n (fun r => rev_val g 3 r 1) = S' 0%nat).
  { apply along_ext. intros t _. apply rev_seam_last. }
  rewrite N3, !N0. cbn [Nat.add]. fold (S' 0%nat) (S' 1%nat) (S' 2%nat) (S' 3%nat).
  unfold ring. cbn [seq flat_map]. rewrite !app_nil_r.
  set (e k := along n (fun s => rev_val (fun _ => g 1) k 0 s)). set (w k := along n (fun s => rev_val (fun _ => g 0) k 0 s)).
  change (along n (fun s => rev_val g 0 1 s)) with (e 0%nat). change (along n (fun s => rev_val g 1 1 s)) with (e 1%nat).
  change (along n (fun s => rev_val g 2 1 s)) with (e 2%nat). change (along n (fun s => rev_val g 3 1 s)) with (e 3%nat).
  change (along n (fun s => rev_val g 0 0 s)) with (w 0%nat). change (along n (fun s => rev_val g 1 0 s)) with (w 1%nat).
  change (along n (fun s => rev_val g 2 0 s)) with (w 2%nat). change (along n (fun s => rev_val g 3 0 s)) with (w 3%nat).
  fold (e 0%nat) (e 1%nat) (e 2%nat) (e 3%nat) (w 0%nat) (w 1%nat) (w 2%nat) (w 3%nat).
  generalize (e 0%nat) (e 1%nat) (e 2%nat) (e 3%nat) (w 0%nat) (w 1%nat) (w 2%nat) (w 3%nat) (S' 0%nat) (S' 1%nat) (S' 2%nat) (S' 3%nat).
  clear. intros e0 e1 e2 e3 w0 w1 w2 w3 x0 x1 x2 x3. rewrite !flips_app.
  exists (concat [x0; flips x1; x1; flips x2; x2; flips x3; x3; flips x0]). split.
  - exists (concat [x0; x1; x2; x3]).
    transitivity (concat ([x0; x1; x2; x3] ++ map flips [x0; x1; x2; x3])).
    + apply perm_concat. cbn [map app]. perm_solve.
    + rewrite concat_app. unfold flips. rewrite concat_map. reflexivity.
  - transitivity (concat [x0; e0; flips x1; flips w0; x1; e1; flips x2; flips w1; x2; e2; flips x3; flips w2; x3; e3; flips x0; flips w3]).
    + cbn [concat]. rewrite !app_nil_r, <- !app_assoc. reflexivity.
    + transitivity (concat ([e0; e1; e2; e3; flips w0; flips w1; flips w2; flips w3] ++ [x0; flips x1; x1; flips x2; x2; flips x3; x3; flips x0])).
      * apply perm_concat. cbn [app]. perm_solve.
      * rewrite concat_app. cbn [concat]. rewrite !app_nil_r, <- !app_assoc. reflexivity.
Qed.

Lemma ring_axis n p : on_axis p -> balanced (ring n p).
Proof.
  intros [Y Z]. unfold ring. cbn [seq flat_map]. rewrite app_nil_r.
  repeat apply balanced_app; apply (along_loop n _ p); intros t _; apply turn_axis; assumption.
Qed.
Lemma chain_balanced n : forall gs p, joined_from p gs -> balanced (mesh_edges (lathe_mesh n gs) ++ ring n p).
Proof.
  unfold lathe_mesh. induction gs as [|g gs IH]; intros p H.
  - apply ring_axis, H.
  - destruct H as [<- H]. specialize (IH _ H). cbn [flat_map]. rewrite flat_map_app, mesh_edges_app.
    refine (proj2 (reduces_balanced _ (((ring n (g 1) ++ flips (ring n (g 0))) ++ mesh_edges (flat_map (patch_grid n) (flat_map four gs))) ++ ring n (g 0)) _) _).
    { apply reduces_app; [|apply reduces_refl]. apply reduces_app; [|apply reduces_refl]. apply ring_reduces. }
    generalize dependent (mesh_edges (flat_map (patch_grid n) (flat_map four gs))). generalize (ring n (g 0)) (ring n (g 1)). clear.
    intros a b m B. apply (balanced_perm ((m ++ b) ++ (a ++ flips a))).
    + transitivity (concat ([m; b; a; flips a])); [cbn [concat]; rewrite app_nil_r, <- !app_assoc; reflexivity|].
      transitivity (concat ([b; flips a; m; a])); [apply perm_concat; perm_solve|].
      cbn [concat]; rewrite app_nil_r, <- !app_assoc; reflexivity.
    + apply balanced_app; [exact B|]. apply paired_balanced. exists a. reflexivity.
Qed.
Lemma lathe_watertight n gs : closed_profile gs -> watertight (lathe_mesh n gs).
Proof.
  destruct gs as [|g gs]; [intros _; constructor|]. intros [A J]. unfold watertight.
  apply (balanced_cancel _ (ring n (g 0)) (ring_axis n _ A)), chain_balanced, J.
Qed.

(** ** volume *)
Lemma lathe_cell g k n i j : vz (g (INR i / INR (S n))) = 0 -> vz (g (INR (S i) / INR (S n))) = 0 ->
  asum (map (cell_tri (grid_of n (rev_val g k)) (centred (grid_of n (rev_val g k))) i j) (seq 0 4)) vol6 =
  sin (PI / 2 / INR (S n)) * (3 * frustum (g (INR i / INR (S n))) (g (INR (S i) / INR (S n)))
    - (vx (g (INR (S i) / INR (S n))) * (vy (g (INR (S i) / INR (S n))) * vy (g (INR (S i) / INR (S n))))
       - vx (g (INR i / INR (S n))) * (vy (g (INR i / INR (S n))) * vy (g (INR i / INR (S n)))))).
Proof.
  intros Z0 Z1. unfold asum. cbn [seq map fold_right]. unfold cell_tri, at_corner, corner, centred, grid_of, rev_val, vol6.
  cbn [fst snd t0 t1 t2].
  set (a := INR k * PI / 2 * (1 - INR j / INR (S n)) + INR (k + 1) * PI / 2 * (INR j / INR (S n))).
  set (b := INR k * PI / 2 * (1 - INR (S j) / INR (S n)) + INR (k + 1) * PI / 2 * (INR (S j) / INR (S n))).
  assert (Hn : INR (S n) <> 0) by (apply not_0_INR; lia).
  assert (E : PI / 2 / INR (S n) = b - a).
  { unfold a, b. rewrite plus_INR, (S_INR j). change (INR 1) with 1. field. exact Hn. }
  rewrite E, sin_minus. clearbody a b. clear E.
  destruct (g (INR i / INR (S n))) as [x0 y0 z0]. destruct (g (INR (S i) / INR (S n))) as [x1 y1 z1]. cbn [vz] in Z0, Z1. subst z0 z1.
  unfold turn, mean4, det3, frustum. cbn [vx vy vz]. field.
Qed.

Lemma fold_sumn (n : nat) F : fold_right Rplus 0 (map F (seq 0 n)) = sumn n F.
Proof. reflexivity. Qed.
Lemma sumn_const n c : sumn n (fun _ => c) = INR n * c.
Proof. induction n; [cbn; lra|]. rewrite sumn_S, IHn, S_INR. ring. Qed.

Lemma turns_volume n g : planar g -> asum (flat_map (patch_grid n) (four g)) vol6 =
  6 * (ngon (4 * S n) * frusta (S n) g) -
  4 * INR (S n) * sin (PI / 2 / INR (S n)) * (vx (g 1) * (vy (g 1) * vy (g 1)) - vx (g 0) * (vy (g 0) * vy (g 0))).
Proof.
  intros P. assert (Hn : INR (S n) <> 0) by (apply not_0_INR; lia).
  assert (Q : forall k, asum (patch_grid n (rev_val g k)) vol6 =
    INR (S n) * sin (PI / 2 / INR (S n)) * (3 * frusta (S n) g -
      (vx (g 1) * (vy (g 1) * vy (g 1)) - vx (g 0) * (vy (g 0) * vy (g 0))))).
  { intros k. unfold patch_grid. rewrite asum_grid_sum.
    set (f i := vx (g (INR i / INR (S n))) * (vy (g (INR i / INR (S n))) * vy (g (INR i / INR (S n))))).
    rewrite (sumn_ext (S n) _ (fun i => INR (S n) * sin (PI / 2 / INR (S n)) *
       (3 * frustum (g (INR i / INR (S n))) (g (INR (S i) / INR (S n))) + (-1) * (f (S i) - f i)))).
    2:{ intros i Hi. rewrite (sumn_ext (S n) _ (fun _ => sin (PI / 2 / INR (S n)) *
          (3 * frustum (g (INR i / INR (S n))) (g (INR (S i) / INR (S n))) + (-1) * (f (S i) - f i)))).
        2:{ intros j _. rewrite lathe_cell by (apply P, ratio01; lia). unfold f. ring. }
        rewrite sumn_const. ring. }
    rewrite sumn_scale, sumn_plus, !sumn_scale, sumn_tele. unfold f. rewrite ratio_0, ratio_1.
    unfold frusta. rewrite fold_sumn. ring. }
  rewrite asum_flat. unfold four. rewrite map_map. cbn [seq map fold_right]. rewrite !Q.
  unfold ngon. rewrite mult_INR. replace (INR 4) with 4 by (cbn; lra).
  replace (2 * PI / (4 * INR (S n))) with (PI / 2 / INR (S n)) by (field; exact Hn). field.
Qed.

Lemma chain_volume n : forall gs p, Forall planar gs -> joined_from p gs -> asum (lathe_mesh n gs) vol6 =
  6 * (ngon (4 * S n) * fold_right Rplus 0 (map (frusta (S n)) gs)) +
  4 * INR (S n) * sin (PI / 2 / INR (S n)) * (vx p * (vy p * vy p)).
Proof.
  unfold lathe_mesh. induction gs as [|g gs IH]; intros p P J.
  - destruct J as [Y _]. cbn. rewrite Y. unfold asum. cbn. ring.
  - inversion P as [|? ? P1 P2]; subst. destruct J as [<- J]. cbn [flat_map map fold_right]. rewrite flat_map_app, asum_app, (IH _ P2 J), (turns_volume n g P1).
    ring.
Qed.
Lemma lathe_volume n gs : closed_profile gs -> Forall planar gs ->
  signed_volume (lathe_mesh n gs) = ngon (4 * S n) * fold_right Rplus 0 (map (frusta (S n)) gs).
Proof.
  intros C P. rewrite volume_asum. destruct gs as [|g gs].
  - unfold lathe_mesh, asum. cbn [flat_map map fold_right]. field.
  - destruct C as [[Y Z] J]. rewrite (chain_volume n _ _ P J), Y. field.
Qed.

(** ** straight profiles *)
Lemma straight_frusta n p q : frusta (S n) (straight p q) = frustum p q.
Proof.
  assert (Hn : INR (S n) <> 0) by (apply not_0_INR; lia).
  unfold frusta. rewrite fold_sumn.
  set (b := vy q - vy p). set (d := vx q - vx p).
  set (f (k : nat) := let t := INR k / INR (S n) in d * (vy p * vy p * t + vy p * b * (t * t) + b * b * (t * t * t) / 3)).
  rewrite (sumn_ext (S n) _ (fun k => f (S k) - f k)).
  - rewrite sumn_tele. unfold f. cbv zeta. rewrite ratio_0, ratio_1. unfold frustum, b, d. field.
  - intros k _. unfold f, frustum, straight, b, d. cbn [vx vy vz]. rewrite (S_INR k). field. exact Hn.
Qed.
Lemma ngon_bound n : (3 <= n)%nat -> ngon n < PI.
Proof.
  intros H. unfold ngon. assert (0 < INR n) by (apply lt_0_INR; lia). pose proof PI_RGT_0.
  assert (3 <= INR n) by (apply (le_INR 3) in H; cbn in H; lra).
  assert (A : 0 < 2 * PI / INR n) by (apply Rdiv_lt_0_compat; lra).
  pose proof (sin_lt_x _ A) as L.
  apply Rlt_le_trans with (INR n / 2 * (2 * PI / INR n)); [apply Rmult_lt_compat_l; lra|]. right. field. lra.
Qed.
Lemma ngon_pos n : (3 <= n)%nat -> 0 < ngon n.
Proof.
  intros H. unfold ngon. assert (3 <= INR n) by (apply (le_INR 3) in H; cbn in H; lra). pose proof PI_RGT_0.
  apply Rmult_lt_0_compat; [lra|]. apply sin_gt_0; [apply Rdiv_lt_0_compat; lra|].
  apply (Rmult_lt_reg_r (INR n)); [lra|]. unfold Rdiv. rewrite Rmult_assoc, Rinv_l by lra. nra.
Qed.
