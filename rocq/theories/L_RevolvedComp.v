(** RevolvedComponent: watertightness. *)
From Coq Require Import Reals Lra ZArith String List Permutation Lia Bool.
From Verif Require Import Num NumR Py M_Vector SpecR3 M_Path M_Surface M_Geometry M_Mesh M_Component
  SpecPath SpecPoly SpecSurf SpecMesh SpecComp L_Vector L_Spline L_Rigid L_Roberts L_Swept L_Edges L_Mesh
  L_Volume L_Component L_SweptComp L_CubeMesh.
Import ListNotations.
Local Open Scope R_scope.

(** turning p about the x axis, as RevolvedPatch does *)
Definition turn (a : R) (p : pt) : pt :=
  V3 (vx p) (vy p * cos a + vz p * sin a) (vz p * cos a - vy p * sin a).
Definition rev_val (g : R -> pt) (i : nat) (r s : R) : pt :=
  turn (INR i * PI / 2 * (1 - s) + INR (i + 1) * PI / 2 * s) (g r).

Lemma rev_patch line g i r s : evaluates01 line g -> 0 <= r <= 1 ->
  RevolvedPatch line (M_Component.revolved_angle i) (M_Component.revolved_angle (i + 1)) r s = Ok (rev_val g i r s).
Proof.
  intros H Hr. unfold RevolvedPatch. rewrite H by auto. cbn [bind].
  unfold M_Component.revolved_angle, rev_val, turn. rewrite !nnat_INR. numR. reflexivity.
Qed.
Lemma turn_axis a p : vy p = 0 -> vz p = 0 -> turn a p = p.
Proof. intros Y Z. unfold turn. rewrite Y, Z. apply vec_ext; cbn; rewrite ?Y, ?Z; ring. Qed.
Lemma turn_0 p : turn 0 p = p.
Proof. unfold turn. rewrite cos_0, sin_0. apply vec_ext; cbn; ring. Qed.
Lemma turn_2PI p : turn (2 * PI) p = p.
Proof. unfold turn. rewrite cos_2PI, sin_2PI. apply vec_ext; cbn; ring. Qed.
Lemma rev_seam g i r : rev_val g i r 1 = rev_val g (i + 1) r 0.
Proof. unfold rev_val. f_equal. ring. Qed.
Lemma rev_seam_last g r : rev_val g 3 r 1 = rev_val g 0 r 0.
Proof.
  unfold rev_val. cbn [INR Nat.add].
  replace ((1 + 1 + 1) * PI / 2 * (1 - 1) + (1 + 1 + 1 + 1) * PI / 2 * 1) with (2 * PI) by field.
  replace (0 * PI / 2 * (1 - 0) + 1 * PI / 2 * 0) with 0 by field.
  rewrite turn_2PI, turn_0. reflexivity.
Qed.

Lemma along_loop n g c : (forall t, 0 <= t <= 1 -> g t = c) -> balanced (along n g).
Proof.
  intros H. apply balanced_loops. unfold along.
  apply (chain_const (fun k => g (INR k / INR (S n))) (S n) c). intros k Hk. apply H, ratio01, Hk.
Qed.
Lemma balanced_flips {A} (l : list (edge A)) : balanced l -> balanced (flips l).
Proof. unfold balanced. intros H. apply flips_perm, H. Qed.

Lemma revolved_mesh line g n : evaluates01 line g ->
  exists ms, Forall2 (fun u mm => mesh_patch no_clustering u (S n) (S n) = Ok mm) (dvals (revolved_patches line)) ms /\
    Forall2 (fun mm o => mm = grid_mesh o (fun i j => mean4 (o i j) (o (S i) j) (o i (S j)) (o (S i) (S j))) (S n) (S n)) ms
      (map (fun i => grid_of n (rev_val g i)) (seq 0 4)).
Proof.
  intros H. eexists. split.
  - cbn [revolved_patches map seq dvals snd].
    repeat (constructor; [apply mesh_patch_default; intros i j Hi Hj; apply (rev_patch line g); [exact H|apply ratio01; lia]|]).
    constructor.
  - cbn [map seq]. repeat (constructor; [reflexivity|]). constructor.
Qed.
Lemma revolved_fresh line g n ms : 
  Forall2 (fun u mm => mesh_patch no_clustering u (S n) (S n) = Ok mm) (dvals (revolved_patches line)) ms ->
  evaluates01 line g ->
  fresh_mesh (revolved_patches line) (ResInt (S n)) [] [] no_clustering = Ok (concat ms).
Proof.
  intros M H. apply fresh_mesh_int; [discriminate| |exact M].
  cbn. repeat constructor; cbn; intuition discriminate.
Qed.

Lemma revolved_watertight line g n : evaluates01 line g ->
  vy (g 0) = 0 -> vz (g 0) = 0 -> vy (g 1) = 0 -> vz (g 1) = 0 ->
  exists mesh, fresh_mesh (revolved_patches line) (ResInt (S n)) [] [] no_clustering = Ok mesh /\
    watertight mesh /\ length mesh = (16 * S n * S n)%nat.
Proof.
  intros H Y0 Z0 Y1 Z1. destruct (revolved_mesh line g n H) as (ms & M1 & M2). exists (concat ms).
  split; [apply (revolved_fresh line g n ms M1 H)|].
  cbn [map seq] in M2.
  repeat match goal with H : Forall2 _ _ (_ :: _) |- _ => inversion H; clear H; subst end.
  match goal with H : Forall2 _ _ [] |- _ => inversion H; clear H; subst end.
  split.
  2:{ cbn [concat]. rewrite !app_length, !grid_mesh_length. cbn [length]. lia. }
  unfold watertight.
  refine (proj2 (reduces_balanced _ _ (reduces_concat _
     (map (fun k => outline (grid_of n (rev_val g k)) (S n) (S n)) (seq 0 4)) _)) _);
    [cbn [map seq]; repeat (constructor; [apply grid_reduces|]); constructor|].
  cbn [map seq].
  cbn [concat]. rewrite !outline_along, app_nil_r.
  set (S' k := along n (fun r => rev_val g k r 0)).
  assert (N0 : forall k, along n (fun r => rev_val g k r 1) = S' (k + 1)%nat).
  { intros k. apply along_ext. intros t _. apply rev_seam. }
  assert (N3 : along n (fun r => rev_val g 3 r 1) = S' 0%nat).
  { apply along_ext. intros t _. apply rev_seam_last. }
  rewrite N3, !N0. cbn [Nat.add]. fold (S' 0%nat) (S' 1%nat) (S' 2%nat) (S' 3%nat).
  assert (E1 : forall k, balanced (along n (fun s => rev_val g k 1 s))).
  { intros k. apply (along_loop n _ (g 1)). intros t _. apply turn_axis; auto. }
  assert (W1 : forall k, balanced (flips (along n (fun s => rev_val g k 0 s)))).
  { intros k. apply balanced_flips, (along_loop n _ (g 0)). intros t _. apply turn_axis; auto. }
  generalize (E1 0%nat) (E1 1%nat) (E1 2%nat) (E1 3%nat) (W1 0%nat) (W1 1%nat) (W1 2%nat) (W1 3%nat).
  generalize (along n (fun s => rev_val g 0 1 s)) (along n (fun s => rev_val g 1 1 s))
    (along n (fun s => rev_val g 2 1 s)) (along n (fun s => rev_val g 3 1 s))
    (flips (along n (fun s => rev_val g 0 0 s))) (flips (along n (fun s => rev_val g 1 0 s)))
    (flips (along n (fun s => rev_val g 2 0 s))) (flips (along n (fun s => rev_val g 3 0 s))).
  generalize (S' 0%nat) (S' 1%nat) (S' 2%nat) (S' 3%nat). clear.
  intros x0 x1 x2 x3 e0 e1 e2 e3 w0 w1 w2 w3 B0 B1 B2 B3 C0 C1 C2 C3.
  apply (balanced_perm ((concat [x0; flips x1; x1; flips x2; x2; flips x3; x3; flips x0]) ++ e0 ++ e1 ++ e2 ++ e3 ++ w0 ++ w1 ++ w2 ++ w3)).
  - transitivity (concat ([x0; flips x1; x1; flips x2; x2; flips x3; x3; flips x0] ++ [e0; e1; e2; e3; w0; w1; w2; w3])).
    + rewrite concat_app. cbn [concat]. rewrite !app_nil_r. reflexivity.
    + transitivity (concat [x0; e0; flips x1; w0; x1; e1; flips x2; w1; x2; e2; flips x3; w2; x3; e3; flips x0; w3]).
      * apply perm_concat. cbn [app]. perm_solve.
      * cbn [concat]. rewrite !app_nil_r, <- !app_assoc. reflexivity.
  - apply balanced_app; [|repeat apply balanced_app; auto].
    apply (balanced_atoms _ [x0; x1; x2; x3]). cbn [map app]. perm_solve.
Qed.

(** an end off the axis leaves a hole *)
Lemma esum_along_const n h f K : (forall k, (k <= n)%nat -> f (h (INR k / INR (S n)), h (INR (S k) / INR (S n))) = K) ->
  esum f (along n h) = INR (S n) * K.
Proof.
  intros H. unfold along, chain, esum. rewrite map_map.
  assert (A : forall l, (forall k, In k l -> (k <= n)%nat) ->
    fold_right Rplus 0 (map (fun k => f (h (INR k / INR (S n)), h (INR (S k) / INR (S n)))) l) = INR (length l) * K).
  { induction l as [|k l IH]; intros Hl; cbn [map fold_right length]; [cbn; ring|].
    rewrite (H k) by (apply Hl; left; reflexivity). rewrite IH by (intros; apply Hl; right; assumption).
    rewrite S_INR. ring. }
  rewrite A, seq_length; [reflexivity|]. intros k Hk. apply in_seq in Hk. lia.
Qed.
Definition rho2 (p : pt) : R := vy p * vy p + vz p * vz p.
Lemma fx_turn a b p : fx (turn a p, turn b p) = rho2 p * sin (a - b).
Proof. unfold fx, turn, crossR, rho2. cbn. rewrite sin_minus. ring. Qed.
Lemma ring_sum g k n r : esum fx (along n (fun s => rev_val g k r s))
  = INR (S n) * (rho2 (g r) * - sin (PI / 2 / INR (S n))).
Proof.
  assert (Hn : INR (S n) <> 0) by (apply not_0_INR; lia).
  apply esum_along_const. intros j Hj. unfold rev_val. rewrite fx_turn, <- sin_neg. f_equal. f_equal.
  rewrite plus_INR, (S_INR j). cbn [INR]. field. auto.
Qed.

Lemma revolved_open line g n : evaluates01 line g -> radius_x (g 0) <> radius_x (g 1) ->
  exists mesh, fresh_mesh (revolved_patches line) (ResInt (S n)) [] [] no_clustering = Ok mesh /\ ~ watertight mesh.
Proof.
  intros H D. destruct (revolved_mesh line g n H) as (ms & M1 & M2). exists (concat ms).
  split; [apply (revolved_fresh line g n ms M1 H)|].
  intros W. apply watertight_net_area in W. apply (f_equal (@vx R)) in W. change (px (concat ms) = 0) in W.
  cbn [map seq] in M2.
  repeat match goal with H : Forall2 _ _ (_ :: _) |- _ => inversion H; clear H; subst end.
  match goal with H : Forall2 _ _ [] |- _ => inversion H; clear H; subst end.
  rewrite (px_reduces _ (concat (map (fun k => outline (grid_of n (rev_val g k)) (S n) (S n)) (seq 0 4)))) in W.
  2:{ apply reduces_concat. cbn [map seq]. repeat (constructor; [apply grid_reduces|]). constructor. }
  cbn [map seq concat] in W. rewrite !outline_along, app_nil_r in W.
  set (S' k := along n (fun r => rev_val g k r 0)) in *.
  assert (N0 : forall k, along n (fun r => rev_val g k r 1) = S' (k + 1)%nat).
  { intros k. apply along_ext. intros t _. apply rev_seam. }
  assert (N3 : along n (fun r => rev_val g 3 r 1) = S' 0%nat).
  { apply along_ext. intros t _. apply rev_seam_last. }
  rewrite N3, !N0 in W. cbn [Nat.add] in W. fold (S' 0%nat) (S' 1%nat) (S' 2%nat) (S' 3%nat) in W.
  rewrite !esum_app, !esum_flips, !ring_sum in W by apply fx_flip.
  assert (Hn : 0 < INR (S n)) by (apply lt_0_INR; lia).
  assert (Hn1 : 1 <= INR (S n)) by (rewrite S_INR; pose proof (pos_INR n); lra).
  assert (SP : 0 < sin (PI / 2 / INR (S n))).
  { pose proof PI_RGT_0. apply sin_gt_0; [apply Rdiv_lt_0_compat; lra|].
    apply Rle_lt_trans with (PI / 2); [|lra].
    apply (Rmult_le_reg_r (INR (S n))); [lra|]. unfold Rdiv at 1. rewrite Rmult_assoc, Rinv_l by lra. nra. }
  assert (Z : INR (S n) * sin (PI / 2 / INR (S n)) * (rho2 (g 0) - rho2 (g 1)) = 0) by lra.
  apply Rmult_integral in Z as [Z|Z]; [nra|].
  apply D. unfold radius_x. f_equal. unfold rho2 in Z. lra.
Qed.
