(** Meshes whose corners depend affinely on one parameter. *)
From Coq Require Import String Reals Lra List Lia Bool Arith.
From Verif Require Import Num NumR Py M_Vector SpecR3 M_Path M_Surface M_Mesh M_Sens SpecMesh SpecSens SpecPrism SpecHangar L_Vector L_Mesh L_Component L_Prism.
Import ListNotations.
Local Open Scope R_scope.

Lemma affine1_const p : affine1 (fun _ => p).
Proof. intros x. destruct p. unfold plus_scaled, diff. apply vec_ext; cbn; ring. Qed.
Lemma affine1_eq P Q : (forall x, P x = Q x) -> affine1 Q -> affine1 P.
Proof. intros E H x. rewrite !E. apply H. Qed.
Lemma affine1_mean4 P Q A B : affine1 P -> affine1 Q -> affine1 A -> affine1 B -> affine1 (fun x => mean4 (P x) (Q x) (A x) (B x)).
Proof.
  intros H1 H2 H3 H4 x. rewrite (H1 x), (H2 x), (H3 x), (H4 x). unfold mean4, plus_scaled, diff, translate. apply vec_ext; cbn; field.
Qed.

Lemma corner_app m m' i : corner_of (m ++ m') i = if (i <? 3 * length m)%nat then corner_of m i else corner_of m' (i - 3 * length m).
Proof.
  unfold corner_of. destruct (Nat.ltb_spec i (3 * length m)) as [H|H].
  - rewrite nth_error_app1; [reflexivity|]. apply Nat.div_lt_upper_bound; lia.
  - rewrite nth_error_app2; [|apply Nat.div_le_lower_bound; lia].
    destruct (Nat.le_exists_sub (3 * length m) i H) as (k & -> & _). rewrite Nat.add_sub, (Nat.mul_comm 3).
    rewrite Nat.div_add, Nat.mod_add, Nat.add_sub by lia. reflexivity.
Qed.
Lemma drifts_nil : drifts (fun _ => []).
Proof. split; [reflexivity|]. intros i. apply affine1_const. Qed.
Lemma drifts_app F G : drifts F -> drifts G -> drifts (fun x => F x ++ G x).
Proof.
  intros [L A] [L' A']. split; [intros x; rewrite !app_length, L, L'; reflexivity|].
  intros i x. rewrite !corner_app, !(L x), !(L 1). destruct (i <? 3 * length (F 0%R))%nat; [apply A|apply A'].
Qed.
Lemma drifts_tri P Q A : affine1 P -> affine1 Q -> affine1 A -> drifts (fun x => [Tri (P x) (Q x) (A x)]).
Proof.
  intros H1 H2 H3. split; [reflexivity|]. intros i. unfold corner_of.
  destruct (nth_error [tt] (i / 3)) as [u|] eqn:E.
  - apply (affine1_eq _ (fun x => match (i mod 3)%nat with 0%nat => P x | 1%nat => Q x | _ => A x end)).
    + intros x. destruct (i / 3)%nat as [|[|k]]; [reflexivity|discriminate..].
    + destruct (i mod 3)%nat as [|[|k]]; assumption.
  - apply (affine1_eq _ (fun _ => origin)); [|apply affine1_const]. intros x. destruct (i / 3)%nat as [|[|k]]; [discriminate|reflexivity..].
Qed.
Lemma drifts_flat {K} (F : R -> K -> list (tri R)) ks : (forall k, drifts (fun x => F x k)) -> drifts (fun x => flat_map (F x) ks).
Proof. intros H. induction ks as [|k ks IH]; [apply drifts_nil|]. cbn [flat_map]. apply drifts_app; [apply H|exact IH]. Qed.
Lemma drifts_map {K} (F : R -> K -> tri R) ks : (forall k, drifts (fun x => [F x k])) -> drifts (fun x => map (F x) ks).
Proof.
  intros H. induction ks as [|k ks IH]; [apply drifts_nil|]. cbn [map]. apply (drifts_app (fun x => [F x k])); [apply H|exact IH].
Qed.
Lemma drifts_patch n (v : R -> R -> R -> pt) : (forall r s, affine1 (fun x => v x r s)) -> drifts (fun x => patch_grid n (v x)).
Proof.
  intros H. unfold patch_grid, grid_mesh. apply drifts_flat. intros i. apply drifts_flat. intros j. apply drifts_map. intros k.
  unfold cell_tri. apply drifts_tri; [apply H|apply H|]. unfold centred. apply affine1_mean4; apply H.
Qed.
Lemma corner_map_in f m i : (i < 3 * length m)%nat -> corner_of (map_mesh f m) i = f (corner_of m i).
Proof.
  intros H. unfold corner_of, map_mesh. rewrite nth_error_map. destruct (nth_error m (i / 3)) as [t|] eqn:E; cbn [option_map].
  - unfold map_tri. destruct (i mod 3)%nat as [|[|]]; reflexivity.
  - exfalso. apply nth_error_None in E. assert (i / 3 < length m)%nat by (apply Nat.div_lt_upper_bound; lia). lia.
Qed.
Lemma drifts_moved (f : R -> pt -> pt) m : (forall p, affine1 (fun x => f x p)) -> drifts (fun x => map_mesh (f x) m).
Proof.
  intros H. apply drifts_map. intros t. unfold map_tri. apply drifts_tri; apply H.
Qed.
Lemma drifts_eq F G : (forall x, F x = G x) -> drifts G -> drifts F.
Proof.
  intros E [L A]. split; [intros x; rewrite !E; apply L|]. intros i. apply (affine1_eq _ (fun x => corner_of (G x) i)); [|apply A].
  intros x. rewrite E. reflexivity.
Qed.
Lemma affine1_velocity F i x : affine1 (fun y => corner_of (F y) i) -> velocity F i x (diff (corner_of (F 1) i) (corner_of (F 0) i)).
Proof.
  intros H.
  assert (L : forall (f : R -> R) a b, (forall y, f y = a + y * b) -> derivable_pt_lim f x b).
  { intros f a b E eps He. exists (mkposreal 1 Rlt_0_1). intros k Hk _. rewrite !E.
    replace ((a + (x + k) * b - (a + x * b)) / k - b) with 0 by (field; exact Hk). rewrite Rabs_R0. exact He. }
  unfold velocity. split; [|split].
  - apply (L _ (vx (corner_of (F 0) i))). intros y. rewrite (H y). reflexivity.
  - apply (L _ (vy (corner_of (F 0) i))). intros y. rewrite (H y). reflexivity.
  - apply (L _ (vz (corner_of (F 0) i))). intros y. rewrite (H y). reflexivity.
Qed.
