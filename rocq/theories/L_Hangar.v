(** From a generated vehicle to the meshes of its components. *)
From Coq Require Import String Reals Lra ZArith List Permutation Lia Bool.
From Verif Require Import Num NumR Py M_Vector SpecR3 M_Path M_Surface M_Geometry M_Mesh M_Component M_Vehicle
  SpecPath SpecPoly SpecSurf SpecMesh SpecComp SpecVehicle SpecFiles SpecPrism L_Vector L_Edges L_Mesh L_Volume L_Component
  L_SweptComp L_Heap L_Pipeline L_Generate L_Cache L_Prism.
Import ListNotations.
Local Open Scope R_scope.

Definition values01 (us : list (surf R)) (vs : list (R -> R -> pt)) : Prop :=
  Forall2 (fun u v => forall r s, 0 <= r <= 1 -> 0 <= s <= 1 -> u r s = Ok (v r s)) us vs.

Lemma relates_keys key F g d : relates key F g d -> dkeys d = map key (dkeys g).
Proof. unfold relates, dkeys. induction 1 as [|a b g d [E _] _ IH]; [reflexivity|]. cbn. rewrite E, IH. reflexivity. Qed.
Lemma relates_values key F f g d vs : relates key F g d -> (forall p, F p = Ok (f p)) -> values01 (dvals g) vs ->
  values01 (dvals d) (map (fun v r s => f (v r s)) vs).
Proof.
  intros H E. revert vs. unfold relates, values01, dvals in *. induction H as [|a b g d [_ M] _ IH]; intros vs V; inversion V; subst; [constructor|].
  cbn [map]. constructor; [|apply IH; assumption]. intros r s Hr Hs. rewrite M. rewrite H1 by assumption. apply E.
Qed.
Lemma mesh_of_values (d : dict (surf R)) n rr rs vs : NoDup (dkeys d) -> d <> [] -> values01 (dvals d) vs ->
  fresh_mesh d (ResInt (S n)) rr rs no_clustering = Ok (flat_map (patch_grid n) vs).
Proof.
  intros ND NE V. rewrite flat_map_concat_map. apply fresh_mesh_int; [exact NE|exact ND|]. apply grids_of_patches, V.
Qed.

(** nothing meshed yet, an integer resolution and no clustering *)
Definition unmeshed (h : heap R) (i n : nat) : Prop := exists c, nth_error (comps h) i = Some c /\
  c_mesh c = None /\ c_surfaces c = None /\ c_resolution c = ResInt (S n) /\ c_clustering c = no_clustering.

Lemma generated_caches (v v' : vehicle R) h h' i : generate v h = (h', v', Ok tt) -> empty_cache h i -> empty_cache h' i.
Proof.
  unfold generate. pose proof (cached_iter (generate_component (v_angle v)) (v_components v)
    (fun a _ => cached_generate (v_angle v) a) h) as CS.
  destruct (iterM (generate_component (v_angle v)) (v_components v) h) as [h1 [u|e]]; [|discriminate]. cbn [fst] in CS.
  intros H E. apply (empty_step _ _ _ CS) in E.
  cbn [v_transformations mark_generated] in H. destruct (v_transformations v) as [|t ts]; [injection H as <- _; exact E|].
  unfold transform_vehicle in H. cbn [v_generated mark_generated] in H. rewrite (surjective_pairing (iterM _ _ _)) in H.
  injection H as H1 _ H2. 
  refine (proj1 (transformed_empty (t :: ts) (v_components v) h1 h' _) i E). rewrite <- H1, <- H2. apply surjective_pairing.
Qed.

Definition motion_total (l : list pmap) (f : pt -> pt) : Prop := forall q, in_order l q = Ok (f q).

Theorem generated_meshes (v : vehicle R) h more : separate h ->
  NoDup (flat_map (with_children h) (v_components v)) ->
  (forall i, In i (v_components v) -> exists g p, ready h i g p) ->
  v_transformations v = map written more -> Forall motion_ok more ->
  exists h', generate v h = (h', mark_generated v, Ok tt) /\
    length (comps h') = length (comps h) /\
    (forall i c, nth_error (comps h) i = Some c -> exists c', nth_error (comps h') i = Some c' /\ same_options c c') /\
    forall i g p n vs f, In i (v_components v) -> ready h i g p -> unmeshed h i n -> g <> [] -> values01 (dvals g) vs ->
      p_axis p = None ->
      motion_total (before_reflection p (v_angle v) ++ after_reflection p more) f ->
      mesh_of h' i = Ok (flat_map (patch_grid n) (map (fun u r s => f (u r s)) vs)).
Proof.
  intros SP ND RD ET OM. apply separate_ns in SP.
  destruct (generate_run v h more SP ND) as (h' & A & S & Q & _).
  { intros i Hi. destruct (RD i Hi) as (g & p & Ri). destruct (ready_set_up h i g p SP Ri) as (c & U & _). eauto. }
  { exact ET. }
  exists h'. split; [exact A|]. split; [apply S|]. split; [apply S|].
  intros i g p n vs f Hi Ri (c0 & E0 & C1 & C2 & C3 & C4) NE V AX F.
  destruct (ready_set_up h i g p SP Ri) as (c & U & P).
  destruct (Q i g c (p_motions p) Hi U) as (c2 & V2 & SO).
  assert (c0 = c) as -> by (destruct U as (_ & E & _); congruence).
  destruct (generated_caches v _ h h' i A) as (c3 & E3 & M1 & M2); [exists c; auto|].
  destruct (view_inv _ _ _ _ V2) as [E2 _]. assert (c3 = c2) as -> by congruence.
  destruct (so_inv c c2 SO) as (_ & _ & R1 & _ & R2 & _).
  unfold mesh_of. rewrite (fresh_comp_mesh i h' c2 _ V2 M1 M2), R1, R2, C3, C4.
  destruct Ri as (_ & K & O & _).
  pose proof (finished_effect c p (v_angle v) more g P O OM K) as FE. unfold finished in FE. rewrite AX in FE.
  set (d := fold_left _ _ _) in *. clearbody d. apply mesh_of_values.
  - rewrite (relates_keys _ _ _ _ FE). unfold same_key. rewrite map_id. apply K.
  - intros ->. inversion FE. congruence.
  - apply (relates_values _ _ _ _ _ _ FE F V).
Qed.

(** the mesh of moved patches is the moved mesh *)
Lemma affine_mean f a b c d : affine f -> f (mean4 a b c d) = mean4 (f a) (f b) (f c) (f d).
Proof.
  intros A. rewrite (A (mean4 a b c d)), (A a), (A b), (A c), (A d). unfold mean4. 
  apply vec_ext; cbn; field.
Qed.
Lemma patch_grid_affine f n v : affine f -> patch_grid n (fun r s => f (v r s)) = map_mesh f (patch_grid n v).
Proof.
  intros A. unfold patch_grid, grid_mesh, map_mesh.
  rewrite !flat_map_concat_map, concat_map, map_map. f_equal. apply map_ext. intros i.
  rewrite !flat_map_concat_map, concat_map, map_map. f_equal. apply map_ext. intros j.
  rewrite map_map. apply map_ext. intros k. unfold cell_tri, map_tri, at_corner, grid_of, centred. cbn [t0 t1 t2].
  rewrite affine_mean by exact A. reflexivity.
Qed.
Lemma grids_affine f n vs : affine f -> flat_map (patch_grid n) (map (fun v r s => f (v r s)) vs) = map_mesh f (flat_map (patch_grid n) vs).
Proof.
  intros A. induction vs as [|v vs IH]; [reflexivity|]. cbn [map flat_map]. unfold map_mesh in *. rewrite map_app, <- IH. f_equal.
  apply patch_grid_affine, A.
Qed.

(** ** building on an arbitrary heap *)
From Verif Require Import M_Gen M_Hangar.

Section Extend.
  Context {T : Type} {N : Num T}.
  Variable h : heap T.
  Notation D := (length (dicts h)).
  Notation C := (length (comps h)).
  Definition ext ds cs : heap T := mkHeap (dicts h ++ ds) (comps h ++ cs).
  Lemma ext_nil : ext [] [] = h.
  Proof using. clear N. unfold ext. rewrite !app_nil_r. destruct h; reflexivity. Qed.
  Lemma nth_ext {A} (l k : list A) i : nth_error (l ++ k) (length l + i) = nth_error k i.
  Proof using. clear. rewrite nth_error_app2 by lia. f_equal. lia. Qed.
  Lemma set_ext {A} (l k : list A) i a : list_set (l ++ k) (length l + i) a = l ++ list_set k i a.
  Proof using. clear. induction l as [|x l IH]; [reflexivity|]. cbn. rewrite IH. reflexivity. Qed.
  Lemma get_ext ds cs k c : nth_error cs k = Some c -> get_comp (C + k) (ext ds cs) = (ext ds cs, Ok c).
  Proof using. clear N. intros E. unfold get_comp, ext. cbn [comps]. rewrite nth_ext, E. reflexivity. Qed.
  Lemma put_ext ds cs k c : put_comp (C + k) c (ext ds cs) = (ext ds (list_set cs k c), Ok tt).
  Proof using. clear N. unfold put_comp, ext. cbn [comps dicts]. rewrite set_ext. reflexivity. Qed.
  Lemma getd_ext ds cs k d : nth_error ds k = Some d -> get_dict (D + k) (ext ds cs) = (ext ds cs, Ok d).
  Proof using. clear N. intros E. unfold get_dict, ext. cbn [dicts]. rewrite nth_ext, E. reflexivity. Qed.
  Lemma newd_ext ds cs d : new_dict d (ext ds cs) = (ext (ds ++ [d]) cs, Ok (D + length ds)%nat).
  Proof using. clear N. unfold new_dict, ext. cbn [dicts comps]. rewrite app_length, app_assoc. reflexivity. Qed.
  Lemma newc_ext ds cs c : new_comp c (ext ds cs) = (ext ds (cs ++ [c]), Ok (C + length cs)%nat).
  Proof using. clear N. unfold new_comp, ext. cbn [dicts comps]. rewrite app_length, app_assoc. reflexivity. Qed.
  Lemma object_ext ds cs ty k r name : new_object ty k r name (ext ds cs) =
    (ext (ds ++ [[]]) (cs ++ [mkComp ty k (D + length ds)%nat [] [] r None None None no_clustering [] None None true false name 1%Z]),
     Ok (C + length cs)%nat).
  Proof using. unfold new_object, bindM. rewrite newd_ext, newc_ext. reflexivity. Qed.
  Lemma add_ext ds cs v k c a : nth_error cs k = Some c -> str_in (c_type c) allowable = true ->
    add v (C + k) a (ext ds cs) =
    (let count := (or_else (dget (v_counts v) (c_type c)) 0 + 1)%nat in
     let name := match a_name a with
                 | Some n => n
                 | None => if truthy (c_name c) then or_else (c_name c) ""%string else enum_name (c_type c) count
                 end in
     (ext ds (list_set cs k (with_options (v_verbosity v) a c)),
      Ok (mkVehicle (v_components v ++ [(C + k)%nat]) (v_name v) (v_angle v) (v_verbosity v) (v_generated v)
             (dset (v_counts v) (c_type c) count)
             (dset (v_enumerated v) (enum_name (c_type c) count) (C + k)%nat)
             (dset (v_named v) name (C + k)%nat) (v_transformations v)))).
  Proof using.
    intros E A. unfold add, add_component, ext. cbn [comps dicts]. rewrite nth_ext, E, A, set_ext. reflexivity.
  Qed.
End Extend.
Lemma ext_separate (h : heap R) ds cs l : separate h -> map c_patches cs = map (fun k => length (dicts h) + k)%nat l ->
  NoDup l -> Forall (fun k => k < length ds)%nat l -> separate (ext h ds cs).
Proof.
  rewrite !separate_ns. intros [A B] E ND FA.
  assert (K : forall k c, nth_error cs k = Some c -> exists d, nth_error l k = Some d /\ c_patches c = (length (dicts h) + d)%nat).
  { intros k c Hk. pose proof (map_nth_error c_patches k cs Hk) as Q. rewrite E in Q.
    rewrite nth_error_map in Q. destruct (nth_error l k) as [d|]; [|discriminate]. injection Q as Q. eauto. }
  split; unfold ext; cbn [comps dicts].
  - intros j c Hj. rewrite app_length. destruct (Nat.lt_ge_cases j (length (comps h))) as [L|L].
    + rewrite nth_error_app1 in Hj by exact L. specialize (A j c Hj). lia.
    + rewrite nth_error_app2 in Hj by exact L. destruct (K _ _ Hj) as (d & Hd & ->).
      rewrite Forall_forall in FA. specialize (FA d (nth_error_In _ _ Hd)). lia.
  - intros j k c c' Hj Hk NE.
    destruct (Nat.lt_ge_cases j (length (comps h))) as [L|L], (Nat.lt_ge_cases k (length (comps h))) as [L'|L'].
    + rewrite nth_error_app1 in Hj, Hk by assumption. eapply B; eauto.
    + rewrite nth_error_app1 in Hj by assumption. rewrite nth_error_app2 in Hk by assumption. destruct (K _ _ Hk) as (d & Hd & ->).
      specialize (A j c Hj). lia.
    + rewrite nth_error_app2 in Hj by assumption. rewrite nth_error_app1 in Hk by assumption. destruct (K _ _ Hj) as (d & Hd & ->).
      specialize (A k c' Hk). lia.
    + rewrite nth_error_app2 in Hj, Hk by assumption. destruct (K _ _ Hj) as (d & Hd & ->). destruct (K _ _ Hk) as (d' & Hd' & ->).
      intros Q. assert (d = d') as -> by lia. apply NE. rewrite NoDup_nth_error in ND.
      assert (j - length (comps h) = k - length (comps h))%nat; [|lia]. apply ND; [apply nth_error_Some; congruence|congruence].
Qed.
