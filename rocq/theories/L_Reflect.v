(** Component.reflect and the mesh of the reflected component. *)
From Coq Require Import Reals Lra ZArith String List Permutation Lia Bool.
From Verif Require Import Num NumR Py M_Vector SpecR3 M_Path M_Surface M_Geometry M_Mesh M_Component
  SpecPath SpecPoly SpecSurf SpecMesh SpecComp L_Vector L_Rigid L_Roberts L_Swept L_Edges L_Mesh
  L_Volume L_Component L_SweptComp L_CubeMesh.
Import ListNotations.
Local Open Scope R_scope.

Lemma fresh_mesh_inv (d : dict (surf R)) n rr rs c m : NoDup (dkeys d) ->
  fresh_mesh d (ResInt n) rr rs c = Ok m ->
  d <> [] /\ exists ms, Forall2 (fun u mm => mesh_patch c u n n = Ok mm) (dvals d) ms /\ m = concat ms.
Proof.
  intros ND H. assert (Hd : d <> []).
  { intros ->. discriminate. }
  split; [exact Hd|].
  assert (M : exists ms, Forall2 (fun u mm => mesh_patch c u n n = Ok mm) (dvals d) ms).
  { unfold fresh_mesh, component_surface in H. destruct d as [|kp d]; [contradiction|].
    set (dd := kp :: d) in *. cbn [case_list bind] in H.
    destruct (mapM _ (map _ dd)) as [r|] eqn:Er; [|discriminate]. rewrite mapM_map in Er. apply mapM_inv in Er.
    exists (dvals r). clear -Er. unfold dvals. induction Er as [|[k u] b l l' E _ IH]; cbn [map snd]; constructor; auto.
    cbn in E. destruct (mesh_patch c u n n); [|discriminate]. injection E as <-. reflexivity. }
  destruct M as [ms F]. exists ms. split; [exact F|].
  rewrite (fresh_mesh_int d n rr rs c ms Hd ND F) in H. congruence.
Qed.

Lemma NoDup_app_remove_r {A} (l k : list A) : NoDup (l ++ k) -> NoDup l.
Proof.
  induction l as [|a l IH]; cbn; intros H; [constructor|]. inversion H; subst. constructor; auto.
  intros I. apply H2, in_or_app. auto.
Qed.
Definition mirrored_dict (axis : string) (d : dict (surf R)) : dict (surf R) :=
  map (fun kp => (mirrored_key (fst kp), MirroredPatch (snd kp) axis)) d.
Lemma mirrored_dict_keys axis d : dkeys (mirrored_dict axis d) = map mirrored_key (dkeys d).
Proof. unfold dkeys, mirrored_dict. rewrite !map_map. reflexivity. Qed.
Lemma append_inj (a b s : string) : (a ++ s = b ++ s)%string -> a = b.
Proof.
  revert b. induction a as [|x a IH]; intros [|y b] H; auto; cbn in H.
  - exfalso. apply (f_equal String.length) in H. cbn in H.
    assert (L : forall a b : string, String.length (a ++ b) = (String.length a + String.length b)%nat).
    { intros u; induction u; cbn; intros; auto. } rewrite L in H. lia.
  - exfalso. apply (f_equal String.length) in H. cbn in H.
    assert (L : forall a b : string, String.length (a ++ b) = (String.length a + String.length b)%nat).
    { intros u; induction u; cbn; intros; auto. } rewrite L in H. lia.
  - injection H as -> H. f_equal. auto.
Qed.
Lemma mirrored_key_inj a b : mirrored_key a = mirrored_key b -> a = b.
Proof. apply append_inj. Qed.
Lemma NoDup_map_inj {A B} (f : A -> B) l : (forall a b, f a = f b -> a = b) -> NoDup l -> NoDup (map f l).
Proof.
  intros I. induction 1 as [|a l H _ IH]; cbn; constructor; auto.
  intros K. apply in_map_iff in K as (b & E & Hb). apply I in E. congruence.
Qed.

Lemma mirrored_meshes axis c n d ms : is_axis (lower_axis axis) ->
  Forall2 (fun u mm => mesh_patch c u n n = Ok mm) (dvals d) ms ->
  Forall2 (fun u mm => mesh_patch c u n n = Ok mm) (dvals (mirrored_dict axis d)) (map (map_mesh (reflect (axis_vec (lower_axis axis)))) ms).
Proof.
  intros A F. unfold dvals, mirrored_dict in *. rewrite map_map. revert ms F.
  induction d as [|[k u] d IH]; intros ms F; inversion F; subst; cbn [map snd]; constructor.
  - rewrite (mesh_patch_map _ _ _ c n n (reflect_affine (axis_vec (lower_axis axis))) (mirrored_map u axis A)), H1. reflexivity.
  - apply IH; auto.
Qed.
Lemma map_mesh_concat (f : pt -> pt) ms : map_mesh f (concat ms) = concat (map (map_mesh f) ms).
Proof. unfold map_mesh. apply concat_map. Qed.
Lemma axis_cases axis : is_axis axis -> axis_vec axis = ex \/ axis_vec axis = ey \/ axis_vec axis = ez.
Proof. intros [-> | [-> | ->]]; cbn; auto. Qed.

Definition chosen_axis (own arg : option string) (axis : string) : Prop :=
  own = Some axis \/ (own = None /\ arg = Some axis).

Lemma reflect_append own arg axis d n rr rs c m : chosen_axis own arg axis -> is_axis (lower_axis axis) ->
  NoDup (dkeys d ++ map mirrored_key (dkeys d)) ->
  fresh_mesh d (ResInt n) rr rs c = Ok m ->
  fresh_mesh (reflect_patches own true arg d) (ResInt n) rr rs c = Ok (m ++ map_mesh (reflect (axis_vec (lower_axis axis))) m).
Proof.
  intros C A ND H. assert (ND1 : NoDup (dkeys d)) by (eapply NoDup_app_remove_r; eauto).
  destruct (fresh_mesh_inv d n rr rs c m ND1 H) as (Hd & ms & F & ->).
  assert (E : reflect_patches own true arg d = d ++ mirrored_dict axis d).
  { unfold reflect_patches. assert (X : match own with Some a => Some a | None => arg end = Some axis)
      by (destruct C as [-> | [-> ->]]; reflexivity). rewrite X.
    fold (mirrored_dict axis d). rewrite dupdate_nil, dupdate_nodup; auto; rewrite mirrored_dict_keys; auto.
    apply NoDup_map_inj; auto. apply mirrored_key_inj. }
  rewrite E, map_mesh_concat, <- concat_app. apply fresh_mesh_int.
  - destruct d; [contradiction|discriminate].
  - rewrite dkeys_app, mirrored_dict_keys. exact ND.
  - unfold dvals. rewrite map_app. apply Forall2_app; [exact F|]. apply mirrored_meshes; auto.
Qed.
Lemma reflect_replace own arg axis d n rr rs c m : chosen_axis own arg axis -> is_axis (lower_axis axis) ->
  NoDup (dkeys d) -> fresh_mesh d (ResInt n) rr rs c = Ok m ->
  fresh_mesh (reflect_patches own false arg d) (ResInt n) rr rs c = Ok (map_mesh (reflect (axis_vec (lower_axis axis))) m).
Proof.
  intros C A ND H. destruct (fresh_mesh_inv d n rr rs c m ND H) as (Hd & ms & F & ->).
  assert (ND2 : NoDup (map mirrored_key (dkeys d))) by (apply NoDup_map_inj; auto; apply mirrored_key_inj).
  assert (E : reflect_patches own false arg d = mirrored_dict axis d).
  { unfold reflect_patches. assert (X : match own with Some a => Some a | None => arg end = Some axis)
      by (destruct C as [-> | [-> ->]]; reflexivity). rewrite X.
    fold (mirrored_dict axis d). rewrite dupdate_nil; auto; rewrite mirrored_dict_keys; auto. }
  rewrite E, map_mesh_concat. apply fresh_mesh_int.
  - destruct d; [contradiction|discriminate].
  - rewrite mirrored_dict_keys. exact ND2.
  - apply mirrored_meshes; auto.
Qed.
Lemma reflect_volume k m : k = ex \/ k = ey \/ k = ez -> signed_volume (map_mesh (reflect k) m) = - signed_volume m.
Proof. intros H. rewrite volume_fix0, reflect_det by auto using reflect_affine, reflect_origin. ring. Qed.

(** ** dictionary resolutions have no entries for the mirrored patches *)
Lemma Forall2_in_l {A B} (P : A -> B -> Prop) l l2 a : Forall2 P l l2 -> In a l -> exists b, In b l2 /\ P a b.
Proof.
  induction 1 as [|x y l l2 H _ IH]; intros []; [subst; exists y; cbn; auto|].
  destruct (IH H0) as (b & Hb & Pb). exists b. cbn; auto.
Qed.
Lemma reflect_dict_res own arg axis (d : dict (surf R)) dd rr rs c : chosen_axis own arg axis ->
  d <> [] -> NoDup (dkeys d ++ map mirrored_key (dkeys d)) ->
  (forall k, In k (dkeys d) -> dget rr (mirrored_key k) = None) ->
  ~ is_ok (fresh_mesh (reflect_patches own true arg d) (ResDict dd) rr rs c).
Proof.
  intros C Hd ND K [m H].
  assert (E : reflect_patches own true arg d = d ++ mirrored_dict axis d).
  { unfold reflect_patches. assert (X : match own with Some a => Some a | None => arg end = Some axis)
      by (destruct C as [-> | [-> ->]]; reflexivity). rewrite X.
    fold (mirrored_dict axis d). rewrite dupdate_nil, dupdate_nodup; auto; rewrite mirrored_dict_keys; auto.
    apply NoDup_map_inj; [apply mirrored_key_inj|]. eapply NoDup_app_remove_r; eauto. }
  rewrite E in H. destruct d as [|[k u] d]; [contradiction|].
  unfold fresh_mesh, component_surface in H. cbn [app] in H.
  destruct (case_list _ _ _ _) as [cs|] eqn:Ec in H; [|discriminate]. clear H.
  cbn [case_list] in Ec. apply mapM_inv in Ec.
  assert (I : In (mirrored_key k, MirroredPatch u axis) ((k, u) :: d ++ mirrored_dict axis ((k, u) :: d))).
  { right. apply in_or_app. right. left. reflexivity. }
  destruct (Forall2_in_l _ _ _ _ Ec I) as (b & _ & Eb). cbn [fst snd] in Eb.
  unfold dlookup in Eb. rewrite K in Eb by (left; reflexivity). discriminate.
Qed.
