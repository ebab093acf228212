(** CompositeComponent.generate_patches: merging children. *)
From Coq Require Import String List Arith Lia Bool Permutation.
From Verif Require Import Num Py M_Vector M_Path M_Surface M_Geometry M_Mesh M_Component L_Strings L_Component.
Import ListNotations.
Local Open Scope string_scope.

Definition child_key (k : string) (ix : nat) : string := k ++ "_" ++ str_nat ix.

Section Merge.
  Context {T : Type}.
  Notation patches := (dict (surf T)).
  Definition tagged (a : nat) (ds : list patches) : patches :=
    concat (map (fun xd => map (fun kp => (child_key (fst kp) (fst xd), snd kp)) (snd xd))
                (combine (seq a (List.length ds)) ds)).

  Lemma tagged_cons a d ds : tagged a (d :: ds) = (map (fun kp => (child_key (fst kp) a, snd kp)) d ++ tagged (S a) ds)%list.
  Proof. reflexivity. Qed.

  Lemma tagged_in a ds k u : In (k, u) (tagged a ds) <->
    exists ix d k0, nth_error ds ix = Some d /\ In (k0, u) d /\ k = child_key k0 (a + ix).
  Proof.
    revert a. induction ds as [|d ds IH]; intros a.
    - split; [intros []|]. intros (ix & d & k0 & H & _). destruct ix; discriminate.
    - rewrite tagged_cons, in_app_iff, IH. split.
      + intros [H|(ix & d' & k0 & H & I & ->)].
        * apply in_map_iff in H as ([k0 u0] & E & I). cbn in E. injection E as <- <-.
          exists 0, d, k0. rewrite Nat.add_0_r. auto.
        * exists (S ix), d', k0. rewrite Nat.add_succ_r. auto.
      + intros ([|ix] & d' & k0 & H & I & ->); cbn in H.
        * injection H as <-. left. apply in_map_iff. exists (k0, u). rewrite Nat.add_0_r. auto.
        * right. exists ix, d', k0. rewrite Nat.add_succ_r. auto.
  Qed.
  Lemma tagged_keys a ds k : In k (dkeys (tagged a ds)) ->
    exists ix d k0, nth_error ds ix = Some d /\ In k0 (dkeys d) /\ k = child_key k0 (a + ix).
  Proof.
    intros H. apply in_map_iff in H as ([k' u] & <- & I). apply tagged_in in I as (ix & d & k0 & A & B & ->).
    exists ix, d, k0. split; [auto|]. split; [apply in_map_iff; exists (k0, u); auto|reflexivity].
  Qed.

  Lemma tagged_nodup ds : Forall (fun d => NoDup (dkeys d)) ds -> forall a, NoDup (dkeys (tagged a ds)).
  Proof.
    induction 1 as [|d ds H _ IH]; intros a; [constructor|].
    rewrite tagged_cons, dkeys_app.
    assert (D : forall l l' : list string, NoDup l -> NoDup l' -> (forall x, In x l -> ~ In x l') -> NoDup (l ++ l')%list).
    { induction 1 as [|x l Hx Hl IHl]; cbn; [auto|]. intros N K. constructor.
      - rewrite in_app_iff. intros [|]; [auto|]. apply (K x); [left|]; auto.
      - apply IHl; auto with datatypes. }
    apply D; [|apply IH|].
    - unfold dkeys. rewrite map_map. cbn [fst]. rewrite <- (map_map fst (fun k => child_key k a)).
      apply FinFun.Injective_map_NoDup; [|exact H]. intros x y E. apply indexed_inj in E as [E _]. exact E.
    - intros x Hx Hy. unfold dkeys in Hx. rewrite map_map in Hx. apply in_map_iff in Hx as ([k u] & <- & _). cbn [fst] in Hy.
      apply tagged_keys in Hy as (ix & d' & k0 & _ & _ & E). apply indexed_inj in E as [_ E]. lia.
  Qed.

  Lemma in_dget (d : patches) k u : NoDup (dkeys d) -> (In (k, u) d <-> dget d k = Some u).
  Proof.
    induction d as [|[k' u'] d IH]; cbn; [intuition discriminate|]. intros H. inversion H as [|? ? N ND]; subst.
    destruct (String.eqb_spec k k') as [->|NE].
    - split; [|intros E; injection E as ->; auto]. intros [E|I]; [injection E as ->; reflexivity|].
      exfalso. apply N. apply in_map_iff. exists (k', u). auto.
    - rewrite <- IH by auto. intuition congruence.
  Qed.

  (** the merged dictionary: one entry per child and key *)
  Lemma merged_tagged (ds : list patches) : Forall (fun d => NoDup (dkeys d)) ds -> merged_patches ds = tagged 0 ds.
  Proof.
    intros H. unfold merged_patches. apply (dupdate_nil (tagged 0 ds)), tagged_nodup, H.
  Qed.
  Lemma merged_nodup (ds : list patches) : Forall (fun d => NoDup (dkeys d)) ds -> NoDup (dkeys (merged_patches ds)).
  Proof. intros H. rewrite merged_tagged by auto. apply tagged_nodup, H. Qed.
  Lemma merged_get (ds : list patches) k ix u : Forall (fun d => NoDup (dkeys d)) ds ->
    (dget (merged_patches ds) (child_key k ix) = Some u <-> exists d, nth_error ds ix = Some d /\ dget d k = Some u).
  Proof.
    intros H. rewrite <- in_dget by (apply merged_nodup, H). rewrite merged_tagged, tagged_in by auto. split.
    - intros (ix' & d & k0 & A & B & E). apply indexed_inj in E as [<- E]. cbn in E. subst ix'.
      exists d. split; [auto|]. apply in_dget; [|auto]. rewrite Forall_forall in H. apply H. eapply nth_error_In, A.
    - intros (d & A & B). exists ix, d, k. split; [auto|]. split; [|reflexivity].
      apply in_dget; [|auto]. rewrite Forall_forall in H. apply H. eapply nth_error_In, A.
  Qed.
  Lemma merged_only (ds : list patches) k : Forall (fun d => NoDup (dkeys d)) ds -> In k (dkeys (merged_patches ds)) ->
    exists ix d k0, nth_error ds ix = Some d /\ In k0 (dkeys d) /\ k = child_key k0 ix.
  Proof. intros H. rewrite merged_tagged by auto. intros I. apply tagged_keys in I. exact I. Qed.
  Lemma tagged_length ds : forall a, List.length (tagged a ds) = fold_right Nat.add 0 (map (@List.length _) ds).
  Proof.
    induction ds as [|d ds IH]; intros a; [reflexivity|]. rewrite tagged_cons, app_length, map_length, IH. reflexivity.
  Qed.
  Lemma merged_length (ds : list patches) : Forall (fun d => NoDup (dkeys d)) ds ->
    List.length (merged_patches ds) = fold_right Nat.add 0 (map (@List.length _) ds).
  Proof. intros H. rewrite merged_tagged by auto. apply tagged_length. Qed.
End Merge.
