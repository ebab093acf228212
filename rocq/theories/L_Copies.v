(** Copies of components. *)
From Coq Require Import String List Arith Lia Bool ZArith Reals.
From Verif Require Import Num NumR Py M_Vector M_Path M_Surface M_Geometry M_Mesh M_Component M_Vehicle SpecSurf SpecVehicle SpecHistory
  L_Strings L_Component L_Composite L_Heap L_Pipeline L_Generate.
Import ListNotations.

(** ** shallow copies *)
Lemma written_in_place m j (h : heap R) : comps (fst (call_method (written m) j h)) = comps h.
Proof.
  assert (K : forall f (h : heap R), comps (fst (on_patches f j h)) = comps h).
  { intros f h0. unfold on_patches, bindM, get_comp, get_dict. destruct (nth_error (comps h0) j); [|reflexivity].
    destruct (nth_error _ _); reflexivity. }
  destruct m; apply K.
Qed.
Lemma motions_in_place ms j : forall h : heap R, comps (fst (iterM (fun t => call_method t j) (map written ms) h)) = comps h.
Proof.
  induction ms as [|m ms IH]; intros h; [reflexivity|]. cbn [map iterM]. unfold bindM at 1.
  pose proof (written_in_place m j h) as E. destruct (call_method (written m) j h) as [h1 [u|e]]; cbn [fst] in *; [|exact E].
  rewrite IH. exact E.
Qed.
Lemma copy_eq i (h : heap R) c : nth_error (comps h) i = Some c ->
  copy_comp i h = (mkHeap (dicts h) (comps h ++ [c]), Ok (length (comps h))).
Proof. intros E. unfold copy_comp, bindM, get_comp, new_comp. rewrite E. reflexivity. Qed.

(** moving the copy moves the original *)
Theorem shallow_moves (h : heap R) i c d ms : nth_error (comps h) i = Some c -> patches_at h i = Some d -> Forall motion_ok ms ->
  exists h1 j h2 d', copy_comp i h = (h1, Ok j) /\ j <> i /\
    iterM (fun t => call_method t j) (map written ms) h1 = (h2, Ok tt) /\
    patches_at h2 j = Some d' /\ patches_at h2 i = Some d' /\ relates same_key (in_order (map motion_map ms)) d d'.
Proof.
  intros E P OK. rewrite (copy_eq i h c E). set (h1 := mkHeap (dicts h) (comps h ++ [c])). set (j := length (comps h)).
  pose proof (nth_some_lt _ _ _ E) as Li.
  assert (Ej : nth_error (comps h1) j = Some c) by apply nth_app_new.
  assert (Ei : nth_error (comps h1) i = Some c) by (apply nth_app_old, E).
  assert (Dj : nth_error (dicts h1) (c_patches c) = Some d) by (unfold patches_at in P; rewrite E in P; exact P).
  destruct (does_motions j c ms h1 c d (view_intro _ _ _ _ Ej Dj) (so_refl c)) as (h2 & c2 & A & V & _).
  pose proof (motions_in_place ms j h1) as CE. rewrite A in CE. cbn [fst] in CE.
  destruct (view_inv _ _ _ _ V) as [V1 V2]. rewrite CE, Ej in V1. injection V1 as <-.
  exists h1, j, h2, (fold_left (fun d m => apply_motion m d) ms d). split; [reflexivity|]. split; [unfold j; lia|]. split; [exact A|].
  split; [unfold patches_at; rewrite CE, Ej; exact V2|]. split; [unfold patches_at; rewrite CE, Ei; exact V2|].
  apply motions_relates, OK.
Qed.

(** reflecting the copy without appending gives it a dictionary of its own *)
Theorem shallow_reflects (h : heap R) i c d axis ms : separate h -> nth_error (comps h) i = Some c -> patches_at h i = Some d ->
  c_append c = false -> c_axis c = None \/ c_axis c = Some axis ->
  exists h1 j h2 h3, copy_comp i h = (h1, Ok j) /\ call_method ("reflect"%string, [AStr axis]) j h1 = (h2, Ok tt) /\
    iterM (fun t => call_method t j) (map written ms) h2 = (h3, Ok tt) /\ separate h3 /\ patches_at h3 i = Some d.
Proof.
  intros SP E P EA EX. apply separate_ns in SP. rewrite (copy_eq i h c E). set (h1 := mkHeap (dicts h) (comps h ++ [c])). set (j := length (comps h)).
  pose proof (nth_some_lt _ _ _ E) as Li.
  assert (Ej : nth_error (comps h1) j = Some c) by apply nth_app_new.
  assert (Ei : nth_error (comps h1) i = Some c) by (apply nth_app_old, E).
  assert (Dj : nth_error (dicts h1) (c_patches c) = Some d) by (unfold patches_at in P; rewrite E in P; exact P).
  set (d' := reflect_patches (c_axis c) (c_append c) (Some axis) d).
  set (h2 := mkHeap (dicts h ++ [d']) (comps h ++ [set_patches c (length (dicts h))])).
  assert (A : call_method ("reflect"%string, [AStr axis]) j h1 = (h2, Ok tt)).
  { unfold call_method. cbn [String.eqb Ascii.eqb Bool.eqb]. unfold comp_reflect. unfold bindM at 1, get_comp. rewrite Ej. unfold bindM at 1, get_dict. rewrite Dj.
    fold d'. rewrite EA. assert (K : rebind_patches j d' h1 = (h2, Ok tt)).
    { rewrite (rebind_eq j d' h1 c Ej). unfold h2, h1. cbn [dicts comps]. f_equal. f_equal. unfold j. clear. induction (comps h) as [|x l IH]; [reflexivity|]. cbn. rewrite <- IH. reflexivity. }
    destruct (c_axis c); exact K. }
  assert (N2 : no_sharing h2).
  { destruct SP as [S1 S2]. assert (Q : forall k x, nth_error (comps h2) k = Some x -> (k = j /\ c_patches x = length (dicts h)) \/ (nth_error (comps h) k = Some x /\ c_patches x < length (dicts h))%nat).
    { intros k x Hx. cbn [h2 comps] in Hx. destruct (Nat.lt_ge_cases k (length (comps h))) as [L|L].
      - rewrite nth_error_app1 in Hx by exact L. right. split; [exact Hx|apply (S1 k x Hx)].
      - rewrite nth_error_app2 in Hx by exact L. destruct (k - length (comps h))%nat as [|q] eqn:EQ; [|destruct q; discriminate].
        cbn in Hx. injection Hx as <-. left. split; [unfold j; lia|reflexivity]. }
    split.
    - intros k x Hx. cbn [h2 dicts]. rewrite app_length. cbn. destruct (Q k x Hx) as [[_ ->]|[_ L]]; lia.
    - intros k q x x' Hx Hx' NE. destruct (Q k x Hx) as [[-> ->]|[Hk L]], (Q q x' Hx') as [[-> ->]|[Hq L']]; try lia.
      apply (S2 k q x x' Hk Hq NE). }
  assert (V2 : view h2 j = Some (set_patches c (length (dicts h)), d')).
  { apply view_intro; [apply nth_app_new|]. cbn. apply nth_app_new. }
  destruct (does_motions j (set_patches c (length (dicts h))) ms h2 _ d' V2 (so_refl _)) as (h3 & c3 & A3 & _).
  assert (F : framed (T := R) (fun k => k = j) (iterM (fun t => call_method t j) (map written ms))) by (apply framed_iter; intros; apply framed_call; reflexivity).
  specialize (F h2 N2). rewrite A3 in F. cbn [fst] in F. destruct F as (N3 & _ & F & _).
  exists h1, j, h2, h3. split; [reflexivity|]. split; [exact A|]. split; [exact A3|]. split; [apply separate_ns, N3|].
  assert (V : view h3 i = Some (c, d)).
  { rewrite F by (unfold j; lia). apply view_intro; [apply nth_app_old, E|]. apply nth_app_old. exact Dj. }
  apply (patches_view _ _ _ _ V).
Qed.

(** ** deep copies *)
Lemma calls_frame i (l : list (comp_call R)) : forall h, no_sharing h -> family h i = [i] -> step (fun k => k = i) h (call_all i l h).
Proof.
  induction l as [|o l IH]; intros h NS FA; [apply step_refl, NS|]. cbn [call_all fold_left].
  assert (S : step (fun k => k = i) h (call_comp i o h)).
  { destruct o as [t| |a|]; cbn [call_comp].
    - apply framed_call; auto.
    - eapply step_weaken; [|apply framed_generate_patches, NS]. rewrite FA. intros k [<-|[]]. reflexivity.
    - eapply step_weaken; [|apply framed_generate, NS]. rewrite FA. intros k [<-|[]]. reflexivity.
    - apply framed_reset; auto. }
  eapply step_trans; [exact S|]. apply IH; [apply S|]. rewrite (step_family h (call_comp i o h) _ i S). exact FA.
Qed.
Theorem deep_independent (h : heap R) i c d g r : separate h -> nth_error (comps h) i = Some c -> patches_at h i = Some d -> c_kind c = Own r g ->
  exists h1 j, deepcopy_comp i h = (h1, Ok j) /\ j <> i /\ separate h1 /\ patches_at h1 j = Some d /\ patches_at h1 i = Some d /\
    forall l, patches_at (call_all j l h1) i = Some d /\ nth_error (comps (call_all j l h1)) i = Some c /\
              patches_at (call_all i l h1) j = Some d.
Proof.
  intros SP E P K. apply separate_ns in SP. pose proof (nth_some_lt _ _ _ E) as Li.
  assert (Dj : nth_error (dicts h) (c_patches c) = Some d) by (unfold patches_at in P; rewrite E in P; exact P).
  set (j := length (comps h)). set (h1 := mkHeap (dicts h ++ [d]) (comps h ++ [set_patches c (length (dicts h))])).
  assert (A : deepcopy_comp i h = (h1, Ok j)).
  { unfold deepcopy_comp, bindM, get_comp, get_dict. rewrite E, K, Dj. reflexivity. }
  assert (N1 : no_sharing h1).
  { destruct SP as [S1 S2]. assert (Q : forall k x, nth_error (comps h1) k = Some x -> (k = j /\ c_patches x = length (dicts h)) \/ (nth_error (comps h) k = Some x /\ c_patches x < length (dicts h))%nat).
    { intros k x Hx. cbn [h1 comps] in Hx. destruct (Nat.lt_ge_cases k (length (comps h))) as [L|L].
      - rewrite nth_error_app1 in Hx by exact L. right. split; [exact Hx|apply (S1 k x Hx)].
      - rewrite nth_error_app2 in Hx by exact L. destruct (k - length (comps h))%nat as [|q] eqn:EQ; [|destruct q; discriminate].
        cbn in Hx. injection Hx as <-. left. split; [unfold j; lia|reflexivity]. }
    split.
    - intros k x Hx. cbn [h1 dicts]. rewrite app_length. cbn. destruct (Q k x Hx) as [[_ ->]|[_ L]]; lia.
    - intros k q x x' Hx Hx' NE. destruct (Q k x Hx) as [[-> ->]|[Hk L]], (Q q x' Hx') as [[-> ->]|[Hq L']]; try lia.
      apply (S2 k q x x' Hk Hq NE). }
  assert (Vi : view h1 i = Some (c, d)) by (apply view_intro; [apply nth_app_old, E|apply nth_app_old, Dj]).
  assert (Vj : view h1 j = Some (set_patches c (length (dicts h)), d)) by (apply view_intro; [apply nth_app_new|cbn; apply nth_app_new]).
  exists h1, j. split; [exact A|]. split; [unfold j; lia|]. split; [apply separate_ns, N1|].
  split; [eapply patches_view, Vj|]. split; [eapply patches_view, Vi|]. intros l.
  assert (Fj : family h1 j = [j]). { unfold family. destruct (view_inv _ _ _ _ Vj) as [-> _]. cbn [c_kind set_patches]. rewrite K. reflexivity. }
  assert (Fi : family h1 i = [i]). { unfold family. destruct (view_inv _ _ _ _ Vi) as [-> _]. rewrite K. reflexivity. }
  destruct (calls_frame j l h1 N1 Fj) as (_ & _ & W & _). destruct (calls_frame i l h1 N1 Fi) as (_ & _ & W' & _).
  assert (Wi : view (call_all j l h1) i = Some (c, d)) by (rewrite W by (unfold j; lia); exact Vi).
  assert (Wj : view (call_all i l h1) j = Some (set_patches c (length (dicts h)), d)) by (rewrite W' by (unfold j; lia); exact Vj).
  split; [eapply patches_view, Wi|]. split; [apply (view_inv _ _ _ _ Wi)|eapply patches_view, Wj].
Qed.
