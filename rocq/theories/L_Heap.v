(** Operations on component objects: what they do to the component, and that
    they leave everything else alone. *)
From Coq Require Import String List Arith Lia Bool ZArith.
From Verif Require Import Num Py M_Vector M_Path M_Surface M_Geometry M_Mesh M_Component M_Vehicle
  L_Strings L_Component L_Composite.
Import ListNotations.

Lemma list_set_length {A} (l : list A) i a : length (list_set l i a) = length l.
Proof. revert i. induction l as [|x l IH]; intros [|i]; cbn; auto. Qed.
Lemma list_set_same {A} (l : list A) i a : i < length l -> nth_error (list_set l i a) i = Some a.
Proof. revert i. induction l as [|x l IH]; intros [|i] H; cbn in *; auto; try lia. apply IH. lia. Qed.
Lemma list_set_other {A} (l : list A) i j a : i <> j -> nth_error (list_set l i a) j = nth_error l j.
Proof.
  revert i j. induction l as [|x l IH]; intros [|i] [|j] H; cbn; auto; try congruence.
Qed.
Lemma list_set_id {A} (l : list A) i a : nth_error l i = Some a -> list_set l i a = l.
Proof. revert i. induction l as [|x l IH]; intros [|i] H; cbn in *; try discriminate; [congruence|]. rewrite IH; auto. Qed.
Lemma list_set_twice {A} (l : list A) i a b : list_set (list_set l i a) i b = list_set l i b.
Proof. revert i. induction l as [|x l IH]; intros [|i]; cbn; auto. rewrite IH. reflexivity. Qed.
Lemma nth_some_lt {A} (l : list A) i a : nth_error l i = Some a -> i < length l.
Proof. intros H. apply nth_error_Some. congruence. Qed.
Lemma nth_app_old {A} (l k : list A) i a : nth_error l i = Some a -> nth_error (l ++ k) i = Some a.
Proof. intros H. rewrite nth_error_app1; auto. eapply nth_some_lt, H. Qed.
Lemma nth_app_new {A} (l : list A) a : nth_error (l ++ [a]) (length l) = Some a.
Proof. rewrite nth_error_app2, Nat.sub_diag by lia. reflexivity. Qed.

Section Heap.
  Context {T : Type} {N : Num T}.
  Notation patches := (dict (surf T)).
  Notation heap := (heap T).
  Notation comp := (comp T).
  Notation M := (M (T := T)).

  (** the part of a component that generation and transformations never write *)
  Definition options (c : comp) :=
    (c_type c, c_kind c, c_resolution c, c_curvatures c, c_clustering c,
     (c_transformations c, c_modifier c, c_axis c, c_append c, c_ghost c, c_name c, c_verbosity c)).
  Definition same_options (c c' : comp) : Prop := options c' = options c.
  Lemma so_refl c : same_options c c. Proof. reflexivity. Qed.
  Lemma so_trans a b c : same_options a b -> same_options b c -> same_options a c.
  Proof. unfold same_options. congruence. Qed.
  Lemma so_sym a b : same_options a b -> same_options b a.
  Proof. unfold same_options. congruence. Qed.

  (** a component together with its dictionary *)
  Definition view (h : heap) (i : nat) : option (comp * patches) :=
    match nth_error (comps h) i with
    | Some c => match nth_error (dicts h) (c_patches c) with Some d => Some (c, d) | None => None end
    | None => None
    end.
  Lemma view_inv h i c d : view h i = Some (c, d) -> nth_error (comps h) i = Some c /\ nth_error (dicts h) (c_patches c) = Some d.
  Proof.
    unfold view. destruct (nth_error (comps h) i) as [c0|] eqn:E; [|discriminate].
    destruct (nth_error (dicts h) (c_patches c0)) as [d0|] eqn:F; [|discriminate]. intros H. injection H as <- <-. auto.
  Qed.
  Lemma view_intro h i c d : nth_error (comps h) i = Some c -> nth_error (dicts h) (c_patches c) = Some d -> view h i = Some (c, d).
  Proof. intros A B. unfold view. rewrite A, B. reflexivity. Qed.

  (** no two components share a dictionary *)
  Definition no_sharing (h : heap) : Prop :=
    (forall j c, nth_error (comps h) j = Some c -> c_patches c < length (dicts h)) /\
    (forall j k c c', nth_error (comps h) j = Some c -> nth_error (comps h) k = Some c' -> j <> k -> c_patches c <> c_patches c').
  Lemma view_total h j c : no_sharing h -> nth_error (comps h) j = Some c -> exists d, view h j = Some (c, d).
  Proof.
    intros [A _] E. specialize (A j c E). apply nth_error_Some in A.
    destruct (nth_error (dicts h) (c_patches c)) as [d|] eqn:F; [|congruence]. exists d. apply view_intro; auto.
  Qed.

  (** ** frame: which components an operation may change *)
  Definition step (I : nat -> Prop) (h h' : heap) : Prop :=
    no_sharing h' /\ length (comps h') = length (comps h) /\
    (forall j, ~ I j -> view h' j = view h j) /\
    (forall j c, nth_error (comps h) j = Some c -> exists c', nth_error (comps h') j = Some c' /\ same_options c c').
  Definition framed (I : nat -> Prop) {A} (m : M A) : Prop := forall h, no_sharing h -> step I h (fst (m h)).

  Lemma step_refl I h : no_sharing h -> step I h h.
  Proof. intros H. split; [auto|split; [auto|split; [auto|]]]. intros j c E. exists c. split; [auto|apply so_refl]. Qed.
  Lemma step_trans I a b c : step I a b -> step I b c -> step I a c.
  Proof.
    intros (A0 & A1 & A3 & A4) (B0 & B1 & B3 & B4). split; [auto|]. split; [lia|]. split.
    - intros j H. rewrite B3, A3; auto.
    - intros j x H. destruct (A4 j x H) as (y & Hy & S1). destruct (B4 j y Hy) as (z & Hz & S2).
      exists z. split; [auto|eapply so_trans; eauto].
  Qed.
  Lemma step_weaken (I J : nat -> Prop) h h' : (forall j, I j -> J j) -> step I h h' -> step J h h'.
  Proof. intros H (A & B & C & D). split; [auto|split; [auto|split; auto]]. Qed.
  Lemma framed_weaken (I J : nat -> Prop) {A} (m : M A) : (forall j, I j -> J j) -> framed I m -> framed J m.
  Proof. intros H F h N0. eapply step_weaken; eauto. Qed.

  Lemma framed_ret I {A} (a : A) : framed I (ret a).
  Proof. intros h H. apply step_refl, H. Qed.
  Lemma framed_throw I {A} e : framed I (throw (A := A) e).
  Proof. intros h H. apply step_refl, H. Qed.
  Lemma framed_bind I {A B} (m : M A) (k : A -> M B) : framed I m -> (forall a, framed I (k a)) -> framed I (bindM m k).
  Proof.
    intros Hm Hk h H. unfold bindM. specialize (Hm h H). destruct (m h) as [h1 [a|e]]; cbn [fst] in *; [|auto].
    eapply step_trans; [exact Hm|]. apply Hk. apply Hm.
  Qed.
  Lemma framed_iter I {A} (f : A -> M unit) l : (forall a, In a l -> framed I (f a)) -> framed I (iterM f l).
  Proof.
    induction l as [|a l IH]; intros H; cbn [iterM]; [apply framed_ret|].
    apply framed_bind; [apply H; left; auto|]. intros _. apply IH. intros b Hb. apply H. right. auto.
  Qed.
  Lemma framed_get I i : framed I (get_comp i).
  Proof. intros h H. unfold get_comp. destruct (nth_error _ _); apply step_refl, H. Qed.
  Lemma framed_getd I r : framed I (get_dict r).
  Proof. intros h H. unfold get_dict. destruct (nth_error _ _); apply step_refl, H. Qed.
  Lemma framed_with I {B} i (k : comp -> M B) :
    (forall h c, no_sharing h -> nth_error (comps h) i = Some c -> step I h (fst (k c h))) ->
    framed I (bindM (get_comp i) k).
  Proof.
    intros H h O. unfold bindM, get_comp. destruct (nth_error (comps h) i) as [c|] eqn:E; cbn [fst]; [auto|].
    apply step_refl, O.
  Qed.

  Lemma put_dict_step (I : nat -> Prop) i c d h : I i -> no_sharing h -> nth_error (comps h) i = Some c ->
    step I h (fst (put_dict (c_patches c) d h)).
  Proof.
    intros Ii [A B] E. unfold put_dict. cbn [fst]. split; [|split; [|split]]; cbn [comps dicts].
    - split; cbn [comps dicts]; [|auto]. intros j x Hx. rewrite list_set_length. apply (A j x Hx).
    - reflexivity.
    - intros j Hj. unfold view. cbn [comps dicts]. destruct (nth_error (comps h) j) as [x|] eqn:Ex; [|auto].
      rewrite list_set_other; [auto|]. apply (B i j c x E Ex). intros ->. auto.
    - intros j x Hx. exists x. split; [auto|apply so_refl].
  Qed.
  Lemma put_comp_step (I : nat -> Prop) i c c' h : I i -> no_sharing h -> nth_error (comps h) i = Some c -> same_options c c' ->
    c_patches c' = c_patches c -> step I h (fst (put_comp i c' h)).
  Proof.
    intros Ii [A B] E S P. unfold put_comp. cbn [fst]. pose proof (nth_some_lt _ _ _ E) as Li.
    assert (K : forall j x, nth_error (list_set (comps h) i c') j = Some x ->
                exists y, nth_error (comps h) j = Some y /\ c_patches x = c_patches y).
    { intros j x Hx. destruct (Nat.eq_dec i j) as [<-|NE].
      - rewrite list_set_same in Hx by auto. injection Hx as <-. exists c. auto.
      - rewrite list_set_other in Hx by auto. exists x. auto. }
    split; [|split; [|split]]; cbn [comps dicts].
    - split; cbn [comps dicts].
      + intros j x Hx. destruct (K j x Hx) as (y & Hy & ->). apply (A j y Hy).
      + intros j k x x' Hx Hx' NE. destruct (K j x Hx) as (y & Hy & ->). destruct (K k x' Hx') as (y' & Hy' & ->).
        apply (B j k y y' Hy Hy' NE).
    - apply list_set_length.
    - intros j Hj. unfold view. cbn [comps dicts]. rewrite list_set_other; [auto|]. intros ->. auto.
    - intros j x Hx. destruct (Nat.eq_dec i j) as [<-|NE].
      + exists c'. split; [apply list_set_same; auto|]. congruence.
      + rewrite list_set_other by auto. exists x. split; [auto|apply so_refl].
  Qed.
  Lemma rebind_eq i d (h : heap) c : nth_error (comps h) i = Some c ->
    rebind_patches i d h = (mkHeap (dicts h ++ [d]) (list_set (comps h) i (set_patches c (length (dicts h)))), Ok tt).
  Proof. intros E. unfold rebind_patches, bindM, get_comp, new_dict, put_comp. rewrite E. reflexivity. Qed.
  Lemma framed_rebind (I : nat -> Prop) i d : I i -> framed I (rebind_patches i d).
  Proof.
    intros Ii h H. destruct (nth_error (comps h) i) as [c|] eqn:E.
    2:{ unfold rebind_patches, bindM, get_comp. rewrite E. apply step_refl, H. }
    rewrite (rebind_eq i d h c E). cbn [fst]. destruct H as [A B]. pose proof (nth_some_lt _ _ _ E) as Li.
    assert (K : forall j x, nth_error (list_set (comps h) i (set_patches c (length (dicts h)))) j = Some x ->
                (j = i /\ c_patches x = length (dicts h)) \/ (j <> i /\ nth_error (comps h) j = Some x)).
    { intros j x Hx. destruct (Nat.eq_dec i j) as [<-|NE].
      - rewrite list_set_same in Hx by auto. injection Hx as <-. left. auto.
      - rewrite list_set_other in Hx by auto. right. auto. }
    split; [|split; [|split]]; cbn [comps dicts].
    - split; cbn [comps dicts].
      + intros j x Hx. rewrite app_length. cbn. destruct (K j x Hx) as [[-> ->]|[_ Hy]]; [lia|]. specialize (A j x Hy). lia.
      + intros j k x x' Hx Hx' NE.
        destruct (K j x Hx) as [[-> ->]|[N1 Hy]], (K k x' Hx') as [[-> ->]|[N2 Hy']]; try congruence.
        * specialize (A k x' Hy'). lia.
        * specialize (A j x Hy). lia.
        * apply (B j k x x' Hy Hy' NE).
    - apply list_set_length.
    - intros j Hj. unfold view. cbn [comps dicts]. rewrite list_set_other by (intros ->; auto).
      destruct (nth_error (comps h) j) as [x|] eqn:Ex; [|auto]. rewrite nth_error_app1 by apply (A j x Ex). reflexivity.
    - intros j x Hx. destruct (Nat.eq_dec i j) as [<-|NE].
      + eexists. split; [apply list_set_same; auto|]. assert (x = c) as -> by congruence. reflexivity.
      + rewrite list_set_other by auto. exists x. split; [auto|apply so_refl].
  Qed.

  Section One.
    Variables (I : nat -> Prop) (i : nat).
    Hypothesis Ii : I i.
    Lemma framed_on f : framed I (on_patches f i).
    Proof using Ii.
      unfold on_patches. apply framed_with. intros h c O E. unfold bindM, get_dict.
      destruct (nth_error (dicts h) (c_patches c)) as [d|]; cbn [fst]; [|apply step_refl, O].
      apply (put_dict_step I i); auto.
    Qed.
    Lemma framed_reflect ax : framed I (comp_reflect ax i).
    Proof using Ii.
      unfold comp_reflect. apply framed_with. intros h c O E. unfold bindM, get_dict.
      destruct (nth_error (dicts h) (c_patches c)) as [d|]; cbn [fst]; [|apply step_refl, O].
      destruct (c_axis c), ax; try (destruct (c_append c); [apply (put_dict_step I i); auto|apply framed_rebind; auto]).
      apply step_refl, O.
    Qed.
    Lemma framed_call t : framed I (call_method t i).
    Proof using Ii.
      destruct t as [name args]. unfold call_method.
      repeat match goal with |- framed _ (if ?b then _ else _) => destruct b end;
      repeat match goal with
      | |- framed _ (match ?a with _ => _ end) => destruct a
      | |- framed _ (throw _) => apply framed_throw
      | |- framed _ (comp_reflect _ _) => apply framed_reflect
      | |- framed _ _ => apply framed_on
      end.
    Qed.
    Lemma framed_transform : framed I (comp_transform i).
    Proof using Ii. unfold comp_transform. apply framed_bind; [apply framed_get|]. intros c. apply framed_iter. intros. apply framed_call. Qed.
    Lemma framed_own : framed I (generate_own i).
    Proof using Ii.
      unfold generate_own. apply framed_with. intros h c O E. destruct (c_kind c) as [rep gen|]; [|apply step_refl, O].
      unfold bindM at 1. unfold lift. destruct gen as [[[d rr] rs]|e]; cbn [fst]; [|apply step_refl, O].
      unfold bindM at 1.
      pose proof (put_comp_step I i c (set_res c (dupdate (c_res_r c) rr) (dupdate (c_res_s c) rs)) h Ii O E eq_refl eq_refl) as S1.
      unfold put_comp in *. cbn [fst] in *. eapply step_trans; [exact S1|].
      destruct rep; [apply framed_rebind|apply framed_on]; auto; apply S1.
    Qed.
    Lemma framed_reset : framed I (reset_cache i).
    Proof using Ii. apply framed_with. intros h c O E. apply (put_comp_step I i c); auto. reflexivity. Qed.
    Lemma framed_transform_comp ts : framed I (transform_comp ts i).
    Proof using Ii. apply framed_bind; [apply framed_iter; intros; apply framed_call|]. intros _. apply framed_reset. Qed.
    Definition post (angle : T) : M unit := bindM (comp_apply_modifier i) (fun _ => bindM (comp_curve i) (fun _ =>
        bindM (comp_rotate angle "y" i) (fun _ => bindM (comp_reflect None i) (fun _ => comp_transform i)))).
    Lemma framed_post angle : framed I (post angle).
    Proof using Ii.
      unfold post. repeat (apply framed_bind; [first [apply framed_on|apply framed_reflect]|intros _]). apply framed_transform.
    Qed.
    Lemma framed_patches_of k : framed I (patches_of k).
    Proof using. unfold patches_of. apply framed_bind; [apply framed_get|]. intros c. apply framed_getd. Qed.
    Lemma framed_all_patches l : framed I (all_patches l).
    Proof using.
      induction l as [|k l IH]; cbn [all_patches]; [apply framed_ret|].
      apply framed_bind; [apply framed_patches_of|]. intros d. apply framed_bind; [apply IH|]. intros ds. apply framed_ret.
    Qed.
  End One.

  (** the components that generating component i may change *)
  Definition family (h : heap) (i : nat) : list nat :=
    i :: match nth_error (comps h) i with
         | Some c => match c_kind c with Composite chs => chs | Own _ _ => [] end
         | None => []
         end.
  Lemma framed_generate_patches i h : no_sharing h ->
    step (fun j => In j (family h i)) h (fst (generate_patches i h)).
  Proof.
    intros O. unfold generate_patches. unfold bindM at 1, get_comp.
    destruct (nth_error (comps h) i) as [c|] eqn:E; [|apply step_refl, O].
    unfold family. rewrite E. destruct (c_kind c) as [rep gen|chs].
    - apply framed_own; [left; reflexivity|auto].
    - apply framed_bind; [|intros _; apply framed_bind; [apply framed_all_patches|]|auto].
      + apply framed_iter. intros a Ha. apply framed_own. right. exact Ha.
      + intros ds. apply framed_rebind. left. reflexivity.
  Qed.
  Lemma framed_generate i angle h : no_sharing h ->
    step (fun j => In j (family h i)) h (fst (generate_component angle i h)).
  Proof.
    intros O. unfold generate_component. pose proof (framed_generate_patches i h O) as S1. unfold bindM at 1.
    destruct (generate_patches i h) as [h1 [u|e]]; cbn [fst] in *; [|exact S1].
    eapply step_trans; [exact S1|]. apply (framed_post (fun j => In j (family h i)) i); [left; reflexivity|apply S1].
  Qed.

  (** ** what an operation does to its component *)
  Definition does (i : nat) (c0 : comp) (F : patches -> patches) (m : M unit) : Prop :=
    forall h c d, view h i = Some (c, d) -> same_options c0 c ->
      exists h' c', m h = (h', Ok tt) /\ view h' i = Some (c', F d) /\ same_options c0 c'.
  Lemma does_seq i c0 F G m1 m2 : does i c0 F m1 -> does i c0 G m2 -> does i c0 (fun d => G (F d)) (bindM m1 (fun _ => m2)).
  Proof.
    intros A B h c d V S. destruct (A h c d V S) as (h1 & c1 & E1 & V1 & S1).
    destruct (B h1 c1 _ V1 S1) as (h2 & c2 & E2 & V2 & S2). exists h2, c2. unfold bindM. rewrite E1. auto.
  Qed.
  Lemma does_ret i c0 : does i c0 (fun d => d) (ret tt).
  Proof. intros h c d V S. exists h, c. auto. Qed.
  Lemma does_iter {A} i c0 (F : A -> patches -> patches) (f : A -> M unit) l :
    (forall a, In a l -> does i c0 (F a) (f a)) -> does i c0 (fun d => fold_left (fun d a => F a d) l d) (iterM f l).
  Proof.
    induction l as [|a l IH]; intros H; cbn [iterM fold_left]; [apply does_ret|].
    apply (does_seq i c0 (F a) (fun d => fold_left (fun d a => F a d) l d)); [apply H; left; auto|].
    apply IH. intros b Hb. apply H. right. auto.
  Qed.
  Lemma does_on i c0 f : (forall c, same_options c0 c -> f c = f c0) -> does i c0 (f c0) (on_patches f i).
  Proof.
    intros Hf h c d V S. destruct (view_inv _ _ _ _ V) as [E F].
    exists (mkHeap (list_set (dicts h) (c_patches c) (f c0 d)) (comps h)), c.
    unfold on_patches, bindM, get_comp, get_dict, put_dict. rewrite E, F, (Hf c S). split; [reflexivity|]. split; [|exact S].
    apply view_intro; [exact E|]. cbn. apply list_set_same. eapply nth_some_lt, F.
  Qed.
  Lemma does_rebind i c0 d' : does i c0 (fun _ => d') (rebind_patches i d').
  Proof.
    intros h c d V S. destruct (view_inv _ _ _ _ V) as [E F]. rewrite (rebind_eq i d' h c E).
    eexists _, (set_patches c (length (dicts h))). split; [reflexivity|]. split; [|exact S].
    apply view_intro; cbn [comps dicts]; [apply list_set_same; eapply nth_some_lt, E|]. cbn. apply nth_app_new.
  Qed.
  Lemma so_inv c0 c : same_options c0 c ->
    c_type c = c_type c0 /\ c_kind c = c_kind c0 /\ c_resolution c = c_resolution c0 /\ c_curvatures c = c_curvatures c0 /\
    c_clustering c = c_clustering c0 /\ c_transformations c = c_transformations c0 /\ c_modifier c = c_modifier c0 /\
    c_axis c = c_axis c0 /\ c_append c = c_append c0 /\ c_ghost c = c_ghost c0 /\ c_name c = c_name c0.
  Proof. unfold same_options, options. intros H. inversion H. repeat split; auto. Qed.
  Lemma does_reflect i c0 ax : does i c0 (reflect_patches (c_axis c0) (c_append c0) ax) (comp_reflect ax i).
  Proof.
    intros h c d V S. destruct (view_inv _ _ _ _ V) as [E F].
    destruct (so_inv c0 c S) as (_ & _ & _ & _ & _ & _ & _ & EA & EP & _).
    unfold comp_reflect. unfold bindM at 1, get_comp. rewrite E. unfold bindM at 1, get_dict. rewrite F. rewrite EA, EP.
    set (d' := reflect_patches (c_axis c0) (c_append c0) ax d).
    assert (K : exists h' c', (if c_append c0 then put_dict (c_patches c) d' else rebind_patches i d') h = (h', Ok tt) /\
                view h' i = Some (c', d') /\ same_options c0 c').
    { destruct (c_append c0).
      - unfold put_dict. eexists _, c. split; [reflexivity|]. split; [|exact S]. apply view_intro; cbn [comps dicts]; auto.
        apply list_set_same. eapply nth_some_lt, F.
      - apply (does_rebind i c0 d' h c d V S). }
    destruct (c_axis c0) as [a|] eqn:EE, ax as [b|]; try exact K.
    exists h, c. split; [reflexivity|]. split; [|exact S]. rewrite V. unfold d', reflect_patches. reflexivity.
  Qed.

End Heap.
