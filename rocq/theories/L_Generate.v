(** Vehicle.generate. *)
From Coq Require Import Reals Lra String List Arith Lia Bool ZArith.
From Verif Require Import Num NumR Py M_Vector M_Path M_Surface M_Geometry M_Mesh M_Component M_Vehicle
  SpecR3 SpecSurf SpecVehicle L_Vector L_Rigid L_Strings L_Component L_Composite L_Heap L_Reflect L_Pipeline.
Import ListNotations.

Lemma separate_ns h : separate h <-> no_sharing h.
Proof.
  unfold separate, no_sharing, patches_at. split; intros [A B]; (split; [|exact B]).
  - intros j c E. pose proof (nth_some_lt _ _ _ E) as L. specialize (A j L). rewrite E in A. apply nth_error_Some, A.
  - intros j L. destruct (nth_error (comps h) j) as [c|] eqn:E; [|apply nth_error_None in E; lia].
    apply nth_error_Some, (A j c E).
Qed.
Lemma patches_view h i c d : view h i = Some (c, d) -> patches_at h i = Some d.
Proof. intros V. destruct (view_inv _ _ _ _ V) as [E F]. unfold patches_at. rewrite E. exact F. Qed.
Lemma view_patches h i c : nth_error (comps h) i = Some c -> forall d, patches_at h i = Some d -> view h i = Some (c, d).
Proof. intros E d P. unfold patches_at in P. rewrite E in P. apply view_intro; auto. Qed.
Lemma with_children_family h i : with_children h i = family h i. Proof. reflexivity. Qed.

(** everything about a component is determined by its view *)
Lemma view_eq h h' j : no_sharing h -> no_sharing h' -> view h' j = view h j ->
  nth_error (comps h') j = nth_error (comps h) j /\ patches_at h' j = patches_at h j.
Proof.
  intros N N' V. destruct (nth_error (comps h) j) as [c|] eqn:E.
  - destruct (view_total h j c N E) as [d D]. rewrite D in V. destruct (view_inv _ _ _ _ V) as [A B].
    split; [exact A|]. rewrite (patches_view _ _ _ _ V), (patches_view _ _ _ _ D). reflexivity.
  - destruct (nth_error (comps h') j) as [c|] eqn:E'.
    + destruct (view_total h' j c N' E') as [d D]. rewrite D in V. symmetry in V. destruct (view_inv _ _ _ _ V). congruence.
    + split; [reflexivity|]. unfold patches_at. rewrite E, E'. reflexivity.
Qed.
(** what generate_patches leaves in the dictionary of a component *)
Definition gives_own (h : heap R) (i : nat) (g' : dict (surf R)) : Prop :=
  exists c d rep g rr rs, view h i = Some (c, d) /\ c_kind c = Own rep (Ok (g, rr, rs)) /\
    g' = if rep then g else dupdate d g.
Definition gives (h : heap R) (i : nat) (g' : dict (surf R)) : Prop :=
  gives_own h i g' \/
  exists c d chs gs, view h i = Some (c, d) /\ c_kind c = Composite chs /\
    Forall2 (gives_own h) chs gs /\ g' = merged_patches gs.

Lemma does_own i c0 rep g rr rs : c_kind c0 = Own rep (Ok (g, rr, rs)) ->
  does (T := R) i c0 (fun d => if rep then g else dupdate d g) (generate_own i).
Proof.
  intros K h c d V S. destruct (view_inv _ _ _ _ V) as [E F].
  destruct (so_inv c0 c S) as (_ & EK & _).
  unfold generate_own. unfold bindM at 1, get_comp. rewrite E, EK, K. unfold bindM at 1, lift.
  unfold bindM at 1. unfold put_comp at 1.
  set (c1 := set_res c _ _). set (h1 := mkHeap _ _).
  assert (V1 : view h1 i = Some (c1, d)).
  { apply view_intro; [apply list_set_same; eapply nth_some_lt, E|exact F]. }
  destruct rep.
  - apply (does_rebind i c0 g h1 c1 d V1 S).
  - apply (does_on i c0 (fun _ old => dupdate old g) (fun _ _ => eq_refl) h1 c1 d V1 S).
Qed.
Lemma own_built h i g : gives_own h i g ->
  exists h' c', generate_own i h = (h', Ok tt) /\ view h' i = Some (c', g) /\
    forall c, nth_error (comps h) i = Some c -> same_options c c'.
Proof.
  intros (c & d & rep & g0 & rr & rs & V & K & ->).
  destruct (does_own i c rep g0 rr rs K h c d V (so_refl c)) as (h' & c' & A & B & C).
  exists h', c'. split; [exact A|]. split; [exact B|].
  intros x Hx. destruct (view_inv _ _ _ _ V). congruence.
Qed.
Lemma gives_own_ext h h' j g : view h' j = view h j -> gives_own h j g -> gives_own h' j g.
Proof. intros V. unfold gives_own. rewrite V. auto. Qed.

Lemma children_built chs gs : NoDup chs -> forall h, no_sharing h -> Forall2 (gives_own h) chs gs ->
  exists h', iterM generate_own chs h = (h', Ok tt) /\ Forall2 (fun j g => exists c, view h' j = Some (c, g)) chs gs.
Proof.
  intros ND. revert gs. induction ND as [|i chs NI ND IH]; intros gs h N H; inversion H as [|i' g chs' gs' B H' E1 E2]; subst.
  - exists h. split; [reflexivity|constructor].
  - destruct (own_built h i g B) as (h1 & c1 & A1 & V1 & S1).
    pose proof (framed_own (fun j => j = i) i eq_refl h N) as F1. rewrite A1 in F1. cbn [fst] in F1.
    destruct F1 as (N1 & L1 & F1 & _).
    assert (H1 : Forall2 (gives_own h1) chs gs').
    { assert (Q : forall j, In j chs -> view h1 j = view h j) by (intros j I; apply F1; intros ->; auto).
      clear - H' Q. induction H' as [|j g chs gs B _ IH]; constructor.
      - eapply gives_own_ext; [apply Q; left; reflexivity|exact B].
      - apply IH. intros k Hk. apply Q. right. exact Hk. }
    destruct (IH gs' h1 N1 H1) as (h2 & A2 & V2). exists h2. cbn [iterM]. unfold bindM at 1. rewrite A1. split; [exact A2|].
    constructor; [|exact V2]. exists c1. rewrite <- V1.
    assert (F2 : framed (T := R) (fun j => In j chs) (iterM generate_own chs)).
    { apply framed_iter. intros a Ia. apply framed_own. exact Ia. }
    specialize (F2 h1 N1). rewrite A2 in F2. apply F2. exact NI.
Qed.
Lemma all_patches_views (h : heap R) chs gs : Forall2 (fun j g => exists c, view h j = Some (c, g)) chs gs ->
  all_patches chs h = (h, Ok gs).
Proof.
  induction 1 as [|j g chs gs (c & V) _ IH]; [reflexivity|].
  cbn [all_patches]. unfold bindM at 1. unfold patches_of. unfold bindM at 1, get_comp, get_dict.
  destruct (view_inv _ _ _ _ V) as [E F]. rewrite E, F. unfold bindM. rewrite IH. reflexivity.
Qed.
Lemma tagged_joined n gs : tagged n gs = joined n gs.
Proof. revert n. induction gs as [|g gs IH]; intros n; [reflexivity|]. rewrite tagged_cons, IH. reflexivity. Qed.

(** the children of a composite *)
Definition children (h : heap R) (i : nat) : list nat := tl (family h i).

Lemma patches_built h i g c : no_sharing h -> NoDup (family h i) -> gives h i g -> nth_error (comps h) i = Some c ->
  exists h' c', generate_patches i h = (h', Ok tt) /\ view h' i = Some (c', g) /\ same_options c c' /\
    forall j gj, In j (children h i) -> gives_own h j gj -> exists cj, view h' j = Some (cj, gj).
Proof.
  intros N ND B E. unfold generate_patches. unfold bindM at 1, get_comp. rewrite E. unfold children, family. rewrite E.
  destruct B as [B|(c0 & d & chs & gs & V & K & FB & ->)].
  - destruct (own_built h i g B) as (h' & c' & A & V & S). specialize (S c E).
    destruct B as (c0 & d & rep & g0 & rr & rs & V0 & K & _). destruct (view_inv _ _ _ _ V0) as [E0 _].
    assert (c0 = c) as -> by congruence. rewrite K. exists h', c'. split; [exact A|]. split; [exact V|]. split; [exact S|]. intros j gj [].
  - destruct (view_inv _ _ _ _ V) as [E0 _]. assert (c0 = c) as -> by congruence. rewrite K.
    unfold family in ND. rewrite E, K in ND. inversion ND as [|? ? NI ND']; subst.
    destruct (children_built chs gs ND' h N FB) as (h1 & A1 & V1).
    assert (F1 : framed (T := R) (fun j => In j chs) (iterM generate_own chs)).
    { apply framed_iter. intros a Ia. apply framed_own. exact Ia. }
    specialize (F1 h N). rewrite A1 in F1. cbn [fst] in F1. destruct F1 as (N1 & L1 & F1 & _).
    unfold bindM at 1. rewrite A1. unfold bindM at 1. rewrite (all_patches_views h1 chs gs V1).
    rewrite <- (F1 i NI) in V.
    destruct (does_rebind i c (merged_patches gs) h1 c d V (so_refl c)) as (h2 & c2 & A2 & V2 & S2).
    exists h2, c2. split; [exact A2|]. split; [exact V2|]. split; [exact S2|].
    cbn [tl]. intros j gj Ij Gj.
    pose proof (framed_rebind (fun k => k = i) i (merged_patches gs) eq_refl h1 N1) as F2. rewrite A2 in F2. cbn [fst] in F2.
    destruct F2 as (_ & _ & F2 & _). rewrite F2 by (intros ->; auto).
    clear - V1 FB Ij Gj. revert Ij. induction FB as [|k g chs gs B _ IH]; intros []; inversion V1 as [|? ? ? ? (x & Vx) V1']; subst.
    + exists x. rewrite Vx. do 2 f_equal.
      destruct B as (a1 & a2 & a3 & a4 & a5 & a6 & P1 & P2 & ->), Gj as (b1 & b2 & b3 & b4 & b5 & b6 & Q1 & Q2 & ->).
      rewrite P1 in Q1. injection Q1 as <- <-. rewrite P2 in Q2. injection Q2 as <- <- _ _. reflexivity.
    + apply IH; auto.
Qed.

Definition set_up (h : heap R) (i : nat) (g : dict (surf R)) (c : comp R) (ms : list motion) : Prop :=
  gives h i g /\ nth_error (comps h) i = Some c /\ c_transformations c = map written ms.

Lemma component_built h i g c ms angle : no_sharing h -> NoDup (family h i) -> set_up h i g c ms ->
  exists h' c', generate_component angle i h = (h', Ok tt) /\ view h' i = Some (c', post_effect c angle ms g) /\ same_options c c' /\
    forall j gj, In j (children h i) -> gives_own h j gj -> exists cj, view h' j = Some (cj, gj).
Proof.
  intros N ND (B & E & ET). destruct (patches_built h i g c N ND B E) as (h1 & c1 & A1 & V1 & S1 & Q1).
  destruct (does_post i c angle ms ET h1 c1 g V1 S1) as (h2 & c2 & A2 & V2 & S2).
  exists h2, c2. split; [|split; [exact V2|split; [exact S2|]]].
  - unfold generate_component. unfold bindM at 1. rewrite A1. exact A2.
  - intros j gj Ij Gj. destruct (Q1 j gj Ij Gj) as (cj & Vj). exists cj. rewrite <- Vj.
    pose proof (framed_generate_patches i h N) as F1. rewrite A1 in F1. cbn [fst] in F1.
    pose proof (framed_post (fun k => k = i) i eq_refl angle h1 (proj1 F1)) as F2. rewrite A2 in F2. cbn [fst] in F2.
    apply F2. intros ->. unfold children, family in *. cbn [tl] in Ij. inversion ND; auto.
Qed.

Lemma step_family (h h' : heap R) I j : step I h h' -> family h' j = family h j.
Proof.
  intros (N & L & _ & O). unfold family. f_equal. destruct (nth_error (comps h) j) as [c|] eqn:E.
  - destruct (O j c E) as (c' & E' & S). rewrite E'. destruct (so_inv _ _ S) as (_ & -> & _). reflexivity.
  - apply nth_error_None in E. rewrite <- L in E. apply nth_error_None in E. rewrite E. reflexivity.
Qed.
Lemma gives_ext h h' j g : (forall k, In k (family h j) -> view h' k = view h k) -> gives h j g -> gives h' j g.
Proof.
  intros V [B|(c & d & chs & gs & E & K & FB & ->)].
  - left. eapply gives_own_ext; [apply V; left; reflexivity|exact B].
  - right. exists c, d, chs, gs. split; [rewrite V; [exact E|left; reflexivity]|].
    split; [exact K|]. split; [|reflexivity].
    assert (Q : forall k, In k chs -> view h' k = view h k).
    { intros k Hk. apply V. unfold family. destruct (view_inv _ _ _ _ E) as [E' _]. rewrite E', K. right. exact Hk. }
    clear - FB Q. induction FB as [|k g chs gs B _ IH]; constructor.
    * eapply gives_own_ext; [apply Q; left; reflexivity|exact B].
    * apply IH. intros x Hx. apply Q. right. exact Hx.
Qed.
Lemma set_up_ext h h' j g c ms : no_sharing h -> no_sharing h' -> (forall k, In k (family h j) -> view h' k = view h k) ->
  set_up h j g c ms -> set_up h' j g c ms.
Proof.
  intros N N' V (B & E & P). split; [exact (gives_ext h h' j g V B)|].
  split; [|exact P]. destruct (view_eq h h' j N N' (V j (or_introl eq_refl))) as [A _]. congruence.
Qed.
Lemma flat_disjoint {A} (f : A -> list nat) i l k : NoDup (f i ++ flat_map f l) -> In k (flat_map f l) -> ~ In k (f i).
Proof.
  intros ND I J. induction (f i) as [|a b IHf]; [destruct J|]. cbn in ND. inversion ND; subst.
  destruct J as [->|J]; [apply H1, in_or_app; right; exact I|auto].
Qed.

Lemma all_built angle l : forall h, no_sharing h -> NoDup (flat_map (family h) l) ->
  (forall i, In i l -> exists g c ms, set_up h i g c ms) ->
  exists h', iterM (generate_component angle) l h = (h', Ok tt) /\
    step (fun j => In j (flat_map (family h) l)) h h' /\
    (forall i g c ms, In i l -> set_up h i g c ms -> exists c',
      view h' i = Some (c', post_effect c angle ms g) /\ same_options c c') /\
    (forall i j gj, In i l -> In j (children h i) -> gives_own h j gj -> exists cj, view h' j = Some (cj, gj)).
Proof.
  induction l as [|i l IH]; intros h N ND R.
  - exists h. split; [reflexivity|]. split; [apply step_refl, N|]. split; [intros i g c ms []|intros i j gj []].
  - cbn [flat_map] in ND.
    destruct (R i (or_introl eq_refl)) as (g0 & c0 & ms0 & R0).
    assert (NDi : NoDup (family h i)) by (eapply NoDup_app_remove_r; exact ND).
    pose proof (framed_generate i angle h N) as F1.
    destruct (component_built h i g0 c0 ms0 angle N NDi R0) as (h1 & _ & A1 & _ & _ & K1).
    rewrite A1 in F1. cbn [fst] in F1.
    pose proof F1 as F1'. destruct F1' as (N1 & L1 & V1 & O1).
    assert (DJ : forall k, In k (flat_map (family h) l) -> ~ In k (family h i)) by (intros k; apply flat_disjoint, ND).
    assert (FAM : flat_map (family h1) l = flat_map (family h) l).
    { apply flat_map_ext. intros a. eapply step_family, F1. }
    assert (VV : forall j k, In j l -> In k (family h j) -> view h1 k = view h k).
    { intros j k Hj Hk. apply V1. apply DJ. apply in_flat_map. exists j. auto. }
    destruct (IH h1 N1) as (h2 & A2 & S2 & Q2 & K2).
    { rewrite FAM. eapply NoDup_app_r', ND. }
    { intros j Hj. destruct (R j (or_intror Hj)) as (g & c & ms & Rj). exists g, c, ms. eapply set_up_ext; [exact N|exact N1| |exact Rj].
      intros k Hk. apply (VV j k Hj Hk). }
    assert (W2 : forall k, In k (family h i) -> view h2 k = view h1 k).
    { intros k Hk. apply S2. rewrite FAM. intros I. apply (DJ k I Hk). }
    exists h2. split; [cbn [iterM]; unfold bindM at 1; rewrite A1; exact A2|]. split; [|split].
    { eapply step_trans.
      - eapply step_weaken; [|exact F1]. intros j Hj. cbn [flat_map]. apply in_or_app. left. exact Hj.
      - eapply step_weaken; [|exact S2]. intros j Hj. rewrite FAM in Hj. cbn [flat_map]. apply in_or_app. right. exact Hj. }
    + intros j g c ms [<-|Hj] Rj.
      * destruct (component_built h i g c ms angle N NDi Rj) as (h1' & c1 & A & V & S & _).
        rewrite A1 in A. injection A as <-. exists c1. split; [|exact S]. rewrite <- V. apply W2. left. reflexivity.
      * assert (Rj1 : set_up h1 j g c ms).
        { eapply set_up_ext; [exact N|exact N1| |exact Rj]. intros k Hk. apply (VV j k Hj Hk). }
        destruct (Q2 j g c ms Hj Rj1) as (c' & V & S). exists c'. auto.
    + intros j k gk [<-|Hj] Hk Gk.
      * destruct (K1 k gk Hk Gk) as (ck & Vk). exists ck. rewrite <- Vk. apply W2. right. exact Hk.
      * apply (K2 j k gk Hj).
        -- unfold children. rewrite (step_family h h1 _ j F1). exact Hk.
        -- eapply gives_own_ext; [|exact Gk]. apply (VV j k Hj). right. exact Hk.
Qed.

Lemma does_reset i c0 : does (T := R) i c0 (fun d => d) (reset_cache i).
Proof.
  intros h c d V S. destruct (view_inv _ _ _ _ V) as [E F]. unfold reset_cache, bindM, get_comp, put_comp. rewrite E.
  eexists _, (set_cache c None None). split; [reflexivity|]. split; [|exact S].
  apply view_intro; [apply list_set_same; eapply nth_some_lt, E|exact F].
Qed.
Lemma does_transform_comp i c0 ms :
  does i c0 (fun d => fold_left (fun d m => apply_motion m d) ms d) (transform_comp (map written ms) i).
Proof.
  unfold transform_comp. apply (does_seq i c0 (fun d => fold_left (fun d m => apply_motion m d) ms d) (fun d => d)).
  - apply does_motions.
  - apply does_reset.
Qed.
Lemma all_transformed ms l : NoDup l -> forall h, no_sharing h -> (forall i, In i l -> exists c d, view h i = Some (c, d)) ->
  exists h', iterM (transform_comp (map written ms)) l h = (h', Ok tt) /\ step (fun j => In j l) h h' /\
    forall i c d, In i l -> view h i = Some (c, d) ->
      exists c', view h' i = Some (c', fold_left (fun d m => apply_motion m d) ms d) /\ same_options c c'.
Proof.
  intros ND. induction ND as [|i l NI ND IH]; intros h N H.
  - exists h. split; [reflexivity|]. split; [apply step_refl, N|]. intros i c d [].
  - destruct (H i (or_introl eq_refl)) as (c0 & d0 & V0).
    destruct (does_transform_comp i c0 ms h c0 d0 V0 (so_refl c0)) as (h1 & c1 & A1 & V1 & S1).
    pose proof (framed_transform_comp (fun j => j = i) i eq_refl (map written ms) h N) as F1. rewrite A1 in F1. cbn [fst] in F1.
    pose proof F1 as F1'. destruct F1' as (N1 & L1 & W1 & _).
    assert (VV : forall j, In j l -> view h1 j = view h j) by (intros j Hj; apply W1; intros ->; auto).
    destruct (IH h1 N1) as (h2 & A2 & S2 & Q2).
    { intros j Hj. rewrite (VV j Hj). apply H. right. exact Hj. }
    exists h2. split; [cbn [iterM]; unfold bindM at 1; rewrite A1; exact A2|]. split.
    { eapply step_trans; [eapply step_weaken; [|exact F1]; intros j ->; left; reflexivity|].
      eapply step_weaken; [|exact S2]. intros j Hj. right. exact Hj. }
    intros j c d [<-|Hj] V.
    + rewrite V0 in V. injection V as <- <-. exists c1. split; [|exact S1]. rewrite <- V1. apply S2. exact NI.
    + apply (Q2 j c d Hj). rewrite VV; auto.
Qed.

(** a single run of generate, for all vehicles and heaps *)
Theorem generate_run (v : vehicle R) h more : no_sharing h -> NoDup (flat_map (family h) (v_components v)) ->
  (forall i, In i (v_components v) -> exists g c ms, set_up h i g c ms) ->
  v_transformations v = map written more ->
  exists h', generate v h = (h', mark_generated v, Ok tt) /\
    step (fun j => In j (flat_map (family h) (v_components v))) h h' /\
    (forall i g c ms, In i (v_components v) -> set_up h i g c ms -> exists c',
      view h' i = Some (c', fold_left (fun d m => apply_motion m d) more (post_effect c (v_angle v) ms g)) /\ same_options c c') /\
    (forall i j gj, In i (v_components v) -> In j (children h i) -> gives_own h j gj -> exists cj, view h' j = Some (cj, gj)).
Proof.
  intros SP ND R ET.
  destruct (all_built (v_angle v) (v_components v) h SP ND R) as (h1 & A1 & S1 & Q1 & K1).
  pose proof S1 as (N1 & _ & W1 & _).
  assert (NDl : NoDup (v_components v)).
  { clear - ND. induction (v_components v) as [|i l IH]; [constructor|]. cbn [flat_map] in ND. constructor.
    - intros I. cbn in ND. inversion ND as [|? ? NI _]; subst. apply NI. apply in_or_app. right. apply in_flat_map.
      exists i. split; [exact I|left; reflexivity].
    - apply IH. eapply NoDup_app_r', ND. }
  unfold generate. rewrite A1. cbn [v_transformations mark_generated]. rewrite ET. destruct more as [|m more].
  - exists h1. split; [reflexivity|]. split; [exact S1|]. split; [|exact K1].
    intros i g c ms Hi Ri. apply (Q1 i g c ms Hi Ri).
  - destruct (all_transformed (m :: more) (v_components v) NDl h1 N1) as (h2 & A2 & S2 & Q2).
    { intros i Hi. destruct (R i Hi) as (g & c & ms & Ri). destruct (Q1 i g c ms Hi Ri) as (c' & V & _). eauto. }
    exists h2. cbn [map]. unfold transform_vehicle, mark_generated at 2. cbn [v_generated v_components mark_generated].
    change (written m :: map written more) with (map written (m :: more)). rewrite A2.
    split; [reflexivity|]. split; [|split].
    + eapply step_trans; [exact S1|]. eapply step_weaken; [|exact S2].
      intros j Hj. apply in_flat_map. exists j. split; [exact Hj|left; reflexivity].
    + intros i g c ms Hi Ri. destruct (Q1 i g c ms Hi Ri) as (c' & V & S).
      destruct (Q2 i _ _ Hi V) as (c2 & V2 & SS). exists c2. split; [exact V2|eapply so_trans; eauto].
    + intros i j gj Hi Hj Gj. destruct (K1 i j gj Hi Hj Gj) as (cj & Vj). exists cj. rewrite <- Vj. apply S2.
      intros I. revert ND. clear - Hi Hj I. induction (v_components v) as [|a l IH]; [destruct Hi|]. cbn [flat_map]. intros ND.
      destruct Hi as [->|Hi], I as [->|I].
      * apply NoDup_app_remove_r in ND. unfold children, family in *. cbn [tl] in Hj. inversion ND; auto.
      * eapply flat_disjoint; [exact ND| |right; exact Hj]. apply in_flat_map. exists j. split; [exact I|left; reflexivity].
      * eapply flat_disjoint; [exact ND| |left; reflexivity]. apply in_flat_map. exists i. split; [exact Hi|right; exact Hj].
      * apply NoDup_app_r' in ND. auto.
Qed.

(** ** C51 *)
Lemma builds_own_gives h i g : builds_own h i g -> no_sharing h -> gives_own h i g.
Proof.
  intros (c & rep & rr & rs & E & K & ND & P) N. destruct (view_total h i c N E) as [d V].
  exists c, d, rep, g, rr, rs. split; [exact V|]. split; [exact K|]. destruct rep; [reflexivity|]. destruct P as [P|P]; [discriminate|].
  rewrite (patches_view _ _ _ _ V) in P. injection P as ->. symmetry. apply dupdate_nil, ND.
Qed.
Lemma builds_gives h i g : builds h i g -> no_sharing h -> gives h i g.
Proof.
  intros [B|(c & chs & gs & E & K & FB & ->)] N; [left; apply builds_own_gives; auto|].
  destruct (view_total h i c N E) as [d V]. right. exists c, d, chs, gs. split; [exact V|]. split; [exact K|]. split.
  - clear - FB N. induction FB; constructor; auto. apply builds_own_gives; auto.
  - rewrite merged_tagged, tagged_joined; [reflexivity|].
    clear - FB. induction FB as [|j g chs gs (x & rep & rr & rs & _ & _ & ND & _) _ IH]; constructor; auto.
Qed.
Lemma ready_set_up h i g p : no_sharing h -> ready h i g p -> exists c, set_up h i g c (p_motions p) /\ planned c p.
Proof.
  intros N (B & _ & _ & c & E & P). exists c. split; [|exact P]. split; [apply builds_gives; auto|]. split; [exact E|apply P].
Qed.

Theorem generate_pipeline (v : vehicle R) h more : separate h ->
  NoDup (flat_map (with_children h) (v_components v)) ->
  (forall i, In i (v_components v) -> exists g p, ready h i g p) ->
  v_transformations v = map written more -> Forall motion_ok more ->
  exists h', generate v h = (h', mark_generated v, Ok tt) /\ separate h' /\
    (forall i g p, In i (v_components v) -> ready h i g p ->
       exists d, patches_at h' i = Some d /\ finished p (v_angle v) more g d) /\
    (forall j, ~ In j (flat_map (with_children h) (v_components v)) -> patches_at h' j = patches_at h j).
Proof.
  intros SP ND R ET OM. apply separate_ns in SP.
  destruct (generate_run v h more SP ND) as (h' & A & S & Q & _).
  { intros i Hi. destruct (R i Hi) as (g & p & Ri). destruct (ready_set_up h i g p SP Ri) as (c & U & _). eauto. }
  { exact ET. }
  exists h'. split; [exact A|]. pose proof S as (N' & _ & W & _). split; [apply separate_ns, N'|]. split.
  - intros i g p Hi Ri. destruct (ready_set_up h i g p SP Ri) as (c & U & P).
    destruct (Q i g c (p_motions p) Hi U) as (c2 & V2 & _). eexists. split; [eapply patches_view, V2|].
    destruct Ri as (_ & K & O & _). apply finished_effect; auto.
  - intros j Hj. destruct (view_eq h h' j SP N') as [_ X]; [|exact X]. apply W. exact Hj.
Qed.
