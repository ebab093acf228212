(** Vehicle.generate called twice. *)
From Coq Require Import Reals Lra String List Arith Lia Bool ZArith.
From Verif Require Import Num NumR Py M_Vector M_Path M_Surface M_Geometry M_Mesh M_Component M_Vehicle
  SpecR3 SpecSurf SpecVehicle L_Vector L_Rigid L_Strings L_Component L_Composite L_Heap L_Reflect L_Pipeline L_Generate.
Import ListNotations.

Lemma dset_head {A} (p : dict A) k v0 v r : ~ In k (dkeys p) -> dset (p ++ (k, v0) :: r) k v = p ++ (k, v) :: r.
Proof.
  induction p as [|[k' v'] p IH]; cbn; intros H.
  - rewrite String.eqb_refl. reflexivity.
  - destruct (String.eqb_spec k k') as [->|NE]; [exfalso; apply H; left; reflexivity|]. rewrite IH; auto.
Qed.
Lemma dupdate_block {A} (g : dict A) : forall p e r, dkeys e = dkeys g -> NoDup (dkeys p ++ dkeys g) ->
  dupdate (p ++ e ++ r) g = p ++ g ++ r.
Proof.
  induction g as [|[k v] g IH]; intros p e r K ND.
  - destruct e as [|x e]; [reflexivity|discriminate].
  - destruct e as [|[k' v'] e]; [discriminate|]. cbn in K. injection K as -> K.
    unfold dupdate. cbn [fold_left fst snd]. cbn [app]. cbn [dkeys map fst] in ND.
    rewrite dset_head by (apply NoDup_remove_2 in ND; intros I; apply ND, in_or_app; left; exact I).
    change (p ++ (k, v) :: e ++ r) with (p ++ [(k, v)] ++ e ++ r). rewrite app_assoc.
    change (fold_left _ g ((p ++ [(k, v)]) ++ e ++ r)) with (dupdate ((p ++ [(k, v)]) ++ e ++ r) g).
    rewrite (IH (p ++ [(k, v)]) e r K); [rewrite <- app_assoc; reflexivity|].
    rewrite dkeys_app, <- app_assoc. exact ND.
Qed.
Lemma dupdate_same_keys {A} (d g : dict A) : dkeys d = dkeys g -> NoDup (dkeys g) -> dupdate d g = g.
Proof. intros K ND. pose proof (dupdate_block g [] d [] K ND) as H. cbn [app] in H. rewrite !app_nil_r in H. exact H. Qed.
Lemma dupdate_app {A} (d e f : dict A) : dupdate d (e ++ f) = dupdate (dupdate d e) f.
Proof. apply fold_left_app. Qed.

Definition pre (c : comp R) (angle : R) (d : dict (surf R)) : dict (surf R) :=
  rotate_patches angle "y" (curve_patches (c_curvatures c) (modify_patches (c_modifier c) d)).
Definition moves (ms : list motion) (d : dict (surf R)) : dict (surf R) := fold_left (fun d m => apply_motion m d) ms d.
Definition mirrors (axis : string) (d : dict (surf R)) : dict (surf R) :=
  map (fun kp => (mirrored_key (fst kp), MirroredPatch (snd kp) axis)) d.
Lemma dmap_app {A B} (f : A -> B) d e : dmap f (d ++ e) = dmap f d ++ dmap f e.
Proof. apply map_app. Qed.
Lemma modify_app f (d e : dict (surf R)) : modify_patches f (d ++ e) = modify_patches f d ++ modify_patches f e.
Proof. destruct f; [apply dmap_app|reflexivity]. Qed.
Lemma curve_app cs (d e : dict (surf R)) : curve_patches cs (d ++ e) = curve_patches cs d ++ curve_patches cs e.
Proof.
  destruct cs as [cs|]; [|reflexivity]. unfold curve_patches. revert d e. induction cs as [|[[dir f] fd] cs IH]; intros d e; [reflexivity|].
  cbn [fold_left]. rewrite dmap_app. apply IH.
Qed.
Lemma curve_keys cs (d : dict (surf R)) : dkeys (curve_patches cs d) = dkeys d.
Proof.
  destruct cs as [cs|]; [|reflexivity]. unfold curve_patches. revert d. induction cs as [|[[dir f] fd] cs IH]; intros d; [reflexivity|].
  cbn [fold_left]. rewrite IH. apply dmap_keys.
Qed.
Lemma pre_app c a d e : pre c a (d ++ e) = pre c a d ++ pre c a e.
Proof. unfold pre. rewrite modify_app, curve_app. apply dmap_app. Qed.
Lemma pre_keys c a d : dkeys (pre c a d) = dkeys d.
Proof. unfold pre. unfold rotate_patches. rewrite dmap_keys, curve_keys. destruct (c_modifier c); [apply dmap_keys|reflexivity]. Qed.
Lemma moves_app ms d e : moves ms (d ++ e) = moves ms d ++ moves ms e.
Proof.
  unfold moves. revert d e. induction ms as [|m ms IH]; intros d e; [reflexivity|]. cbn [fold_left].
  rewrite <- IH. f_equal. destruct m; apply dmap_app.
Qed.
Lemma moves_keys ms d : dkeys (moves ms d) = dkeys d.
Proof.
  unfold moves. revert d. induction ms as [|m ms IH]; intros d; [reflexivity|]. cbn [fold_left]. rewrite IH. destruct m; apply dmap_keys.
Qed.
Lemma mirrors_app axis d e : mirrors axis (d ++ e) = mirrors axis d ++ mirrors axis e.
Proof. apply map_app. Qed.
Lemma mirrors_keys axis d : dkeys (mirrors axis d) = map mirror_key (dkeys d).
Proof. unfold mirrors, dkeys. rewrite !map_map. reflexivity. Qed.

Section Twice.
  Variables (c : comp R) (angle : R) (ms : list motion) (g : dict (surf R)).
  Notation run := (post_effect c angle ms).
  Lemma run_none d : c_axis c = None -> run d = moves ms (pre c angle d).
  Proof. intros E. unfold post_effect. rewrite E. reflexivity. Qed.
  Lemma run_axis axis d : c_axis c = Some axis -> run d = moves ms (
    if c_append c then dupdate (pre c angle d) (dupdate [] (mirrors axis (pre c angle d))) else dupdate [] (mirrors axis (pre c angle d))).
  Proof. intros E. unfold post_effect. rewrite E. reflexivity. Qed.

  Lemma again_none more : c_axis c = None -> NoDup (dkeys g) -> dupdate (moves more (run g)) g = g.
  Proof.
    intros E ND. apply dupdate_same_keys; [|exact ND]. rewrite moves_keys, (run_none g E), moves_keys. apply pre_keys.
  Qed.

  Hypothesis KA : keys_apart g.
  Notation K := (dkeys g).
  Lemma ka1 : NoDup (K ++ map mirror_key K).
  Proof using KA. unfold keys_apart in KA. rewrite app_assoc in KA. eapply NoDup_app_remove_r, KA. Qed.
  Lemma ka2 : NoDup (map mirror_key K ++ map (fun k => mirror_key (mirror_key k)) K).
  Proof using KA. eapply NoDup_app_r', KA. Qed.

  Lemma again_append more axis : c_axis c = Some axis -> c_append c = true ->
    let d1 := moves more (run g) in
    let e2 := moves more (moves ms (mirrors axis (pre c angle g))) in
    d1 = moves more (moves ms (pre c angle g)) ++ e2 /\
    moves more (run (dupdate d1 g)) = d1 ++ moves more (moves ms (mirrors axis (pre c angle e2))).
  Proof using KA.
    intros E EA d1 e2.
    assert (D1 : d1 = moves more (moves ms (pre c angle g)) ++ e2).
    { unfold d1. rewrite (run_axis axis g E), EA. rewrite dupdate_nil by (rewrite mirrors_keys, pre_keys; eapply NoDup_app_r', ka1).
      rewrite dupdate_nodup by (rewrite mirrors_keys, pre_keys; apply ka1). rewrite !moves_app. reflexivity. }
    split; [exact D1|].
    assert (KE : dkeys e2 = map mirror_key K) by (unfold e2; rewrite !moves_keys, mirrors_keys, pre_keys; reflexivity).
    assert (G2 : dupdate d1 g = g ++ e2).
    { rewrite D1. apply (dupdate_block g []); [rewrite !moves_keys, pre_keys; reflexivity|]. eapply NoDup_app_remove_r, ka1. }
    rewrite G2, (run_axis axis _ E), EA, pre_app, mirrors_app.
    rewrite (dupdate_nil (mirrors axis (pre c angle g) ++ _)).
    2:{ rewrite dkeys_app, !mirrors_keys, !pre_keys, KE, map_map. apply ka2. }
    rewrite dupdate_app.
    pose proof (dupdate_block (mirrors axis (pre c angle g)) (pre c angle g) (pre c angle e2) []) as B. rewrite !app_nil_r in B.
    rewrite B; clear B.
    2:{ rewrite mirrors_keys, !pre_keys, KE. reflexivity. }
    2:{ rewrite mirrors_keys, !pre_keys. apply ka1. }
    rewrite dupdate_nodup.
    2:{ rewrite dkeys_app, !mirrors_keys, !pre_keys, KE, map_map, <- app_assoc. apply KA. }
    rewrite !moves_app. rewrite D1. unfold e2. reflexivity.
  Qed.
  Lemma again_replace more axis : c_axis c = Some axis -> c_append c = false ->
    let d1 := moves more (run g) in
    d1 = moves more (moves ms (mirrors axis (pre c angle g))) /\
    moves more (run (dupdate d1 g)) = moves more (moves ms (mirrors axis (pre c angle d1))) ++ d1.
  Proof using KA.
    intros E EA d1.
    assert (D1 : d1 = moves more (moves ms (mirrors axis (pre c angle g)))).
    { unfold d1. rewrite (run_axis axis g E), EA. rewrite dupdate_nil by (rewrite mirrors_keys, pre_keys; eapply NoDup_app_r', ka1). reflexivity. }
    split; [exact D1|].
    assert (KE : dkeys d1 = map mirror_key K) by (rewrite D1, !moves_keys, mirrors_keys, pre_keys; reflexivity).
    assert (SW : forall l k : list string, NoDup (l ++ k) -> NoDup (k ++ l)).
    { intros l k H. eapply Permutation.Permutation_NoDup; [apply Permutation.Permutation_app_comm|exact H]. }
    rewrite dupdate_nodup by (rewrite KE; apply SW, ka1).
    rewrite (run_axis axis _ E), EA, pre_app, mirrors_app, dupdate_nil.
    2:{ rewrite dkeys_app, !mirrors_keys, !pre_keys, KE, map_map. apply SW, ka2. }
    rewrite !moves_app. f_equal. symmetry. exact D1.
  Qed.
End Twice.

(** the extra entries are the old mirrored ones, processed again *)
Lemma extra_relates c p angle more axis e : planned c p -> plan_ok p -> Forall motion_ok more -> p_axis p = Some axis ->
  relates mirror_key (in_order (before_reflection p angle ++ mirrored_in axis :: after_reflection p more)) e
    (moves more (moves (p_motions p) (mirrors axis (pre c angle e)))).
Proof.
  intros P [OA OM] OV E.
  assert (AM : Forall motion_ok (p_motions p ++ more)) by (apply Forall_app; auto).
  pose proof (pre_relates c p angle e P) as R1. fold (pre c angle e) in R1.
  unfold moves. rewrite <- fold_left_app.
  eapply relates_ext; [|eapply (relates_seq same_key mirror_key); [exact R1|
    eapply (relates_seq mirror_key same_key); [apply (mirrored_relates axis), OA, E|apply motions_relates, AM]]].
  intros q. symmetry. rewrite in_order_app. reflexivity.
Qed.

Lemma post_same_options c c' angle ms d : same_options c c' -> post_effect c' angle ms d = post_effect c angle ms d.
Proof. intros S. destruct (so_inv c c' S) as (_ & _ & _ & E1 & _ & _ & E2 & E3 & E4 & _). unfold post_effect. rewrite E1, E2, E3, E4. reflexivity. Qed.
Lemma planned_so c c' p : same_options c c' -> planned c p -> planned c' p.
Proof.
  intros S P. destruct (so_inv c c' S) as (_ & _ & _ & E1 & _ & E5 & E2 & E3 & E4 & _). unfold planned. rewrite E1, E2, E3, E4, E5. exact P.
Qed.

Theorem generate_twice (v : vehicle R) h more : separate h ->
  NoDup (flat_map (with_children h) (v_components v)) ->
  (forall i, In i (v_components v) -> exists g p, ready h i g p) ->
  v_transformations v = map written more -> Forall motion_ok more ->
  exists h1 h2, generate v h = (h1, mark_generated v, Ok tt) /\ generate (mark_generated v) h1 = (h2, mark_generated v, Ok tt) /\
    forall i g p, In i (v_components v) -> ready h i g p ->
      exists d1 d2, patches_at h1 i = Some d1 /\ patches_at h2 i = Some d2 /\
        (p_axis p = None \/ ~ writes_in_place h i -> d2 = d1) /\
        (forall axis, p_axis p = Some axis -> writes_in_place h i -> keys_apart g ->
           let F := in_order (before_reflection p (v_angle v) ++ mirrored_in axis :: after_reflection p more) in
           if p_append p then exists e1 e2 extra, d1 = e1 ++ e2 /\ d2 = d1 ++ extra /\
              dkeys e2 = map mirror_key (dkeys g) /\ relates mirror_key F e2 extra
           else exists extra, d2 = extra ++ d1 /\ relates mirror_key F d1 extra).
Proof.
  intros SP ND RD ET OM. apply separate_ns in SP.
  assert (R1 : forall i, In i (v_components v) -> exists g c ms, set_up h i g c ms).
  { intros i Hi. destruct (RD i Hi) as (g & p & Ri). destruct (ready_set_up h i g p SP Ri) as (c & U & _). eauto. }
  destruct (generate_run v h more SP ND R1 ET) as (h1 & A1 & S1 & Q1 & K1).
  pose proof S1 as (N1 & _ & W1 & O1).
  assert (FAM : flat_map (family h1) (v_components v) = flat_map (family h) (v_components v)).
  { apply flat_map_ext. intros a. eapply step_family, S1. }
  (* what the second run starts from *)
  assert (U2 : forall i g p, In i (v_components v) -> ready h i g p -> exists c c1,
     planned c p /\ same_options c c1 /\ nth_error (comps h) i = Some c /\
     let d1 := moves more (post_effect c (v_angle v) (p_motions p) g) in
     view h1 i = Some (c1, d1) /\
     exists g2, set_up h1 i g2 c1 (p_motions p) /\ (writes_in_place h i -> g2 = dupdate d1 g) /\ (~ writes_in_place h i -> g2 = g)).
  { intros i g p Hi Ri. destruct (ready_set_up h i g p SP Ri) as (c & U & P).
    destruct (Q1 i g c (p_motions p) Hi U) as (c1 & V1 & SO). exists c, c1. split; [exact P|]. split; [exact SO|].
    assert (E : nth_error (comps h) i = Some c) by apply U.
    split; [exact E|]. cbn zeta. split; [exact V1|].
    destruct (so_inv c c1 SO) as (_ & EK & _ & _ & _ & ETT & _).
    assert (TT : c_transformations c1 = map written (p_motions p)) by (rewrite ETT; apply P).
    destruct Ri as (B & _). destruct B as [(c0 & rep & rr & rs & E0 & K0 & NG & PB)|(c0 & chs & gs & E0 & K0 & FB & ->)];
    (assert (c0 = c) as -> by congruence).
    - exists (if rep then g else dupdate (moves more (post_effect c (v_angle v) (p_motions p) g)) g). split; [|split].
      + split; [|split; [apply (view_inv _ _ _ _ V1)|exact TT]]. left.
        exists c1, (moves more (post_effect c (v_angle v) (p_motions p) g)), rep, g, rr, rs.
        split; [exact V1|]. split; [congruence|reflexivity].
      + intros (x & gen & Ex & Kx). assert (x = c) as -> by congruence. rewrite K0 in Kx. injection Kx as -> _. reflexivity.
      + intros NW. destruct rep; [reflexivity|]. exfalso. apply NW. exists c, (Ok (g, rr, rs)). auto.
    - exists (joined 0 gs). split; [|split].
      + split; [|split; [apply (view_inv _ _ _ _ V1)|exact TT]]. right.
        exists c1, (moves more (post_effect c (v_angle v) (p_motions p) (joined 0 gs))), chs, gs.
        split; [exact V1|]. split; [congruence|].
        assert (NDG : Forall (fun d : dict (surf R) => NoDup (dkeys d)) gs).
        { clear - FB. induction FB as [|j g chs gs (x & rep & rr & rs & _ & _ & NG & _) _ IH]; constructor; auto. }
        split; [|rewrite merged_tagged, tagged_joined; auto].
        assert (CH : forall j, In j chs -> In j (children h i)) by (intros j Hj; unfold children, family; rewrite E, K0; exact Hj).
        clear - FB CH K1 Hi SP O1. induction FB as [|j gj chs gs B _ IH]; constructor.
        * pose proof (builds_own_gives h j gj B SP) as G. destruct (K1 i j gj Hi (CH j (or_introl eq_refl)) G) as (cj & Vj).
          destruct B as (x & rep & rr & rs & Ex & Kx & NG & _). destruct (view_inv _ _ _ _ Vj) as [Ej _].
          destruct (O1 j x Ex) as (x' & Ex' & Sx). assert (x' = cj) as -> by congruence.
          destruct (so_inv x cj Sx) as (_ & EK & _).
          exists cj, gj, rep, gj, rr, rs. split; [exact Vj|]. split; [congruence|].
          destruct rep; [reflexivity|]. symmetry. apply dupdate_same_keys; auto.
        * apply IH. intros k Hk. apply CH. right. exact Hk.
      + intros (x & gen & Ex & Kx). assert (x = c) as -> by congruence. congruence.
      + reflexivity. }
  destruct (generate_run (mark_generated v) h1 more N1) as (h2 & A2 & S2 & Q2 & _).
  { cbn [v_components mark_generated]. rewrite FAM. exact ND. }
  { cbn [v_components mark_generated]. intros i Hi. destruct (RD i Hi) as (g & p & Ri).
    destruct (U2 i g p Hi Ri) as (c & c1 & _ & _ & _ & _ & g2 & U & _). eauto. }
  { exact ET. }
  exists h1, h2. split; [exact A1|]. split; [exact A2|].
  intros i g p Hi Ri. destruct (U2 i g p Hi Ri) as (c & c1 & P & SO & E & V1 & g2 & U & G1 & G2).
  destruct (Q2 i g2 c1 (p_motions p) Hi U) as (c2 & V2 & _). cbn [v_angle mark_generated] in V2.
  rewrite (post_same_options c c1 _ _ _ SO) in V2.
  exists (moves more (post_effect c (v_angle v) (p_motions p) g)). eexists.
  split; [eapply patches_view, V1|]. split; [eapply patches_view, V2|].
  change (fold_left (fun d m => apply_motion m d) more) with (moves more) in *.
  destruct Ri as (_ & [NG _] & PO & _). pose proof P as (_ & _ & EA & EP & _). split.
  - intros [HN|HW].
    + destruct (Classical_Prop.classic (writes_in_place h i)) as [W|W].
      * rewrite (G1 W). rewrite again_none; [reflexivity|congruence|exact NG].
      * rewrite (G2 W). reflexivity.
    + rewrite (G2 HW). reflexivity.
  - intros axis HA W KA. cbn zeta. rewrite (G1 W). rewrite <- EP. destruct (c_append c) eqn:EAP.
    + destruct (again_append c (v_angle v) (p_motions p) g KA more axis) as [D1 D2]; [congruence|exact EAP|].
      eexists _, _, _. split; [exact D1|]. split; [exact D2|]. split.
      * rewrite !moves_keys, mirrors_keys, pre_keys. reflexivity.
      * apply extra_relates; auto.
    + destruct (again_replace c (v_angle v) (p_motions p) g KA more axis) as [D1 D2]; [congruence|exact EAP|].
      eexists. split; [exact D2|]. apply extra_relates; auto.
Qed.
