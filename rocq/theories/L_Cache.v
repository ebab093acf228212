(** The mesh caches of components. *)
From Coq Require Import String List Arith Lia Bool ZArith.
From Verif Require Import Num Py M_Vector M_Path M_Surface M_Geometry M_Mesh M_Component M_Vehicle SpecHistory
  L_Strings L_Component L_Heap.
Import ListNotations.

Section Cache.
  Context {T : Type} {N : Num T}.
  Notation heap := (heap T).
  Notation comp := (comp T).
  Notation M := (M (T := T)).

  (** operations that leave all caches and options alone *)
  Definition caches (c : comp) := (c_surfaces c, c_mesh c, options c).
  Definition cache_step (h h' : heap) : Prop :=
    forall j, option_map caches (nth_error (comps h') j) = option_map caches (nth_error (comps h) j).
  Definition cached {A} (m : M A) : Prop := forall h, cache_step h (fst (m h)).
  Lemma cs_refl h : cache_step h h. Proof. intros j. reflexivity. Qed.
  Lemma cs_trans a b c : cache_step a b -> cache_step b c -> cache_step a c.
  Proof. intros H K j. rewrite K. apply H. Qed.
  Lemma cached_bind {A B} (m : M A) (k : A -> M B) : cached m -> (forall a, cached (k a)) -> cached (bindM m k).
  Proof.
    intros Hm Hk h. unfold bindM. specialize (Hm h). destruct (m h) as [h1 [a|e]]; cbn [fst] in *; [|auto].
    eapply cs_trans; [exact Hm|]. apply Hk.
  Qed.
  Lemma cached_ret {A} (a : A) : cached (ret a). Proof. intros h. apply cs_refl. Qed.
  Lemma cached_throw {A} e : cached (throw (A := A) e). Proof. intros h. apply cs_refl. Qed.
  Lemma cached_lift {A} (r : res A) : cached (lift r). Proof. intros h. apply cs_refl. Qed.
  Lemma cached_iter {A} (f : A -> M unit) l : (forall a, In a l -> cached (f a)) -> cached (iterM f l).
  Proof.
    induction l as [|a l IH]; intros H; cbn [iterM]; [apply cached_ret|].
    apply cached_bind; [apply H; left; auto|]. intros _. apply IH. intros b Hb. apply H. right. auto.
  Qed.
  Lemma cached_get i : cached (get_comp i).
  Proof. intros h. unfold get_comp. destruct (nth_error _ _); apply cs_refl. Qed.
  Lemma cached_getd r : cached (get_dict r).
  Proof. intros h. unfold get_dict. destruct (nth_error _ _); apply cs_refl. Qed.
  Lemma cached_putd r d : cached (put_dict r d). Proof. intros h j. reflexivity. Qed.
  Lemma cached_newd d : cached (new_dict d). Proof. intros h j. reflexivity. Qed.
  Lemma put_cached i c c' h : nth_error (comps h) i = Some c -> caches c' = caches c -> cache_step h (fst (put_comp i c' h)).
  Proof.
    intros E K j. cbn [put_comp fst comps]. destruct (Nat.eq_dec i j) as [<-|NE].
    - rewrite list_set_same by (eapply nth_some_lt, E). rewrite E. cbn. rewrite K. reflexivity.
    - rewrite list_set_other by auto. reflexivity.
  Qed.
  Lemma cached_with {B} i (k : comp -> M B) : (forall h c, nth_error (comps h) i = Some c -> cache_step h (fst (k c h))) -> cached (bindM (get_comp i) k).
  Proof.
    intros H h. unfold bindM, get_comp. destruct (nth_error (comps h) i) as [c|] eqn:E; cbn [fst]; [auto|apply cs_refl].
  Qed.
  Lemma cached_on f i : cached (on_patches f i).
  Proof. unfold on_patches. apply cached_bind; [apply cached_get|]. intros c. apply cached_bind; [apply cached_getd|]. intros d. apply cached_putd. Qed.
  Lemma cached_rebind i d : cached (rebind_patches i d).
  Proof.
    unfold rebind_patches. apply cached_with. intros h c E. unfold bindM, new_dict. cbn [fst].
    apply (put_cached i c (set_patches c (length (dicts h))) (mkHeap (dicts h ++ [d]) (comps h)) E). reflexivity.
  Qed.
  Lemma cached_reflect ax i : cached (comp_reflect ax i).
  Proof.
    unfold comp_reflect. apply cached_bind; [apply cached_get|]. intros c. apply cached_bind; [apply cached_getd|]. intros d.
    destruct (c_axis c), ax; try (destruct (c_append c); [apply cached_putd|apply cached_rebind]). apply cached_ret.
  Qed.
  Lemma cached_call t i : cached (call_method t i).
  Proof.
    destruct t as [name args]. unfold call_method.
    repeat match goal with |- cached (if ?b then _ else _) => destruct b end;
    repeat match goal with
    | |- cached (match ?a with _ => _ end) => destruct a
    | |- cached (throw _) => apply cached_throw
    | |- cached (comp_reflect _ _) => apply cached_reflect
    | |- cached _ => apply cached_on
    end.
  Qed.
  Lemma cached_transform i : cached (comp_transform i).
  Proof. apply cached_bind; [apply cached_get|]. intros c. apply cached_iter. intros. apply cached_call. Qed.
  Lemma cached_own i : cached (generate_own i).
  Proof.
    unfold generate_own. apply cached_with. intros h c E. destruct (c_kind c) as [rep gen|]; [|apply cs_refl].
    unfold bindM at 1, lift. destruct gen as [[[d rr] rs]|e]; cbn [fst]; [|apply cs_refl].
    unfold bindM at 1. unfold put_comp at 1. eapply cs_trans.
    - apply (put_cached i c (set_res c (dupdate (c_res_r c) rr) (dupdate (c_res_s c) rs)) h E). reflexivity.
    - destruct rep; [apply cached_rebind|apply cached_on].
  Qed.
  Lemma cached_all l : cached (all_patches l).
  Proof.
    induction l as [|i l IH]; cbn [all_patches]; [apply cached_ret|]. apply cached_bind.
    - apply cached_bind; [apply cached_get|]. intros c. apply cached_getd.
    - intros d. apply cached_bind; [apply IH|]. intros ds. apply cached_ret.
  Qed.
  Lemma cached_generate_patches i : cached (generate_patches i).
  Proof.
    apply cached_bind; [apply cached_get|]. intros c. destruct (c_kind c) as [rep gen|chs]; [apply cached_own|].
    apply cached_bind; [apply cached_iter; intros; apply cached_own|]. intros _.
    apply cached_bind; [apply cached_all|]. intros ds. apply cached_rebind.
  Qed.
  Lemma cached_generate angle i : cached (generate_component angle i).
  Proof.
    apply cached_bind; [apply cached_generate_patches|]. intros _.
    repeat (apply cached_bind; [first [apply cached_on|apply cached_reflect]|intros _]). apply cached_transform.
  Qed.

  Lemma cached_op o : cached (run_op o).
  Proof. destruct o; [apply cached_call|apply cached_generate_patches|apply cached_iter; intros; apply cached_generate]. Qed.
  Lemma cached_ops l : forall h, cache_step h (run_ops l h).
  Proof.
    induction l as [|o l IH]; intros h; [apply cs_refl|]. eapply cs_trans; [apply (cached_op o h)|apply IH].
  Qed.

  Lemma stale_mesh l h i c t m : nth_error (comps h) i = Some c -> c_mesh c = Some (t :: m) ->
    comp_mesh i (run_ops l h) = (run_ops l h, Ok (t :: m)).
  Proof.
    intros E K. pose proof (cached_ops l h i) as S. rewrite E in S. set (h' := run_ops l h) in *. clearbody h'.
    unfold comp_mesh, bindM, get_comp. destruct (nth_error (comps h') i) as [c'|] eqn:E'; [|discriminate].
    cbn in S. injection S as _ S _. rewrite S, K. reflexivity.
  Qed.
  (** comp_mesh stores what it returns *)
  Lemma mesh_stored i h h' m : comp_mesh i h = (h', Ok m) -> exists c, nth_error (comps h') i = Some c /\ c_mesh c = Some m.
  Proof.
    unfold comp_mesh. unfold bindM at 1, get_comp. destruct (nth_error (comps h) i) as [c|] eqn:E; [|discriminate].
    assert (K : bindM (match c_surfaces c with None => comp_surface None i | Some _ => ret tt end) (fun _ =>
        bindM (get_comp i) (fun c =>
        match c_surfaces c with
        | None | Some [] => throw ValueError
        | Some s => let m := concat_surfaces s in
                    bindM (put_comp i (set_cache c (c_surfaces c) (Some m))) (fun _ => ret m)
        end)) h = (h', Ok m) -> exists c, nth_error (comps h') i = Some c /\ c_mesh c = Some m).
    { unfold bindM at 1. destruct ((match c_surfaces c with None => comp_surface None i | Some _ => ret tt end) h) as [h1 [u|e]]; [|discriminate].
      unfold bindM at 1, get_comp. destruct (nth_error (comps h1) i) as [c1|] eqn:E1; [|discriminate].
      destruct (c_surfaces c1) as [[|x s]|] eqn:ES; try discriminate. cbn zeta. unfold bindM, put_comp, ret. intros H. injection H as <- <-.
      exists (set_cache c1 (Some (x :: s)) (Some (concat_surfaces (x :: s)))). cbn [comps]. split; [|reflexivity].
      apply list_set_same. eapply nth_some_lt, E1. }
    destruct (c_mesh c) as [[|t q]|] eqn:EM; try exact K.
    unfold ret. intros H. injection H as <- <-. exists c. auto.
  Qed.

  (** ** a mesh without caches is built from the current patches *)
  Lemma dset_nonempty {A} (d : dict A) k v : dset d k v <> [].
  Proof. destruct d as [|[k' v'] d]; cbn; [discriminate|]. destruct (String.eqb k k'); discriminate. Qed.
  Lemma dupdate_nonempty {A} (l d : dict A) : d <> [] -> dupdate d l <> [].
  Proof. revert d. induction l as [|[k v] l IH]; intros d H; [exact H|]. apply IH. apply dset_nonempty. Qed.
  Lemma mapM_nonempty {A B} (f : A -> res B) a l r : mapM f (a :: l) = Ok r -> r <> [].
  Proof. cbn [mapM]. destruct (f a); [|discriminate]. cbn [bind]. destruct (mapM f l); [|discriminate]. cbn. congruence. Qed.
  Lemma case_list_nonempty kp (d : dict (surf T)) r rr rs cases : case_list (kp :: d) r rr rs = Ok cases -> cases <> [].
  Proof.
    unfold case_list. destruct r as [n|dd]; [cbn; congruence|]. apply mapM_nonempty.
  Qed.

  Lemma fresh_comp_mesh i h c d : view h i = Some (c, d) -> c_mesh c = None -> c_surfaces c = None ->
    snd (comp_mesh i h) = fresh_mesh d (c_resolution c) (c_res_r c) (c_res_s c) (c_clustering c).
  Proof.
    intros V EM ES. destruct (view_inv _ _ _ _ V) as [E F]. unfold comp_mesh. unfold bindM at 1, get_comp. rewrite E, EM, ES.
    unfold bindM at 1. unfold comp_surface at 1. unfold bindM at 1, get_comp. rewrite E. unfold bindM at 1, get_dict. rewrite F.
    unfold fresh_mesh, component_surface. destruct d as [|kp d]; [reflexivity|].
    unfold bindM at 1, lift. destruct (case_list (kp :: d) (c_resolution c) (c_res_r c) (c_res_s c)) as [cases|e] eqn:EC; [|reflexivity].
    cbn [bind]. apply case_list_nonempty in EC.
    unfold bindM at 1. unfold put_comp at 1. unfold bindM at 1, lift.
    destruct (mapM _ cases) as [results|e] eqn:ER; [|reflexivity]. cbn [bind].
    assert (RN : results <> []). { destruct cases as [|x cases]; [congruence|]. eapply mapM_nonempty, ER. }
    unfold put_comp at 1. cbn [fst dicts comps]. unfold bindM at 1, get_comp. cbn [comps].
    rewrite list_set_twice, list_set_same by (eapply nth_some_lt, E).
    cbn [c_surfaces set_cache]. destruct results as [|[k m] results]; [congruence|].
    destruct (dupdate [] ((k, m) :: results)) as [|x s] eqn:ED.
    - exfalso. revert ED. unfold dupdate. cbn [fold_left]. apply (dupdate_nonempty results). apply dset_nonempty.
    - reflexivity.
  Qed.

  (** after a failed attempt the component stays unmeshable *)
  Lemma failed_mesh i h c d e h' : view h i = Some (c, d) -> c_mesh c = None -> c_surfaces c = None -> d <> [] ->
    is_ok (case_list d (c_resolution c) (c_res_r c) (c_res_s c)) ->
    comp_mesh i h = (h', Raise e) ->
    forall l, comp_mesh i (run_ops l h') = (run_ops l h', Raise ValueError).
  Proof.
    intros V EM ES D [cases EC] H l. destruct (view_inv _ _ _ _ V) as [E F].
    assert (K : exists c', nth_error (comps h') i = Some c' /\ c_mesh c' = None /\ c_surfaces c' = Some []).
    { revert H. unfold comp_mesh. unfold bindM at 1, get_comp. rewrite E, EM, ES.
      unfold bindM at 1. unfold comp_surface at 1. unfold bindM at 1, get_comp. rewrite E. unfold bindM at 1, get_dict. rewrite F.
      destruct d as [|kp d]; [congruence|]. unfold bindM at 1, lift. rewrite EC. apply case_list_nonempty in EC.
      unfold bindM at 1. unfold put_comp at 1. unfold bindM at 1, lift.
      destruct (mapM _ cases) as [results|e'] eqn:ER.
      - assert (RN : results <> []). { destruct cases as [|x cases]; [congruence|]. eapply mapM_nonempty, ER. }
        unfold put_comp at 1. cbn [fst dicts comps]. unfold bindM at 1, get_comp. cbn [comps].
        rewrite list_set_twice, list_set_same by (eapply nth_some_lt, E).
        cbn [c_surfaces set_cache]. destruct results as [|[k m] results]; [congruence|].
        destruct (dupdate [] ((k, m) :: results)) as [|x s] eqn:ED.
        + exfalso. revert ED. unfold dupdate. cbn [fold_left]. apply (dupdate_nonempty results). apply dset_nonempty.
        + cbn zeta. unfold bindM, put_comp, ret. discriminate.
      - intros H. injection H as <- _. exists (set_cache c (Some []) (c_mesh c)). cbn [comps].
        rewrite list_set_same by (eapply nth_some_lt, E). auto. }
    destruct K as (c' & E' & M' & S'). pose proof (cached_ops l h' i) as CS. rewrite E' in CS.
    set (h2 := run_ops l h') in *. clearbody h2. unfold comp_mesh, bindM, get_comp.
    destruct (nth_error (comps h2) i) as [c2|] eqn:E2; [|discriminate]. cbn in CS. injection CS as C1 C2 _.
    rewrite C2, M', C1, S'. unfold ret. rewrite E2, C1, S'. reflexivity.
  Qed.

  (** Vehicle.transform empties the caches *)
  Lemma cached_calls ts i : cached (iterM (fun t => call_method t i) ts).
  Proof. apply cached_iter. intros. apply cached_call. Qed.
  Definition empty_cache (h : heap) (i : nat) : Prop :=
    exists c, nth_error (comps h) i = Some c /\ c_mesh c = None /\ c_surfaces c = None.
  Lemma empty_step h h' i : cache_step h h' -> empty_cache h i -> empty_cache h' i.
  Proof.
    intros S (c & E & A & B). specialize (S i). rewrite E in S. unfold empty_cache.
    destruct (nth_error (comps h') i) as [c'|]; [|discriminate]. cbn in S. injection S as S1 S2 _. exists c'. rewrite S1, S2. auto.
  Qed.
  Lemma empty_reset h i j : empty_cache h i -> empty_cache (fst (reset_cache j h)) i.
  Proof.
    intros (c & E & A & B). unfold reset_cache, bindM, get_comp. destruct (nth_error (comps h) j) as [cj|] eqn:Ej.
    - cbn [put_comp fst]. unfold empty_cache. cbn [comps]. destruct (Nat.eq_dec j i) as [->|NE].
      + rewrite list_set_same by (eapply nth_some_lt, Ej). eexists. split; [reflexivity|]. auto.
      + rewrite list_set_other by auto. exists c. auto.
    - cbn. exists c. auto.
  Qed.
  Lemma transformed_empty ts l : forall h h', iterM (transform_comp ts) l h = (h', Ok tt) ->
    (forall i, empty_cache h i -> empty_cache h' i) /\ forall i, In i l -> empty_cache h' i.
  Proof.
    induction l as [|j l IH]; intros h h' H.
    - cbn in H. injection H as <-. split; [auto|intros i []].
    - cbn [iterM] in H. unfold bindM at 1 in H. destruct (transform_comp ts j h) as [h1 [u|e]] eqn:E1; [|discriminate].
      destruct (IH h1 h' H) as [K1 K2]. unfold transform_comp, bindM in E1.
      pose proof (cached_calls ts j h) as CS.
      destruct (iterM (fun t => call_method t j) ts h) as [h0 [u0|e]]; [|discriminate]. cbn [fst] in CS. split.
      + intros i Hi. apply K1. pose proof (empty_reset h0 i j (empty_step _ _ _ CS Hi)) as R. rewrite E1 in R. exact R.
      + intros i [<-|Hi]; [|apply K2, Hi]. apply K1.
        unfold reset_cache, bindM, get_comp in E1. destruct (nth_error (comps h0) j) as [cj|] eqn:Ej; [|discriminate].
        unfold put_comp in E1. injection E1 as <- _. exists (set_cache cj None None). cbn [comps].
        rewrite list_set_same by (eapply nth_some_lt, Ej). auto.
  Qed.
  Theorem transform_refreshes (v : vehicle T) ts h h' i c d : transform_vehicle v ts h = (h', Ok tt) -> In i (v_components v) ->
    view h' i = Some (c, d) ->
    snd (comp_mesh i h') = fresh_mesh d (c_resolution c) (c_res_r c) (c_res_s c) (c_clustering c).
  Proof.
    unfold transform_vehicle. destruct (v_generated v); [|discriminate]. intros H Hi V.
    destruct (transformed_empty ts _ _ _ H) as [_ K]. destruct (K i Hi) as (c' & E & A & B).
    destruct (view_inv _ _ _ _ V) as [E' _]. assert (c' = c) as -> by congruence. apply fresh_comp_mesh; auto.
  Qed.
End Cache.
