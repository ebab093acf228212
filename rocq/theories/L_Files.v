(** The files written by Vehicle.to_stl. *)
From Coq Require Import String List Arith Lia Bool ZArith.
From Verif Require Import Num Py M_Vector M_Path M_Surface M_Geometry M_Mesh M_Component M_Vehicle SpecAdd SpecFiles
  L_Strings L_Component L_Heap L_Cache L_Adds.
Import ListNotations.

Lemma truthy_text o : truthy o = match text o with Some _ => true | None => false end.
Proof. destruct o as [[|a s]|]; reflexivity. Qed.
Lemma text_some o s : text o = Some s -> o = Some s /\ s <> ""%string.
Proof. destruct o as [[|a q]|]; cbn; intros H; inversion H. split; [auto|discriminate]. Qed.

Section Files.
  Context {T : Type} {N : Num T}.
  Notation heap := (heap T).
  Notation comp := (comp T).
  Notation vehicle := (vehicle T).
  Notation M := (M (T := T)).

  (** meshing a component changes nothing but its caches *)
  Definition only (j : nat) (h h' : heap) : Prop :=
    dicts h' = dicts h /\ (forall i, i <> j -> nth_error (comps h') i = nth_error (comps h) i) /\
    option_map options (nth_error (comps h') j) = option_map options (nth_error (comps h) j).
  Lemma only_refl j h : only j h h. Proof. repeat split; auto. Qed.
  Lemma only_trans j a b c : only j a b -> only j b c -> only j a c.
  Proof. intros (A & B & C) (D & E & F). split; [congruence|]. split; [|congruence]. intros i Hi. rewrite E, B; auto. Qed.
  Lemma only_put j c c' h : nth_error (comps h) j = Some c -> options c' = options c -> only j h (fst (put_comp j c' h)).
  Proof.
    intros E O. cbn [put_comp fst]. split; [reflexivity|]. cbn [comps]. split.
    - intros i Hi. apply list_set_other. auto.
    - rewrite list_set_same by (eapply nth_some_lt, E). rewrite E. cbn. rewrite O. reflexivity.
  Qed.
  Definition isolated {A} (j : nat) (m : M A) : Prop := forall h, only j h (fst (m h)).
  Lemma iso_bind {A B} j (m : M A) (k : A -> M B) : isolated j m -> (forall a, isolated j (k a)) -> isolated j (bindM m k).
  Proof.
    intros Hm Hk h. unfold bindM. specialize (Hm h). destruct (m h) as [h1 [a|e]]; cbn [fst] in *; [|auto].
    eapply only_trans; [exact Hm|]. apply Hk.
  Qed.
  Lemma iso_with {B} j (k : comp -> M B) : (forall h c, nth_error (comps h) j = Some c -> only j h (fst (k c h))) -> isolated j (bindM (get_comp j) k).
  Proof.
    intros H h. unfold bindM, get_comp. destruct (nth_error (comps h) j) as [c|] eqn:E; cbn [fst]; [auto|apply only_refl].
  Qed.
  Lemma iso_surface r j : isolated j (comp_surface r j).
  Proof.
    apply iso_with. intros h c E. unfold bindM at 1, get_dict. destruct (nth_error (dicts h) (c_patches c)) as [[|kp d]|]; try apply only_refl.
    unfold bindM at 1, lift. destruct (case_list _ _ _ _) as [cases|e]; [|apply only_refl].
    unfold bindM at 1. pose proof (only_put j c (set_cache c (Some []) (c_mesh c)) h E eq_refl) as S.
    destruct (put_comp j (set_cache c (Some []) (c_mesh c)) h) as [h1 r1] eqn:EP. unfold put_comp in EP. injection EP as <- <-. cbn [fst] in S.
    unfold bindM at 1, lift. destruct (mapM _ cases) as [results|e]; [|exact S].
    unfold put_comp. cbn [fst comps dicts]. rewrite list_set_twice.
    exact (only_put j c (set_cache c (Some (dupdate [] results)) (c_mesh c)) h E eq_refl).
  Qed.
  Lemma iso_mesh j : isolated j (comp_mesh j).
  Proof.
    apply iso_bind; [intros h; unfold get_comp; destruct (nth_error _ _); apply only_refl|]. intros c.
    assert (K : isolated j (bindM (match c_surfaces c with None => comp_surface None j | Some _ => ret tt end) (fun _ =>
        bindM (get_comp j) (fun c =>
        match c_surfaces c with
        | None | Some [] => throw ValueError
        | Some s => let m := concat_surfaces s in
                    bindM (put_comp j (set_cache c (c_surfaces c) (Some m))) (fun _ => ret m)
        end)))).
    { apply iso_bind; [destruct (c_surfaces c); [intros h; apply only_refl|apply iso_surface]|]. intros _.
      apply iso_with. intros h c1 E. destruct (c_surfaces c1) as [[|x s]|]; try apply only_refl. cbn zeta.
      unfold bindM, ret. apply (only_put j c1 (set_cache c1 (Some (x :: s)) (Some (concat_surfaces (x :: s)))) h E). reflexivity. }
    destruct (c_mesh c) as [[|t m]|]; try exact K. intros h. apply only_refl.
  Qed.
  (** the mesh depends on the component and the dictionaries only *)
  Lemma surface_ext r j (h h' : heap) : dicts h' = dicts h -> nth_error (comps h') j = nth_error (comps h) j ->
    snd (comp_surface r j h') = snd (comp_surface r j h) /\
    nth_error (comps (fst (comp_surface r j h'))) j = nth_error (comps (fst (comp_surface r j h))) j.
  Proof.
    intros D C. unfold comp_surface, bindM, get_comp, get_dict, lift, put_comp, throw. rewrite C.
    destruct (nth_error (comps h) j) as [c|] eqn:E; [|cbn; rewrite C, E; auto].
    rewrite D. destruct (nth_error (dicts h) (c_patches c)) as [[|kp d]|]; try (cbn; rewrite C, E; auto; fail).
    destruct (case_list _ _ _ _) as [cases|e]; [|cbn; rewrite C, E; auto].
    assert (L : (j < length (comps h))%nat) by (eapply nth_some_lt, E). assert (L' : (j < length (comps h'))%nat) by (eapply nth_some_lt, C).
    cbn [comps dicts].
    destruct (mapM _ cases) as [results|e]; cbn [fst snd comps]; rewrite ?list_set_twice, !list_set_same by auto; auto.
  Qed.
  Lemma mesh_ext j (h h' : heap) : dicts h' = dicts h -> nth_error (comps h') j = nth_error (comps h) j ->
    mesh_of h' j = mesh_of h j.
  Proof.
    intros D C. unfold mesh_of, comp_mesh, bindM, get_comp. destruct (surface_ext None j h h' D C) as [S1 S2].
    rewrite C. destruct (nth_error (comps h) j) as [c|] eqn:E; [|reflexivity].
    destruct (c_mesh c) as [[|t m]|]; [| reflexivity |]; (destruct (c_surfaces c) as [s|];
     [unfold ret; rewrite C, E; destruct (c_surfaces c) as [[|]|]; reflexivity|];
     destruct (comp_surface None j h) as [h1 r1], (comp_surface None j h') as [h2 r2]; cbn [fst snd] in S1, S2; subst r2;
     destruct r1 as [u|e]; [|reflexivity]; rewrite S2;
     destruct (nth_error (comps h1) j) as [c1|]; [|reflexivity]; destruct (c_surfaces c1) as [[|]|]; reflexivity).
  Qed.
  (** a second read gives the same mesh *)
  Lemma mesh_again j (h h' : heap) m : comp_mesh j h = (h', Ok m) -> mesh_of h' j = Ok m.
  Proof.
    unfold comp_mesh. unfold bindM at 1, get_comp. destruct (nth_error (comps h) j) as [c|] eqn:E; [|discriminate].
    assert (K : bindM (match c_surfaces c with None => comp_surface None j | Some _ => ret tt end) (fun _ =>
        bindM (get_comp j) (fun c =>
        match c_surfaces c with
        | None | Some [] => throw ValueError
        | Some s => let m := concat_surfaces s in
                    bindM (put_comp j (set_cache c (c_surfaces c) (Some m))) (fun _ => ret m)
        end)) h = (h', Ok m) -> mesh_of h' j = Ok m).
    { unfold bindM at 1. destruct ((match c_surfaces c with None => comp_surface None j | Some _ => ret tt end) h) as [h1 [u|e]]; [|discriminate].
      unfold bindM at 1, get_comp. destruct (nth_error (comps h1) j) as [c1|] eqn:E1; [|discriminate].
      destruct (c_surfaces c1) as [[|x s]|] eqn:ES; try discriminate. cbn zeta. unfold bindM, put_comp, ret. intros H. injection H as <- <-.
      unfold mesh_of, comp_mesh, bindM, get_comp. cbn [comps]. rewrite list_set_same by (eapply nth_some_lt, E1).
      cbn [c_mesh c_surfaces set_cache]. destruct (concat_surfaces (x :: s)) as [|t q] eqn:EC; [|reflexivity].
      unfold ret. cbn [comps]. rewrite list_set_same by (eapply nth_some_lt, E1). cbn [c_surfaces set_cache]. unfold put_comp. cbn [snd]. rewrite EC. reflexivity. }
    destruct (c_mesh c) as [[|t q]|] eqn:EM; try exact K.
    unfold ret. intros H. injection H as <- <-. unfold mesh_of, comp_mesh, bindM, get_comp. rewrite E, EM. reflexivity.
  Qed.
  Lemma mesh_stable i j (h h' : heap) m : comp_mesh j h = (h', Ok m) -> mesh_of h' i = mesh_of h i.
  Proof.
    intros H. pose proof (iso_mesh j h) as (D & O & _). rewrite H in D, O. cbn [fst] in *.
    destruct (Nat.eq_dec i j) as [->|NE].
    - rewrite (mesh_again j h h' m H). unfold mesh_of. rewrite H. reflexivity.
    - apply mesh_ext; auto.
  Qed.
  Lemma only_options j i (h h' : heap) : only j h h' -> option_map options (nth_error (comps h') i) = option_map options (nth_error (comps h) i).
  Proof. intros (_ & B & C). destruct (Nat.eq_dec i j) as [->|NE]; [exact C|rewrite B; auto]. Qed.
  (** names, types and ghosts are options *)
  Definition labels (h h' : heap) : Prop := forall i, option_map options (nth_error (comps h') i) = option_map options (nth_error (comps h) i).
  Lemma labels_type h h' i : labels h h' -> type_at h' i = type_at h i.
  Proof.
    intros L. specialize (L i). unfold type_at. destruct (nth_error (comps h') i), (nth_error (comps h) i); try discriminate; auto.
    cbn in L. injection L as L. unfold options in L. congruence.
  Qed.
  Lemma labels_tag h h' i : labels h h' -> tag_at h' i = tag_at h i.
  Proof.
    intros L. specialize (L i). unfold tag_at. destruct (nth_error (comps h') i), (nth_error (comps h) i); try discriminate; auto.
    cbn in L. injection L as L. unfold options in L. congruence.
  Qed.
  Lemma labels_ghost h h' i : labels h h' -> ghost_at h' i = ghost_at h i.
  Proof.
    intros L. specialize (L i). unfold ghost_at. destruct (nth_error (comps h') i), (nth_error (comps h) i); try discriminate; auto.
    cbn in L. injection L as L. unfold options in L. congruence.
  Qed.
  Lemma labels_files h h' v prefix l : labels h h' -> forall before, files v prefix h' before l = files v prefix h before l.
  Proof.
    intros L. induction l as [|i l IH]; intros before; [reflexivity|]. cbn [files]. rewrite IH, (labels_ghost _ _ _ L), (labels_type _ _ _ L).
    f_equal. destruct (ghost_at h i); [reflexivity|]. do 2 f_equal. unfold file_name. rewrite (labels_tag _ _ _ L), (labels_type _ _ _ L).
    replace (earlier h' (type_at h i) before) with (earlier h (type_at h i) before); [reflexivity|].
    unfold earlier. f_equal. apply filter_ext. intros j. rewrite (labels_type _ _ _ L). reflexivity.
  Qed.

  Lemma stl_name_spec (v : vehicle) prefix (h : heap) i c no : nth_error (comps h) i = Some c ->
    stl_name v prefix c no = file_name v prefix h no i.
  Proof.
    intros E. unfold stl_name, file_name, tag_at, type_at. rewrite E, !truthy_text.
    destruct prefix as [[|a p]|]; cbn [text or_else]; destruct (c_name c) as [[|b n]|]; reflexivity.
  Qed.
  Definition counts (h : heap) (types : dict nat) (before : list nat) : Prop :=
    forall t, or_else (dget types t) 0 = earlier h t before.
  Lemma counts_next h types before i : counts h types before ->
    counts h (dset types (type_at h i) (earlier h (type_at h i) before + 1)) (before ++ [i]).
  Proof.
    intros C t. rewrite dget_dset. unfold earlier. rewrite filter_app, app_length. cbn [filter].
    destruct (String.eqb_spec t (type_at h i)) as [->|NE].
    - cbn. reflexivity.
    - rewrite C. cbn. unfold earlier. lia.
  Qed.

  (** the files written by a prefix of the components, then a failure or the end *)
  Lemma write_all_files (v : vehicle) prefix l : forall (h : heap) types before fs, counts h types before ->
    (forall i, In i l -> (i < length (comps h))%nat) ->
    let fl := files v prefix h before l in
    (exists m h', (forall f i, In (f, i) fl -> mesh_of h i = Ok (m i)) /\ labels h h' /\
       write_all v prefix l types h fs = (h', dupdate fs (map (fun fi => (fst fi, m (snd fi))) fl), Ok tt)) \/
    (exists fl1 f i e fl2 m h', fl = fl1 ++ (f, i) :: fl2 /\ mesh_of h i = Raise e /\
       (forall f j, In (f, j) fl1 -> mesh_of h j = Ok (m j)) /\ labels h h' /\
       write_all v prefix l types h fs = (h', dupdate fs (map (fun fi => (fst fi, m (snd fi))) fl1), Raise e)).
  Proof.
    induction l as [|i l IH]; intros h types before fs C IN; cbn zeta.
    - left. exists (fun _ => []), h. split; [intros f j []|]. split; [intros j; reflexivity|]. reflexivity.
    - cbn [write_all files]. assert (Li := IN i (or_introl eq_refl)). apply nth_error_Some in Li.
      destruct (nth_error (comps h) i) as [c|] eqn:E; [|congruence]. clear Li.
      assert (ET : type_at h i = c_type c) by (unfold type_at; rewrite E; reflexivity).
      assert (EG : ghost_at h i = c_ghost c) by (unfold ghost_at; rewrite E; reflexivity).
      rewrite (stl_name_spec v prefix h i c _ E), (C (c_type c)), <- ET.
      unfold write_comp. rewrite E, EG. destruct (c_ghost c); cbn [app].
      + (* ghost *)
        destruct (IH h (dset types (type_at h i) (earlier h (type_at h i) before + 1)) (before ++ [i]) fs) as [H|H].
        { apply counts_next, C. } { intros j Hj. apply IN. right. exact Hj. }
        * left. exact H.
        * right. exact H.
      + set (name := file_name v prefix h (earlier h (type_at h i) before) i).
        destruct (comp_mesh i h) as [h1 [m1|e]] eqn:EM.
        2:{ right. exists [], name, i, e, (files v prefix h (before ++ [i]) l), (fun _ => []), h1.
            split; [reflexivity|]. split; [unfold mesh_of; rewrite EM; reflexivity|]. split; [intros f j []|].
            split; [|reflexivity]. intros k. pose proof (iso_mesh i h) as O. rewrite EM in O. apply (only_options i k _ _ O). }
        assert (L1 : labels h h1). { intros k. pose proof (iso_mesh i h) as O. rewrite EM in O. apply (only_options i k _ _ O). }
        assert (MS : forall k, mesh_of h1 k = mesh_of h k) by (intros k; apply (mesh_stable k i h h1 m1 EM)).
        assert (M1 : mesh_of h i = Ok m1) by (unfold mesh_of; rewrite EM; reflexivity).
        assert (LL : length (comps h1) = length (comps h)).
        { assert (Q : forall k, (k < length (comps h1) <-> k < length (comps h))%nat).
          { intros k. rewrite <- !nth_error_Some. specialize (L1 k). destruct (nth_error (comps h1) k), (nth_error (comps h) k); cbn in L1; try discriminate; split; congruence. }
          pose proof (Q (length (comps h1))). pose proof (Q (length (comps h))). lia. }
        destruct (IH h1 (dset types (type_at h i) (earlier h (type_at h i) before + 1)) (before ++ [i]) (dset fs name m1)) as [(m & h' & P1 & P2 & P3)|(fl1 & f & k & e & fl2 & m & h' & P0 & P1 & P2 & P3 & P4)].
        { intros t. rewrite (counts_next h types before i C t). unfold earlier. f_equal. apply filter_ext. intros j.
          rewrite (labels_type _ _ _ L1). reflexivity. }
        { intros j Hj. rewrite LL. apply IN. right. exact Hj. }
        * left. rewrite (labels_files h h1 _ _ _ L1) in P1, P3. exists (fun k => if Nat.eqb k i then m1 else m k), h'.
          assert (MM : forall f k, In (f, k) (files v prefix h (before ++ [i]) l) -> (if Nat.eqb k i then m1 else m k) = m k).
          { intros f k Hk. destruct (Nat.eqb_spec k i) as [->|]; [|reflexivity]. specialize (P1 f i Hk). rewrite MS, M1 in P1. congruence. }
          split; [|split].
          -- intros f k [H|H]; [injection H as <- <-; rewrite Nat.eqb_refl; exact M1|]. rewrite (MM f k H). rewrite <- MS. apply (P1 f k H).
          -- intros k. rewrite P2. apply L1.
          -- rewrite P3. do 2 f_equal. cbn [map fst snd]. rewrite Nat.eqb_refl. cbn [dupdate fold_left]. unfold dupdate. cbn [fold_left]. f_equal.
             apply map_ext_in. intros [f k] Hk. cbn. rewrite (MM f k Hk). reflexivity.
        * right. rewrite (labels_files h h1 _ _ _ L1) in P0.
          exists ((name, i) :: fl1), f, k, e, fl2, (fun k => if Nat.eqb k i then m1 else m k), h'.
          assert (MM : forall f k, In (f, k) fl1 -> (if Nat.eqb k i then m1 else m k) = m k).
          { intros f' k' Hk. destruct (Nat.eqb_spec k' i) as [->|]; [|reflexivity]. specialize (P2 f' i Hk). rewrite MS, M1 in P2. congruence. }
          split; [rewrite P0; reflexivity|]. split; [rewrite <- MS; exact P1|]. split; [|split].
          -- intros f' k' [H|H]; [injection H as <- <-; rewrite Nat.eqb_refl; exact M1|]. rewrite (MM f' k' H). rewrite <- MS. apply (P2 f' k' H).
          -- intros q. rewrite P3. apply L1.
          -- rewrite P4. do 2 f_equal. cbn [map fst snd]. rewrite Nat.eqb_refl. unfold dupdate. cbn [fold_left]. f_equal.
             apply map_ext_in. intros [f' k'] Hk. cbn. rewrite (MM f' k' Hk). reflexivity.
  Qed.

  Lemma last_named_map {A} (m : nat -> A) (l : list (string * nat)) (fs : dict A) s :
    dget (dupdate fs (map (fun fi => (fst fi, m (snd fi))) l)) s =
    match last_named l s with Some i => Some (m i) | None => dget fs s end.
  Proof.
    unfold last_named. revert fs. induction l as [|[f i] l IH] using rev_ind; intros fs; [reflexivity|].
    rewrite map_app, rev_app_distr. cbn [map rev app filter fst snd]. unfold dupdate. rewrite fold_left_app. cbn [fold_left fst snd].
    rewrite dget_dset. destruct (String.eqb_spec s f) as [->|NE]; [reflexivity|]. apply IH.
  Qed.
  Lemma last_named_in (l : list (string * nat)) s i : last_named l s = Some i -> In (s, i) l.
  Proof.
    unfold last_named. destruct (filter _ (rev l)) as [|[f k] q] eqn:E; [discriminate|]. intros H. injection H as <-.
    assert (I : In (f, k) (filter (fun p => String.eqb s (fst p)) (rev l))) by (rewrite E; left; reflexivity).
    apply filter_In in I as [I J]. apply String.eqb_eq in J. cbn in J. subst. apply in_rev, I.
  Qed.
  Lemma last_named_nodup (l : list (string * nat)) s i : NoDup (map fst l) -> In (s, i) l -> last_named l s = Some i.
  Proof.
    intros ND I. unfold last_named. destruct (filter (fun p => String.eqb s (fst p)) (rev l)) as [|[f k] q] eqn:E.
    - assert (J : In (s, i) (filter (fun p => String.eqb s (fst p)) (rev l))).
      { apply filter_In. split; [apply in_rev; rewrite rev_involutive; exact I|]. apply String.eqb_refl. }
      rewrite E in J. destruct J.
    - assert (J : In (f, k) (filter (fun p => String.eqb s (fst p)) (rev l))) by (rewrite E; left; reflexivity).
      apply filter_In in J as [J J']. apply String.eqb_eq in J'. cbn in J'. subst f. apply in_rev in J. cbn. f_equal.
      clear E q. induction l as [|[f x] l IH]; [destruct I|]. cbn in ND. inversion ND as [|? ? NI ND']; subst.
      destruct I as [I|I], J as [J|J].
      + congruence.
      + injection I as -> ->. exfalso. apply NI, in_map_iff. exists (s, k). auto.
      + injection J as -> ->. exfalso. apply NI, in_map_iff. exists (s, i). auto.
      + auto.
  Qed.
  Lemma files_in v prefix (h : heap) l : forall before f i, In (f, i) (files v prefix h before l) ->
    In i l /\ ghost_at h i = false /\ exists no, f = file_name v prefix h no i.
  Proof.
    induction l as [|j l IH]; intros before f i H; [destruct H|]. cbn [files] in H. apply in_app_iff in H as [H|H].
    - destruct (ghost_at h j) eqn:G; [destruct H|]. destruct H as [H|[]]. injection H as <- <-. split; [left; reflexivity|]. split; [exact G|]. eexists. reflexivity.
    - destruct (IH _ _ _ H) as (A & B). split; [right; exact A|exact B].
  Qed.
  Lemma files_all v prefix (h : heap) l : forall before i, In i l -> ghost_at h i = false -> exists f, In (f, i) (files v prefix h before l).
  Proof.
    induction l as [|j l IH]; intros before i I G; [destruct I|]. destruct I as [<- | H]; cbn [files].
    - rewrite G. eexists. left. reflexivity.
    - destruct (IH (before ++ [j])%list i H G) as [f Hf]. exists f. apply in_app_iff. right. exact Hf.
  Qed.

  (** C55 *)
  Theorem to_stl_writes (v : vehicle) prefix (h : heap) fs0 :
    (forall i, In i (v_components v) -> (i < length (comps h))%nat) ->
    (forall i, In i (v_components v) -> ghost_at h i = false -> is_ok (mesh_of h i)) ->
    exists h' fs, to_stl v prefix h fs0 = (h', fs, Ok tt) /\
      forall s, match last_named (files v prefix h [] (v_components v)) s with
                | Some i => exists m, mesh_of h i = Ok m /\ dget fs s = Some m
                | None => dget fs s = dget fs0 s
                end.
  Proof.
    intros IN OK. unfold to_stl.
    destruct (write_all_files v prefix (v_components v) h [] [] fs0) as [(m & h' & A & _ & B)|(fl1 & f & i & e & fl2 & m & h' & A & B & _)].
    - intros t. reflexivity.
    - exact IN.
    - exists h', (dupdate fs0 (map (fun fi => (fst fi, m (snd fi))) (files v prefix h [] (v_components v)))). split; [exact B|].
      intros s. rewrite last_named_map. destruct (last_named _ s) as [i|] eqn:E; [|reflexivity].
      apply last_named_in in E. exists (m i). split; [apply (A s i E)|reflexivity].
    - exfalso. assert (I : In (f, i) (files v prefix h [] (v_components v))) by (rewrite A; apply in_app_iff; right; left; reflexivity).
      destruct (files_in _ _ _ _ _ _ _ I) as (I1 & I2 & _). destruct (OK i I1 I2) as [x Hx]. congruence.
  Qed.
  Theorem to_stl_stops (v : vehicle) prefix (h : heap) fs0 i0 :
    (forall i, In i (v_components v) -> (i < length (comps h))%nat) ->
    In i0 (v_components v) -> ghost_at h i0 = false -> ~ is_ok (mesh_of h i0) ->
    exists done f i rest e h' fs, files v prefix h [] (v_components v) = (done ++ (f, i) :: rest)%list /\
      (forall g j, In (g, j) done -> is_ok (mesh_of h j)) /\ mesh_of h i = Raise e /\
      to_stl v prefix h fs0 = (h', fs, Raise e) /\
      forall s, match last_named done s with
                | Some i => exists m, mesh_of h i = Ok m /\ dget fs s = Some m
                | None => dget fs s = dget fs0 s
                end.
  Proof.
    intros IN I0 G0 NO. unfold to_stl.
    destruct (write_all_files v prefix (v_components v) h [] [] fs0) as [(m & h' & A & _ & B)|(fl1 & f & i & e & fl2 & m & h' & A & B & C & _ & D)].
    - intros t. reflexivity.
    - exact IN.
    - exfalso. destruct (files_all v prefix h (v_components v) [] i0 I0 G0) as [f F]. apply NO. exists (m i0). apply (A f i0 F).
    - exists fl1, f, i, fl2, e, h', (dupdate fs0 (map (fun fi => (fst fi, m (snd fi))) fl1)). split; [exact A|].
      split; [intros g j Hj; exists (m j); apply (C g j Hj)|]. split; [exact B|]. split; [exact D|].
      intros s. rewrite last_named_map. destruct (last_named _ s) as [k|] eqn:E; [|reflexivity].
      apply last_named_in in E. exists (m k). split; [apply (C s k E)|reflexivity].
  Qed.
  Lemma file_untagged v prefix (h : heap) no i : text (tag_at h i) = None -> exists p,
    file_name v prefix h no i = (p ++ "-" ++ type_at h i ++ "-" ++ str_nat no ++ ".stl")%string /\
    p = or_else (text prefix) (v_name v).
  Proof. intros E. unfold file_name. rewrite E. destruct (text prefix) as [p|]; eexists; split; reflexivity. Qed.
  Theorem untagged_files v prefix (h : heap) l : (forall i, In i l -> text (tag_at h i) = None) ->
    NoDup (map fst (files v prefix h [] l)).
  Proof.
    intros U. assert (K : forall l before, (forall i, In i l -> text (tag_at h i) = None) ->
      NoDup (map fst (files v prefix h before l)) /\
      forall f i, In (f, i) (files v prefix h before l) -> exists no, (earlier h (type_at h i) before <= no)%nat /\ f = file_name v prefix h no i).
    { clear l U. induction l as [|i l IH]; intros before U; [split; [constructor|intros f i []]|].
      destruct (IH (before ++ [i])%list) as [A B]; [intros j Hj; apply U; right; exact Hj|].
      assert (E : forall t, (earlier h t (before ++ [i]) = earlier h t before + (if String.eqb t (type_at h i) then 1 else 0))%nat).
      { intros t. unfold earlier. rewrite filter_app, app_length. cbn [filter]. destruct (String.eqb t (type_at h i)); reflexivity. }
      cbn [files]. split.
      - destruct (ghost_at h i); [exact A|]. cbn [app map fst]. constructor; [|exact A].
        intros H. apply in_map_iff in H as ([f k] & H1 & H2). cbn in H1. subst f.
        destruct (B _ _ H2) as (no & L & F).
        destruct (file_untagged v prefix h (earlier h (type_at h i) before) i (U i (or_introl eq_refl))) as (p & F1 & P1).
        assert (Tk : text (tag_at h k) = None).
        { apply U. right. apply (files_in _ _ _ _ _ _ _ H2). }
        destruct (file_untagged v prefix h no k Tk) as (q & F2 & P2). rewrite F1, F2 in F. rewrite <- P1 in P2. subst q.
        rewrite <- !app_assoc_s in F. rewrite !app_assoc_s in F.
        change (p ++ "-" ++ type_at h i ++ "-" ++ str_nat (earlier h (type_at h i) before) ++ ".stl")%string with
          (p ++ ("-" ++ (type_at h i ++ "-" ++ str_nat (earlier h (type_at h i) before) ++ ".stl")))%string in F.
        apply app_inj_l in F. cbn [append] in F. injection F as F. apply dashed_inj in F as [F1' F2'].
        rewrite <- F1' in *. rewrite E, String.eqb_refl in L. lia.
      - intros f k H. apply in_app_iff in H as [H|H].
        + destruct (ghost_at h i); [destruct H|]. destruct H as [H|[]]. injection H as <- <-. eexists. split; [|reflexivity]. lia.
        + destruct (B f k H) as (no & L & F). exists no. split; [|exact F]. rewrite E in L. lia. }
    apply K, U.
  Qed.
End Files.
