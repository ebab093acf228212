(** Histories of Vehicle.add_component. *)
From Coq Require Import String List Arith Lia Bool ZArith.
From Verif Require Import Num Py M_Vector M_Path M_Surface M_Geometry M_Mesh M_Component M_Vehicle
  SpecAdd L_Strings L_Component L_Heap.
Import ListNotations.

Section Adds.
  Context {T : Type} {N : Num T}.
  Notation heap := (heap T).
  Notation vehicle := (vehicle T).

  Lemma accepts_allowable t : str_in t allowable = accepts t. Proof. reflexivity. Qed.
  Lemma type_with v i a (h : heap) j : type_at (fst (fst (add_component v i a h))) j = type_at h j.
  Proof.
    unfold add_component, type_at. destruct (nth_error (comps h) i) as [c|] eqn:E; [|reflexivity].
    destruct (str_in (c_type c) allowable); [|reflexivity]. cbn [fst comps].
    destruct (Nat.eq_dec i j) as [<-|NE].
    - rewrite list_set_same by (eapply nth_some_lt, E). rewrite E. reflexivity.
    - rewrite list_set_other by auto. reflexivity.
  Qed.
  Lemma accepted_ext (h h' : heap) calls : (forall j, type_at h' j = type_at h j) -> accepted h' calls = accepted h calls.
  Proof. intros E. unfold accepted. apply filter_ext. intros ia. rewrite E. reflexivity. Qed.

  (** one call *)
  Lemma add_ok (v : vehicle) i a (h : heap) : accepts (type_at h i) = true ->
    exists c, nth_error (comps h) i = Some c /\ type_at h i = c_type c /\
    let t := type_at h i in
    let count := or_else (dget (v_counts v) t) 0 + 1 in
    add_component v i a h =
      (mkHeap (dicts h) (list_set (comps h) i (with_options (v_verbosity v) a c)),
       mkVehicle (v_components v ++ [i]) (v_name v) (v_angle v) (v_verbosity v) (v_generated v)
         (dset (v_counts v) t count) (dset (v_enumerated v) (enum_name t count) i)
         (dset (v_named v) (match a_name a with
                      | Some n => n
                      | None => if truthy (c_name c) then or_else (c_name c) ""%string else enum_name t count
                      end) i) (v_transformations v), Ok tt).
  Proof.
    unfold type_at, add_component. destruct (nth_error (comps h) i) as [c|] eqn:E; [|discriminate].
    intros A. exists c. rewrite accepts_allowable, A. auto.
  Qed.
  Lemma add_no (v : vehicle) i a (h : heap) : accepts (type_at h i) = false -> exists e, add_component v i a h = (h, v, Raise e).
  Proof.
    unfold type_at, add_component. destruct (nth_error (comps h) i) as [c|]; [|eauto].
    intros A. rewrite accepts_allowable, A. eauto.
  Qed.

  Definition counts_are (v : vehicle) (before : string -> nat) : Prop :=
    forall t, dget (v_counts v) t = match before t with 0 => None | S k => Some (S k) end.
  Lemma counts_or v before t : counts_are v before -> or_else (dget (v_counts v) t) 0 + 1 = S (before t).
  Proof. intros H. rewrite H. destruct (before t); cbn; lia. Qed.

  (** refs of one type added so far *)
  Record tracks (v : vehicle) (before : string -> nat) (refs : string -> list nat) : Prop := {
    tr_counts : counts_are v before;
    tr_before : forall t, before t = length (refs t);
    tr_enum : forall t k, dget (v_enumerated v) (enum_name t (S k)) = nth_error (refs t) k;
    tr_keys : forall s, In s (dkeys (v_enumerated v)) -> exists t k, s = enum_name t (S k) /\ k < before t;
    tr_nodup : NoDup (dkeys (v_enumerated v));
    tr_len : length (v_enumerated v) = length (v_components v)
  }.

  Definition bump (t : string) (before : string -> nat) : string -> nat := fun u => if String.eqb t u then S (before u) else before u.
  Definition push (t : string) (i : nat) (refs : string -> list nat) : string -> list nat :=
    fun u => if String.eqb t u then refs u ++ [i] else refs u.

  Lemma enum_inj t n u m : enum_name t n = enum_name u m -> t = u /\ n = m.
  Proof. apply indexed_inj. Qed.
  Lemma dkeys_len {A} (d : dict A) : length (dkeys d) = length d. Proof. apply map_length. Qed.

  Lemma track_one (v : vehicle) before refs i a (h : heap) : accepts (type_at h i) = true -> tracks v before refs ->
    exists h' v', add_component v i a h = (h', v', Ok tt) /\ v_components v' = v_components v ++ [i] /\
      tracks v' (bump (type_at h i) before) (push (type_at h i) i refs).
  Proof.
    intros A TR. destruct (add_ok v i a h A) as (c & E & ET & EQ). cbn zeta in EQ.
    rewrite (counts_or v before _ (tr_counts _ _ _ TR)) in EQ. rewrite EQ. eexists _, _. split; [reflexivity|]. split; [reflexivity|].
    set (t := type_at h i) in *. clearbody t.
    assert (FR : ~ In (enum_name t (S (before t))) (dkeys (v_enumerated v))).
    { intros I. destruct (tr_keys _ _ _ TR _ I) as (u & k & EE & L). apply enum_inj in EE as [<- EE]. lia. }
    assert (DS : dset (v_enumerated v) (enum_name t (S (before t))) i = v_enumerated v ++ [(enum_name t (S (before t)), i)]).
    { apply dset_new, FR. }
    destruct TR as [T1 T2 T3 T4 T5 T6]. constructor; cbn [v_counts v_enumerated v_components].
    - intros u. cbn [v_counts]. rewrite dget_dset. unfold bump. rewrite String.eqb_sym. destruct (String.eqb_spec t u) as [<-|NE]; [reflexivity|apply T1].
    - intros u. unfold bump, push. destruct (String.eqb t u); [rewrite app_length; cbn; rewrite T2; lia|apply T2].
    - intros u k. rewrite dget_dset. unfold push. destruct (String.eqb_spec (enum_name u (S k)) (enum_name t (S (before t)))) as [EE|NE].
      + apply enum_inj in EE as [-> EE]. injection EE as ->. rewrite String.eqb_refl, T2. symmetry. apply nth_app_new.
      + rewrite T3. destruct (String.eqb_spec t u) as [<-|NE']; [|reflexivity].
        assert (k <> before t) by (intros ->; auto). rewrite T2 in H.
        destruct (Nat.lt_ge_cases k (length (refs t))) as [L|L]; [rewrite nth_error_app1 by exact L; reflexivity|].
        rewrite (proj2 (nth_error_None (refs t) k)) by lia. symmetry. apply nth_error_None. rewrite app_length. cbn. lia.
    - intros s I. rewrite DS, dkeys_app in I. apply in_app_or in I as [I|I].
      + destruct (T4 s I) as (u & k & -> & L). exists u, k. split; [reflexivity|]. unfold bump. destruct (String.eqb t u); lia.
      + destruct I as [<-|[]]. exists t, (before t). split; [reflexivity|]. unfold bump. rewrite String.eqb_refl. lia.
    - rewrite DS, dkeys_app. eapply Permutation.Permutation_NoDup; [apply Permutation.Permutation_app_comm|]. cbn. constructor; auto.
    - rewrite DS, !app_length, T6. reflexivity.
  Qed.

  Lemma bump_ext t b b' : (forall u, b u = b' u) -> forall u, bump t b u = bump t b' u.
  Proof. intros H u. unfold bump. rewrite H. reflexivity. Qed.
  Lemma adds_track calls : forall (v : vehicle) (h : heap) before refs, tracks v before refs ->
    let v' := snd (adds v calls h) in
    v_components v' = v_components v ++ map fst (accepted h calls) /\
    exists before', tracks v' before' (fun t => refs t ++ of_type h t calls).
  Proof.
    induction calls as [|[i a] calls IH]; intros v h before refs TR; cbn zeta.
    - cbn. rewrite app_nil_r. split; [reflexivity|]. exists before.
      destruct TR as [T1 T2 T3 T4 T5 T6]. constructor; auto; intros; rewrite app_nil_r; auto.
    - cbn [adds]. unfold of_type, accepted. cbn [filter fst].
      destruct (accepts (type_at h i)) eqn:A.
      + destruct (track_one v before refs i a h A TR) as (h1 & v1 & E1 & C1 & TR1). rewrite E1.
        pose proof (type_with v i a h) as TY. rewrite E1 in TY. cbn [fst] in TY.
        destruct (IH v1 h1 _ _ TR1) as (C2 & before' & TR2). rewrite (accepted_ext h h1 calls TY) in C2.
        cbn [map]. rewrite C2, C1, <- app_assoc. split; [reflexivity|]. exists before'.
        destruct TR2 as [T1 T2 T3 T4 T5 T6].
        assert (EX : forall t, push (type_at h i) i refs t ++ of_type h1 t calls =
                     refs t ++ filter (fun j => String.eqb t (type_at h j)) (map fst ((i, a) :: accepted h calls))).
        { intros t. unfold push, of_type. rewrite (accepted_ext h h1 calls TY). cbn [map filter fst]. rewrite (String.eqb_sym t).
          rewrite (filter_ext (fun j => String.eqb t (type_at h1 j)) (fun j => String.eqb t (type_at h j))) by (intros j; rewrite TY; reflexivity).
          destruct (String.eqb (type_at h i) t); [rewrite <- app_assoc|]; reflexivity. }
        unfold accepted in EX. constructor; auto; intros; rewrite <- EX; auto.
      + destruct (add_no v i a h A) as (e & E1). rewrite E1. apply (IH v h before refs TR).
  Qed.

  Definition vehicle0 : vehicle := new_vehicle.
  Lemma tracks_new : tracks vehicle0 (fun _ => 0) (fun _ => []).
  Proof.
    constructor; cbn.
    - intros t. reflexivity.
    - intros t. reflexivity.
    - intros t k. destruct k; reflexivity.
    - intros s [].
    - constructor.
    - reflexivity.
  Qed.
  Theorem adds_all calls (h : heap) :
    let v := snd (adds new_vehicle calls h) in
    v_components v = map fst (accepted h calls) /\
    (forall t, or_else (dget (v_counts v) t) 0 = length (of_type h t calls)) /\
    (forall t, of_type h t calls = [] -> dget (v_counts v) t = None) /\
    (forall t k, dget (v_enumerated v) (t ++ "_" ++ str_nat (S k))%string = nth_error (of_type h t calls) k) /\
    NoDup (dkeys (v_enumerated v)) /\ length (v_enumerated v) = length (accepted h calls).
  Proof.
    cbn zeta. destruct (adds_track calls vehicle0 h _ _ tracks_new) as (C & before & [T1 T2 T3 T4 T5 T6]).
    change vehicle0 with (new_vehicle (T := T)) in *. cbn [app v_components new_vehicle] in C.
    split; [exact C|]. split; [|split; [|split; [|split]]].
    - intros t. rewrite T1, T2. cbn [app]. destruct (length (of_type h t calls)); reflexivity.
    - intros t E. rewrite T1, T2. cbn [app]. rewrite E. reflexivity.
    - intros t k. apply (T3 t k).
    - exact T5.
    - rewrite T6, C, map_length. reflexivity.
  Qed.
  Theorem add_rejects (v : vehicle) i a (h : heap) c : nth_error (comps h) i = Some c -> accepts (c_type c) = false ->
    add_component v i a h = (h, v, Raise GenericError).
  Proof. intros E A. unfold add_component. rewrite E, accepts_allowable, A. reflexivity. Qed.

  (** ** the name table *)
  Lemma names_ext (h h' : heap) calls : (forall j, type_at h' j = type_at h j) -> forall tag tag' b b', (forall j, tag' j = tag j) ->
    (forall t, b' t = b t) -> names h' tag' b' calls = names h tag b calls.
  Proof.
    intros E. induction calls as [|[i a] calls IH]; intros tag tag' b b' ET EB; [reflexivity|].
    cbn [names]. rewrite E. destruct (accepts (type_at h i)); [|apply IH; auto]. rewrite ET, EB. f_equal.
    apply IH.
    - intros j. rewrite ET. destruct (Nat.eqb i j); auto.
    - intros u. rewrite EB. reflexivity.
  Qed.
  Lemma adds_named calls : forall (v : vehicle) (h : heap) before refs, tracks v before refs ->
    v_named (snd (adds v calls h)) = dupdate (v_named v) (names h (tag_at h) before calls).
  Proof.
    induction calls as [|[i a] calls IH]; intros v h before refs TR; [reflexivity|].
    cbn [adds names]. destruct (accepts (type_at h i)) eqn:A.
    - destruct (track_one v before refs i a h A TR) as (h1 & v1 & E1 & C1 & TR1). rewrite E1.
      pose proof (type_with v i a h) as TY. rewrite E1 in TY. cbn [fst] in TY.
      rewrite (IH v1 h1 _ _ TR1). destruct (add_ok v i a h A) as (c & E & ET & EQ). cbn zeta in EQ. rewrite E1 in EQ.
      rewrite (counts_or v before _ (tr_counts _ _ _ TR)) in EQ. injection EQ as EH EV.
      unfold dupdate. cbn [fold_left fst snd]. f_equal.
      + apply names_ext; [exact TY| |reflexivity]. intros j. unfold tag_at. rewrite EH. cbn [comps].
        destruct (Nat.eqb_spec i j) as [<-|NE].
        * rewrite list_set_same by (eapply nth_some_lt, E). rewrite E. cbn [c_name with_options]. destruct (a_name a); reflexivity.
        * rewrite list_set_other by auto. reflexivity.
      + rewrite EV. cbn [v_named]. f_equal. destruct (a_name a) as [n|]; [reflexivity|]. unfold tag_at. rewrite E.
        destruct (c_name c) as [[|x s]|]; reflexivity.
    - destruct (add_no v i a h A) as (e & E1). rewrite E1. apply (IH v h before refs TR).
  Qed.

  Lemma dupdate_last {B} (l d : dict B) s : dget (dupdate d l) s =
    match filter (fun p => String.eqb s (fst p)) (rev l) with p :: _ => Some (snd p) | [] => dget d s end.
  Proof.
    revert d. induction l as [|[k b] l IH]; intros d; [reflexivity|].
    unfold dupdate. cbn [fold_left fst snd]. change (fold_left _ l (dset d k b)) with (dupdate (dset d k b) l). rewrite IH.
    cbn [rev]. rewrite filter_app. destruct (filter _ (rev l)) as [|p q]; [|reflexivity]. cbn [app filter fst].
    rewrite dget_dset. destruct (String.eqb s k); reflexivity.
  Qed.
  Lemma dupdate_keys_in {B} (l d : dict B) s : In s (dkeys (dupdate d l)) <-> In s (dkeys d) \/ In s (dkeys l).
  Proof.
    revert d. induction l as [|[k b] l IH]; intros d; [cbn; tauto|].
    unfold dupdate. cbn [fold_left fst snd]. change (fold_left _ l (dset d k b)) with (dupdate (dset d k b) l). rewrite IH, dkeys_dset.
    cbn [dkeys map fst]. destruct (in_dec string_dec k (dkeys d)) as [I|I]; [|rewrite in_app_iff]; cbn; intuition congruence.
  Qed.
  Lemma dset_keys_nodup {B} (d : dict B) k b : NoDup (dkeys d) -> NoDup (dkeys (dset d k b)).
  Proof.
    intros H. rewrite dkeys_dset. destruct (in_dec string_dec k (dkeys d)) as [I|I]; [exact H|].
    eapply Permutation.Permutation_NoDup; [apply Permutation.Permutation_app_comm|]. cbn. constructor; auto.
  Qed.
  Lemma dupdate_keys_nodup {B} (l d : dict B) : NoDup (dkeys d) -> NoDup (dkeys (dupdate d l)).
  Proof.
    revert d. induction l as [|[k b] l IH]; intros d H; [exact H|].
    unfold dupdate. cbn [fold_left fst snd]. apply IH. apply dset_keys_nodup, H.
  Qed.
  Lemma dupdate_len {B} (l : dict B) : length (dupdate [] l) = length l <-> NoDup (dkeys l).
  Proof.
    split; [|intros H; rewrite dupdate_nil; auto].
    intros E. apply (@NoDup_incl_NoDup _ (dkeys (dupdate [] l))).
    - apply dupdate_keys_nodup. constructor.
    - unfold dkeys. rewrite !map_length, E. lia.
    - intros s I. apply dupdate_keys_in in I as [[]|I]. exact I.
  Qed.
  Lemma names_length (h : heap) calls : forall tag b, length (names h tag b calls) = length (accepted h calls).
  Proof.
    induction calls as [|[i a] calls IH]; intros tag b; [reflexivity|]. cbn [names]. unfold accepted. cbn [filter fst].
    destruct (accepts (type_at h i)); cbn; [f_equal|]; apply IH.
  Qed.
  Theorem named_all calls (h : heap) :
    let v := snd (adds new_vehicle calls h) in
    (forall s, dget (v_named v) s = last_named (given_names h calls) s) /\
    (length (v_named v) = length (v_components v) <-> NoDup (map fst (given_names h calls))) /\
    map snd (given_names h calls) = v_components v.
  Proof.
    cbn zeta. pose proof (adds_named calls vehicle0 h _ _ tracks_new) as E. change vehicle0 with (new_vehicle (T := T)) in E.
    cbn [v_named new_vehicle] in E. rewrite E. destruct (adds_all calls h) as (C & _). cbn zeta in C. rewrite C.
    split; [|split].
    - intros s. rewrite dupdate_last. unfold last_named. reflexivity.
    - rewrite map_length, <- (names_length h calls (tag_at h) (fun _ => 0)). apply dupdate_len.
    - unfold given_names. generalize (tag_at h) (fun _ : string => 0). clear. intros tag b. revert tag b.
      induction calls as [|[i a] calls IH]; intros tag b; [reflexivity|]. cbn [names]. unfold accepted. cbn [filter fst].
      destruct (accepts (type_at h i)); cbn; [f_equal|]; apply IH.
  Qed.

  (** default names never clash *)
  Lemma default_names (h : heap) calls : forall tag b, (forall ia, In ia calls -> a_name (snd ia) = None /\ tag (fst ia) = None) ->
    NoDup (map fst (names h tag b calls)) /\
    forall s, In s (map fst (names h tag b calls)) -> exists t k, s = (t ++ "_" ++ str_nat (S k))%string /\ b t <= k.
  Proof.
    induction calls as [|[i a] calls IH]; intros tag b H; [split; [constructor|intros s []]|].
    cbn [names]. destruct (H (i, a) (or_introl eq_refl)) as [HA HT]. cbn [fst snd] in HA, HT.
    destruct (accepts (type_at h i)); [|apply IH; intros ia Hi; apply H; right; exact Hi].
    rewrite HA, HT. cbn [map fst].
    destruct (IH (fun j => if i =? j then None else tag j) (fun u => if String.eqb (type_at h i) u then S (b u) else b u)) as [ND KK].
    { intros ia Hi. destruct (H ia (or_intror Hi)) as [H1 H2]. split; [exact H1|]. destruct (i =? fst ia); auto. }
    split.
    - constructor; [|exact ND]. intros I. destruct (KK _ I) as (t & k & E & L). apply indexed_inj in E as [<- E].
      rewrite String.eqb_refl in L. lia.
    - intros s [<-|I]; [exists (type_at h i), (b (type_at h i)); auto|].
      destruct (KK s I) as (t & k & -> & L). exists t, k. split; [reflexivity|]. destruct (String.eqb (type_at h i) t); lia.
  Qed.
  Theorem unnamed_distinct calls (h : heap) : (forall ia, In ia calls -> a_name (snd ia) = None /\ tag_at h (fst ia) = None) ->
    NoDup (map fst (given_names h calls)).
  Proof. intros H. apply default_names, H. Qed.
End Adds.
