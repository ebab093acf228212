(** Which files to_stl(merge=True) asks for, and which were written. *)
From Coq Require Import Ascii String List Arith Lia Bool ZArith.
From Verif Require Import Num Py M_Vector M_Path M_Surface M_Geometry M_Mesh M_Component M_Vehicle SpecAdd SpecFiles
  L_Strings L_Component L_Heap L_Cache L_Adds L_Files.
Import ListNotations.

Section Merge.
  Context {T : Type} {N : Num T}.
  Notation heap := (heap T).
  Notation vehicle := (vehicle T).

  Lemma add_tag v i a (h : heap) j : accepts (type_at h i) = true ->
    tag_at (fst (fst (add_component v i a h))) j =
    if Nat.eqb i j then (match a_name a with Some n => Some n | None => tag_at h i end) else tag_at h j.
  Proof.
    intros A. destruct (add_ok v i a h A) as (c & E & _ & EQ). cbn zeta in EQ. rewrite EQ. cbn [fst]. unfold tag_at. cbn [comps].
    destruct (Nat.eqb_spec i j) as [<-|NE].
    - rewrite list_set_same by (eapply nth_some_lt, E). rewrite E. cbn [c_name with_options]. destruct (a_name a); reflexivity.
    - rewrite list_set_other by auto. reflexivity.
  Qed.
  Lemma adds_tag_other calls : forall (v : vehicle) (h : heap) j, ~ In j (map fst (accepted h calls)) ->
    tag_at (fst (adds v calls h)) j = tag_at h j.
  Proof.
    induction calls as [|[i a] calls IH]; intros v h j NI; [reflexivity|]. cbn [adds]. unfold accepted in NI. cbn [filter fst] in NI.
    pose proof (type_with v i a h) as TY. destruct (accepts (type_at h i)) eqn:A.
    - pose proof (add_tag v i a h j A) as TG. destruct (add_component v i a h) as [[h1 v1] r]. cbn [fst] in *.
      cbn [map fst] in NI. rewrite IH.
      + rewrite TG. destruct (Nat.eqb_spec i j) as [->|]; [|reflexivity]. exfalso. apply NI. left. reflexivity.
      + rewrite (accepted_ext h h1 calls TY). intros I. apply NI. right. exact I.
    - destruct (add_no v i a h A) as (e & E). rewrite E in *. apply IH. exact NI.
  Qed.
  Lemma adds_types calls : forall (v : vehicle) (h : heap) j, type_at (fst (adds v calls h)) j = type_at h j.
  Proof.
    induction calls as [|[i a] calls IH]; intros v h j; [reflexivity|]. cbn [adds].
    pose proof (type_with v i a h) as TY. destruct (add_component v i a h) as [[h1 v1] r]. cbn [fst] in TY. rewrite IH, TY. reflexivity.
  Qed.

  Definition plain_name (h : heap) (n : string) (i : nat) : Prop :=
    n = ""%string \/ exists k, n = (type_at h i ++ "_" ++ str_nat k)%string.
  (** the name in the table against the tag of the component *)
  Lemma names_tags calls : forall (v : vehicle) (h : heap) b n i, NoDup (map fst (accepted h calls)) ->
    In (n, i) (names h (tag_at h) b calls) ->
    accepts (type_at h i) = true /\
    match text (tag_at (fst (adds v calls h)) i) with Some t => n = t | None => plain_name h n i end.
  Proof.
    induction calls as [|[i a] calls IH]; intros v h b n k ND I; [destruct I|].
    cbn [adds]. cbn [names] in I. unfold accepted in ND. cbn [filter fst] in ND.
    pose proof (type_with v i a h) as TY. destruct (accepts (type_at h i)) eqn:A.
    - pose proof (fun j => add_tag v i a h j A) as TG. destruct (add_component v i a h) as [[h1 v1] r] eqn:EA. cbn [fst] in *.
      cbn [map fst] in ND. inversion ND as [|? ? NI ND']; subst.
      assert (AC : accepted h1 calls = accepted h calls) by (apply accepted_ext, TY).
      destruct I as [I|I].
      + injection I as <- <-. split; [exact A|]. rewrite adds_tag_other by (rewrite AC; exact NI). rewrite TG, Nat.eqb_refl.
        destruct (a_name a) as [[|x s]|]; cbn [text]; [left; reflexivity|reflexivity|].
        destruct (tag_at h i) as [[|x s]|]; cbn [text]; [right; eexists; reflexivity|reflexivity|right; eexists; reflexivity].
      + assert (I' : In (n, k) (names h1 (tag_at h1) (fun u => if String.eqb (type_at h i) u then S (b u) else b u) calls)).
        { erewrite (names_ext h h1 calls TY); [exact I| |reflexivity]. intros j. rewrite TG. reflexivity. }
        destruct (IH v1 h1 (fun u => if String.eqb (type_at h i) u then S (b u) else b u) n k) as [B C]; [rewrite AC; exact ND'|exact I'|]. rewrite TY in B. split; [exact B|].
        destruct (text (tag_at (fst (adds v1 calls h1)) k)); [exact C|]. destruct C as [C|(q & C)]; [left; exact C|right; exists q; rewrite C, TY; reflexivity].
    - destruct (add_no v i a h A) as (e & E). rewrite E in *. apply (IH v h b n k ND I).
  Qed.

  Lemma accepts_dash t : accepts t = true -> has "-"%char t = false.
  Proof.
    unfold accepts. cbn [existsb]. rewrite !orb_true_iff. intros H.
    repeat destruct H as [H|H]; try (apply String.eqb_eq in H; subst t; reflexivity). discriminate.
  Qed.
  Lemma plain_dash h n i : accepts (type_at h i) = true -> plain_name h n i -> has "-"%char (n ++ ".stl") = false.
  Proof.
    intros A [-> | (k & ->)]; [reflexivity|]. rewrite !has_app, (accepts_dash _ A), str_nat_digits by exact dash_digit. reflexivity.
  Qed.
  Lemma file_dash v prefix (h : heap) no i : (exists p, text prefix = Some p) \/ text (tag_at h i) = None ->
    has "-"%char (file_name v prefix h no i) = true.
  Proof.
    intros H. unfold file_name. assert (D : forall p s, has "-"%char (p ++ "-" ++ s) = true).
    { intros p s. rewrite has_app. cbn. apply orb_true_r. }
    destruct (text prefix) as [p|]; destruct (text (tag_at h i)) as [t|]; try apply D.
    destruct H as [[p H]|H]; discriminate.
  Qed.

  Lemma requests_iff (v : vehicle) (h : heap) f : In f (merge_requests v h) <->
    exists n i, In (n, i) (v_named v) /\ (i < length (comps h))%nat /\ ghost_at h i = false /\ f = (n ++ ".stl")%string.
  Proof.
    unfold merge_requests. rewrite in_flat_map. split.
    - intros ([n i] & I & H). cbn [fst snd] in H. destruct (nth_error (comps h) i) as [c|] eqn:E; [|destruct H].
      destruct (c_ghost c) eqn:G; [destruct H|]. destruct H as [<-|[]]. exists n, i. split; [exact I|]. split; [eapply nth_some_lt, E|].
      split; [|reflexivity]. unfold ghost_at. rewrite E. exact G.
    - intros (n & i & I & L & G & ->). exists (n, i). split; [exact I|]. cbn [fst snd]. unfold ghost_at in G.
      destruct (nth_error (comps h) i) as [c|]; [|discriminate]. rewrite G. left. reflexivity.
  Qed.
  Lemma shortest (P : string -> Prop) (l : list string) : (forall s, P s -> In s l) -> (exists s, P s) ->
    (forall s, In s l -> P s \/ ~ P s) -> exists s, P s /\ forall s', P s' -> (String.length s <= String.length s')%nat.
  Proof.
    intros IN [s0 H0] DEC.
    assert (K : forall n s, (String.length s <= n)%nat -> P s -> exists s, P s /\ forall s', P s' -> (String.length s <= String.length s')%nat).
    { induction n as [|n IH]; intros s L H.
      - exists s. split; [exact H|]. intros. lia.
      - destruct (existsb (fun s' => String.length s' <=? n)%nat l) eqn:E.
        + destruct (List.filter (fun s' => String.length s' <=? n)%nat l) as [|x q] eqn:F.
          * exfalso. apply existsb_exists in E as (y & Y1 & Y2). assert (In y (List.filter (fun s' => String.length s' <=? n)%nat l)) as HY by (apply filter_In; auto). rewrite F in HY. destruct HY.
          * assert (Q : (exists y, In y l /\ (String.length y <= n)%nat /\ P y) \/ forall y, In y l -> (String.length y <= n)%nat -> ~ P y).
            { clear - DEC. induction l as [|y l IHl]; [right; intros y []|]. destruct IHl as [(z & A & B & C)|HN].
              - intros s Hs. apply DEC. right. exact Hs.
              - left. exists z. split; [right; exact A|auto].
              - destruct (DEC y (or_introl eq_refl)) as [H|H].
                + destruct (Nat.le_gt_cases (String.length y) n) as [L|L]; [left; exists y; split; [left; reflexivity|auto]|].
                  right. intros z [<- | Hz] Lz; [lia|apply HN; auto].
                + right. intros z [<- | Hz] Lz; [exact H|apply HN; auto]. }
            destruct Q as [(y & A & B & C)|HN]; [apply (IH y B C)|].
            exists s. split; [exact H|]. intros s' H'. destruct (Nat.le_gt_cases (String.length s) (String.length s')) as [L'|L']; [exact L'|].
            exfalso. apply (HN s' (IN s' H')); [lia|exact H'].
        + exists s. split; [exact H|]. intros s' H'. destruct (Nat.le_gt_cases (String.length s) (String.length s')) as [L'|L']; [exact L'|].
          exfalso. assert (existsb (fun s' => String.length s' <=? n)%nat l = true); [|congruence].
          apply existsb_exists. exists s'. split; [apply IN, H'|]. apply Nat.leb_le. lia. }
    apply (K (String.length s0) s0 (Nat.le_refl _) H0).
  Qed.

  (** C56 *)
  Theorem merge_iff calls (h : heap) prefix : let '(h', v) := adds new_vehicle calls h in
    NoDup (v_components v) -> NoDup (map fst (given_names h calls)) ->
    (exists i, In i (v_components v) /\ ghost_at h' i = false) ->
    ((forall f, In f (merge_requests v h') -> In f (map fst (files v prefix h' [] (v_components v)))) <->
     (text prefix = None /\ forall i, In i (v_components v) -> ghost_at h' i = false -> text (tag_at h' i) <> None)).
  Proof.
    destruct (adds new_vehicle calls h) as [h' v] eqn:EA. intros NC NN (i0 & I0 & G0).
    destruct (adds_all calls h) as (C & _). cbn zeta in C. rewrite EA in C. cbn [snd] in C.
    pose proof (adds_named calls vehicle0 h _ _ tracks_new) as EN. change vehicle0 with (new_vehicle (T := T)) in EN. rewrite EA in EN.
    cbn [v_named new_vehicle snd] in EN. fold (given_names h calls) in EN. rewrite (dupdate_nil (given_names h calls) NN) in EN.
    rewrite C in NC.
    assert (NT : forall n i, In (n, i) (given_names h calls) -> accepts (type_at h i) = true /\
       match text (tag_at h' i) with Some t => n = t | None => plain_name h n i end).
    { intros n i I. pose proof (names_tags calls new_vehicle h (fun _ => 0%nat) n i NC I) as H. rewrite EA in H. exact H. }
    assert (MS : map snd (given_names h calls) = v_components v).
    { destruct (named_all calls h) as (_ & _ & H). cbn zeta in H. rewrite EA in H. exact H. }
    assert (GI : forall n i, In (n, i) (given_names h calls) -> In i (v_components v)).
    { intros n i I. rewrite <- MS. apply in_map_iff. exists (n, i). auto. }
    assert (IG : forall i, In i (v_components v) -> exists n, In (n, i) (given_names h calls)).
    { intros i I. rewrite <- MS in I. apply in_map_iff in I as ([n j] & E & I). cbn in E. subst j. exists n. exact I. }
    assert (LT : forall i, ghost_at h' i = false -> (i < length (comps h'))%nat).
    { intros i G. unfold ghost_at in G. destruct (nth_error (comps h') i) eqn:E; [eapply nth_some_lt, E|discriminate]. }
    assert (UN : forall n i j, In (n, i) (given_names h calls) -> In (n, j) (given_names h calls) -> i = j).
    { clear - NN. induction (given_names h calls) as [|[m k] l IH]; intros n i j; [intros []|]. cbn in NN. inversion NN as [|? ? NI ND]; subst.
      intros [I|I] [J|J].
      - congruence.
      - injection I as -> ->. exfalso. apply NI, in_map_iff. exists (n, j). auto.
      - injection J as -> ->. exfalso. apply NI, in_map_iff. exists (n, i). auto.
      - apply (IH ND n i j I J). }
    (* tagged components: name, tag and file *)
    split.
    - intros SUB. assert (TG : forall i, In i (v_components v) -> ghost_at h' i = false -> text (tag_at h' i) <> None).
      { intros i I G E. destruct (IG i I) as [n In_]. destruct (NT n i In_) as [A B]. rewrite E in B.
        assert (R : In (n ++ ".stl")%string (merge_requests v h')).
        { apply requests_iff. exists n, i. rewrite EN. auto. }
        apply SUB in R. apply in_map_iff in R as ([f j] & F & R). cbn in F. subst f.
        destruct (files_in _ _ _ _ _ _ _ R) as (J1 & J2 & no & F).
        pose proof (plain_dash h n i A B) as D1. rewrite F in D1.
        destruct (text prefix) as [p|] eqn:EP; [rewrite file_dash in D1 by (left; eauto); discriminate|].
        destruct (text (tag_at h' j)) as [t|] eqn:ET; [|rewrite file_dash in D1 by (right; exact ET); discriminate].
        unfold file_name in F. rewrite EP, ET in F. apply app_inj_r in F. subst t.
        destruct (IG j J1) as [m Im]. destruct (NT m j Im) as [_ B']. rewrite ET in B'. subst m.
        assert (i = j) by (apply (UN n); auto). subst j. congruence. }
      split; [|exact TG].
      destruct (text prefix) as [p|] eqn:EP; [|reflexivity]. exfalso.
      (* the shortest requested name *)
      set (P := fun s => exists i, In i (v_components v) /\ ghost_at h' i = false /\ text (tag_at h' i) = Some s).
      destruct (shortest P (map (fun i => or_else (text (tag_at h' i)) ""%string) (v_components v))) as (s & (i & I & G & E) & MIN).
      { intros s (i & I & _ & E). apply in_map_iff. exists i. rewrite E. auto. }
      { specialize (TG i0 I0 G0). destruct (text (tag_at h' i0)) as [s|] eqn:E; [|congruence]. exists s, i0. auto. }
      { intros s _. unfold P. clear - TG. induction (v_components v) as [|i l IH].
        - right. intros (i & [] & _).
        - destruct IH as [(j & A & B)|H].
          + intros j Hj. apply TG. right. exact Hj.
          + left. exists j. split; [right; exact A|exact B].
          + destruct (ghost_at h' i) eqn:G.
            * right. intros (j & [<- | J] & B & C); [congruence|]. apply H. exists j. auto.
            * destruct (text (tag_at h' i)) as [t|] eqn:E; [|exfalso; apply (TG i (or_introl eq_refl) G E)].
              destruct (string_dec t s) as [<-|NE]; [left; exists i; split; [left; reflexivity|auto]|].
              right. intros (j & [<- | J] & B & C); [congruence|]. apply H. exists j. auto. }
      destruct (IG i I) as [n In_]. destruct (NT n i In_) as [_ B]. rewrite E in B. subst n.
      assert (R : In (s ++ ".stl")%string (merge_requests v h')).
      { apply requests_iff. exists s, i. rewrite EN. auto. }
      apply SUB in R. apply in_map_iff in R as ([f j] & F & R). cbn in F. subst f.
      destruct (files_in _ _ _ _ _ _ _ R) as (J1 & J2 & no & F).
      specialize (TG j J1 J2). destruct (text (tag_at h' j)) as [t|] eqn:ET; [|congruence].
      unfold file_name in F. rewrite EP, ET in F. rewrite <- !app_assoc_s in F. apply app_inj_r in F.
      assert (L : (String.length s <= String.length t)%nat) by (apply MIN; exists j; auto).
      apply (f_equal String.length) in F. rewrite !length_app_s in F. cbn in F. destruct p as [|a p]; [apply text_some in EP as [_ EP]; congruence|]. cbn in F. lia.
    - intros [EP TG] f R. apply requests_iff in R as (n & i & I & L & G & ->). rewrite EN in I.
      destruct (NT n i I) as [_ B]. specialize (TG i (GI n i I) G). destruct (text (tag_at h' i)) as [t|] eqn:E; [|congruence]. subst t.
      destruct (files_all v prefix h' (v_components v) [] i (GI n i I) G) as [f F]. destruct (files_in _ _ _ _ _ _ _ F) as (_ & _ & no & EF).
      unfold file_name in EF. rewrite EP, E in EF. apply in_map_iff. exists (f, i). split; [exact EF|exact F].
  Qed.
End Merge.
