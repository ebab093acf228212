(** Options given to add_component over histories of calls. *)
From Coq Require Import String List Arith Lia Bool ZArith.
From Verif Require Import Num Py M_Vector M_Path M_Surface M_Geometry M_Mesh M_Component M_Vehicle
  SpecAdd SpecHistory SpecOptions L_Strings L_Component L_Heap L_Adds.
Import ListNotations.

Lemma settled_nil {A B} (f : A -> option B) x : settled f [] x x.
Proof. left. auto. Qed.
Lemma settled_cons {A B} (f : A -> option B) a l x y : settled f l (match f a with Some v => Some v | None => x end) y ->
  settled f (a :: l) x y.
Proof.
  intros [[F ->]|(l1 & b & l2 & v & -> & E & F & ->)].
  - destruct (f a) as [v|] eqn:E; [right; exists [], a, l, v; auto|left; auto].
  - right. exists (a :: l1), b, l2, v. auto.
Qed.

Section Options.
  Context {T : Type} {N : Num T}.
  Notation heap := (heap T).
  Notation vehicle := (vehicle T).

  Lemma body_refl (c : comp T) : same_body c c.
  Proof. unfold same_body. auto 10. Qed.
  Lemma shaped_nil (c : comp T) : shaped [] c c.
  Proof. constructor; try apply settled_nil. apply body_refl. Qed.
  Lemma configured_nil vb (c : comp T) : configured vb [] c c.
  Proof. constructor; try apply settled_nil; [apply shaped_nil|reflexivity]. Qed.
  Lemma child_nil (c : comp T) : child_configured [] c c.
  Proof. constructor; try apply settled_nil; [apply shaped_nil|auto]. Qed.

  Lemma configured_cons vb a l (c c' : comp T) : configured vb l (with_options vb a c) c' -> configured vb (a :: l) c c'.
  Proof.
    intros [[B S1 S2 S3 S4] M I J G NM V]. constructor; [constructor|..]; try apply settled_cons.
    - exact B.
    - cbn [with_options c_curvatures] in S1. unfold over in S1. destruct (a_curvatures a); exact S1.
    - cbn [with_options c_transformations] in S2. unfold or_else in S2. destruct (a_transformations a); exact S2.
    - cbn [with_options c_axis] in S3. unfold over in S3. destruct (a_axis a); exact S3.
    - cbn [with_options c_append] in S4. unfold append_given at 2. destruct (a_axis a); exact S4.
    - cbn [with_options c_modifier] in M. unfold over in M. destruct (a_modifier a); exact M.
    - cbn [with_options c_clustering] in I. unfold i_given at 2. destruct (a_clustering a) as [[i j]|]; [|exact I].
      cbn [add_clustering cl_i] in *. unfold over in I. destruct i; exact I.
    - cbn [with_options c_clustering] in J. unfold j_given at 2. destruct (a_clustering a) as [[i j]|]; [|exact J].
      cbn [add_clustering cl_j] in *. unfold over in J. destruct j; exact J.
    - exact G.
    - cbn [with_options c_name] in NM. unfold over in NM. destruct (a_name a); exact NM.
    - rewrite V. cbn [with_options c_verbosity]. destruct l; [reflexivity|]. destruct (Z.eqb vb 0); [reflexivity|lia].
  Qed.

  Lemma given_ext (h h' : heap) i calls : (forall j, type_at h' j = type_at h j) ->
    given_to i (accepted h' calls) = given_to i (accepted h calls).
  Proof. intros E. rewrite (accepted_ext h h' calls E). reflexivity. Qed.

  (** C49 *)
  Theorem adds_options calls : forall (v : vehicle) (h : heap) i c, nth_error (comps h) i = Some c ->
    dicts (fst (adds v calls h)) = dicts h /\ length (comps (fst (adds v calls h))) = length (comps h) /\
    exists c', nth_error (comps (fst (adds v calls h))) i = Some c' /\
      configured (v_verbosity v) (given_to i (accepted h calls)) c c'.
  Proof.
    induction calls as [|[k a] calls IH]; intros v h i c E.
    - cbn. split; [reflexivity|]. split; [reflexivity|]. exists c. split; [exact E|]. apply configured_nil.
    - cbn [adds]. unfold accepted. cbn [filter fst].
      destruct (accepts (type_at h k)) eqn:A.
      + destruct (add_ok v k a h A) as (ck & Ek & ET & EQ). cbn zeta in EQ. pose proof (type_with v k a h) as TY.
        rewrite EQ in TY |- *. cbn [fst] in TY.
        match goal with |- context [adds ?v1 calls ?h1] => set (v' := v1); set (h' := h1) end.
        unfold given_to. cbn [filter fst]. destruct (Nat.eqb_spec i k) as [<-|NE].
        * rewrite E in Ek. injection Ek as <-.
          destruct (IH v' h' i (with_options (v_verbosity v) a c)) as (D & L & c' & E' & C).
          { unfold h'. cbn [comps]. apply list_set_same. eapply nth_some_lt, E. }
          split; [exact D|]. split; [rewrite L; unfold h'; cbn [comps]; apply list_set_length|].
          exists c'. split; [exact E'|]. cbn [map snd]. apply configured_cons.
          fold (accepted h calls). fold (given_to i (accepted h calls)).
          rewrite (given_ext h h' i calls TY) in C. exact C.
        * destruct (IH v' h' i c) as (D & L & c' & E' & C).
          { unfold h'. cbn [comps]. rewrite list_set_other by auto. exact E. }
          split; [exact D|]. split; [rewrite L; unfold h'; cbn [comps]; apply list_set_length|].
          exists c'. split; [exact E'|].
          fold (accepted h calls). fold (given_to i (accepted h calls)).
          rewrite (given_ext h h' i calls TY) in C. exact C.
      + destruct (add_no v k a h A) as (e & E1). rewrite E1. apply (IH v h i c E).
  Qed.

  (** ** composites *)
  Lemma fits_allowable t : str_in t composite_allowable = fits t. Proof. reflexivity. Qed.
  Definition child_options (vb : Z) (a : add_args T) (c : comp T) : comp T :=
    let a' := mkAdd None (a_axis a) (a_append a) (a_curvatures a) None (a_transformations a) None (c_ghost c) in
    let c' := with_options vb a' c in
    match a_clustering a with
    | Some k => mkComp (c_type c') (c_kind c') (c_patches c') (c_res_r c') (c_res_s c')
        (c_resolution c') (c_surfaces c') (c_mesh c') (c_curvatures c') k
        (c_transformations c') (c_modifier c') (c_axis c') (c_append c') (c_ghost c') (c_name c')
        (c_verbosity c')
    | None => c'
    end.
  Lemma child_cons vb a l (c c' : comp T) : child_configured l (child_options vb a c) c' -> child_configured (a :: l) c c'.
  Proof.
    intros [[B S1 S2 S3 S4] K (R1 & R2 & R3)]. unfold child_options in *. constructor; [constructor|..]; try apply settled_cons.
    - destruct (a_clustering a); exact B.
    - clear - S1. destruct (a_clustering a); cbn [with_options c_curvatures M_Vehicle.a_curvatures] in S1; unfold over in S1;
        destruct (a_curvatures a); exact S1.
    - clear - S2. destruct (a_clustering a); cbn [with_options c_transformations M_Vehicle.a_transformations] in S2; unfold or_else in S2;
        destruct (a_transformations a); exact S2.
    - clear - S3. destruct (a_clustering a); cbn [with_options c_axis M_Vehicle.a_axis] in S3; unfold over in S3;
        destruct (a_axis a); exact S3.
    - clear - S4. unfold append_given at 2. destruct (a_clustering a); cbn [with_options c_append M_Vehicle.a_axis] in S4;
        destruct (a_axis a); exact S4.
    - clear - K. destruct (a_clustering a); exact K.
    - clear - R1 R2 R3. destruct (a_clustering a); cbn in *; auto.
  Qed.

  Lemma child_ok j i a (h : heap) p ch c : nth_error (comps h) j = Some p -> c_kind p = Composite ch -> c_type p = "composite"%string ->
    nth_error (comps h) i = Some c -> fits (c_type c) = true ->
    i <> j /\ composite_add j i a h =
      (mkHeap (dicts h) (list_set (list_set (comps h) i (child_options (c_verbosity p) a c)) j (set_kind p (Composite (ch ++ [i])))), Ok tt).
  Proof.
    intros Ej EK ET Ei F. assert (NE : i <> j). { intros ->. assert (c = p) as -> by congruence. rewrite ET in F. discriminate. }
    split; [exact NE|]. unfold composite_add, bindM, get_comp. rewrite Ej, Ei, EK, fits_allowable, F. unfold put_comp. cbn [comps dicts].
    rewrite list_set_other by auto. rewrite Ej. reflexivity.
  Qed.
  Lemma child_no j i a (h : heap) p ch : nth_error (comps h) j = Some p -> c_kind p = Composite ch -> fits (type_at h i) = false ->
    exists e, composite_add j i a h = (h, Raise e) /\ (i < length (comps h) -> e = GenericError).
  Proof.
    intros Ej EK F. unfold type_at in F. unfold composite_add, bindM, get_comp. rewrite Ej.
    destruct (nth_error (comps h) i) as [c|] eqn:Ei.
    - rewrite EK, fits_allowable, F. exists GenericError. auto.
    - eexists. split; [reflexivity|]. intros L. apply nth_error_None in Ei. lia.
  Qed.
  Lemma set_type (l : list (comp T)) i c c0 : nth_error l i = Some c0 -> c_type c = c_type c0 ->
    forall j, option_map c_type (nth_error (list_set l i c) j) = option_map c_type (nth_error l j).
  Proof.
    intros E ET j. destruct (Nat.eq_dec i j) as [<-|NE].
    - rewrite list_set_same by (eapply nth_some_lt, E). rewrite E. cbn. congruence.
    - rewrite list_set_other by auto. reflexivity.
  Qed.
  Lemma type_option (h : heap) j : type_at h j = match option_map c_type (nth_error (comps h) j) with Some t => t | None => ""%string end.
  Proof. unfold type_at. destruct (nth_error (comps h) j); reflexivity. Qed.

  (** C57, C58 *)
  Theorem children_all l : forall j (h : heap) p ch, nth_error (comps h) j = Some p -> c_kind p = Composite ch -> c_type p = "composite"%string ->
    dicts (add_children j l h) = dicts h /\ length (comps (add_children j l h)) = length (comps h) /\
    nth_error (comps (add_children j l h)) j = Some (set_kind p (Composite (ch ++ map fst (fitting h l)))) /\
    forall i c, i <> j -> nth_error (comps h) i = Some c ->
      exists c', nth_error (comps (add_children j l h)) i = Some c' /\ child_configured (given_to i (fitting h l)) c c'.
  Proof.
    induction l as [|[k a] l IH]; intros j h p ch Ej EK ET.
    - cbn. split; [reflexivity|]. split; [reflexivity|]. split.
      + rewrite app_nil_r, <- EK. destruct p. exact Ej.
      + intros i c _ E. exists c. split; [exact E|]. apply child_nil.
    - cbn [add_children]. unfold fitting. cbn [filter fst]. destruct (fits (type_at h k)) eqn:F.
      + assert (exists ck, nth_error (comps h) k = Some ck /\ fits (c_type ck) = true) as (ck & Ek & Fk).
        { unfold type_at in F. destruct (nth_error (comps h) k) as [ck|]; [eauto|discriminate]. }
        destruct (child_ok j k a h p ch ck Ej EK ET Ek Fk) as (NE & EQ). rewrite EQ. cbn [fst].
        match goal with |- context [add_children j l ?h1] => set (h' := h1) end.
        assert (Ej' : nth_error (comps h') j = Some (set_kind p (Composite (ch ++ [k])))).
        { unfold h'. cbn [comps]. apply list_set_same. rewrite list_set_length. eapply nth_some_lt, Ej. }
        assert (TY : forall x, type_at h' x = type_at h x).
        { intros x. rewrite !type_option. unfold h'. cbn [comps].
          rewrite (set_type _ j _ p); [|rewrite list_set_other by auto; exact Ej|reflexivity].
          rewrite (set_type _ k _ ck); [reflexivity|exact Ek|]. unfold child_options. destruct (a_clustering a); reflexivity. }
        assert (FE : fitting h' l = fitting h l) by (apply filter_ext; intros ia; rewrite TY; reflexivity).
        destruct (IH j h' _ (ch ++ [k]) Ej' eq_refl ET) as (D & L & CH & OP). rewrite FE in *.
        split; [exact D|]. split; [rewrite L; unfold h'; cbn [comps]; rewrite !list_set_length; reflexivity|]. split.
        * rewrite CH. cbn [map fst]. rewrite <- app_assoc. reflexivity.
        * intros i c Nij E. unfold given_to. cbn [filter fst]. destruct (Nat.eqb_spec i k) as [<-|Nik].
          { rewrite E in Ek. injection Ek as <-. destruct (OP i (child_options (c_verbosity p) a c) Nij) as (c' & E' & C).
            { unfold h'. cbn [comps]. rewrite list_set_other by auto. apply list_set_same. eapply nth_some_lt, E. }
            exists c'. split; [exact E'|]. cbn [map snd]. apply (child_cons (c_verbosity p)). exact C. }
          destruct (OP i c Nij) as (c' & E' & C).
          { unfold h'. cbn [comps]. rewrite !list_set_other by auto. exact E. }
          exists c'. split; [exact E'|exact C].
      + destruct (child_no j k a h p ch Ej EK F) as (e & EQ & _). rewrite EQ. cbn [fst]. apply (IH j h p ch Ej EK ET).
  Qed.
End Options.
