(** Lemmas about the scalar results of a sensitivity study. *)
From Coq Require Import String List Sorted Reals Lra Lia Arith Bool.
From Verif Require Import Num NumR Py M_Vector M_Mesh M_Sens M_Output M_SensOut SpecOutput SpecSensOut L_Component.
Import ListNotations.
Local Open Scope string_scope.

Lemma insert_in k l x : In x (insert_name k l) <-> x = k \/ In x l.
Proof.
  induction l as [|a l IH]; cbn; [intuition auto|]. destruct (String.leb k a); cbn; [intuition auto|]. rewrite IH. intuition auto.
Qed.
Lemma insert_nodup k l : ~ In k l -> NoDup l -> NoDup (insert_name k l).
Proof.
  induction l as [|a l IH]; cbn; intros K ND; [constructor; [intros []|constructor]|]. inversion ND; subst.
  destruct (String.leb k a); [constructor; [exact K|exact ND]|]. constructor; [|apply IH; tauto]. rewrite insert_in. intros [E|E]; [subst; tauto|contradiction].
Qed.
Lemma insert_sorted k l : Sorted (fun a b => String.leb a b = true) l -> Sorted (fun a b => String.leb a b = true) (insert_name k l).
Proof.
  induction l as [|a l IH]; cbn; intros Hs; [repeat constructor|]. destruct (String.leb k a) eqn:E; [constructor; [exact Hs|constructor; exact E]|].
  inversion Hs as [|? ? Hs' Hd]; subst. constructor; [apply IH, Hs'|].
  assert (Q : String.leb a k = true) by (destruct (String.leb_total a k) as [?|?]; [assumption|congruence]).
  destruct l as [|b l]; cbn; [constructor; exact Q|]. destruct (String.leb k b); constructor; [exact Q|]. inversion Hd; assumption.
Qed.
Lemma joined_spec a b : NoDup (joined_names a b) /\ Sorted (fun a b => String.leb a b = true) (joined_names a b) /\
  forall k, In k (joined_names a b) <-> In k a \/ In k b.
Proof.
  unfold joined_names. assert (K : forall k, In k (nodup string_dec (a ++ b)%list) <-> In k a \/ In k b)
    by (intros k; rewrite nodup_In, in_app_iff; reflexivity).
  assert (ND := NoDup_nodup string_dec (a ++ b)%list). revert K ND. generalize (nodup string_dec (a ++ b)%list). intros l K ND.
  assert (Q : NoDup (fold_right insert_name [] l) /\ Sorted (fun a b => String.leb a b = true) (fold_right insert_name [] l) /\
    forall k, In k (fold_right insert_name [] l) <-> In k l).
  { clear K. induction l as [|x l IH]; cbn; [repeat split; auto using NoDup_nil, Sorted_nil|]. inversion ND as [|? ? N1 N2]; subst.
    destruct (IH N2) as (I1 & I2 & I3). split; [apply insert_nodup; [rewrite I3; exact N1|exact I1]|]. split; [apply insert_sorted, I2|].
    intros k. rewrite insert_in, I3. intuition auto. }
  destruct Q as (Q1 & Q2 & Q3). split; [exact Q1|]. split; [exact Q2|]. intros k. rewrite Q3. apply K.
Qed.

Section Tables.
  Context {T : Type} {N : Num T}.

  Lemma quotients_some (dp : T) a b : differs dp a b (quotients dp (Some a) (Some b)).
  Proof using. intros []; reflexivity. Qed.
  Lemma subtract_difference (dp : T) nv pv : difference dp nv pv (subtract_tables dp nv pv).
  Proof using.
    unfold difference, subtract_tables. destruct (list_eq_dec string_dec (map fst pv) (map fst nv)) as [E|E]; split; intros H; try contradiction.
    - clear H. revert pv E. induction nv as [|[n a] nv IH]; intros pv E.
      + split; [destruct pv; reflexivity|]. intros [|i] ? ? ? H; discriminate.
      + destruct pv as [|[p b] pv]; [discriminate|]. cbn in E. injection E as -> E. destruct (IH pv E) as [I1 I2]. split.
        * cbn. f_equal. exact I1.
        * intros [|i] m x y Hx Hy; cbn in Hx, Hy.
          -- injection Hx as <- <-. injection Hy as <-. eexists. split; [reflexivity|]. apply quotients_some.
          -- exact (I2 i m x y Hx Hy).
    - destruct (joined_spec (map fst pv) (map fst nv)) as (J1 & J2 & J3).
      rewrite map_map. cbn [fst]. rewrite map_id. split; [exact J1|]. split; [exact J2|]. split; [intros k; rewrite J3; tauto|].
      intros k c I. apply in_map_iff in I. destruct I as (k' & K & _). injection K as -> <-.
      destruct (dget nv k) as [a|], (dget pv k) as [b|]; [apply quotients_some|intros []; reflexivity|intros []; reflexivity|intros []; reflexivity].
  Qed.

  Lemma labels_length (t : ntable T) : length (row_labels t) = 3 * length t.
  Proof using. clear. induction t as [|r t IH]; [reflexivity|]. cbn [row_labels flat_map] in *. rewrite app_length. unfold row_labels in IH. rewrite IH. cbn [length]. lia. Qed.
  Lemma values_length (t : ntable T) : length (row_values t) = 3 * length t.
  Proof using. clear. induction t as [|r t IH]; [reflexivity|]. cbn [row_values flat_map] in *. rewrite app_length. unfold row_values in IH. rewrite IH. cbn [length]. lia. Qed.
  Lemma labels_nth (t : ntable T) i n f : nth_error (map fst t) i = Some n -> nth (3 * i + place f) (row_labels t) "" = (n ++ "_" ++ figure_name f)%string.
  Proof using.
    clear. revert i. induction t as [|[m c] t IH]; intros [|i]; cbn [map nth_error fst]; try discriminate.
    - intros H. injection H as ->. destruct f; reflexivity.
    - intros H. replace (3 * S i + place f) with (S (S (S (3 * i + place f)))) by lia. unfold row_labels in *. cbn [flat_map app nth]. exact (IH i H).
  Qed.
  Lemma values_nth (t : ntable T) i r f : nth_error t i = Some r -> nth (3 * i + place f) (row_values t) None = pick f (snd r).
  Proof using.
    clear. revert i. induction t as [|[m c] t IH]; intros [|i]; cbn [nth_error]; try discriminate.
    - intros H. injection H as <-. destruct f; reflexivity.
    - intros H. replace (3 * S i + place f) with (S (S (S (3 * i + place f)))) by lia. unfold row_values in *. cbn [flat_map app nth]. exact (IH i H).
  Qed.

  Lemma volmass_csv_spec (s : dict (ntable T)) q last :
    (Forall (fun kt => length (snd kt) = length last) s ->
       exists c, volmass_csv (s ++ [(q, last)])%list = Ok c /\ arranged (s ++ [(q, last)])%list (map fst last) c) /\
    (~ Forall (fun kt => length (snd kt) = length last) s -> volmass_csv (s ++ [(q, last)])%list = Raise ValueError).
  Proof using.
    unfold volmass_csv. rewrite rev_app_distr. cbn [rev app].
    set (s' := (s ++ [(q, last)])%list).
    set (test := forallb _ s').
    assert (Q : test = true <-> Forall (fun kt => length (snd kt) = length last) s).
    { unfold test. rewrite forallb_forall, Forall_forall. split.
      - intros H kt I. specialize (H kt (in_or_app _ _ _ (or_introl I))). apply Nat.eqb_eq in H. rewrite values_length, labels_length in H. exact (proj1 (Nat.mul_cancel_l _ _ 3 (Nat.neq_succ_0 2)) H).
      - intros H kt I. apply in_app_or in I. apply Nat.eqb_eq. rewrite values_length, labels_length. destruct I as [I|[<-|[]]]; [exact (f_equal (Nat.mul 3) (H _ I))|reflexivity]. }
    split.
    - intros F. rewrite (proj2 Q F). eexists. split; [reflexivity|].
      eexists. split; [reflexivity|]. split; [rewrite map_length, seq_length, labels_length, map_length; reflexivity|].
      intros i n f Hn. assert (Li : i < length last) by (rewrite <- (map_length fst last); apply nth_error_Some; congruence).
      assert (Pf : place f < 3) by (destruct f; cbn; lia).
      eexists. split.
      + rewrite nth_error_map, (nth_error_nth' _ 0) by (rewrite seq_length, labels_length; lia).
        rewrite seq_nth by (rewrite labels_length; lia). cbn [option_map plus]. rewrite (labels_nth _ _ _ _ Hn). reflexivity.
      + assert (G : Forall (fun kt => length (snd kt) = length last) s').
        { unfold s'. apply Forall_app. split; [exact F|]. constructor; [reflexivity|constructor]. }
        clear -G Li. induction G as [|kt l H _ IH]; [constructor|]. constructor; [|exact IH].
        destruct (nth_error (snd kt) i) as [[m r]|] eqn:E; [|apply nth_error_None in E; exfalso; apply (Nat.lt_irrefl i); eapply Nat.lt_le_trans; [exact Li|rewrite <- H; exact E]]. exists m, r. split; [reflexivity|].
        exact (values_nth _ _ _ f E).
    - intros NF. destruct test; [|reflexivity]. destruct NF. apply Q. reflexivity.
  Qed.
End Tables.
