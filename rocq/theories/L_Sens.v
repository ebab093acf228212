(** Lemmas about the sensitivity study. *)
From Coq Require Import String Reals Lra List Lia Bool Arith ZArith Sorted.
From Verif Require Import Num NumR Py M_Vector SpecR3 M_Path M_Surface M_Mesh M_VecHeap M_Sens SpecSens L_Vector.
Import ListNotations.
Local Open Scope R_scope.

(** ** vertices *)
Lemma vertices_length (m : list (tri R)) : length (vertices m) = (3 * length m)%nat.
Proof. induction m as [|t m IH]; [reflexivity|]. unfold vertices in *. cbn [flat_map]. rewrite app_length, IH. cbn [length]. lia. Qed.
Lemma vertices_nth (m : list (tri R)) i : (i < 3 * length m)%nat -> nth_error (vertices m) i = Some (corner_of m i).
Proof.
  revert i. induction m as [|t m IH]; intros i Hi; [cbn in Hi; lia|].
  unfold vertices in *. cbn [flat_map].
  destruct i as [|[|[|i]]]; try reflexivity.
  change (S (S (S i))) with (3 + i)%nat. cbn [app nth_error plus].
  rewrite IH by (cbn in Hi; lia). f_equal. unfold corner_of.
  change (S (S (S i))) with (3 + i)%nat.
  replace (3 + i)%nat with (i + 1 * 3)%nat by lia.
  rewrite Nat.div_add, Nat.mod_add by lia. rewrite Nat.add_1_r. reflexivity.
Qed.

Definition diff_at (m1 m2 : list (tri R)) (i : nat) : pt := diff (corner_of m2 i) (corner_of m1 i).

Lemma combine_nth_error {A B} (l : list A) (l' : list B) i a b :
  nth_error l i = Some a -> nth_error l' i = Some b -> nth_error (combine l l') i = Some (a, b).
Proof.
  revert l' i. induction l as [|x l IH]; intros [|y l'] [|i]; cbn; try discriminate.
  - intros [= ->] [= ->]. reflexivity.
  - apply IH.
Qed.

Lemma map_nth_seq {A} (l : list A) (f : nat -> A) n : length l = n -> (forall i, (i < n)%nat -> nth_error l i = Some (f i)) ->
  l = map f (seq 0 n).
Proof.
  intros L H. apply nth_ext with (d := f 0%nat) (d' := f 0%nat); [rewrite map_length, seq_length; exact L|].
  intros i Hi. rewrite map_nth. rewrite seq_nth by lia. cbn.
  rewrite L in Hi. apply nth_error_nth, H, Hi.
Qed.

Lemma vertices_map (m : list (tri R)) : vertices m = map (corner_of m) (seq 0 (3 * length m)).
Proof. apply map_nth_seq; [apply vertices_length|]. intros. apply vertices_nth. assumption. Qed.
Lemma combine_map {A B C} (f : A -> B) (g : A -> C) l : combine (map f l) (map g l) = map (fun x => (f x, g x)) l.
Proof. induction l; cbn; congruence. Qed.
Lemma combine_id {A B} (g : A -> B) l : combine l (map g l) = map (fun x => (x, g x)) l.
Proof. induction l; cbn; congruence. Qed.

Lemma mesh_diff_ok (m1 m2 : list (tri R)) : length m1 = length m2 ->
  mesh_diff m1 m2 = Ok (map (diff_at m1 m2) (seq 0 (3 * length m1))).
Proof.
  intros L. unfold mesh_diff. rewrite L, Nat.eqb_refl. f_equal.
  rewrite (vertices_map m1), (vertices_map m2), L, combine_map, map_map. reflexivity.
Qed.
Lemma repeat_corner (t : tri R) (m1 : list (tri R)) i : (i < 3 * length m1)%nat ->
  corner_of (map (fun _ => t) m1) i = corner_of [t] (i mod 3).
Proof.
  intros Hi. unfold corner_of. rewrite nth_error_map.
  assert (i / 3 < length m1)%nat by (apply Nat.div_lt_upper_bound; lia).
  destruct (nth_error m1 (i / 3)) eqn:E; [|apply nth_error_None in E; lia].
  pose proof (Nat.mod_upper_bound i 3 ltac:(lia)).
  rewrite Nat.div_small, Nat.mod_mod by lia. reflexivity.
Qed.

Definition row_at (m1 m2 : list (tri R)) (dp : R) (i : nat) : row R :=
  mkRow i (corner_of m1 i) (diff_at m1 m2 i) (nrm (diff_at m1 m2 i)) (scaled (/ dp) (diff_at m1 m2 i)).
Lemma make_row_at m1 m2 dp i : make_row dp i (corner_of m1 i) (diff_at m1 m2 i) = row_at m1 m2 dp i.
Proof.
  unfold make_row, row_at. f_equal. unfold scaled. cbn. unfold Rdiv. apply vec_ext; cbn; ring.
Qed.

Lemma compare_ok m1 m2 dp : length m1 = length m2 ->
  compare_meshes m1 m2 dp = Ok (dedup [] (map (row_at m1 m2 dp) (seq 0 (3 * length m1)))).
Proof.
  intros L. unfold compare_meshes. rewrite (mesh_diff_ok _ _ L). cbn [bind]. do 2 f_equal.
  unfold rows_of. rewrite vertices_length, vertices_map, combine_map, combine_id, map_map.
  apply map_ext. intros i. apply make_row_at.
Qed.

(** ** removal of duplicates *)
Lemma veqb_R (a b : pt) : veqb a b = true <-> a = b.
Proof.
  unfold veqb. cbn. rewrite !andb_true_iff, !Reqb_true. destruct a, b; cbn. split; [intros [[-> ->] ->]; reflexivity|].
  intros [= -> -> ->]. auto.
Qed.
Lemma row_eqb_R m1 m2 dp i j : row_eqb (row_at m1 m2 dp i) (row_at m1 m2 dp j) = true <->
  corner_of m1 i = corner_of m1 j /\ corner_of m2 i = corner_of m2 j.
Proof.
  unfold row_eqb, row_at; cbn [r_loc r_delta r_mag r_sens]. rewrite !andb_true_iff, !veqb_R. cbn. rewrite Reqb_true.
  unfold diff_at, diff. split.
  - intros [[[A B] _] _]. split; [exact A|]. injection B as B1 B2 B3. rewrite A in *.
    apply vec_ext; lra.
  - intros [A B]. rewrite A, B. auto.
Qed.

Section Dedup.
  Context {T : Type} {N : Num T}.
  Lemma dedup_In (l : list (row T)) : forall seen r, In r (dedup seen l) <->
    exists i, nth_error l i = Some r /\ existsb (row_eqb r) (seen ++ firstn i l) = false.
  Proof.
    induction l as [|a l IH]; intros seen r; cbn [dedup].
    - split; [intros []|]. intros ([|i] & H & _); discriminate.
    - assert (G : (exists i, nth_error (a :: l) i = Some r /\ existsb (row_eqb r) (seen ++ firstn i (a :: l)) = false) <->
        (a = r /\ existsb (row_eqb r) seen = false) \/ In r (dedup (seen ++ [a]) l)).
      { rewrite IH. split.
        - intros ([|i] & H & K); cbn in H, K.
          + injection H as ->. rewrite app_nil_r in K. auto.
          + right. exists i. split; [exact H|]. rewrite <- app_assoc. exact K.
        - intros [[-> K]|(i & H & K)].
          + exists 0%nat. cbn. rewrite app_nil_r. auto.
          + exists (S i). split; [exact H|]. rewrite <- app_assoc in K. exact K. }
      rewrite G. destruct (existsb (row_eqb a) seen) eqn:E; cbn [In]; intuition (subst; congruence).
  Qed.
  Lemma dedup_incl (l : list (row T)) : forall seen r, In r (dedup seen l) -> In r l.
  Proof. intros seen r H. apply dedup_In in H. destruct H as (i & H & _). apply nth_error_In in H. exact H. Qed.
  Lemma dedup_sorted (l : list (row T)) : forall seen, StronglySorted lt (map r_index l) -> StronglySorted lt (map r_index (dedup seen l)).
  Proof.
    induction l as [|a l IH]; intros seen H; [constructor|]. cbn in H. inversion H; subst. cbn [dedup].
    destruct (existsb (row_eqb a) seen); [apply IH; assumption|]. cbn. constructor; [apply IH; assumption|].
    rewrite Forall_forall in *. intros x Hx. apply in_map_iff in Hx. destruct Hx as (r & <- & Hr).
    apply H3. apply in_map. eapply dedup_incl; exact Hr.
  Qed.
End Dedup.

Lemma seq_sorted n : forall a, StronglySorted lt (seq a n).
Proof. induction n; intros a; cbn; constructor; [apply IHn|]. apply Forall_forall. intros x Hx. apply in_seq in Hx. lia. Qed.
Lemma firstn_seq a n i : (i <= n)%nat -> firstn i (seq a n) = seq a i.
Proof.
  revert a n. induction i; intros a [|n] H; try reflexivity; try lia. cbn. f_equal. apply IHi. lia.
Qed.

Lemma kept m1 m2 dp r : length m1 = length m2 ->
  In r (dedup [] (map (row_at m1 m2 dp) (seq 0 (3 * length m1)))) <->
  exists i, (i < 3 * length m1)%nat /\ r = row_at m1 m2 dp i /\ ~ repeats m1 m2 i.
Proof.
  intros L. rewrite dedup_In. cbn [app]. split.
  - intros (i & H & K). rewrite nth_error_map in H.
    destruct (nth_error (seq 0 (3 * length m1)) i) as [j|] eqn:E; [|discriminate]. cbn in H. injection H as <-.
    assert (Hi : (i < 3 * length m1)%nat) by (rewrite <- (seq_length (3 * length m1) 0); apply nth_error_Some; congruence).
    assert (j = i). { apply nth_error_nth with (d := 0%nat) in E. rewrite seq_nth in E by exact Hi. cbn in E. congruence. }
    subst j. exists i. split; [exact Hi|]. split; [reflexivity|]. intros (j & Hj & A & B).
    rewrite firstn_map, firstn_seq in K by lia.
    assert (Q : existsb (row_eqb (row_at m1 m2 dp i)) (map (row_at m1 m2 dp) (seq 0 i)) = true).
    { apply existsb_exists. exists (row_at m1 m2 dp j). split; [apply in_map, in_seq; lia|]. apply row_eqb_R. auto. }
    congruence.
  - intros (i & Hi & -> & K). exists i. split.
    + rewrite nth_error_map. replace (nth_error (seq 0 (3 * length m1)) i) with (Some i); [reflexivity|].
      symmetry. rewrite (nth_error_nth' _ 0%nat) by (rewrite seq_length; exact Hi). rewrite seq_nth by exact Hi. reflexivity.
    + rewrite firstn_map, firstn_seq by lia. destruct (existsb _ _) eqn:E; [|reflexivity]. exfalso. apply K.
      apply existsb_exists in E. destruct E as (s & Hs & E). apply in_map_iff in Hs. destruct Hs as (j & <- & Hj).
      apply in_seq in Hj. apply row_eqb_R in E. exists j. split; [lia|]. destruct E; split; congruence.
Qed.

(** the first corner equal to corner i in both meshes *)
Lemma first_repeat m1 m2 i : exists j, (j <= i)%nat /\ corner_of m1 j = corner_of m1 i /\ corner_of m2 j = corner_of m2 i /\
  ~ repeats m1 m2 j.
Proof.
  induction i as [i IH] using (well_founded_induction lt_wf).
  assert (D : repeats m1 m2 i \/ ~ repeats m1 m2 i) by (apply Classical_Prop.classic).
  destruct D as [(j & Hj & A & B)|D].
  - destruct (IH j Hj) as (k & Hk & C & E & F). exists k. split; [lia|]. split; [congruence|]. split; [congruence|exact F].
  - exists i. auto.
Qed.

(** ** joining tables by index *)
Section Join.
  Context {T : Type} {N : Num T}.
  Lemma find_row_some (l : list (row T)) i r : find_row l i = Some r -> In r l /\ r_index r = i.
  Proof. unfold find_row. intros H. apply find_some in H. destruct H as [H K]. apply Nat.eqb_eq in K. auto. Qed.
  Lemma find_row_none (l : list (row T)) i : find_row l i = None <-> ~ In i (map r_index l).
  Proof.
    unfold find_row. split.
    - intros H Hi. apply in_map_iff in Hi. destruct Hi as (r & <- & Hr). apply find_none with (x := r) in H; [|exact Hr].
      rewrite Nat.eqb_refl in H. discriminate.
    - intros H. destruct (find _ l) as [r|] eqn:E; [|reflexivity]. apply find_some in E. destruct E as [E1 E2].
      apply Nat.eqb_eq in E2. subst. exfalso. apply H, in_map, E1.
  Qed.
  Lemma find_row_in (l : list (row T)) r : NoDup (map r_index l) -> In r l -> find_row l (r_index r) = Some r.
  Proof.
    unfold find_row. induction l as [|a l IH]; intros N0 H; [destruct H|]. destruct H as [->|H]; cbn.
    - rewrite Nat.eqb_refl. reflexivity.
    - cbn in N0. inversion N0; subst. destruct (Nat.eqb_spec (r_index a) (r_index r)) as [E|E]; [|apply IH; assumption].
      exfalso. apply H2. rewrite E. apply in_map, H.
  Qed.
  Lemma has_index_iff (l : list (crow T)) i : has_index l i = true <-> In i (map c_index l).
  Proof.
    unfold has_index. rewrite existsb_exists, in_map_iff. split; intros (r & A & B).
    - apply Nat.eqb_eq in B. eauto.
    - exists r. split; [exact B|]. apply Nat.eqb_eq, A.
  Qed.

  Definition joined (first : list (row T)) (ps : list (list (row T))) (l : list (crow T)) : Prop :=
    NoDup (map c_index l) /\
    (forall i, In i (map c_index l) <-> In i (map r_index first) \/ exists p, In p ps /\ In i (map r_index p)) /\
    (forall r, In r l -> c_loc r = option_map r_loc (find_row first (c_index r)) /\
       c_sens r = map (fun p => option_map r_sens (find_row p (c_index r))) ps).

  Lemma join_joined first ps l p : NoDup (map r_index p) -> joined first ps l -> joined first (ps ++ [p]) (join (length ps) l p).
  Proof.
    intros Np (A & B & C). unfold join.
    set (l1 := map _ l). set (p1 := filter _ p). set (l2 := map _ p1).
    assert (I1 : map c_index l1 = map c_index l) by (unfold l1; rewrite map_map; reflexivity).
    assert (I2 : map c_index l2 = map r_index p1) by (unfold l2; rewrite map_map; reflexivity).
    assert (P1 : forall i, In i (map r_index p1) <-> In i (map r_index p) /\ ~ In i (map c_index l)).
    { intros i. unfold p1. rewrite !in_map_iff. split.
      - intros (r & <- & Hr). apply filter_In in Hr. destruct Hr as [Hr K]. split; [eauto|].
        rewrite <- in_map_iff, <- has_index_iff. destruct (has_index l (r_index r)); discriminate.
      - intros [(r & <- & Hr) K]. exists r. split; [reflexivity|]. apply filter_In. split; [exact Hr|].
        rewrite <- in_map_iff, <- has_index_iff in K. destruct (has_index l (r_index r)); [exfalso; auto|reflexivity]. }
    split; [|split].
    - rewrite map_app, I1, I2.
      assert (N1 : NoDup (map r_index p1)).
      { unfold p1. clear -Np. induction p as [|a p IH]; [constructor|]. cbn in *. inversion Np; subst.
        destruct (negb _); [|auto]. cbn. constructor; [|auto]. intros H. apply H1.
        apply in_map_iff in H. destruct H as (r & E & H). apply filter_In in H. rewrite <- E. apply in_map, H. }
      assert (G : forall a b : list nat, NoDup a -> NoDup b -> (forall x, In x b -> ~ In x a) -> NoDup (a ++ b)).
      { intros a b Na Nb D. induction a as [|x a IH]; [exact Nb|]. inversion Na; subst. cbn. constructor.
        - rewrite in_app_iff. intros [H|H]; [auto|]. apply (D x H). cbn. auto.
        - apply IH; [assumption|]. intros y Hy K. apply (D y Hy). cbn. auto. }
      apply G; [exact A|exact N1|]. intros x Hx. apply P1 in Hx. tauto.
    - intros i. rewrite map_app, in_app_iff, I1, I2, P1, B. split.
      + intros [[H|(q & Hq & H)]|[H K]]; [auto| |].
        * right. exists q. rewrite in_app_iff. auto.
        * right. exists p. rewrite in_app_iff. cbn. auto.
      + intros [H|(q & Hq & H)]; [auto|]. apply in_app_iff in Hq. destruct Hq as [Hq|[<- |[]]]; [eauto|].
        destruct (has_index l i) eqn:E; [apply has_index_iff, B in E; tauto|].
        right. split; [exact H|]. intros Q. rewrite <- B in Q. apply has_index_iff in Q. congruence.
    - intros r Hr. apply in_app_iff in Hr. destruct Hr as [Hr|Hr].
      + unfold l1 in Hr. apply in_map_iff in Hr. destruct Hr as (s & <- & Hs). cbn [c_index c_loc c_sens].
        destruct (C s Hs) as [C1 C2]. split; [exact C1|]. rewrite map_app, C2. reflexivity.
      + unfold l2 in Hr. apply in_map_iff in Hr. destruct Hr as (s & <- & Hs). cbn [c_index c_loc c_sens].
        assert (Hs' : In (r_index s) (map r_index p1)) by (apply in_map, Hs). apply P1 in Hs'. destruct Hs' as [_ K].
        assert (Hp : In s p) by (unfold p1 in Hs; apply filter_In in Hs; tauto).
        assert (K1 : ~ In (r_index s) (map r_index first)) by (intros Q; apply K, B; auto).
        assert (K2 : forall q, In q ps -> ~ In (r_index s) (map r_index q)) by (intros q Hq Q; apply K, B; eauto).
        split; [apply find_row_none in K1; rewrite K1; reflexivity|].
        rewrite map_app. f_equal.
        * clear -K2. induction ps as [|q ps IH]; [reflexivity|]. cbn. rewrite <- IH by (intros; apply K2; cbn; auto).
          assert (Q : find_row q (r_index s) = None) by (apply find_row_none, K2; cbn; auto). rewrite Q. reflexivity.
        * cbn. rewrite (find_row_in _ _ Np Hp). reflexivity.
  Qed.
  Lemma join_all_joined first qs : forall ps l, Forall (fun p => NoDup (map r_index p)) qs -> joined first ps l ->
    joined first (ps ++ qs) (join_all (length ps) l qs).
  Proof.
    induction qs as [|q qs IH]; intros ps l F J; cbn [join_all]; [rewrite app_nil_r; exact J|].
    inversion F; subst. replace (S (length ps)) with (length (ps ++ [q])) by (rewrite app_length; cbn; lia).
    change (q :: qs) with ([q] ++ qs). rewrite app_assoc. apply IH; [assumption|]. apply join_joined; assumption.
  Qed.
  Lemma combine_joined first ps : NoDup (map r_index first) -> Forall (fun p => NoDup (map r_index p)) ps ->
    joined first ps (combine_tables first ps).
  Proof.
    intros Nf F. unfold combine_tables. apply (join_all_joined first ps []); [exact F|].
    split; [rewrite map_map; exact Nf|]. split.
    - intros i. rewrite map_map. cbn. split; [auto|]. intros [H|(p & [] & _)]. exact H.
    - intros r Hr. apply in_map_iff in Hr. destruct Hr as (s & <- & Hs). cbn [c_index c_loc c_sens map].
      rewrite (find_row_in _ _ Nf Hs). auto.
  Qed.

  (* with equal indices nothing is appended *)
  Lemma join_order width l (p : list (row T)) : map r_index p = map c_index l -> map c_index (join width l p) = map c_index l.
  Proof.
    intros E. unfold join. rewrite map_app, !map_map. cbn [c_index].
    replace (filter _ p) with (@nil (row T)); [cbn; apply app_nil_r|].
    assert (H : forall r, In r p -> has_index l (r_index r) = true) by (intros r Hr; apply has_index_iff; rewrite <- E; apply in_map, Hr).
    clear E. induction p as [|a p IH]; [reflexivity|]. cbn. rewrite H by (cbn; auto). cbn. apply IH. intros; apply H; cbn; auto.
  Qed.
  Lemma join_all_order ps : forall width (l : list (crow T)), (forall p, In p ps -> map r_index p = map c_index l) ->
    map c_index (join_all width l ps) = map c_index l.
  Proof.
    induction ps as [|p ps IH]; intros width l H; cbn [join_all]; [reflexivity|].
    assert (E : map c_index (join width l p) = map c_index l) by (apply join_order, H; cbn; auto).
    rewrite IH; [exact E|]. intros q Hq. rewrite E. apply H. cbn. auto.
  Qed.
  Lemma combine_order first ps : (forall p, In p ps -> map r_index p = map (r_index (T := T)) first) ->
    map c_index (combine_tables first ps) = map r_index first.
  Proof. intros H. unfold combine_tables. rewrite join_all_order; rewrite map_map; [reflexivity|exact H]. Qed.
End Join.
