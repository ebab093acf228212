(** stl_repair. *)
From Coq Require Import Reals Lra ZArith String List Permutation Lia Bool Sorted.
From Verif Require Import Num NumR Py M_Vector SpecR3 M_Path M_Surface M_Mesh M_Stl
  SpecMesh SpecStl L_Vector L_Spline L_Edges L_Volume L_Stl.
Import ListNotations.
Local Open Scope R_scope.

(** ** find_groups *)
Section Groups.
  Variables (col : list R) (idx : list nat) (small : R).
  Hypothesis SI : sorts col idx.
  Notation n := (length col).
  Definition wv (k : nat) : R := nth (nth k idx 0%nat) col 0.
  Definition blk (b : nat * nat) : list nat := map (fun k => nth k idx 0%nat) (seq (fst b) (snd b - fst b)).
  Definition good (b : nat * nat) : Prop :=
    (fst b = snd b \/ fst b + 2 <= snd b)%nat /\ forall k, (fst b <= k < snd b)%nat -> wv k - wv (fst b) < small.
  Definition before (x y : nat * nat) : Prop := (snd x <= fst y)%nat.
  Definition together (bl : list (nat * nat)) (k : nat) : Prop :=
    exists b, In b bl /\ (fst b <= k /\ k + 1 < snd b)%nat.

  Definition step0 (s : gstate) (i : nat) : gstate (T := R) :=
    let x0 := if g_count s then g_x0 s else wv i in
    if Rltb (Rabs (wv (i + 1) - x0)) small then
      if g_count s then mkG (g_groups s) (g_li s ++ [nth (i + 1) idx 0%nat]) true x0
      else mkG (g_groups s) (g_li s ++ [nth i idx 0%nat; nth (i + 1) idx 0%nat]) true x0
    else mkG (g_groups s ++ [g_li s]) [] false x0.
  Lemma group_step0 s i : group_step col idx small s i =
    let s1 := step0 s i in
    if Nat.eqb i (n - 2) && g_count s1 then mkG (g_groups s1 ++ [g_li s1]) (g_li s1) (g_count s1) (g_x0 s1) else s1.
  Proof. reflexivity. Qed.

  Definition Inv (i : nat) (s : gstate (T := R)) : Prop :=
    exists bl a, g_groups s = map blk bl /\ Forall good bl /\ StronglySorted before bl /\
      Forall (fun b => snd b <= a)%nat bl /\
      (g_count s = false -> g_li s = [] /\ a = i) /\
      (g_count s = true -> (a < i)%nat /\ g_li s = blk (a, S i) /\ g_x0 s = wv a /\ good (a, S i)) /\
      (forall k, (k < i)%nat -> wv k = wv (S k) -> together bl k \/ (g_count s = true /\ a <= k)%nat).

  Lemma SSorted_snoc (bl : list (nat * nat)) b : StronglySorted before bl -> Forall (fun x => before x b) bl ->
    StronglySorted before (bl ++ [b]).
  Proof.
    induction 1 as [|x bl H IH F]; intros G; cbn; [repeat constructor|].
    inversion G; subst. constructor; [auto|]. apply Forall_app. auto.
  Qed.
  Lemma blk_snoc a b : (a <= b)%nat -> blk (a, S b) = blk (a, b) ++ [nth b idx 0%nat].
  Proof.
    intros H. unfold blk. cbn [fst snd]. replace (S b - a)%nat with ((b - a) + 1)%nat by lia.
    rewrite seq_app, map_app. cbn. do 3 f_equal. lia.
  Qed.
  Lemma wv_mono i j : (i <= j < n)%nat -> wv i <= wv j.
  Proof. apply SI. Qed.
  Lemma together_app bl bl' k : together bl k -> together (bl ++ bl') k.
  Proof. intros (b & H & K). exists b. split; [apply in_or_app; auto|exact K]. Qed.

  Lemma step0_inv i s : 0 < small -> (S i < n)%nat -> Inv i s -> Inv (S i) (step0 s i).
  Proof using SI.
    intros SP Hi (bl & a & G & Go & So & Le & C0 & C1 & Ad). unfold step0.
    rewrite Nat.add_1_r. destruct (g_count s) eqn:C.
    - destruct (C1 eq_refl) as (A1 & A2 & A3 & A4). rewrite A3.
      destruct (Rltb (Rabs (wv (S i) - wv a)) small) eqn:L.
      + apply Rltb_true in L. exists bl, a. cbn [g_groups g_li g_count g_x0].
        repeat (split; [assumption|]). split; [discriminate|]. split.
        * intros _. split; [lia|]. split; [rewrite A2, (blk_snoc a (S i)) by lia; reflexivity|]. split; [reflexivity|].
          destruct A4 as [A4 A5]. split; [cbn in *; lia|]. intros k Hk. cbn [fst snd] in *.
          destruct (Nat.eq_dec k (S i)) as [->|]; [|apply A5; lia].
          apply Rabs_def2 in L. lra.
        * intros k Hk E. destruct (Nat.eq_dec k i) as [->|]; [right; split; [reflexivity|lia]|].
          destruct (Ad k) as [T|[_ T]]; [lia|exact E|auto|right; auto].
      + apply Rltb_false in L. exists (bl ++ [(a, S i)]), (S i). cbn [g_groups g_li g_count g_x0].
        split; [rewrite map_app, G, A2; reflexivity|]. split; [apply Forall_app; auto|].
        split; [apply SSorted_snoc; auto|]. split.
        { apply Forall_app. split; [|repeat constructor]. eapply Forall_impl; [|exact Le]. cbn. intros; lia. }
        split; [auto|]. split; [discriminate|].
        intros k Hk E. left. destruct (Nat.eq_dec k i) as [->|Nk].
        * exfalso. apply (Rle_not_lt _ _ L). rewrite <- E. destruct A4 as [_ A5]. specialize (A5 i). cbn [fst snd] in A5.
          pose proof (wv_mono a i ltac:(lia)). rewrite Rabs_right by lra. apply A5. lia.
        * destruct (Ad k) as [T|[_ T]]; [lia|exact E|apply together_app, T|].
          exists (a, S i). split; [apply in_or_app; right; left; reflexivity|]. cbn. lia.
    - destruct (C0 eq_refl) as (L0 & ->). rewrite L0.
      destruct (Rltb (Rabs (wv (S i) - wv i)) small) eqn:L.
      + apply Rltb_true in L. exists bl, i. cbn [g_groups g_li g_count g_x0].
        repeat (split; [assumption|]). split; [discriminate|]. split.
        * intros _. split; [lia|]. split.
          { rewrite (blk_snoc i (S i)), (blk_snoc i i) by lia. unfold blk. cbn [fst snd]. rewrite Nat.sub_diag. reflexivity. }
          split; [reflexivity|]. split; [cbn; lia|]. cbn [fst snd]. intros k Hk.
          assert (k = i \/ k = S i) as [-> | ->] by lia; [lra|]. apply Rabs_def2 in L. lra.
        * intros k Hk E. destruct (Nat.eq_dec k i) as [->|]; [right; split; [reflexivity|lia]|].
          destruct (Ad k) as [T|[T _]]; [lia|exact E|auto|discriminate].
      + apply Rltb_false in L. exists (bl ++ [(i, i)]), (S i). cbn [g_groups g_li g_count g_x0].
        split; [rewrite map_app, G; unfold blk at 3; cbn [fst snd]; cbn [map]; unfold blk; cbn [fst snd]; rewrite Nat.sub_diag; reflexivity|].
        split; [apply Forall_app; split; auto; repeat constructor; cbn; intros; lia|].
        split; [apply SSorted_snoc; auto|]. split.
        { apply Forall_app. split; [|repeat constructor; cbn; lia]. eapply Forall_impl; [|exact Le]. cbn. intros; lia. }
        split; [auto|]. split; [discriminate|].
        intros k Hk E. left. destruct (Nat.eq_dec k i) as [->|Nk].
        * exfalso. apply (Rle_not_lt _ _ L). rewrite <- E. replace (wv i - wv i) with 0 by ring. rewrite Rabs_R0. exact SP.
        * destruct (Ad k) as [T|[T _]]; [lia|exact E|apply together_app, T|discriminate].
  Qed.

  Lemma Inv0 : Inv 0 (mkG [] [] false 0).
  Proof.
    exists [], 0%nat. cbn. repeat split; auto; try discriminate; try constructor. intros; lia.
  Qed.
  Lemma fold_inv i : 0 < small -> (i <= n - 2)%nat -> (2 <= n)%nat ->
    Inv i (fold_left (group_step col idx small) (seq 0 i) (mkG [] [] false n0)).
  Proof using SI.
    intros SP. induction i as [|i IH]; intros Hi Hn; [apply Inv0|].
    rewrite seq_S, fold_left_app. cbn [fold_left Nat.add]. rewrite group_step0. cbn zeta.
    replace (Nat.eqb i (n - 2)) with false by (symmetry; apply Nat.eqb_neq; lia). cbn [andb].
    apply step0_inv; auto; [lia|]. apply IH; lia.
  Qed.

  Definition blocks_of (groups : list (list nat)) : Prop :=
    exists bl, groups = map blk bl /\ Forall good bl /\ StronglySorted before bl /\
      Forall (fun b => snd b <= n)%nat bl /\
      (forall k, (S k < n)%nat -> wv k = wv (S k) -> together bl k).
  Lemma find_groups_blocks : 0 < small -> blocks_of (find_groups col idx small).
  Proof using SI.
    intros SP. unfold find_groups. destruct (le_lt_dec n 1) as [Hn|Hn].
    - replace (n - 1)%nat with 0%nat by lia. cbn. exists []. repeat split; try constructor. intros; lia.
    - replace (n - 1)%nat with (S (n - 2)) by lia. rewrite seq_S, fold_left_app. cbn [fold_left Nat.add].
      set (s := fold_left _ _ _).
      assert (I : Inv (n - 2) s) by (apply fold_inv; auto; lia).
      apply step0_inv in I; [|auto|lia]. replace (S (n - 2)) with (n - 1)%nat in I by lia.
      rewrite group_step0. cbn zeta. rewrite Nat.eqb_refl. cbn [andb].
      set (s1 := step0 s (n - 2)) in *. clearbody s1.
      destruct I as (bl & a & G & Go & So & Le & C0 & C1 & Ad). destruct (g_count s1) eqn:C.
      + destruct (C1 eq_refl) as (A1 & A2 & A3 & A4). exists (bl ++ [(a, n)]). cbn [g_groups].
        replace (S (n - 1)) with n in * by lia.
        split; [rewrite map_app, G, A2; reflexivity|]. split; [apply Forall_app; auto|].
        split; [apply SSorted_snoc; auto|]. split.
        { apply Forall_app. split; [|repeat constructor]. eapply Forall_impl; [|exact Le]. cbn. intros; lia. }
        intros k Hk E. destruct (Ad k) as [T|[_ T]]; [lia|exact E|apply together_app, T|].
        exists (a, n). split; [apply in_or_app; right; left; reflexivity|]. cbn. lia.
      + destruct (C0 eq_refl) as (L0 & ->). exists bl. split; [exact G|]. split; [exact Go|]. split; [exact So|]. split.
        { eapply Forall_impl; [|exact Le]. cbn. intros; lia. }
        intros k Hk E. destruct (Ad k) as [T|[T _]]; [lia|exact E|exact T|discriminate].
  Qed.

  (** positions and indices *)
  Lemma idx_length : length idx = n.
  Proof using SI. destruct SI as [P _]. rewrite (Permutation_length P), seq_length. reflexivity. Qed.
  Lemma idx_NoDup : NoDup idx.
  Proof using SI. destruct SI as [P _]. eapply Permutation_NoDup; [symmetry; exact P|apply seq_NoDup]. Qed.
  Lemma idx_at v : (v < n)%nat -> exists k, (k < n)%nat /\ nth k idx 0%nat = v.
  Proof using SI.
    intros H. destruct SI as [P _].
    assert (I : In v idx) by (eapply Permutation_in; [symmetry; exact P|apply in_seq; lia]).
    destruct (In_nth _ _ 0%nat I) as (k & Hk & E). exists k. rewrite idx_length in Hk. auto.
  Qed.
  Lemma idx_inj j k : (j < n)%nat -> (k < n)%nat -> nth j idx 0%nat = nth k idx 0%nat -> j = k.
  Proof using SI.
    intros H K E. eapply (proj1 (NoDup_nth idx 0%nat)); eauto using idx_NoDup; rewrite idx_length; auto.
  Qed.
  Lemma idx_lt k : (k < n)%nat -> (nth k idx 0%nat < n)%nat.
  Proof using SI.
    intros H. destruct SI as [P _]. assert (I : In (nth k idx 0%nat) (seq 0 n)).
    { eapply Permutation_in; [exact P|]. apply nth_In. rewrite idx_length. exact H. }
    apply in_seq in I. lia.
  Qed.
  Lemma in_blk b v : In v (blk b) <-> exists k, (fst b <= k < snd b)%nat /\ nth k idx 0%nat = v.
  Proof.
    unfold blk. rewrite in_map_iff. split; intros (k & A & B); exists k.
    - apply in_seq in B. split; [lia|exact A].
    - split; [exact B|]. apply in_seq. lia.
  Qed.

  Definition disjoint (g h : list nat) : Prop := forall v, In v g -> ~ In v h.

  Record grouping (groups : list (list nat)) : Prop := {
    gr_disjoint : ForallOrdPairs disjoint groups;
    gr_close : forall g u v, In g groups -> In u g -> In v g -> Rabs (nth u col 0 - nth v col 0) < small;
    gr_two : forall g v, In g groups -> In v g -> exists u, In u g /\ u <> v;
    gr_equal : forall u v, (u < n)%nat -> (v < n)%nat -> u <> v -> nth u col 0 = nth v col 0 ->
      exists g, In g groups /\ In u g /\ In v g;
    gr_range : forall g v, In g groups -> In v g -> (v < n)%nat
  }.

  Lemma ordered_disjoint bl : StronglySorted before bl -> Forall (fun b => snd b <= n)%nat bl ->
    Forall good bl -> ForallOrdPairs disjoint (map blk bl).
  Proof using SI.
    induction 1 as [|x bl H IH F]; intros L G; cbn; constructor; inversion L; inversion G; subst; auto.
    apply Forall_forall. intros h Hh. apply in_map_iff in Hh as (y & <- & Hy).
    rewrite Forall_forall in F, H3. specialize (F y Hy). specialize (H3 y Hy). unfold before in F.
    intros v Hv K. apply in_blk in Hv as (k & Hk & E). apply in_blk in K as (j & Hj & E').
    assert (j = k) by (apply idx_inj; [lia|lia|congruence]). lia.
  Qed.
  Lemma together_chain bl : StronglySorted before bl -> Forall (fun b => snd b <= n)%nat bl ->
    forall d j, (forall k, (j <= k < j + S d)%nat -> together bl k) ->
    exists b, In b bl /\ (fst b <= j /\ j + S d < snd b)%nat.
  Proof.
    intros So Le. induction d as [|d IH]; intros j H.
    - destruct (H j) as (b & B1 & B2); [lia|]. exists b. split; [exact B1|lia].
    - destruct (IH j) as (b & B1 & B2); [intros; apply H; lia|].
      destruct (H (j + S d)%nat) as (c & D1 & D2); [lia|].
      assert (E : b = c).
      { clear -So B1 B2 D1 D2. induction So as [|x bl So IH F]; [destruct B1|].
        rewrite Forall_forall in F. destruct B1 as [->|B1], D1 as [->|D1]; auto.
        - specialize (F c D1). unfold before in F. lia.
        - specialize (F b B1). unfold before in F. lia. }
      subst c. exists b. split; [exact B1|lia].
  Qed.

  Lemma groups_ok : 0 < small -> grouping (find_groups col idx small).
  Proof using SI.
    intros SP. destruct (find_groups_blocks SP) as (bl & -> & Go & So & Le & Ad).
    assert (W : forall b v, In b bl -> In v (blk b) -> exists k, (fst b <= k < snd b)%nat /\ nth k idx 0%nat = v /\ (k < n)%nat
       /\ wv (fst b) <= nth v col 0 < wv (fst b) + small).
    { intros b v Hb Hv. apply in_blk in Hv as (k & Hk & <-). exists k. split; [exact Hk|]. split; [reflexivity|].
      rewrite Forall_forall in Le, Go. specialize (Le b Hb). destruct (Go b Hb) as [_ GG].
      split; [lia|]. split; [apply (wv_mono (fst b) k); lia|]. specialize (GG k Hk). unfold wv at 1 in GG. lra. }
    constructor.
    - apply ordered_disjoint; auto.
    - intros g u v Hg Hu Hv. apply in_map_iff in Hg as (b & <- & Hb).
      destruct (W b u Hb Hu) as (_ & _ & _ & _ & ?). destruct (W b v Hb Hv) as (_ & _ & _ & _ & ?).
      apply Rabs_def1; lra.
    - intros g v Hg Hv. apply in_map_iff in Hg as (b & <- & Hb).
      rewrite Forall_forall in Go, Le. destruct (Go b Hb) as [GG _]. specialize (Le b Hb).
      destruct (W b v Hb Hv) as (k & Hk & Ev & Kn & _).
      set (j := if Nat.eqb k (fst b) then S k else (k - 1)%nat).
      assert (Hj : (fst b <= j < snd b)%nat /\ j <> k).
      { unfold j. destruct (Nat.eqb_spec k (fst b)); lia. }
      destruct Hj as [Hj Nj]. exists (nth j idx 0%nat). split; [apply in_blk; eauto|].
      intros E. apply Nj. apply idx_inj; [lia|lia|congruence].
    - intros u v Hu Hv Ne E. destruct (idx_at u Hu) as (i & Hi & Ei). destruct (idx_at v Hv) as (j & Hj & Ej).
      assert (Nij : i <> j) by congruence.
      assert (WL : forall i j, (i < j)%nat -> (j < n)%nat -> wv i = wv j -> exists b, In b bl /\ (fst b <= i /\ j < snd b)%nat).
      { clear i j Hi Hj Ei Ej Nij. intros i j Hij Hj Ew.
        destruct (together_chain bl So Le (j - i - 1) i) as (b & B1 & B2).
        - intros k Hk. apply Ad; [lia|]. pose proof (wv_mono i k ltac:(lia)). pose proof (wv_mono k (S k) ltac:(lia)).
          pose proof (wv_mono (S k) j ltac:(lia)). lra.
        - exists b. split; [exact B1|lia]. }
      assert (Ew : wv i = wv j) by (unfold wv; rewrite Ei, Ej; exact E).
      destruct (Nat.lt_ge_cases i j) as [Hij|Hij].
      + destruct (WL i j Hij Hj Ew) as (b & B1 & B2). exists (blk b). split; [apply in_map; exact B1|].
        split; apply in_blk; [exists i|exists j]; split; auto; lia.
      + destruct (WL j i ltac:(lia) Hi (eq_sym Ew)) as (b & B1 & B2). exists (blk b). split; [apply in_map; exact B1|].
        split; apply in_blk; [exists i|exists j]; split; auto; lia.
    - intros g v Hg Hv. apply in_map_iff in Hg as (b & <- & Hb). destruct (W b v Hb Hv) as (k & Hk & <- & Kn & _).
      apply idx_lt, Kn.
  Qed.
End Groups.

(** ** merging *)
Lemma mem_In i l : mem i l = true <-> In i l.
Proof.
  unfold mem. rewrite existsb_exists. split.
  - intros (x & H & E). apply Nat.eqb_eq in E. subst. exact H.
  - intros H. exists i. split; [exact H|apply Nat.eqb_refl].
Qed.
Lemma combine_nth_seq {A} (vs : list A) d : forall a v, (v < length vs)%nat ->
  nth v (combine (seq a (length vs)) vs) (0%nat, d) = ((a + v)%nat, nth v vs d).
Proof.
  induction vs as [|x vs IH]; intros a v H; cbn in *; [lia|]. destruct v as [|v]; cbn; [f_equal; lia|].
  rewrite IH by lia. f_equal; lia.
Qed.
Definition dv : pt := V3 0 0 0.
Lemma merge_length (vs : list pt) c : length (merge vs c) = length vs.
Proof. unfold merge. destruct c; [reflexivity|]. rewrite map_length, combine_length, seq_length. lia. Qed.
Lemma merge_nth (vs : list pt) c v : (v < length vs)%nat ->
  nth v (merge vs c) dv = if mem v c then mean_vec vs c else nth v vs dv.
Proof.
  intros H. unfold merge. destruct c as [|i c]; [reflexivity|].
  set (cc := i :: c). set (m := mean_vec vs cc).
  rewrite (nth_indep _ dv ((fun iv : nat * pt => if mem (fst iv) cc then m else snd iv) (0%nat, dv)))
    by (rewrite map_length, combine_length, seq_length; lia).
  rewrite (map_nth (fun iv : nat * pt => if mem (fst iv) cc then m else snd iv)).
  rewrite combine_nth_seq by auto. cbn. reflexivity.
Qed.
Lemma mean_vec_ext (vs ws : list pt) c : (forall i, In i c -> nth i vs dv = nth i ws dv) -> mean_vec vs c = mean_vec ws c.
Proof.
  intros H. unfold mean_vec. 
  assert (E : forall f : pt -> R, map (fun i => f (nth i vs (V3 n0 n0 n0))) c = map (fun i => f (nth i ws (V3 n0 n0 n0))) c).
  { intros f. apply map_ext_in. intros i Hi. f_equal. apply (H i Hi). }
  rewrite !E. reflexivity.
Qed.

Lemma merge_fold (C : list (list nat)) : forall vs : list pt, ForallOrdPairs disjoint C ->
  (forall c i, In c C -> In i c -> (i < length vs)%nat) ->
  length (fold_left merge C vs) = length vs /\
  forall v, (v < length vs)%nat ->
    ((forall c, In c C -> ~ In v c) -> nth v (fold_left merge C vs) dv = nth v vs dv) /\
    (forall c, In c C -> In v c -> nth v (fold_left merge C vs) dv = mean_vec vs c).
Proof.
  induction C as [|c C IH]; intros vs D RG; cbn [fold_left].
  - split; [reflexivity|]. intros v Hv. split; [reflexivity|intros c []].
  - inversion D as [|x y Dc Dr]; subst. rewrite Forall_forall in Dc.
    destruct (IH (merge vs c) Dr) as [L M].
    { intros c' i Hc Hi. rewrite merge_length. apply (RG c'); cbn; auto. }
    rewrite merge_length in L. split; [exact L|]. intros v Hv.
    destruct (M v) as [M1 M2]; [rewrite merge_length; exact Hv|]. split.
    + intros H. rewrite M1 by (intros; apply H; right; auto). rewrite merge_nth by exact Hv.
      destruct (mem v c) eqn:E; [|reflexivity]. apply mem_In in E. exfalso. apply (H c); cbn; auto.
    + intros c' [<-|Hc] Hi.
      * rewrite M1; [|intros c'' Hc'' K; apply (Dc c'' Hc'' v Hi K)]. rewrite merge_nth by exact Hv.
        apply mem_In in Hi. rewrite Hi. reflexivity.
      * rewrite (M2 c' Hc Hi). apply mean_vec_ext. intros i Hic. rewrite merge_nth by (apply (RG c'); cbn; auto).
        destruct (mem i c) eqn:E; [|reflexivity]. apply mem_In in E. exfalso. apply (Dc c' Hc i E Hic).
Qed.

Definition commons (n : nat) (iix iiy iiz : list (list nat)) : list (list nat) :=
  flat_map (fun ix => flat_map (fun iy => map (common3 n ix iy) iiz) iiy) iix.
Lemma common3_In n ix iy iz i : In i (common3 n ix iy iz) <-> (i < n)%nat /\ In i ix /\ In i iy /\ In i iz.
Proof. unfold common3. rewrite filter_In, in_seq, !andb_true_iff, !mem_In. intuition lia. Qed.
Lemma fold_nil (C : list (list nat)) (vs : list pt) : (forall c, In c C -> c = []) -> fold_left merge C vs = vs.
Proof.
  revert vs. induction C as [|c C IH]; intros vs H; cbn; [reflexivity|].
  rewrite (H c) by (left; auto). cbn. apply IH. intros; apply H; right; auto.
Qed.
Lemma merge_all_flat iix iiy iiz : forall vs : list pt,
  merge_all iix iiy iiz vs = fold_left merge (commons (length vs) iix iiy iiz) vs.
Proof.
  assert (Z : forall iiz ix iy (vs : list pt), fold_left (fun vs iz => merge vs (common3 (length vs) ix iy iz)) iiz vs
     = fold_left merge (map (common3 (length vs) ix iy) iiz) vs).
  { clear. induction iiz as [|iz iiz IH]; intros ix iy vs; cbn [fold_left map]; [reflexivity|].
    rewrite IH, merge_length. reflexivity. }
  assert (FL : forall C (vs : list pt), length (fold_left merge C vs) = length vs).
  { induction C as [|c C IH]; intros vs; cbn [fold_left]; [reflexivity|]. rewrite IH. apply merge_length. }
  assert (Y : forall iiy ix (vs : list pt),
     fold_left (fun vs iy => match common2 (length vs) ix iy with
        | [] => vs | _ => fold_left (fun vs iz => merge vs (common3 (length vs) ix iy iz)) iiz vs end) iiy vs
     = fold_left merge (flat_map (fun iy => map (common3 (length vs) ix iy) iiz) iiy) vs).
  { clear iiy. induction iiy as [|iy iiy IH]; intros ix vs; cbn [fold_left flat_map]; [reflexivity|].
    rewrite fold_left_app, <- Z.
    assert (E : match common2 (length vs) ix iy with
        | [] => vs | _ => fold_left (fun vs iz => merge vs (common3 (length vs) ix iy iz)) iiz vs end
        = fold_left (fun vs iz => merge vs (common3 (length vs) ix iy iz)) iiz vs).
    { destruct (common2 (length vs) ix iy) as [|x l] eqn:E2; [|reflexivity].
      rewrite Z, fold_nil; auto. intros c Hc. apply in_map_iff in Hc as (iz & <- & _).
      destruct (common3 (length vs) ix iy iz) as [|i l] eqn:E3; [reflexivity|].
      assert (K : In i (common3 (length vs) ix iy iz)) by (rewrite E3; left; auto).
      apply common3_In in K as (K0 & K1 & K2 & _).
      assert (K' : In i (common2 (length vs) ix iy)).
      { unfold common2. apply filter_In. split; [apply in_seq; lia|]. rewrite andb_true_iff, !mem_In. auto. }
      rewrite E2 in K'. destruct K'. }
    rewrite E, IH. f_equal. apply flat_map_ext. intros iy'. rewrite Z, FL. reflexivity. }
  unfold merge_all, commons. induction iix as [|ix iix IH]; intros vs; cbn [fold_left flat_map]; [reflexivity|].
  rewrite Y, fold_left_app, IH, FL. reflexivity.
Qed.

Lemma FOP_app {A} (P : A -> A -> Prop) l k : ForallOrdPairs P l -> ForallOrdPairs P k ->
  (forall a b, In a l -> In b k -> P a b) -> ForallOrdPairs P (l ++ k).
Proof.
  induction 1 as [|a l F H IH]; intros K X; cbn; [exact K|]. constructor.
  - apply Forall_app. split; [exact F|]. apply Forall_forall. intros b Hb. apply X; [left; reflexivity|exact Hb].
  - apply IH; [exact K|]. intros u v Hu Hv. apply X; [right; exact Hu|exact Hv].
Qed.
Lemma FOP_flat {A} (gs : list (list nat)) (f : list nat -> list A) (P : A -> A -> Prop) (sub : list nat -> A -> Prop) :
  ForallOrdPairs disjoint gs -> (forall g, In g gs -> ForallOrdPairs P (f g)) ->
  (forall g a, In g gs -> In a (f g) -> sub g a) ->
  (forall g h a b, disjoint g h -> sub g a -> sub h b -> P a b) ->
  ForallOrdPairs P (flat_map f gs).
Proof.
  intros D. induction D as [|g gs F D IH]; intros H S X; cbn; [constructor|].
  apply FOP_app; [apply H; left; auto|apply IH; [intros h Hh; apply H; right; exact Hh|intros h a Hh; apply S; right; exact Hh|exact X]|].
  intros a b Ha Hb. apply in_flat_map in Hb as (h & Hh & Hb). rewrite Forall_forall in F.
  apply (X g h); [apply F, Hh|apply S; cbn; auto|apply S; cbn; auto].
Qed.
Definition subset (g c : list nat) : Prop := forall v, In v c -> In v g.
Lemma subset_disjoint g h a b : disjoint g h -> subset g a -> subset h b -> disjoint a b.
Proof. intros D A B v Ha Hb. apply (D v); auto. Qed.
Lemma flat_map_single {A B} (f : A -> B) l : flat_map (fun a => [f a]) l = map f l.
Proof. induction l; cbn; congruence. Qed.
Lemma commons_disjoint n iix iiy iiz : ForallOrdPairs disjoint iix -> ForallOrdPairs disjoint iiy ->
  ForallOrdPairs disjoint iiz -> ForallOrdPairs disjoint (commons n iix iiy iiz).
Proof.
  intros X Y Z. unfold commons. apply (FOP_flat iix _ disjoint subset X).
  - intros ix _. apply (FOP_flat iiy _ disjoint subset Y).
    + intros iy _. rewrite <- flat_map_single. apply (FOP_flat iiz _ disjoint subset Z).
      * intros iz _. repeat constructor.
      * intros iz c _ [<-|[]] v Hv. apply common3_In in Hv. tauto.
      * intros; eapply subset_disjoint; eauto.
    + intros iy c _ Hc v Hv. apply in_map_iff in Hc as (iz & <- & _). apply common3_In in Hv. tauto.
    + intros; eapply subset_disjoint; eauto.
  - intros ix c _ Hc v Hv. apply in_flat_map in Hc as (iy & _ & Hc). apply in_map_iff in Hc as (iz & <- & _).
    apply common3_In in Hv. tauto.
  - intros; eapply subset_disjoint; eauto.
Qed.
Lemma in_commons n iix iiy iiz c : In c (commons n iix iiy iiz) <->
  exists ix iy iz, In ix iix /\ In iy iiy /\ In iz iiz /\ c = common3 n ix iy iz.
Proof.
  unfold commons. rewrite in_flat_map. split.
  - intros (ix & Hx & H). apply in_flat_map in H as (iy & Hy & H). apply in_map_iff in H as (iz & <- & Hz). eauto 10.
  - intros (ix & iy & iz & Hx & Hy & Hz & ->). exists ix. split; [exact Hx|]. apply in_flat_map. exists iy. split; [exact Hy|].
    apply in_map. exact Hz.
Qed.

(** ** averages *)
Lemma sum_bound (l : list R) x d : (forall y, In y l -> Rabs (y - x) < d) -> l <> [] ->
  Rabs (fold_right Rplus 0 l - INR (length l) * x) < INR (length l) * d.
Proof.
  induction l as [|y l IH]; intros H Ne; [contradiction|].
  pose proof (H y (or_introl eq_refl)) as Hy. cbn [fold_right length]. rewrite S_INR.
  destruct l as [|z l].
  - cbn. replace (y + 0 - (0 + 1) * x) with (y - x) by ring. lra.
  - assert (I : Rabs (fold_right Rplus 0 (z :: l) - INR (length (z :: l)) * x) < INR (length (z :: l)) * d).
    { apply IH; [intros; apply H; right; auto|discriminate]. }
    apply Rabs_def2 in I. apply Rabs_def2 in Hy. apply Rabs_def1; lra.
Qed.
Lemma mean_bound (l : list R) x d : (forall y, In y l -> Rabs (y - x) < d) -> l <> [] ->
  Rabs (nsum (T := R) l / INR (length l) - x) < d.
Proof.
  intros H Ne. rewrite nsum_R. pose proof (sum_bound l x d H Ne) as B.
  assert (P : 0 < INR (length l)) by (apply lt_0_INR; destruct l; [contradiction|cbn; lia]).
  replace (fold_right Rplus 0 l / INR (length l) - x) with ((fold_right Rplus 0 l - INR (length l) * x) * / INR (length l)) by (field; lra).
  rewrite Rabs_mult, (Rabs_right (/ _)) by (apply Rle_ge, Rlt_le, Rinv_0_lt_compat, P).
  apply (Rmult_lt_reg_r (INR (length l))); [exact P|]. rewrite Rmult_assoc, Rinv_l by lra. lra.
Qed.
Lemma mean_const (l : list R) x : (forall y, In y l -> y = x) -> l <> [] -> nsum (T := R) l / INR (length l) = x.
Proof.
  intros H Ne. rewrite nsum_R.
  assert (P : 0 < INR (length l)) by (apply lt_0_INR; destruct l; [contradiction|cbn; lia]).
  assert (E : fold_right Rplus 0 l = INR (length l) * x).
  { clear Ne P. induction l as [|y l IH]; cbn [fold_right length]; [cbn; ring|].
    rewrite (H y), IH, S_INR by (cbn; auto with datatypes). ring. }
  rewrite E. field. lra.
Qed.

(** ** the whole repair *)
Section Repair.
  Variables (argsort : list R -> list nat) (small : R) (m : list (tri R)).
  Hypothesis AS : forall col, sorts col (argsort col).
  Hypothesis SP : 0 < small.
  Notation vs := (stack m).
  Notation n := (length (stack m)).
  Notation gr f := (find_groups (column f vs) (argsort (column f vs)) small).
  Definition fin : list pt := merge_all (gr vx) (gr vy) (gr vz) vs.
  Notation C := (commons n (gr vx) (gr vy) (gr vz)).

  Lemma column_length (f : pt -> R) : length (column f vs) = n.
  Proof. unfold column. apply map_length. Qed.
  Lemma column_nth (f : pt -> R) u : (u < n)%nat -> nth u (column f vs) 0 = f (nth u vs dv).
  Proof.
    intros H. unfold column. rewrite (nth_indep _ 0 (f dv)) by (rewrite map_length; exact H). apply map_nth.
  Qed.
  Lemma grp f : grouping (column f vs) small (gr f).
  Proof using AS SP. apply groups_ok; auto. Qed.

  Lemma fin_fold : fin = fold_left merge C vs.
  Proof. apply merge_all_flat. Qed.
  Lemma C_range c i : In c C -> In i c -> (i < n)%nat.
  Proof. intros H K. apply in_commons in H as (ix & iy & iz & _ & _ & _ & ->). apply common3_In in K. tauto. Qed.
  Lemma fin_facts : length fin = n /\ forall v, (v < n)%nat ->
    ((forall c, In c C -> ~ In v c) -> nth v fin dv = nth v vs dv) /\
    (forall c, In c C -> In v c -> nth v fin dv = mean_vec vs c).
  Proof using AS SP.
    rewrite fin_fold. apply merge_fold; [|apply C_range].
    apply commons_disjoint; [apply (gr_disjoint _ _ _ (grp vx))|apply (gr_disjoint _ _ _ (grp vy))|apply (gr_disjoint _ _ _ (grp vz))].
  Qed.
  Lemma fin_cases v : (v < n)%nat -> nth v fin dv = nth v vs dv \/ exists c, In c C /\ In v c /\ nth v fin dv = mean_vec vs c.
  Proof using AS SP.
    intros H. destruct fin_facts as [_ F]. destruct (F v H) as [F1 F2].
    destruct (existsb (mem v) C) eqn:E.
    - apply existsb_exists in E as (c & Hc & E). apply mem_In in E. right. eauto.
    - left. apply F1. intros c Hc K. apply mem_In in K.
      assert (T : existsb (mem v) C = true) by (apply existsb_exists; eauto). congruence.
  Qed.
  (** members of one cluster are close in every coordinate *)
  Lemma C_close c u v : In c C -> In u c -> In v c -> moved_less small (nth u vs dv) (nth v vs dv).
  Proof using AS SP.
    intros Hc Hu Hv. pose proof (C_range c u Hc Hu) as Ru. pose proof (C_range c v Hc Hv) as Rv.
    apply in_commons in Hc as (ix & iy & iz & Hx & Hy & Hz & ->).
    apply common3_In in Hu as (_ & Ux & Uy & Uz). apply common3_In in Hv as (_ & Wx & Wy & Wz).
    split; [|split]; rewrite <- !column_nth by auto.
    - apply (gr_close _ _ _ (grp vx) ix); auto.
    - apply (gr_close _ _ _ (grp vy) iy); auto.
    - apply (gr_close _ _ _ (grp vz) iz); auto.
  Qed.
  Lemma mean_vec_R (c : list nat) : mean_vec vs c =
    V3 (nsum (map (fun i => vx (nth i vs dv)) c) / INR (length c)) (nsum (map (fun i => vy (nth i vs dv)) c) / INR (length c))
       (nsum (map (fun i => vz (nth i vs dv)) c) / INR (length c)).
  Proof. unfold mean_vec. rewrite nnat_INR. reflexivity. Qed.
  Lemma mean_close c v : In c C -> In v c -> moved_less small (mean_vec vs c) (nth v vs dv).
  Proof using AS SP.
    intros Hc Hv. rewrite mean_vec_R.
    assert (Ne : forall f : nat -> R, map f c <> []) by (intros f; destruct c; [destruct Hv|discriminate]).
    assert (L : forall f : nat -> R, INR (length c) = INR (length (map f c))) by (intros; rewrite map_length; reflexivity).
    split; [|split]; cbn [vx vy vz].
    - rewrite (L (fun i => vx (nth i vs dv))). apply mean_bound; [|apply Ne]. intros y Hy. apply in_map_iff in Hy as (u & <- & Hu).
      destruct (C_close c u v Hc Hu Hv) as (A & _ & _). exact A.
    - rewrite (L (fun i => vy (nth i vs dv))). apply mean_bound; [|apply Ne]. intros y Hy. apply in_map_iff in Hy as (u & <- & Hu).
      destruct (C_close c u v Hc Hu Hv) as (_ & A & _). exact A.
    - rewrite (L (fun i => vz (nth i vs dv))). apply mean_bound; [|apply Ne]. intros y Hy. apply in_map_iff in Hy as (u & <- & Hu).
      destruct (C_close c u v Hc Hu Hv) as (_ & _ & A). exact A.
  Qed.
  Lemma mean_same c p : In c C -> c <> [] -> (forall u, In u c -> nth u vs dv = p) -> mean_vec vs c = p.
  Proof.
    intros Hc Ne H. rewrite mean_vec_R.
    assert (Nf : forall f : nat -> R, map f c <> []) by (intros f; destruct c; [contradiction|discriminate]).
    assert (L : forall f : nat -> R, INR (length c) = INR (length (map f c))) by (intros; rewrite map_length; reflexivity).
    apply vec_ext; cbn [vx vy vz].
    - rewrite (L (fun i => vx (nth i vs dv))). apply mean_const; [|apply Nf]. intros y Hy. apply in_map_iff in Hy as (u & <- & Hu). rewrite H; auto.
    - rewrite (L (fun i => vy (nth i vs dv))). apply mean_const; [|apply Nf]. intros y Hy. apply in_map_iff in Hy as (u & <- & Hu). rewrite H; auto.
    - rewrite (L (fun i => vz (nth i vs dv))). apply mean_const; [|apply Nf]. intros y Hy. apply in_map_iff in Hy as (u & <- & Hu). rewrite H; auto.
  Qed.
  Lemma fin_same u v : (u < n)%nat -> (v < n)%nat -> nth u vs dv = nth v vs dv -> nth u fin dv = nth v fin dv.
  Proof using AS SP.
    intros Hu Hv E. destruct (Nat.eq_dec u v) as [->|Ne]; [reflexivity|].
    assert (G : forall f : pt -> R, exists g, In g (gr f) /\ In u g /\ In v g).
    { intros f. apply (gr_equal _ _ _ (grp f)); rewrite ?column_length; auto. rewrite !column_nth by auto. f_equal. exact E. }
    destruct (G vx) as (ix & X1 & X2 & X3), (G vy) as (iy & Y1 & Y2 & Y3), (G vz) as (iz & Z1 & Z2 & Z3).
    destruct fin_facts as [_ F]. set (c := common3 n ix iy iz).
    assert (Hc : In c C) by (apply in_commons; exists ix, iy, iz; auto).
    rewrite (proj2 (F u Hu) c), (proj2 (F v Hv) c); auto; apply common3_In; auto.
  Qed.

  Definition rep (p : pt) : pt :=
    match find (fun i => vec_eqb (nth i vs dv) p) (seq 0 n) with Some i => nth i fin dv | None => p end.
  Lemma rep_at v : (v < n)%nat -> rep (nth v vs dv) = nth v fin dv.
  Proof using AS SP.
    intros H. unfold rep. destruct (find _ _) as [i|] eqn:E.
    - apply find_some in E as [I E]. apply in_seq in I. apply vec_eqb_R in E. apply fin_same; auto; lia.
    - pose proof (find_none _ _ E v) as K. cbn in K. rewrite (proj2 (vec_eqb_R _ _) eq_refl) in K.
      discriminate K. apply in_seq. lia.
  Qed.
  Lemma fin_map : fin = map rep vs.
  Proof using AS SP.
    destruct fin_facts as [L _]. apply (nth_ext _ _ dv dv); [rewrite map_length; exact L|].
    intros v Hv. rewrite L in Hv. rewrite <- rep_at by exact Hv.
    rewrite (nth_indep (map rep vs) dv (rep dv)) by (rewrite map_length; exact Hv). symmetry. apply map_nth.
  Qed.
End Repair.

Lemma unstack_map (f : pt -> pt) (m : list (tri R)) : unstack (length m) (map f (stack m)) = map_mesh f m.
Proof.
  unfold unstack, map_mesh.
  assert (E : forall m k, (k < length m)%nat ->
     let vs := map f (stack m) in let at_ j := nth j vs (V3 n0 n0 n0) in
     Tri (at_ k) (at_ (length m + k)%nat) (at_ (2 * length m + k)%nat) = map_tri f (nth k m (Tri dv dv dv))).
  { intros q k Hk. cbn zeta. unfold stack. rewrite !map_app, !map_map.
    set (z := V3 n0 n0 n0).
    set (l0 := map (fun x => f (t0 x)) q). set (l1 := map (fun x => f (t1 x)) q). set (l2 := map (fun x => f (t2 x)) q).
    assert (L0 : length l0 = length q) by apply map_length. assert (L1 : length l1 = length q) by apply map_length.
    replace (nth k (l0 ++ l1 ++ l2) z) with (nth k l0 z) by (rewrite app_nth1 by lia; reflexivity).
    replace (nth (length q + k) (l0 ++ l1 ++ l2) z) with (nth k l1 z).
    2:{ rewrite app_nth2, app_nth1 by lia. f_equal. lia. }
    replace (nth (2 * length q + k) (l0 ++ l1 ++ l2) z) with (nth k l2 z).
    2:{ rewrite app_nth2, app_nth2 by lia. f_equal. lia. }
    unfold l0, l1, l2.
    set (d := Tri dv dv dv).
    rewrite (nth_indep (map (fun x => f (t0 x)) q) _ (f (t0 d))) by (rewrite map_length; exact Hk).
    rewrite (nth_indep (map (fun x => f (t1 x)) q) _ (f (t1 d))) by (rewrite map_length; exact Hk).
    rewrite (nth_indep (map (fun x => f (t2 x)) q) _ (f (t2 d))) by (rewrite map_length; exact Hk).
    rewrite (map_nth (fun x => f (t0 x))), (map_nth (fun x => f (t1 x))), (map_nth (fun x => f (t2 x))). reflexivity. }
  transitivity (map (fun k => map_tri f (nth k m (Tri dv dv dv))) (seq 0 (length m))).
  - apply map_ext_in. intros k Hk. apply in_seq in Hk. apply E. lia.
  - rewrite <- (map_map (fun k => nth k m (Tri dv dv dv)) (map_tri f)). f_equal.
    apply (nth_ext _ _ (Tri dv dv dv) (Tri dv dv dv)); [rewrite map_length, seq_length; reflexivity|].
    intros k Hk. rewrite map_length, seq_length in Hk.
    rewrite (nth_indep _ _ ((fun k => nth k m (Tri dv dv dv)) 0%nat)) by (rewrite map_length, seq_length; exact Hk).
    rewrite (map_nth (fun k => nth k m (Tri dv dv dv))), seq_nth by exact Hk. reflexivity.
Qed.
Lemma stack_corner (m : list (tri R)) p : In p (stack m) <-> is_corner p m.
Proof.
  unfold stack, is_corner. rewrite !in_app_iff, !in_map_iff. split.
  - intros [(t & <- & H)|[(t & <- & H)|(t & <- & H)]]; eauto 6.
  - intros (t & H & [-> | [-> | ->]]); eauto 6.
Qed.

Theorem repair_map argsort small (m : list (tri R)) : (forall col, sorts col (argsort col)) -> 0 < small ->
  exists f, stl_repair argsort small m = map_mesh f m /\
    (forall p, is_corner p m -> moved_less small (f p) p) /\
    (forall p, is_corner p m -> (forall q, is_corner q m -> q <> p -> ~ moved_less small q p) -> f p = p).
Proof.
  intros AS SP. exists (rep argsort small m). split; [|split].
  - unfold stl_repair. cbn zeta. fold (fin argsort small m). rewrite fin_map by auto. apply unstack_map.
  - intros p Hp. apply stack_corner in Hp. destruct (In_nth _ _ dv Hp) as (v & Hv & <-).
    rewrite rep_at by auto. destruct (fin_cases argsort small m AS SP v Hv) as [E|(c & Hc & Hi & E)]; rewrite E.
    + unfold moved_less. rewrite !Rminus_diag_eq, Rabs_R0 by reflexivity. auto.
    + apply (mean_close argsort small m AS SP); auto.
  - intros p Hp Iso. apply stack_corner in Hp. destruct (In_nth _ _ dv Hp) as (v & Hv & Ev). rewrite <- Ev.
    rewrite rep_at by auto. destruct (fin_cases argsort small m AS SP v Hv) as [E|(c & Hc & Hi & E)]; rewrite E; [reflexivity|].
    apply mean_same with (c := c) (argsort := argsort) (small := small); auto.
    + intros ->. destruct Hi.
    + intros u Hu. pose proof (C_range argsort small m c u Hc Hu) as Ru.
      destruct (vec_eqb (nth u (stack m) dv) p) eqn:Eq.
      * apply vec_eqb_R in Eq. congruence.
      * exfalso. apply (Iso (nth u (stack m) dv)).
        -- apply stack_corner, nth_In, Ru.
        -- intros K. rewrite (proj2 (vec_eqb_R _ _) K) in Eq. discriminate.
        -- rewrite <- Ev. apply (C_close argsort small m AS SP c u v); auto.
Qed.

(** ** vertices closer than small_distance that stay apart *)
Definition chain_tri (d : R) : list (tri R) := [Tri (V3 0 0 0) (V3 (3 / 5 * d) 0 0) (V3 (6 / 5 * d) 0 0)].
Lemma perm3 l : Permutation l (seq 0 3) ->
  l = [0;1;2]%nat \/ l = [0;2;1]%nat \/ l = [1;0;2]%nat \/ l = [1;2;0]%nat \/ l = [2;0;1]%nat \/ l = [2;1;0]%nat.
Proof.
  intros P. pose proof (Permutation_length P) as L. cbn in L.
  destruct l as [|a [|b [|c [|]]]]; try discriminate.
  assert (ND : NoDup [a; b; c]) by (eapply Permutation_NoDup; [symmetry; exact P|apply seq_NoDup]).
  assert (In3 : forall x, In x [a; b; c] -> x = 0%nat \/ x = 1%nat \/ x = 2%nat).
  { intros x H. apply (Permutation_in _ P) in H. apply in_seq in H. lia. }
  assert (HA := In3 a (or_introl eq_refl)). assert (HB := In3 b (or_intror (or_introl eq_refl))).
  assert (HC := In3 c (or_intror (or_intror (or_introl eq_refl)))).
  inversion ND as [|? ? N1 ND']; subst. inversion ND' as [|? ? N2 _]; subst. cbn in N1, N2.
  destruct HA as [-> | [-> | ->]], HB as [-> | [-> | ->]], HC as [-> | [-> | ->]]; auto 10; exfalso; tauto.
Qed.
Lemma groups_zero idx d : 0 < d -> Permutation idx (seq 0 3) -> find_groups [0; 0; 0] idx d = [idx].
Proof.
  intros D P. assert (T : Rltb (Rabs (0 - 0)) d = true) by (apply Rltb_true; rewrite Rminus_diag_eq, Rabs_R0; auto).
  apply perm3 in P as [-> | [-> | [-> | [-> | [-> | ->]]]]]; unfold find_groups; cbn [length seq Nat.sub fold_left];
    unfold group_step; cbn [nth Nat.add g_count g_groups g_li g_x0 nltb nabs nsub NumR];
    do 2 (rewrite T; cbn [g_count g_groups g_li g_x0 andb Nat.eqb length Nat.sub app nth Nat.add]); reflexivity.
Qed.
Lemma groups_chain idx d : 0 < d -> sorts [0; 3 / 5 * d; 6 / 5 * d] idx ->
  find_groups [0; 3 / 5 * d; 6 / 5 * d] idx d = [[0; 1]]%nat.
Proof.
  intros D [P S]. cbn [length] in *.
  assert (idx = [0; 1; 2]%nat).
  { pose proof (S 0 1)%nat as S1. pose proof (S 1 2)%nat as S2.
    apply perm3 in P as [-> | [-> | [-> | [-> | [-> | ->]]]]]; auto; exfalso; cbn in S1, S2;
      specialize (S1 ltac:(lia)); specialize (S2 ltac:(lia)); lra. }
  subst idx. unfold find_groups; cbn [length seq Nat.sub fold_left].
  unfold group_step; cbn [nth Nat.add g_count g_groups g_li g_x0 nltb nabs nsub NumR].
  assert (T1 : Rltb (Rabs (3 / 5 * d - 0)) d = true) by (apply Rltb_true; rewrite Rabs_right; lra).
  assert (T2 : Rltb (Rabs (6 / 5 * d - 0)) d = false) by (apply Rltb_false; rewrite Rabs_right; lra).
  rewrite T1. cbn [g_count g_groups g_li g_x0 andb Nat.eqb length Nat.sub app nth Nat.add].
  rewrite T2. reflexivity.
Qed.
Lemma tri_ext {T} (a b : tri T) : t0 a = t0 b -> t1 a = t1 b -> t2 a = t2 b -> a = b.
Proof. destruct a, b; cbn; congruence. Qed.
Lemma repair_chain argsort d : (forall col, sorts col (argsort col)) -> 0 < d ->
  stl_repair argsort d (chain_tri d)
  = [Tri (V3 (3 / 10 * d) 0 0) (V3 (3 / 10 * d) 0 0) (V3 (6 / 5 * d) 0 0)].
Proof.
  intros AS D. unfold stl_repair, chain_tri, stack. cbn [map app]. cbn zeta. cbn [t0 t1 t2].
  unfold column. cbn [map vx vy vz length].
  rewrite (groups_chain _ d D (AS _)).
  assert (Z : Permutation (argsort [0; 0; 0]) (seq 0 3)) by (destruct (AS [0; 0; 0]) as [P _]; exact P).
  rewrite !(groups_zero _ d D Z).
  unfold merge_all. cbn [fold_left length].
  assert (M : forall i, In i [0; 1; 2]%nat -> mem i (argsort [0; 0; 0]) = true).
  { intros i Hi. apply mem_In. eapply Permutation_in; [symmetry; exact Z|exact Hi]. }
  unfold common2, common3. cbn [seq filter]. rewrite !M by (cbn; auto). cbn [mem existsb Nat.eqb orb andb].
  cbn [merge seq length combine map fst snd]. cbn [mem existsb Nat.eqb orb andb unstack seq map nth Nat.add Nat.mul].
  unfold mean_vec, nsum. cbn [map nth fold_left length vx vy vz]. numR. cbn [Z.of_nat Pos.of_succ_nat Pos.succ].
  apply f_equal2; [|reflexivity]. apply tri_ext; cbn [t0 t1 t2]; apply vec_ext; cbn [vx vy vz]; field.
Qed.

(** a function that meets the contract of np.argsort *)
Section RefSort.
  Variable col : list R.
  Notation key k := (nth k col 0).
  Fixpoint ins (k : nat) (l : list nat) : list nat :=
    match l with [] => [k] | j :: l' => if Rle_dec (key k) (key j) then k :: l else j :: ins k l' end.
  Lemma ins_perm k l : Permutation (ins k l) (k :: l).
  Proof.
    induction l as [|j l IH]; cbn; [reflexivity|]. destruct Rle_dec; [reflexivity|].
    rewrite IH. apply perm_swap.
  Qed.
  Lemma ins_sorted k l : StronglySorted (fun a b => key a <= key b) l -> StronglySorted (fun a b => key a <= key b) (ins k l).
  Proof.
    induction 1 as [|j l H IH F]; cbn; [repeat constructor|]. destruct Rle_dec.
    - constructor; [constructor; auto|]. constructor; [auto|]. eapply Forall_impl; [|exact F]. cbn. intros; lra.
    - constructor; [exact IH|]. apply (Permutation_Forall (Permutation_sym (ins_perm k l))). constructor; [lra|exact F].
  Qed.
  Definition ref_argsort : list nat := fold_right ins [] (seq 0 (length col)).
  Lemma fold_perm l : Permutation (fold_right ins [] l) l.
  Proof. induction l as [|k l IH]; cbn; [reflexivity|]. rewrite ins_perm. constructor. exact IH. Qed.
  Lemma fold_sorted l : StronglySorted (fun a b => key a <= key b) (fold_right ins [] l).
  Proof. induction l; cbn; [constructor|]. apply ins_sorted; auto. Qed.
  Lemma SS_nth l : StronglySorted (fun a b => key a <= key b) l -> forall i j, (i <= j < length l)%nat ->
    key (nth i l 0%nat) <= key (nth j l 0%nat).
  Proof.
    induction 1 as [|k l H IH F]; intros i j Hij; cbn in Hij; [lia|].
    destruct i as [|i], j as [|j]; cbn; try lia; try lra.
    - rewrite Forall_forall in F. apply F, nth_In. lia.
    - apply IH. lia.
  Qed.
  Lemma ref_sorts : sorts col ref_argsort.
  Proof.
    unfold ref_argsort. split; [apply fold_perm|]. intros i j Hij. apply SS_nth; [apply fold_sorted|].
    rewrite (Permutation_length (fold_perm _)), seq_length. exact Hij.
  Qed.
End RefSort.
