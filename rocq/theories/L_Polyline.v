From Coq Require Import Reals Lra Psatz ZArith List Lia Bool.
From Verif Require Import Num NumR Py M_Vector SpecR3 M_Path SpecPath SpecPoly L_Vector L_Line.
Import ListNotations.
Local Open Scope R_scope.

Fixpoint psums (acc : R) (ls : list R) : list R :=
  match ls with [] => [] | l :: ls' => (acc + l) :: psums (acc + l) ls' end.

Lemma cumulative_psums segs ls : lengths segs ls -> forall acc,
  cumulative segs acc = Ok (psums acc ls, acc + Rsum ls).
Proof.
  induction 1 as [|s l segs ls H _ IH]; intros acc; cbn [cumulative psums].
  - unfold Rsum; cbn. do 2 f_equal. ring.
  - rewrite H. cbn [bind]. numR. rewrite IH. cbn [bind]. do 2 f_equal. unfold Rsum; cbn. ring.
Qed.

Lemma psums_length ls : forall acc, length (psums acc ls) = length ls.
Proof. induction ls; cbn; auto. Qed.

Lemma Rsum_firstn_S ls k : (k < length ls)%nat ->
  Rsum (firstn (S k) ls) = Rsum (firstn k ls) + nth k ls 0.
Proof.
  revert k; induction ls as [|l ls IH]; intros k H; cbn in H; [lia|].
  destruct k.
  - unfold Rsum; cbn; ring.
  - cbn [firstn nth]. unfold Rsum in *. cbn [fold_right].
    specialize (IH k ltac:(lia)). cbn [firstn fold_right] in IH. rewrite IH. ring.
Qed.

Lemma psums_nth ls : forall acc k, (k < length ls)%nat ->
  nth k (psums acc ls) 0 = acc + Rsum (firstn (S k) ls).
Proof.
  induction ls as [|l ls IH]; intros acc k H; cbn in H; [lia|].
  destruct k; cbn [psums nth].
  - unfold Rsum; cbn. ring.
  - rewrite IH by lia. cbn [firstn]. unfold Rsum; cbn [fold_right]. ring.
Qed.

Lemma nth_map_seq (f : nat -> R) n k d : (k < n)%nat -> nth k (map f (seq 0 n)) d = f k.
Proof.
  intros H. rewrite nth_indep with (d' := f 0%nat) by (rewrite map_length, seq_length; auto).
  rewrite map_nth, seq_nth by auto. reflexivity.
Qed.

Lemma breaks_nth ls k : (k <= length ls)%nat ->
  nth k (breaks ls) 0 = Rsum (firstn k ls) / Rsum ls.
Proof. intros H. unfold breaks. apply (nth_map_seq (fun k => Rsum (firstn k ls) / Rsum ls)). lia. Qed.
Lemma breaks_length ls : length (breaks ls) = S (length ls).
Proof. unfold breaks. rewrite map_length, seq_length. reflexivity. Qed.

Lemma reset_breakpoints_breaks segs ls : segs <> [] -> lengths segs ls ->
  reset_breakpoints segs = Ok (breaks ls).
Proof.
  intros Hn H. unfold reset_breakpoints. destruct segs as [|s segs]; [congruence|].
  rewrite (cumulative_psums _ _ H). cbn [bind]. f_equal.
  apply nth_ext with (d := 0) (d' := 0).
  - rewrite map_length, breaks_length. cbn. rewrite psums_length. reflexivity.
  - intros k Hk. rewrite map_length in Hk. cbn in Hk. rewrite psums_length in Hk.
    rewrite breaks_nth by lia.
    rewrite nth_indep with (d' := ndiv 0 (n0 + Rsum ls)) by (rewrite map_length; cbn; rewrite psums_length; lia).
    rewrite (map_nth (fun t => ndiv t (n0 + Rsum ls))). numR. rewrite Rplus_0_l.
    destruct k; cbn [nth].
    + reflexivity.
    + rewrite psums_nth by lia. rewrite Rplus_0_l. reflexivity.
Qed.

Lemma init_open segs ls tol : segs <> [] -> lengths segs ls ->
  Polyline_init segs false tol = Ok (mkPoly segs (breaks ls)).
Proof.
  intros Hn H. unfold Polyline_init. cbn [bind]. rewrite (reset_breakpoints_breaks segs ls Hn H).
  reflexivity.
Qed.

Lemma Rsum_nonneg ls : Forall (fun l => 0 < l) ls -> 0 <= Rsum ls.
Proof. induction 1; unfold Rsum in *; cbn; lra. Qed.
Lemma Rsum_pos ls : ls <> [] -> Forall (fun l => 0 < l) ls -> 0 < Rsum ls.
Proof.
  intros Hn H. destruct H; [congruence|]. apply Rsum_nonneg in H0.
  unfold Rsum in *; cbn; lra.
Qed.
Lemma Forall_nth0 ls k : Forall (fun l => 0 < l) ls -> (k < length ls)%nat -> 0 < nth k ls 0.
Proof. intros H Hk. rewrite Forall_forall in H. apply H, nth_In, Hk. Qed.

Lemma prefix_lt ls : Forall (fun l => 0 < l) ls -> forall i j, (i < j)%nat -> (j <= length ls)%nat ->
  Rsum (firstn i ls) < Rsum (firstn j ls).
Proof.
  intros H i j Hij. induction Hij as [|j Hij IH]; intros Hj.
  - rewrite Rsum_firstn_S by lia. pose proof (Forall_nth0 ls i H ltac:(lia)). lra.
  - rewrite Rsum_firstn_S by lia. pose proof (Forall_nth0 ls j H ltac:(lia)).
    specialize (IH ltac:(lia)). lra.
Qed.

Lemma breaks_increasing ls : ls <> [] -> Forall (fun l => 0 < l) ls -> strictly_increasing (breaks ls).
Proof.
  intros Hn H i j Hij Hj. rewrite breaks_length in Hj. rewrite !breaks_nth by lia.
  pose proof (Rsum_pos ls Hn H). apply Rmult_lt_compat_r; [apply Rinv_0_lt_compat; auto|].
  apply prefix_lt; auto; lia.
Qed.
Lemma breaks_first ls : nth 0 (breaks ls) 0 = 0.
Proof. rewrite breaks_nth by lia. unfold Rsum; cbn. unfold Rdiv; ring. Qed.
Lemma breaks_last ls : ls <> [] -> Forall (fun l => 0 < l) ls -> nth (length ls) (breaks ls) 0 = 1.
Proof.
  intros Hn H. rewrite breaks_nth by lia. rewrite firstn_all.
  pose proof (Rsum_pos ls Hn H). field; lra.
Qed.
Lemma breaks_gap ls k : ls <> [] -> Forall (fun l => 0 < l) ls -> (k < length ls)%nat ->
  nth (S k) (breaks ls) 0 - nth k (breaks ls) 0 = nth k ls 0 / Rsum ls.
Proof.
  intros Hn H Hk. rewrite !breaks_nth by lia. rewrite Rsum_firstn_S by lia.
  pose proof (Rsum_pos ls Hn H). field; lra.
Qed.

Lemma sum_lengths_sum segs ls : lengths segs ls -> forall acc,
  sum_lengths segs acc = Ok (acc + Rsum ls).
Proof.
  induction 1 as [|s l segs ls H _ IH]; intros acc; cbn [sum_lengths].
  - f_equal. unfold Rsum; cbn; ring.
  - rewrite H. cbn [bind]. rewrite IH. numR. f_equal. unfold Rsum; cbn. ring.
Qed.

(** ** evaluation *)
Lemma scale_0_add (f p : pt) : vadd f (vscale p 0) = f.
Proof. vring. Qed.
Lemma scale_1_add (f p : pt) : vadd f (vscale p 1) = vadd f p.
Proof. vring. Qed.

Definition okay (n i : nat) (x : R) : bool :=
  if Nat.eqb i 0 then Rleb x 1
  else if Nat.eqb i (n - 1) then Rltb 0 x
  else andb (Rltb 0 x) (Rleb x 1).

Lemma poly_loop_none t n : forall segs tv i f,
  (length tv = S (length segs)) ->
  (forall j s, nth_error segs j = Some s -> is_ok (p_call s (local_t tv j t))) ->
  (forall j, (j < length segs)%nat -> okay n (i + j) (local_t tv j t) = false) ->
  poly_loop t n i segs tv f = Ok f.
Proof.
  induction segs as [|s segs IH]; intros tv i f Hl Hok Hno; [reflexivity|].
  destruct tv as [|tl [|tu tv]]; cbn in Hl; try lia.
  cbn [poly_loop].
  pose proof (Hno 0%nat ltac:(cbn; lia)) as H0. unfold local_t, okay in H0. cbn [nth] in H0.
  rewrite Nat.add_0_r in H0.
  destruct (Hok 0%nat s eq_refl) as [p Hp]. unfold local_t in Hp; cbn [nth] in Hp.
  numR. rewrite Hp. cbn [bind]. rewrite H0. rewrite scale_0_add.
  apply IH; [cbn; lia| |].
  - intros j s' Hj. apply (Hok (S j) s' Hj).
  - intros j Hj. specialize (Hno (S j) ltac:(cbn; lia)).
    replace (S i + j)%nat with (i + S j)%nat by lia. exact Hno.
Qed.

Lemma poly_loop_one t n : forall segs tv i f k s p,
  (length tv = S (length segs)) ->
  (forall j s, nth_error segs j = Some s -> is_ok (p_call s (local_t tv j t))) ->
  nth_error segs k = Some s ->
  p_call s (local_t tv k t) = Ok p ->
  (forall j, (j < length segs)%nat -> okay n (i + j) (local_t tv j t) = Nat.eqb j k) ->
  poly_loop t n i segs tv f = Ok (vadd f p).
Proof.
  induction segs as [|s0 segs IH]; intros tv i f k s p Hl Hok Hk Hp Hno.
  - destruct k; discriminate.
  - destruct tv as [|tl [|tu tv]]; cbn in Hl; try lia.
    cbn [poly_loop].
    pose proof (Hno 0%nat ltac:(cbn; lia)) as H0. unfold local_t, okay in H0. cbn [nth] in H0.
    rewrite Nat.add_0_r in H0.
    destruct (Hok 0%nat s0 eq_refl) as [p0 Hp0]. unfold local_t in Hp0; cbn [nth] in Hp0.
    numR. rewrite Hp0. cbn [bind]. rewrite H0.
    destruct k as [|k].
    + cbn [Nat.eqb]. rewrite scale_1_add.
      injection Hk as ->. unfold local_t in Hp; cbn [nth] in Hp.
      assert (p0 = p) by congruence. subst p0.
      apply poly_loop_none; [cbn; lia| |].
      * intros j s' Hj. apply (Hok (S j) s' Hj).
      * intros j Hj. specialize (Hno (S j) ltac:(cbn; lia)).
        replace (S i + j)%nat with (i + S j)%nat by lia. exact Hno.
    + cbn [Nat.eqb]. rewrite scale_0_add.
      eapply IH with (k := k) (s := s); [cbn; lia| |exact Hk|exact Hp|].
      * intros j s' Hj. apply (Hok (S j) s' Hj).
      * intros j Hj. specialize (Hno (S j) ltac:(cbn; lia)).
        replace (S i + j)%nat with (i + S j)%nat by lia. exact Hno.
Qed.

Lemma local_le1 tv k t : nth k tv 0 < nth (S k) tv 0 -> (local_t tv k t <= 1 <-> t <= nth (S k) tv 0).
Proof.
  intros H. unfold local_t. set (a := nth k tv 0) in *. set (b := nth (S k) tv 0) in *.
  assert (0 < / (b - a)) by (apply Rinv_0_lt_compat; lra).
  assert (E : (b - a) * / (b - a) = 1) by (field; lra).
  unfold Rdiv. split; intros; nra.
Qed.
Lemma local_gt0 tv k t : nth k tv 0 < nth (S k) tv 0 -> (0 < local_t tv k t <-> nth k tv 0 < t).
Proof.
  intros H. unfold local_t. set (a := nth k tv 0) in *. set (b := nth (S k) tv 0) in *.
  assert (0 < / (b - a)) by (apply Rinv_0_lt_compat; lra).
  unfold Rdiv. split; intros; nra.
Qed.

Lemma okay_iff n tv t k : (k < n)%nat -> (2 <= n)%nat -> nth k tv 0 < nth (S k) tv 0 ->
  (okay n k (local_t tv k t) = true <-> in_segment n tv t k).
Proof.
  intros Hk Hn Hinc. unfold okay, in_segment.
  destruct (Nat.eqb_spec k 0) as [->|H0].
  - rewrite Rleb_true, local_le1 by assumption. split.
    + intros; repeat split; auto.
    + intros (_ & _ & [E|E]); [lia|exact E].
  - destruct (Nat.eqb_spec k (n - 1)) as [H1|H1].
    + rewrite Rltb_true, local_gt0 by assumption. split.
      * intros; repeat split; auto.
      * intros (_ & [E|E] & _); [lia|exact E].
    + rewrite andb_true_iff, Rltb_true, Rleb_true, local_le1, local_gt0 by assumption. split.
      * intros [A B]; repeat split; auto.
      * intros (_ & [A|A] & [B|B]); try lia. auto.
Qed.

(** every parameter belongs to exactly one segment *)
Lemma in_segment_unique n tv t i j : length tv = S n -> strictly_increasing tv ->
  in_segment n tv t i -> in_segment n tv t j -> i = j.
Proof.
  intros Hl Hinc.
  assert (A : forall i j, (i < j)%nat -> in_segment n tv t i -> in_segment n tv t j -> False).
  { clear i j; intros i j Hij (Hi & _ & Hi2) (Hj & Hj1 & _).
    destruct Hj1 as [Hj1|Hj1]; [lia|]. destruct Hi2 as [Hi2|Hi2]; [lia|].
    assert (nth (S i) tv 0 <= nth j tv 0).
    { destruct (Nat.eq_dec (S i) j) as [->|]; [lra|]. apply Rlt_le, Hinc; lia. }
    lra. }
  intros Hi Hj. destruct (Nat.lt_trichotomy i j) as [L|[E|L]]; auto; exfalso; eauto.
Qed.

Lemma in_segment_exists n tv t : (1 <= n)%nat -> length tv = S n -> exists k, in_segment n tv t k.
Proof.
  intros Hn Hl.
  assert (A : forall m, (m < n)%nat ->
    (exists k, in_segment n tv t k) \/ (forall j, (0 < j <= m)%nat -> nth j tv 0 < t)).
  { induction m; intros Hm.
    - right; intros j Hj; lia.
    - destruct (IHm ltac:(lia)) as [E|E]; [left; exact E|].
      destruct (Rlt_dec (nth (S m) tv 0) t) as [L|L].
      + right. intros j Hj. destruct (Nat.eq_dec j (S m)) as [->|]; [exact L|apply E; lia].
      + left. exists m. repeat split; [lia| |right; lra].
        destruct m; [left; reflexivity|right; apply E; lia]. }
  destruct (A (n - 1)%nat ltac:(lia)) as [E|E]; [exact E|].
  exists (n - 1)%nat. repeat split; [lia| |left; reflexivity].
  destruct (Nat.eq_dec (n - 1) 0) as [Z|Z]; [left; exact Z|right; apply E; lia].
Qed.

Lemma lengths_length segs ls : lengths segs ls -> length segs = length ls.
Proof. unfold lengths; induction 1; cbn; congruence. Qed.

Lemma polyline_eval segs ls t k s :
  lengths segs ls -> Forall (fun l => 0 < l) ls ->
  is_ok (p_call (nth 0 segs (mkPath (fun _ => Raise IndexError) (Raise IndexError))) t) ->
  (forall j s, nth_error segs j = Some s -> is_ok (p_call s (local_t (breaks ls) j t))) ->
  in_segment (length segs) (breaks ls) t k ->
  nth_error segs k = Some s ->
  Polyline_call (mkPoly segs (breaks ls)) t = p_call s (local_t (breaks ls) k t).
Proof.
  intros Hlen Hpos H0 Hok Hin Hs.
  pose proof (lengths_length _ _ Hlen) as HL.
  assert (Hn : ls <> []).
  { intros ->. destruct segs; [destruct k; discriminate|cbn in HL; lia]. }
  destruct segs as [|s0 [|s1 segs]].
  - destruct k; discriminate.
  - destruct k; [|destruct k; discriminate]. injection Hs as <-.
    cbn [Polyline_call pl_segments]. f_equal.
    unfold local_t. rewrite breaks_first.
    assert (E : nth 1 (breaks ls) 0 = 1).
    { rewrite <- (breaks_last ls Hn Hpos). rewrite <- HL. reflexivity. }
    rewrite E. field.
  - destruct (Hok k s Hs) as [p Hp]. rewrite Hp.
    destruct H0 as [f Hf]. cbn [nth] in Hf.
    unfold Polyline_call. cbn [pl_segments pl_t_values]. rewrite Hf. cbn [bind].
    rewrite (poly_loop_one t (length (s0 :: s1 :: segs)) (s0 :: s1 :: segs) (breaks ls) 0
               (vscale f n0) k s p).
    + f_equal. numR. rewrite vscale_0, vadd_comm, vadd_0_r. reflexivity.
    + rewrite breaks_length. lia.
    + exact Hok.
    + exact Hs.
    + exact Hp.
    + intros j Hj. cbn [Nat.add].
      assert (Hinc : forall j, (j < length (s0 :: s1 :: segs))%nat -> nth j (breaks ls) 0 < nth (S j) (breaks ls) 0).
      { intros i Hi. apply (breaks_increasing ls Hn Hpos); [lia|]. rewrite breaks_length. lia. }
      pose proof (okay_iff (length (s0 :: s1 :: segs)) (breaks ls) t j Hj ltac:(cbn; lia) (Hinc j Hj)) as I.
      destruct (Nat.eqb_spec j k) as [->|Hne].
      * apply I, Hin.
      * destruct (okay _ _ _) eqn:E; [|reflexivity]. exfalso. apply Hne.
        apply (in_segment_unique (length (s0 :: s1 :: segs)) (breaks ls) t);
          [rewrite breaks_length; f_equal; symmetry; exact HL| | |exact Hin].
        -- apply breaks_increasing; assumption.
        -- apply I. reflexivity.
Qed.

(** values at the breakpoints and ends *)
Lemma local_at_upper ls k : ls <> [] -> Forall (fun l => 0 < l) ls -> (k < length ls)%nat ->
  local_t (breaks ls) k (nth (S k) (breaks ls) 0) = 1.
Proof.
  intros Hn Hp Hk. unfold local_t.
  assert (nth k (breaks ls) 0 < nth (S k) (breaks ls) 0).
  { apply (breaks_increasing ls Hn Hp); [lia|rewrite breaks_length; lia]. }
  field; lra.
Qed.
Lemma local_at_zero ls : ls <> [] -> Forall (fun l => 0 < l) ls ->
  local_t (breaks ls) 0 0 = 0.
Proof.
  intros Hn Hp. unfold local_t. rewrite breaks_first.
  assert (nth 0 (breaks ls) 0 < nth 1 (breaks ls) 0).
  { apply (breaks_increasing ls Hn Hp); [lia|]. rewrite breaks_length. destruct ls; [congruence|cbn; lia]. }
  rewrite breaks_first in H. field; lra.
Qed.
Lemma in_segment_upper ls k : ls <> [] -> Forall (fun l => 0 < l) ls -> (k < length ls)%nat ->
  in_segment (length ls) (breaks ls) (nth (S k) (breaks ls) 0) k.
Proof.
  intros Hn Hp Hk. repeat split; auto; [|right; lra].
  destruct k; [left; reflexivity|right].
  apply (breaks_increasing ls Hn Hp); [lia|rewrite breaks_length; lia].
Qed.
Lemma in_segment_zero ls : ls <> [] -> Forall (fun l => 0 < l) ls ->
  in_segment (length ls) (breaks ls) 0 0.
Proof.
  intros Hn Hp. repeat split; auto.
  - destruct ls; [congruence|cbn; lia].
  - right. rewrite <- (breaks_first ls) at 1. apply Rlt_le, (breaks_increasing ls Hn Hp); [lia|].
    rewrite breaks_length; destruct ls; [congruence|cbn; lia].
Qed.

Lemma nth_error_nth_path (segs : list (path R)) k s d : nth_error segs k = Some s -> nth k segs d = s.
Proof. revert k; induction segs; destruct k; cbn; intros; try discriminate; [congruence|auto]. Qed.

Lemma polyline_eval_total segs ls t k s :
  lengths segs ls -> Forall (fun l => 0 < l) ls -> Forall total_path segs ->
  in_segment (length segs) (breaks ls) t k ->
  nth_error segs k = Some s ->
  Polyline_call (mkPoly segs (breaks ls)) t = p_call s (local_t (breaks ls) k t).
Proof.
  intros Hl Hp Ht Hin Hs. rewrite Forall_forall in Ht. apply polyline_eval; auto.
  - destruct segs as [|s0 segs]; [destruct k; discriminate|]. apply Ht; left; reflexivity.
  - intros j s' Hj. apply Ht. eapply nth_error_In; eauto.
Qed.

Lemma polyline_at_break segs ls k s :
  lengths segs ls -> Forall (fun l => 0 < l) ls -> Forall total_path segs ->
  nth_error segs k = Some s ->
  Polyline_call (mkPoly segs (breaks ls)) (nth (S k) (breaks ls) 0) = p_call s 1.
Proof.
  intros Hl Hp Ht Hs.
  assert (Hk : (k < length segs)%nat) by (apply nth_error_Some; congruence).
  pose proof (lengths_length _ _ Hl) as HL.
  assert (Hn : ls <> []) by (intros ->; cbn in HL; lia).
  rewrite (polyline_eval_total segs ls _ k s); auto.
  - rewrite local_at_upper by (auto; lia). reflexivity.
  - rewrite HL. apply in_segment_upper; auto; lia.
Qed.

Lemma polyline_at_zero segs ls s :
  lengths segs ls -> Forall (fun l => 0 < l) ls -> Forall total_path segs ->
  nth_error segs 0 = Some s ->
  Polyline_call (mkPoly segs (breaks ls)) 0 = p_call s 0.
Proof.
  intros Hl Hp Ht Hs.
  assert (Hk : (0 < length segs)%nat) by (apply nth_error_Some; congruence).
  pose proof (lengths_length _ _ Hl) as HL.
  assert (Hn : ls <> []) by (intros ->; cbn in HL; lia).
  rewrite (polyline_eval_total segs ls _ 0 s); auto.
  - rewrite local_at_zero by auto. reflexivity.
  - rewrite HL. apply in_segment_zero; auto.
Qed.

Lemma polyline_at_one segs ls s :
  lengths segs ls -> Forall (fun l => 0 < l) ls -> Forall total_path segs ->
  nth_error segs (length segs - 1) = Some s ->
  Polyline_call (mkPoly segs (breaks ls)) 1 = p_call s 1.
Proof.
  intros Hl Hp Ht Hs.
  assert (Hk : (length segs - 1 < length segs)%nat) by (apply nth_error_Some; congruence).
  pose proof (lengths_length _ _ Hl) as HL.
  assert (Hn : ls <> []) by (intros ->; cbn in HL; lia).
  rewrite <- (polyline_at_break segs ls _ s Hl Hp Ht Hs). f_equal.
  replace (S (length segs - 1)) with (length ls) by lia. symmetry. apply breaks_last; auto.
Qed.

(** ** closed=True *)
Lemma py_last_nth {A} (l : list A) d : l <> [] -> py_last l = Ok (nth (length l - 1) l d).
Proof.
  intros H. destruct l; [congruence|]. unfold py_last. apply py_nth_nth. cbn; lia.
Qed.
Lemma nth_error_nth_ok {A} (l : list A) i a : nth_error l i = Some a -> py_nth l i = Ok a.
Proof. unfold py_nth; intros ->; reflexivity. Qed.

Lemma init_closed segs ls s0 sl p0 p1 tol :
  lengths segs ls -> nth_error segs 0 = Some s0 -> nth_error segs (length segs - 1) = Some sl ->
  p_call s0 0 = Ok p0 -> p_call sl 1 = Ok p1 ->
  Polyline_init segs true tol =
  if Rltb tol (dist p1 p0)
  then Ok (mkPoly (segs ++ [Line p0 p1]) (breaks (ls ++ [dist p0 p1])))
  else Ok (mkPoly segs (breaks ls)).
Proof.
  intros Hl H0 Hlast E0 E1. unfold Polyline_init.
  destruct segs as [|s segs]; [discriminate|].
  rewrite (nth_error_nth_ok _ _ _ H0). cbn [bind].
  unfold py_last. rewrite (nth_error_nth_ok _ _ _ Hlast). cbn [bind].
  numR. rewrite E0, E1. cbn [bind].
  change (vabs (vsub p1 p0)) with (nrm (vsub p1 p0)). rewrite <- dist_nrm.
  destruct (Rltb tol (dist p1 p0)).
  - rewrite (reset_breakpoints_breaks _ (ls ++ [dist p0 p1])); [reflexivity|discriminate|].
    apply Forall2_app; auto. constructor; [apply line_length|constructor].
  - rewrite (reset_breakpoints_breaks _ ls); [reflexivity|discriminate|auto].
Qed.

Lemma line_total (a b : pt) : total_path (Line a b).
Proof. intros t. rewrite line_lerp. eexists; reflexivity. Qed.

Lemma closed_open_chain segs ls s0 sl p0 p1 tol :
  lengths segs ls -> Forall (fun l => 0 < l) ls -> Forall total_path segs ->
  nth_error segs 0 = Some s0 -> nth_error segs (length segs - 1) = Some sl ->
  p_call s0 0 = Ok p0 -> p_call sl 1 = Ok p1 -> 0 <= tol < dist p0 p1 ->
  exists pl, Polyline_init segs true tol = Ok pl /\
    Polyline_call pl 0 = Ok p0 /\
    Polyline_call pl 1 = Ok p1 /\ p1 <> p0 /\
    (let tb := nth (length segs) (pl_t_values pl) 0 in
     0 < tb < 1 /\ Polyline_call pl tb = Ok p1 /\
     forall t, tb < t <= 1 -> Polyline_call pl t = Ok (lerp ((t - tb) / (1 - tb)) p0 p1)).
Proof.
  intros Hl Hp Ht H0 Hlast E0 E1 [Htol Hgap].
  pose proof (lengths_length _ _ Hl) as HL.
  assert (Hpos : (0 < length segs)%nat) by (apply nth_error_Some; congruence).
  assert (Hn : ls <> []) by (intros ->; cbn in HL; lia).
  set (segs' := segs ++ [Line p0 p1]). set (ls' := ls ++ [dist p0 p1]).
  assert (Hl' : lengths segs' ls').
  { apply Forall2_app; auto. constructor; [apply line_length|constructor]. }
  assert (Hp' : Forall (fun l => 0 < l) ls').
  { apply Forall_app; split; auto. constructor; [lra|constructor]. }
  assert (Ht' : Forall total_path segs').
  { apply Forall_app; split; auto. constructor; [apply line_total|constructor]. }
  assert (Hn' : ls' <> []) by (unfold ls'; destruct ls; discriminate).
  assert (HLs' : length segs' = S (length segs)) by (unfold segs'; rewrite app_length; cbn; lia).
  assert (HLl' : length ls' = S (length ls)) by (unfold ls'; rewrite app_length; cbn; lia).
  assert (Hlt : nth_error segs' (length segs) = Some (Line p0 p1)).
  { unfold segs'. rewrite nth_error_app2, Nat.sub_diag by lia. reflexivity. }
  exists (mkPoly segs' (breaks ls')). split.
  { rewrite (init_closed segs ls s0 sl p0 p1 tol) by assumption.
    rewrite (dist_sym p1 p0). destruct (Rltb_spec tol (dist p0 p1)); [reflexivity|lra]. }
  split; [|split; [|split]].
  - rewrite (polyline_at_zero segs' ls' s0); auto.
    unfold segs'. rewrite nth_error_app1 by lia. exact H0.
  - rewrite (polyline_at_one segs' ls' (Line p0 p1)); auto.
    + rewrite line_lerp, lerp_1. reflexivity.
    + rewrite HLs'. replace (S (length segs) - 1)%nat with (length segs) by lia. exact Hlt.
  - intros ->. rewrite (proj2 (dist_zero p0 p0) eq_refl) in Hgap. lra.
  - cbn [pl_t_values].
    assert (T1 : nth (S (length segs)) (breaks ls') 0 = 1).
    { rewrite HL, <- HLl'. apply breaks_last; auto. }
    assert (HB : 0 < nth (length segs) (breaks ls') 0 < 1).
    { split.
      - rewrite <- (breaks_first ls') at 1. apply breaks_increasing; auto.
        rewrite breaks_length; lia.
      - rewrite <- T1. apply breaks_increasing; auto. rewrite breaks_length; lia. }
    split; [exact HB|split].
    + replace (length segs) with (S (length segs - 1)) at 1 by lia.
      rewrite (polyline_at_break segs' ls' _ sl); auto.
      unfold segs'. rewrite nth_error_app1 by lia. exact Hlast.
    + intros t Ht1.
      rewrite (polyline_eval_total segs' ls' t (length segs) (Line p0 p1)); auto.
      * rewrite line_lerp. unfold local_t. rewrite T1. reflexivity.
      * rewrite HLs'. repeat split; [lia|right; lra|left; lia].
Qed.

Lemma polyline_breaks_all segs ls tol :
  segs <> [] -> lengths segs ls -> Forall (fun l => 0 < l) ls ->
  exists pl, Polyline_init segs false tol = Ok pl /\
    pl_segments pl = segs /\
    length (pl_t_values pl) = S (length segs) /\
    nth 0 (pl_t_values pl) 0 = 0 /\
    nth (length segs) (pl_t_values pl) 0 = 1 /\
    strictly_increasing (pl_t_values pl) /\
    (forall k, (k < length segs)%nat ->
       nth (S k) (pl_t_values pl) 0 - nth k (pl_t_values pl) 0 = nth k ls 0 / Rsum ls) /\
    p_len (polyline_path pl) = Ok (Rsum ls).
Proof.
  intros Hn Hl Hp. assert (EL := lengths_length segs ls Hl).
  assert (Hls : ls <> []) by (destruct ls; [destruct segs; [auto|discriminate]|discriminate]).
  exists (mkPoly segs (breaks ls)). rewrite (init_open segs ls tol Hn Hl).
  split; [reflexivity|]. cbn [pl_segments pl_t_values]. split; [reflexivity|].
  rewrite breaks_length, EL. split; [reflexivity|]. split; [apply breaks_first|].
  split; [apply breaks_last; auto|]. split; [apply breaks_increasing; auto|].
  split; [intros; apply breaks_gap; auto|].
  unfold polyline_path; cbn [p_len pl_segments]. rewrite (sum_lengths_sum segs ls Hl).
  f_equal. unfold n0; cbn. ring.
Qed.

Lemma polyline_one_segment segs ls tol pl t :
  segs <> [] -> lengths segs ls -> Forall (fun l => 0 < l) ls ->
  Forall total_path segs -> Polyline_init segs false tol = Ok pl ->
  exists k s, in_segment (length segs) (pl_t_values pl) t k /\
    (forall j, in_segment (length segs) (pl_t_values pl) t j -> j = k) /\
    nth_error segs k = Some s /\
    Polyline_call pl t = p_call s (local_t (pl_t_values pl) k t).
Proof.
  intros Hn Hl Hp Ht E. assert (EL := lengths_length segs ls Hl).
  assert (Hls : ls <> []) by (destruct ls; [destruct segs; [auto|discriminate]|discriminate]).
  rewrite (init_open segs ls tol Hn Hl) in E. injection E as <-. cbn [pl_t_values].
  destruct (in_segment_exists (length segs) (breaks ls) t) as [k Hk].
  { destruct segs; [congruence|cbn; lia]. } { rewrite breaks_length; lia. }
  destruct (nth_error segs k) as [s|] eqn:Es.
  2:{ apply nth_error_None in Es. destruct Hk; lia. }
  exists k, s. split; [exact Hk|]. split.
  { intros j Hj. eapply in_segment_unique; eauto. rewrite breaks_length; lia.
    apply breaks_increasing; auto. }
  split; [exact Es|]. apply polyline_eval_total; auto.
Qed.

Lemma polyline_values_all segs ls tol pl :
  segs <> [] -> lengths segs ls -> Forall (fun l => 0 < l) ls ->
  Forall total_path segs -> Polyline_init segs false tol = Ok pl ->
  (forall s, nth_error segs 0 = Some s -> Polyline_call pl 0 = p_call s 0) /\
  (forall s, nth_error segs (length segs - 1) = Some s -> Polyline_call pl 1 = p_call s 1) /\
  (forall k s, nth_error segs k = Some s ->
     Polyline_call pl (nth (S k) (pl_t_values pl) 0) = p_call s 1).
Proof.
  intros Hn Hl Hp Ht E. rewrite (init_open segs ls tol Hn Hl) in E. injection E as <-.
  cbn [pl_t_values]. split; [|split]; intros.
  - eapply polyline_at_zero; eauto.
  - eapply polyline_at_one; eauto.
  - eapply polyline_at_break; eauto.
Qed.

Lemma polyline_joined segs ls tol pl :
  segs <> [] -> lengths segs ls -> Forall (fun l => 0 < l) ls ->
  Forall total_path segs -> Polyline_init segs false tol = Ok pl ->
  (forall k s s', nth_error segs k = Some s -> nth_error segs (S k) = Some s' ->
     p_call s 1 = p_call s' 0) ->
  forall k s, nth_error segs k = Some s ->
    Polyline_call pl (nth k (pl_t_values pl) 0) = p_call s 0.
Proof.
  intros Hn Hl Hp Ht E J k s Es.
  destruct (polyline_values_all segs ls tol pl Hn Hl Hp Ht E) as (V0 & _ & VK).
  rewrite (init_open segs ls tol Hn Hl) in E. injection E as <-. cbn [pl_t_values] in *.
  destruct k.
  - rewrite breaks_first. apply V0, Es.
  - destruct (nth_error segs k) as [s'|] eqn:Ek.
    + rewrite (VK k s' Ek). eapply J; eauto.
    + apply nth_error_None in Ek. assert (nth_error segs (S k) <> None) by congruence.
      apply nth_error_Some in H. lia.
Qed.

Lemma closed_noop segs ls s0 sl p0 p1 tol :
  lengths segs ls ->
  nth_error segs 0 = Some s0 -> nth_error segs (length segs - 1) = Some sl ->
  p_call s0 0 = Ok p0 -> p_call sl 1 = Ok p1 -> dist p1 p0 <= tol ->
  Polyline_init segs true tol = Polyline_init segs false tol.
Proof.
  intros Hl E0 E1 P0 P1 H.
  rewrite (init_closed segs ls s0 sl p0 p1 tol) by auto.
  rewrite (init_open segs ls tol) by (auto; destruct segs; discriminate).
  destruct (Rltb_spec tol (dist p1 p0)); [lra|reflexivity].
Qed.
