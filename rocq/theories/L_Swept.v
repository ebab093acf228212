From Coq Require Import Reals Lra Psatz ZArith String List Lia Bool.
From Verif Require Import Num NumR Py M_Vector SpecR3 M_Path M_Surface M_Geometry
  SpecPath SpecPoly SpecSurf L_Vector L_Line L_Roberts.
Import ListNotations.
Local Open Scope R_scope.

(** ** SweptPatchfromEdges *)
Lemma first_index_spec (f : R -> bool) l i k :
  (k < length l)%nat -> f (nth k l 0) = true ->
  (forall j, (j < k)%nat -> f (nth j l 0) = false) -> first_index f l i = Some (i + k)%nat.
Proof.
  revert i k. induction l as [|a l IH]; intros i k Hk Hf Hj; cbn in Hk; [lia|].
  cbn [first_index]. destruct k as [|k].
  - cbn [nth] in Hf. rewrite Hf. f_equal. lia.
  - pose proof (Hj 0%nat ltac:(lia)) as H0. cbn [nth] in H0. rewrite H0.
    rewrite (IH (S i) k); [f_equal; lia|lia|exact Hf|]. intros j Hj'. apply (Hj (S j)). lia.
Qed.
Lemma first_index_none (f : R -> bool) l i :
  (forall j, (j < length l)%nat -> f (nth j l 0) = false) -> first_index f l i = None.
Proof.
  revert i. induction l as [|a l IH]; intros i Hj; cbn [first_index]; [reflexivity|].
  pose proof (Hj 0%nat ltac:(cbn; lia)) as H0. cbn [nth] in H0. rewrite H0. apply IH.
  intros j H. apply (Hj (S j)). cbn; lia.
Qed.

Lemma py_nth_ok {A} (l : list A) i d : (i < length l)%nat -> py_nth l i = Ok (nth i l d).
Proof. intros H. unfold py_nth. rewrite (nth_error_nth' l d H). reflexivity. Qed.

Lemma slice_nth m k : (k <= S m)%nat -> nth k (np_linspace (T := R) n0 n1 (S (S m))) 0 = INR k / INR (S m).
Proof.
  intros H. change (n0 : R) with 0. change (n1 : R) with 1.
  rewrite linspace_nth by lia. field. apply not_0_INR. lia.
Qed.
Lemma INR_ratio_lt m j k : (j < k)%nat -> INR j / INR (S m) < INR k / INR (S m).
Proof.
  intros H. unfold Rdiv. apply Rmult_lt_compat_r; [apply Rinv_0_lt_compat, lt_0_INR; lia|].
  apply lt_INR, H.
Qed.
Lemma INR_ratio_le m j k : (j <= k)%nat -> INR j / INR (S m) <= INR k / INR (S m).
Proof.
  intros H. unfold Rdiv. apply Rmult_le_compat_r; [apply Rlt_le, Rinv_0_lt_compat, lt_0_INR; lia|].
  apply le_INR, H.
Qed.

Section FromEdges.
  Variable edges : list (path R).
  Variable m : nat.
  Hypothesis Hlen : length edges = S (S m).

  Lemma swept_at_k k r s d : (k <= S m)%nat -> r = INR k / INR (S m) ->
    SweptPatchfromEdges edges r s = p_call (nth k edges d) s.
  Proof.
    intros Hk Hr. unfold SweptPatchfromEdges. cbv zeta. rewrite Hlen.
    rewrite (first_index_spec _ _ 0 k); [cbn [Nat.add]|..].
    - rewrite (py_nth_ok edges k d) by lia. reflexivity.
    - rewrite linspace_length. lia.
    - rewrite slice_nth by lia. apply Reqb_true. auto.
    - intros j Hj. rewrite slice_nth by lia. apply Reqb_false. rewrite Hr.
      apply Rlt_not_eq, INR_ratio_lt, Hj.
  Qed.

  Lemma no_slice r : (forall k, (k <= S m)%nat -> r <> INR k / INR (S m)) ->
    first_index (fun x => neqb x r) (np_linspace (T := R) n0 n1 (S (S m))) 0 = None.
  Proof.
    intros H. apply first_index_none. intros j Hj. rewrite linspace_length in Hj.
    rewrite slice_nth by lia. apply Reqb_false. intros E. apply (H j); [lia|auto].
  Qed.

  Lemma swept_between k r s d p q : (k <= m)%nat ->
    INR k / INR (S m) < r < INR (S k) / INR (S m) ->
    p_call (nth k edges d) s = Ok p -> p_call (nth (S k) edges d) s = Ok q ->
    SweptPatchfromEdges edges r s = Ok (lerp (r * INR (S m) - INR k) p q).
  Proof.
    intros Hk Hr Hp Hq. unfold SweptPatchfromEdges. cbv zeta. rewrite Hlen.
    rewrite no_slice.
    2:{ intros j Hj E. subst r. destruct (Nat.le_gt_cases j k) as [L|L].
        - pose proof (INR_ratio_le m _ _ L). lra.
        - pose proof (INR_ratio_le m (S k) j L). lra. }
    rewrite (first_index_spec _ _ 0 (S k)); [cbn [Nat.add]|..].
    - rewrite (py_nth_ok edges (S k) d), (py_nth_ok edges k d) by lia. cbn [bind]. rewrite Hq, Hp.
      cbn [bind]. rewrite !(py_nth_ok _ _ 0) by (rewrite linspace_length; lia). cbn [bind].
      rewrite !slice_nth by lia. f_equal.
      assert (INR (S m) <> 0) by (apply not_0_INR; lia).
      assert (A : (r - INR k / INR (S m)) / (INR (S k) / INR (S m) - INR k / INR (S m))
                  = r * INR (S m) - INR k).
      { rewrite (S_INR k). replace ((INR k + 1) / INR (S m) - INR k / INR (S m)) with (/ INR (S m))
          by (field; auto). field; auto. }
      numR. rewrite A. unfold lerp, vadd, vscale. numR. apply vec_ext; cbn [vx vy vz]; ring.
    - rewrite linspace_length. lia.
    - rewrite slice_nth by lia. apply Rltb_true. lra.
    - intros j Hj. rewrite slice_nth by lia. apply Rltb_false.
      pose proof (INR_ratio_le m j k ltac:(lia)). lra.
  Qed.

  Lemma swept_segment k r s d p q : (k <= m)%nat ->
    INR k / INR (S m) <= r <= INR (S k) / INR (S m) ->
    p_call (nth k edges d) s = Ok p -> p_call (nth (S k) edges d) s = Ok q ->
    SweptPatchfromEdges edges r s = Ok (lerp (r * INR (S m) - INR k) p q).
  Proof.
    intros Hk Hr Hp Hq.
    assert (N : INR (S m) <> 0) by (apply not_0_INR; lia).
    destruct (Req_dec r (INR k / INR (S m))) as [E|E].
    { rewrite (swept_at_k k r s d) by (auto; lia). rewrite Hp. f_equal. rewrite E.
      unfold lerp; apply vec_ext; cbn [vx vy vz]; field; auto. }
    destruct (Req_dec r (INR (S k) / INR (S m))) as [E'|E'].
    { rewrite (swept_at_k (S k) r s d) by (auto; lia). rewrite Hq. f_equal. rewrite E'.
      replace (INR (S k) / INR (S m) * INR (S m) - INR k) with 1 by (rewrite (S_INR k); field; auto).
      unfold lerp; apply vec_ext; cbn [vx vy vz]; ring. }
    apply swept_between with (d := d); auto. lra.
  Qed.

  Lemma swept_above r s : 1 < r -> SweptPatchfromEdges edges r s = Raise IndexError.
  Proof.
    intros Hr. unfold SweptPatchfromEdges. cbv zeta. rewrite Hlen.
    assert (B : forall k, (k <= S m)%nat -> INR k / INR (S m) <= 1).
    { intros k Hk. pose proof (INR_ratio_le m k (S m) Hk) as H.
      replace (INR (S m) / INR (S m)) with 1 in H by (field; apply not_0_INR; lia). exact H. }
    rewrite no_slice by (intros k Hk E; pose proof (B k Hk); lra).
    rewrite first_index_none; [reflexivity|]. intros j Hj. rewrite linspace_length in Hj.
    rewrite slice_nth by lia. apply Rltb_false. pose proof (B j ltac:(lia)). lra.
  Qed.

  Lemma swept_below r s d p q : r < 0 ->
    p_call (nth 0 edges d) s = Ok p -> p_call (nth (S m) edges d) s = Ok q ->
    SweptPatchfromEdges edges r s = Ok (lerp r p q).
  Proof.
    intros Hr Hp Hq. unfold SweptPatchfromEdges. cbv zeta. rewrite Hlen.
    assert (B : forall k, 0 <= INR k / INR (S m)).
    { intros k. apply Rmult_le_pos; [apply pos_INR|apply Rlt_le, Rinv_0_lt_compat, lt_0_INR; lia]. }
    rewrite no_slice by (intros k Hk E; pose proof (B k); lra).
    rewrite (first_index_spec _ _ 0 0); [cbn [Nat.add]|..].
    - replace (S (S m) - 1)%nat with (S m) by lia.
      rewrite (py_nth_ok edges 0 d), (py_nth_ok edges (S m) d) by lia. cbn [bind]. rewrite Hp, Hq.
      cbn [bind]. rewrite !(py_nth_ok _ _ 0) by (rewrite linspace_length; lia). cbn [bind].
      rewrite !slice_nth by lia. f_equal.
      assert (INR (S m) <> 0) by (apply not_0_INR; lia).
      replace (INR 0 / INR (S m)) with 0 by (cbn [INR]; field; auto).
      replace (INR (S m) / INR (S m)) with 1 by (field; auto).
      unfold lerp, vadd, vscale. numR. apply vec_ext; cbn [vx vy vz]; field.
    - rewrite linspace_length. lia.
    - rewrite slice_nth by lia. apply Rltb_true. pose proof (B 0%nat). lra.
    - lia.
  Qed.
End FromEdges.

Lemma swept_empty r s : SweptPatchfromEdges (T := R) [] r s = Raise IndexError.
Proof. reflexivity. Qed.

(** ** SweptPatch *)
Lemma list_min_spec (l : list R) m :
  (list_min m l <= m /\ forall x, In x l -> list_min m l <= x) /\ (list_min m l = m \/ In (list_min m l) l).
Proof.
  revert m. induction l as [|a l IH]; intros m; cbn [list_min].
  - split; [split; [lra|intros x []]|left; reflexivity].
  - numR. destruct (Rltb_spec a m) as [H|H]; destruct (IH (if true then a else m)) as [[A B] C];
      destruct (IH m) as [[A' B'] C']; cbn [In]; cbn iota in *.
    + split; [split; [lra|]|destruct C as [->|C]; auto]. intros x [->|Hx]; auto.
    + split; [split; [lra|]|destruct C' as [->|C']; auto]. intros x [->|Hx]; auto. lra.
Qed.
Lemma list_max_spec (l : list R) m :
  (m <= list_max m l /\ forall x, In x l -> x <= list_max m l) /\ (list_max m l = m \/ In (list_max m l) l).
Proof.
  revert m. induction l as [|a l IH]; intros m; cbn [list_max].
  - split; [split; [lra|intros x []]|left; reflexivity].
  - numR. destruct (Rltb_spec m a) as [H|H]; destruct (IH (if true then a else m)) as [[A B] C];
      destruct (IH m) as [[A' B'] C']; cbn [In]; cbn iota in *.
    + split; [split; [lra|]|destruct C as [->|C]; auto]. intros x [->|Hx]; auto.
    + split; [split; [lra|]|destruct C' as [->|C']; auto]. intros x [->|Hx]; auto. lra.
Qed.
Lemma list_min_is o l m : In m (o :: l) -> (forall x, In x (o :: l) -> m <= x) -> list_min o l = m.
Proof.
  intros H K. destruct (list_min_spec l o) as [[A B] C].
  assert (list_min o l <= m) by (destruct H as [->|H]; auto).
  assert (m <= list_min o l) by (destruct C as [->|C]; [apply K; left; auto|apply K; right; auto]). lra.
Qed.
Lemma list_max_is o l m : In m (o :: l) -> (forall x, In x (o :: l) -> x <= m) -> list_max o l = m.
Proof.
  intros H K. destruct (list_max_spec l o) as [[A B] C].
  assert (m <= list_max o l) by (destruct H as [->|H]; auto).
  assert (list_max o l <= m) by (destruct C as [->|C]; [apply K; left; auto|apply K; right; auto]). lra.
Qed.

Lemma vget_coord axis (p : pt) : is_axis axis -> vget p axis = Ok (coord axis p).
Proof.
  unfold vget, coord, axis_vec, inner, ex, ey, ez.
  intros [-> | [-> | ->]]; cbn [String.eqb Ascii.eqb Bool.eqb vx vy vz]; f_equal; ring.
Qed.

Lemma origins_mapM axis sections os : is_axis axis -> section_origins axis sections os ->
  mapM (fun cs => let! p := cs n0 n0 in vget p axis) sections = Ok os.
Proof.
  intros Ha H. induction H as [|cs o cs' os' (p & E & C) _ IH]; [reflexivity|].
  cbn [mapM]. change (n0 : R) with 0 in *. rewrite E. cbn [bind]. rewrite vget_coord by auto. cbn [bind].
  rewrite IH. cbn [bind]. rewrite C. reflexivity.
Qed.

Lemma swept_init_min_max axis sections os lo hi : is_axis axis -> section_origins axis sections os ->
  In lo os -> In hi os -> (forall x, In x os -> lo <= x <= hi) -> lo <> hi ->
  SweptPatch_init sections axis = Ok (mkSwept axis os (map SurfacePerimeter sections) lo (hi - lo)).
Proof.
  intros Ha Ho Hlo Hhi B N. unfold SweptPatch_init. rewrite (origins_mapM _ _ _ Ha Ho). cbn [bind].
  destruct os as [|o os]; [destruct Hlo|].
  rewrite (list_min_is o os lo Hlo) by (intros; apply B; auto).
  rewrite (list_max_is o os hi Hhi) by (intros; apply B; auto).
  numR. destruct (Reqb_spec lo hi); [contradiction|reflexivity].
Qed.

Lemma swept_init_flat axis sections os c : is_axis axis -> section_origins axis sections os ->
  os <> [] -> (forall x, In x os -> x = c) -> SweptPatch_init sections axis = Raise GenericError.
Proof.
  intros Ha Ho Hn H. unfold SweptPatch_init. rewrite (origins_mapM _ _ _ Ha Ho). cbn [bind].
  destruct os as [|o os]; [contradiction|].
  assert (Eo : o = c) by (apply H; left; auto).
  rewrite (list_min_is o os c), (list_max_is o os c);
    try (left; exact Eo); try (intros x Hx; rewrite (H x Hx); lra).
  numR. destruct (Reqb_spec c c); [reflexivity|contradiction].
Qed.

Lemma swept_init_empty axis : SweptPatch_init (T := R) [] axis = Raise ValueError.
Proof. reflexivity. Qed.
Lemma swept_init_axis axis (cs : surf R) sections p : ~ is_axis axis -> cs 0 0 = Ok p ->
  SweptPatch_init (cs :: sections) axis = Raise AttributeError.
Proof.
  intros H E. unfold SweptPatch_init. cbn [mapM]. change (n0 : R) with 0. rewrite E. cbn [bind].
  unfold vget.
  destruct (String.eqb_spec axis "x"); [exfalso; apply H; left; auto|].
  destruct (String.eqb_spec axis "y"); [exfalso; apply H; right; left; auto|].
  destruct (String.eqb_spec axis "z"); [exfalso; apply H; right; right; auto|]. reflexivity.
Qed.

Lemma search_last d ol len i rest : rest <> [] -> d = ol -> swept_search d ol len i rest = Ok (len - 2)%nat.
Proof.
  intros Hr ->. destruct rest; [contradiction|]. cbn [swept_search]. numR.
  destruct (Reqb_spec ol ol); [reflexivity|contradiction].
Qed.

(** ascending: the search stops at the k with o_k <= d < o_(k+1) *)
Lemma search_found d ol len : forall rest i k, d <> ol ->
  (forall a b, (a < b)%nat -> (b < length rest)%nat -> nth a rest 0 < nth b rest 0) ->
  (S k < length rest)%nat -> nth k rest 0 <= d < nth (S k) rest 0 ->
  swept_search d ol len i rest = Ok (i + k)%nat.
Proof.
  induction rest as [|lv rest IH]; intros i k Hd Hinc Hk Hb; cbn [length] in Hk; [lia|].
  cbn [swept_search]. numR. destruct (Reqb_spec d ol); [contradiction|].
  destruct k as [|k].
  - cbn [nth] in Hb. destruct (Rleb_spec lv d); [|lra]. destruct rest as [|nx rest]; [cbn in Hk; lia|].
    cbn [nth] in Hb. destruct (Rltb_spec d nx); [f_equal; lia|lra].
  - assert (Hlv : lv <= d).
    { pose proof (Hinc 0%nat (S k) ltac:(lia) ltac:(cbn; lia)) as H. cbn [nth] in H, Hb. lra. }
    destruct (Rleb_spec lv d); [|lra]. destruct rest as [|nx rest]; [cbn in Hk; lia|].
    assert (Hnx : nx <= d).
    { destruct k as [|k]; [cbn [nth] in Hb; lra|].
      pose proof (Hinc 1%nat (S (S k)) ltac:(lia) ltac:(cbn in *; lia)) as H. cbn [nth] in H, Hb. lra. }
    destruct (Rltb_spec d nx); [lra|].
    rewrite (IH (S i) k); [f_equal; lia|auto| |cbn in *; lia|exact Hb].
    intros a b Hab Hb'. apply (Hinc (S a) (S b)); [lia|cbn in *; lia].
Qed.

Lemma search_past d ol len : forall rest i, d <> ol -> rest <> [] ->
  (forall x, In x rest -> x <= d) -> swept_search d ol len i rest = Raise IndexError.
Proof.
  induction rest as [|lv rest IH]; intros i Hd Hr H; [contradiction|]. cbn [swept_search]. numR.
  destruct (Reqb_spec d ol); [contradiction|].
  destruct (Rleb_spec lv d) as [L|L]; [|pose proof (H lv (or_introl eq_refl)); lra].
  destruct rest as [|nx rest]; [reflexivity|].
  destruct (Rltb_spec d nx) as [L'|L']; [pose proof (H nx (or_intror (or_introl eq_refl))); lra|].
  apply IH; [auto|discriminate|]. intros x Hx. apply H. right; auto.
Qed.
Lemma search_before d ol len : forall rest i, d <> ol ->
  (forall x, In x rest -> d < x) -> swept_search d ol len i rest = Ok (i + length rest - 1)%nat.
Proof.
  induction rest as [|lv rest IH]; intros i Hd H; cbn [swept_search length]; [f_equal; lia|]. numR.
  destruct (Reqb_spec d ol); [contradiction|].
  destruct (Rleb_spec lv d) as [L|L]; [pose proof (H lv (or_introl eq_refl)); lra|].
  rewrite IH; [f_equal; lia|auto|]. intros x Hx. apply H. right; auto.
Qed.
(** descending: the search always runs off the end *)
Lemma search_desc d ol len : forall rest i, d <> ol -> rest <> [] ->
  (forall a b, (a < b)%nat -> (b < length rest)%nat -> nth b rest 0 < nth a rest 0) ->
  nth (length rest - 1) rest 0 <= d ->
  swept_search d ol len i rest = Raise IndexError.
Proof.
  induction rest as [|lv rest IH]; intros i Hd Hr Hdec Hlast; [contradiction|]. cbn [swept_search]. numR.
  destruct (Reqb_spec d ol); [contradiction|].
  destruct rest as [|nx rest].
  - cbn [length nth Nat.sub] in Hlast. destruct (Rleb_spec lv d); [reflexivity|lra].
  - assert (K : swept_search d ol len (S i) (nx :: rest) = Raise IndexError).
    { apply IH; [auto|discriminate| |].
      - intros a b Hab Hb. apply (Hdec (S a) (S b)); [lia|cbn in *; lia].
      - cbn [length] in *. replace (S (S (length rest)) - 1)%nat with (S (length rest)) in Hlast by lia.
        replace (S (length rest) - 1)%nat with (length rest) by lia. exact Hlast. }
    destruct (Rleb_spec lv d); [|exact K].
    destruct (Rltb_spec d nx); [|exact K].
    pose proof (Hdec 0%nat 1%nat ltac:(lia) ltac:(cbn; lia)) as H. cbn [nth] in H. lra.
Qed.

Lemma F2_len {A B} (P : A -> B -> Prop) l l' : Forall2 P l l' -> length l = length l'.
Proof. induction 1; cbn; auto. Qed.

Lemma in_nth_R l x : In x l -> exists k, (k < length l)%nat /\ nth k l 0 = x.
Proof. intros H. apply In_nth with (d := 0) in H. destruct H as (k & A & B). eauto. Qed.

Section Ascending.
  Variable axis : string.
  Variable sections : list (surf R).
  Variable os : list R.
  Variable m : nat.
  Hypothesis Hax : is_axis axis.
  Hypothesis Hor : section_origins axis sections os.
  Hypothesis Hlen : length os = S (S m).

  Let lo := nth 0 os 0.
  Let hi := nth (S m) os 0.
  Let u0 : surf R := fun _ _ => Raise IndexError.

  Lemma sec_len : length sections = S (S m).
  Proof. exact (eq_trans (F2_len _ _ _ Hor) Hlen). Qed.

  Lemma last_origin : py_last os = Ok hi.
  Proof.
    unfold py_last. destruct os as [|o l] eqn:E; [cbn in Hlen; lia|].
    rewrite (py_nth_ok _ _ 0) by (cbn in *; lia). f_equal. unfold hi. f_equal. cbn in *; lia.
  Qed.

  (** evaluation once the search has found index i *)
  Lemma swept_eval_at w0 dist0 r s i p q :
    (i <= m)%nat -> sw_axis w0 = axis -> sw_origins w0 = os ->
    sw_perimeters w0 = map SurfacePerimeter sections ->
    sw_min w0 + r * sw_dist w0 = dist0 ->
    swept_search dist0 hi (length os) 0 os = Ok i ->
    nth i os 0 <> nth (S i) os 0 ->
    p_call (SurfacePerimeter (nth i sections u0)) s = Ok p ->
    p_call (SurfacePerimeter (nth (S i) sections u0)) s = Ok q ->
    Swept_call w0 r s =
      Ok (with_coord axis dist0 (lerp ((dist0 - nth i os 0) / (nth (S i) os 0 - nth i os 0)) p q)).
  Proof.
    intros Hi E1 E2 E3 Ed Hs Hne Hp Hq. unfold Swept_call. numR. cbv zeta. rewrite E1, E2, E3, Ed, last_origin.
    cbn [bind]. rewrite Hs. cbn [bind].
    rewrite (py_nth_ok (map SurfacePerimeter sections) i (SurfacePerimeter u0))
      by (rewrite map_length, sec_len; lia).
    rewrite map_nth. cbn [bind]. rewrite Hp. cbn [bind].
    rewrite (py_nth_ok (map SurfacePerimeter sections) (i + 1) (SurfacePerimeter u0))
      by (rewrite map_length, sec_len; lia).
    rewrite map_nth. rewrite Nat.add_1_r. cbn [bind]. rewrite Hq. cbn [bind].
    rewrite !(py_nth_ok os _ 0) by lia. cbn [bind]. f_equal.
    assert (nth (S i) os 0 - nth i os 0 <> 0) by lra.
    unfold with_coord, swept_interp, lerp. numR. destruct Hax as [-> | [-> | ->]];
      cbn [String.eqb Ascii.eqb Bool.eqb]; apply vec_ext; cbn [vx vy vz]; try reflexivity; field; auto.
  Qed.

  Section Asc.
  Hypothesis Hinc : strictly_increasing os.

  Lemma asc_bounds x : In x os -> lo <= x <= hi.
  Proof.
    intros H. destruct (in_nth_R _ _ H) as (k & Hk & <-). unfold lo, hi.
    split; [destruct (Nat.eq_dec k 0) as [->|N]; [lra|left; apply Hinc; lia]
           |destruct (Nat.eq_dec k (S m)) as [->|N]; [lra|left; apply Hinc; lia]].
  Qed.
  Lemma asc_init : SweptPatch_init sections axis
    = Ok (mkSwept axis os (map SurfacePerimeter sections) lo (hi - lo)).
  Proof.
    apply swept_init_min_max; auto.
    - apply nth_In. lia.
    - apply nth_In. lia.
    - apply asc_bounds.
    - apply Rlt_not_eq. apply Hinc; lia.
  Qed.
  Definition asc_w := mkSwept axis os (map SurfacePerimeter sections) lo (hi - lo).

  Lemma asc_call r s k p q : (k <= m)%nat ->
    let d := lo + r * (hi - lo) in
    nth k os 0 <= d <= nth (S k) os 0 ->
    p_call (SurfacePerimeter (nth k sections u0)) s = Ok p ->
    p_call (SurfacePerimeter (nth (S k) sections u0)) s = Ok q ->
    Swept_call asc_w r s =
      Ok (with_coord axis d (lerp ((d - nth k os 0) / (nth (S k) os 0 - nth k os 0)) p q)) \/
    (d = nth (S k) os 0 /\ (S k <= m)%nat /\
     swept_search d hi (length os) 0 os = Ok (S k)).
  Proof.
    intros Hk d Hd Hp Hq.
    destruct (Req_dec d hi) as [E|E].
    - left. assert (k = m).
      { destruct (Nat.eq_dec k m); auto. exfalso.
        assert (nth (S k) os 0 < hi) by (unfold hi; apply Hinc; lia). lra. }
      subst k. apply swept_eval_at; auto.
      + rewrite search_last; [f_equal; lia| |exact E]. intros ->. cbn in Hlen; lia.
      + apply Rlt_not_eq, Hinc; lia.
    - destruct (Req_dec d (nth (S k) os 0)) as [E'|E'].
      + right. assert (S k <= m)%nat.
        { destruct (Nat.eq_dec k m) as [->|]; [exfalso; apply E; exact E'|lia]. }
        split; [exact E'|]. split; [exact H|].
        rewrite (search_found d hi _ os 0 (S k)); auto; [lia|].
        rewrite E'. split; [lra|apply Hinc; lia].
      + left. apply swept_eval_at; auto; [|apply Rlt_not_eq, Hinc; lia].
        rewrite (search_found d hi _ os 0 k); auto; [lia|lra].
  Qed.

  Lemma asc_call_closed r s k p q : (k <= m)%nat ->
    let d := lo + r * (hi - lo) in
    nth k os 0 <= d <= nth (S k) os 0 ->
    (forall j, (j <= S m)%nat -> is_ok (p_call (SurfacePerimeter (nth j sections u0)) s)) ->
    p_call (SurfacePerimeter (nth k sections u0)) s = Ok p ->
    p_call (SurfacePerimeter (nth (S k) sections u0)) s = Ok q ->
    Swept_call asc_w r s =
      Ok (with_coord axis d (lerp ((d - nth k os 0) / (nth (S k) os 0 - nth k os 0)) p q)).
  Proof.
    intros Hk d Hd Hok Hp Hq.
    destruct (asc_call r s k p q Hk Hd Hp Hq) as [H|(E & Hm & Hs)]; [exact H|].
    destruct (Hok (S (S k)) ltac:(lia)) as [q' Hq']. fold d in E, Hs.
    assert (L1 : nth (S k) os 0 < nth (S (S k)) os 0) by (apply Hinc; lia).
    assert (L2 : nth k os 0 < nth (S k) os 0) by (apply Hinc; lia).
    rewrite (swept_eval_at asc_w d r s (S k) q q'); auto; [|lra].
    f_equal. f_equal. rewrite E.
    replace ((nth (S k) os 0 - nth (S k) os 0) / (nth (S (S k)) os 0 - nth (S k) os 0)) with 0 by (field; lra).
    replace ((nth (S k) os 0 - nth k os 0) / (nth (S k) os 0 - nth k os 0)) with 1 by (field; lra).
    unfold lerp; apply vec_ext; cbn; ring.
  Qed.

  Lemma lo_hi : lo < hi. Proof. apply Hinc; lia. Qed.

  Lemma asc_outside r s :
    (forall j, (j <= S m)%nat -> is_ok (p_call (SurfacePerimeter (nth j sections u0)) s)) ->
    r < 0 \/ 1 < r -> Swept_call asc_w r s = Raise IndexError.
  Proof.
    intros Hok [Hr|Hr]; unfold Swept_call; numR; cbv zeta; cbn [asc_w sw_min sw_dist sw_origins sw_perimeters];
      rewrite last_origin; cbn [bind]; pose proof lo_hi.
    - rewrite search_before; [cbn [bind]| |].
      + replace (0 + length os - 1)%nat with (S m) by lia.
        rewrite (py_nth_ok (map SurfacePerimeter sections) (S m) (SurfacePerimeter u0))
          by (rewrite map_length, sec_len; lia).
        rewrite map_nth. cbn [bind]. destruct (Hok (S m) ltac:(lia)) as [p Hp]. rewrite Hp. cbn [bind].
        unfold py_nth. replace (nth_error (map SurfacePerimeter sections) (S m + 1)) with (@None (path R));
          [reflexivity|]. symmetry. apply nth_error_None. rewrite map_length, sec_len. lia.
      + nra.
      + intros x Hx. pose proof (asc_bounds x Hx). nra.
    - rewrite search_past; [reflexivity|nra| |].
      + intros ->. cbn in Hlen; lia.
      + intros x Hx. pose proof (asc_bounds x Hx). nra.
  Qed.
  End Asc.

  Section Desc.
  Hypothesis Hdec : strictly_decreasing os.
  Lemma desc_bounds x : In x os -> hi <= x <= lo.
  Proof.
    intros H. destruct (in_nth_R _ _ H) as (k & Hk & <-). unfold lo, hi.
    split; [destruct (Nat.eq_dec k (S m)) as [->|N]; [lra|left; apply Hdec; lia]
           |destruct (Nat.eq_dec k 0) as [->|N]; [lra|left; apply Hdec; lia]].
  Qed.
  Lemma desc_all r s : exists w, SweptPatch_init sections axis = Ok w /\
    (0 < r -> Swept_call w r s = Raise IndexError).
  Proof.
    assert (hi < lo) by (apply Hdec; lia).
    eexists. split.
    - apply (swept_init_min_max axis sections os hi lo); auto; [apply nth_In; lia|apply nth_In; lia| |lra].
      apply desc_bounds.
    - intros Hr. unfold Swept_call. numR. cbv zeta. cbn [sw_min sw_dist sw_origins].
      rewrite last_origin. cbn [bind]. rewrite search_desc; [reflexivity|nra| |exact Hdec|].
      + intros ->. cbn in Hlen; lia.
      + rewrite Hlen. replace (S (S m) - 1)%nat with (S m) by lia. fold hi. nra.
  Qed.
  End Desc.
End Ascending.

Lemma F2_nth {A B} (P : A -> B -> Prop) l l' k a b : Forall2 P l l' -> (k < length l)%nat ->
  P (nth k l a) (nth k l' b).
Proof.
  intros H. revert k. induction H; intros k Hk; cbn [length] in Hk; [lia|].
  destruct k; cbn [nth]; [auto|apply IHForall2; lia].
Qed.

Lemma interval_search (l : list R) m d : length l = S (S m) ->
  nth 0 l 0 <= d <= nth (S m) l 0 -> exists k, (k <= m)%nat /\ nth k l 0 <= d <= nth (S k) l 0.
Proof.
  intros _. induction m as [|m IH]; intros H.
  - exists 0%nat. split; [lia|exact H].
  - destruct (Rle_lt_dec d (nth (S m) l 0)) as [L|L].
    + destruct IH as (k & Hk & B); [lra|]. exists k. split; [lia|exact B].
    + exists (S m). split; [lia|lra].
Qed.

Lemma swept_ascending axis sections os s ps : is_axis axis -> section_origins axis sections os ->
  strictly_increasing os -> (2 <= length os)%nat ->
  Forall2 (fun cs p => p_call (SurfacePerimeter cs) s = Ok p) sections ps ->
  exists w, SweptPatch_init sections axis = Ok w /\
    let lo := nth 0 os 0 in let hi := nth (length os - 1) os 0 in
    (forall r, 0 <= r <= 1 -> exists k, (S k < length os)%nat /\
       nth k os 0 <= lo + r * (hi - lo) <= nth (S k) os 0) /\
    (forall r k, (S k < length os)%nat ->
       let d := lo + r * (hi - lo) in
       nth k os 0 <= d <= nth (S k) os 0 ->
       Swept_call w r s = Ok (with_coord axis d
         (lerp ((d - nth k os 0) / (nth (S k) os 0 - nth k os 0)) (nth k ps origin) (nth (S k) ps origin)))) /\
    (forall r, r < 0 \/ 1 < r -> Swept_call w r s = Raise IndexError).
Proof.
  intros Hax Hor Hinc Hl Hps. destruct (length os) as [|[|m]] eqn:Hlen; try lia.
  replace (S (S m) - 1)%nat with (S m) by lia.
  pose proof (sec_len axis sections os m Hor Hlen) as Hsl.
  eexists. split; [apply (asc_init axis sections os m Hax Hor Hlen Hinc)|]. cbv zeta.
  assert (Hok : forall j, (j <= S m)%nat ->
    is_ok (p_call (SurfacePerimeter (nth j sections (fun _ _ => Raise IndexError))) s)).
  { intros j Hj. eexists. apply (@F2_nth (surf R) pt _ _ _ j (fun _ _ => Raise IndexError) origin Hps). lia. }
  split; [|split].
  - intros r Hr. destruct (interval_search os m (nth 0 os 0 + r * (nth (S m) os 0 - nth 0 os 0)) Hlen)
      as (k & Hk & B); [|exists k; split; [lia|exact B]].
    pose proof (lo_hi os m Hlen Hinc). nra.
  - intros r k Hk B. apply (asc_call_closed axis sections os m Hax Hor Hlen Hinc r s k); auto; [lia| |];
      apply (@F2_nth (surf R) pt _ _ _ _ (fun _ _ => Raise IndexError) origin Hps); lia.
  - intros r Hr. apply (asc_outside axis sections os m Hor Hlen Hinc r s); auto.
Qed.

Lemma swept_descending axis sections os r s : is_axis axis -> section_origins axis sections os ->
  strictly_decreasing os -> (2 <= length os)%nat -> 0 < r ->
  exists w, SweptPatch_init sections axis = Ok w /\ Swept_call w r s = Raise IndexError.
Proof.
  intros Hax Hor Hdec Hl Hr. destruct (length os) as [|[|m]] eqn:Hlen; try lia.
  destruct (desc_all axis sections os m Hax Hor Hlen Hdec r s) as (w & E & K). eauto.
Qed.
