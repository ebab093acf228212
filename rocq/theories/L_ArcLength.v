From Coq Require Import Reals Lra Psatz ZArith List Lia Bool.
From Verif Require Import Num NumR Py M_Vector SpecR3 M_Path SpecPath SpecPoly L_Vector L_Line L_Polyline L_Spline.
Import ListNotations.
Local Open Scope R_scope.

Lemma arc_length_loop_eq call g n : (forall t, call t = Ok (g t)) -> (1 <= n)%nat ->
  forall m a, arc_length_loop call (ndiv n1 (nnat n)) (seq (S a) m) (g (INR a / INR n)) (arc_upto g n a)
    = Ok (map (fun k => (arc_upto g n k, INR k / INR n)) (seq (S a) m)).
Proof.
  intros Hg Hn m. assert (N : INR n <> 0) by (apply not_0_INR; lia).
  assert (D : forall k, nmul (ndiv n1 (nnat n)) (nnat k) = INR k / INR n).
  { intros k. rewrite !nnat_INR. unfold n1. cbn [nmul ndiv nZ NumR]. field; auto. }
  induction m; intros a; cbn [seq arc_length_loop map]; [reflexivity|].
  rewrite D, Hg. cbn [bind].
  assert (E : nadd (arc_upto g n a) (vabs (vsub (g (INR (S a) / INR n)) (g (INR a / INR n))))
              = arc_upto g n (S a)).
  { unfold arc_upto. cbn [sumn]. cbn [nadd NumR]. f_equal.
    change (nrm (vsub (g (INR (S a) / INR n)) (g (INR a / INR n))) =
            dist (g (INR a / INR n)) (g (INR (S a) / INR n))).
    rewrite <- dist_nrm. apply dist_sym. }
  rewrite E. rewrite (IHm (S a)). cbn [bind]. reflexivity.
Qed.

Lemma arc_table_eq call g n : (forall t, call t = Ok (g t)) -> (1 <= n)%nat ->
  arc_table call n = Ok (map (fun k => (arc_upto g n k, INR k / INR n)) (seq 0 (S n))).
Proof.
  intros Hg Hn. unfold arc_table. rewrite Hg. cbn [bind].
  assert (E : g n0 = g (INR 0 / INR n)).
  { f_equal. unfold n0; cbn [nZ NumR]. cbn. unfold Rdiv; ring. }
  rewrite E. change n0 with (arc_upto g n 0) at 1.
  rewrite (arc_length_loop_eq call g n Hg Hn n 0). cbn [bind].
  f_equal. cbn [seq map]. f_equal. unfold arc_upto, n0; cbn. f_equal. unfold Rdiv; ring.
Qed.

(** ** the interpolation search *)
Lemma scan_spec (X Y : nat -> R) x : forall m a, X a <= x ->
  exists k, (a <= k <= a + m)%nat /\ X k <= x /\
    ((k = (a + m)%nat /\
      interp_scan x (X a) (Y a) (map (fun k => (X k, Y k)) (seq (S a) m)) = Y k) \/
     ((k < a + m)%nat /\ x < X (S k) /\
      interp_scan x (X a) (Y a) (map (fun k => (X k, Y k)) (seq (S a) m))
      = (Y (S k) - Y k) / (X (S k) - X k) * (x - X k) + Y k)).
Proof.
  induction m; intros a Ha.
  - exists a. split; [lia|]. split; [exact Ha|]. left. split; [lia|reflexivity].
  - cbn [seq map interp_scan nleb neqb NumR].
    destruct (Rleb_spec (X (S a)) x) as [L|L].
    + destruct (IHm (S a) L) as (k & Hk & Xk & C). exists k. split; [lia|]. split; [exact Xk|].
      destruct C as [[E C]|[E [Lx C]]]; [left|right].
      * split; [lia|exact C].
      * split; [lia|]. split; [exact Lx|exact C].
    + exists a. split; [lia|]. split; [exact Ha|]. right. split; [lia|]. split; [lra|].
      destruct (Reqb_spec (X a) x) as [E|E].
      * rewrite E. field. lra.
      * cbn [nadd nmul ndiv nsub NumR]. reflexivity.
Qed.

Definition table (X Y : nat -> R) (n : nat) : list (R * R) :=
  map (fun k => (X k, Y k)) (seq 0 (S n)).

Lemma last_table X Y n d : last (table X Y n) d = (X n, Y n).
Proof.
  unfold table. rewrite seq_S, map_app. cbn [map]. rewrite last_last. reflexivity.
Qed.

Lemma np_interp_spec X Y n x l r :
  np_interp x (table X Y n) l r =
  if Rltb (X n) x then r else if Rltb x (X 0%nat) then l
  else interp_scan x (X 0%nat) (Y 0%nat) (map (fun k => (X k, Y k)) (seq 1 n)).
Proof.
  unfold np_interp. assert (E := last_table X Y n (X 0%nat, Y 0%nat)).
  unfold table in *. cbn [seq map] in *. rewrite E. cbn [fst].
  unfold ngtb. cbn [nltb NumR]. reflexivity.
Qed.

Section Interp.
  Variables X Y : nat -> R.
  Variable n : nat.
  Hypothesis HX : forall k, (k < n)%nat -> X k <= X (S k).
  Hypothesis HY : forall k, (k < n)%nat -> Y k < Y (S k).
  Hypothesis HY0 : Y 0%nat = 0.
  Hypothesis HY1 : Y n = 1.
  Hypothesis HX0 : X 0%nat = 0.

  Lemma X_mono i j : (i <= j)%nat -> (j <= n)%nat -> X i <= X j.
  Proof. induction 1; intros; [lra|]. specialize (HX m ltac:(lia)). specialize (IHle ltac:(lia)). lra. Qed.
  Lemma Y_mono i j : (i <= j)%nat -> (j <= n)%nat -> Y i <= Y j.
  Proof. induction 1; intros; [lra|]. specialize (HY m ltac:(lia)). specialize (IHle ltac:(lia)). lra. Qed.

  Let F x := np_interp x (table X Y n) 0 1.

  (** index and fraction chosen for a target in range *)
  Lemma interp_in_range x : 0 <= x <= X n ->
    exists k, (k <= n)%nat /\ X k <= x /\
      ((k = n /\ F x = 1) \/
       ((k < n)%nat /\ x < X (S k) /\
        F x = (Y (S k) - Y k) / (X (S k) - X k) * (x - X k) + Y k)).
  Proof.
    intros [H1 H2]. unfold F. rewrite np_interp_spec.
    destruct (Rltb_spec (X n) x); [lra|]. rewrite HX0. destruct (Rltb_spec x 0); [lra|].
    destruct (scan_spec X Y x n 0) as (k & Hk & Xk & C); [lra|].
    exists k. split; [lia|]. split; [exact Xk|]. rewrite HX0 in C.
    destruct C as [[E C]|[E [L C]]]; [left|right].
    - split; [lia|]. rewrite C. replace k with n by lia. exact HY1.
    - split; [lia|]. split; [exact L|exact C].
  Qed.

  Lemma interp_below x : x < 0 -> F x = 0.
  Proof.
    intros H. unfold F. rewrite np_interp_spec.
    pose proof (X_mono 0 n ltac:(lia) ltac:(lia)).
    destruct (Rltb_spec (X n) x); [lra|]. destruct (Rltb_spec x (X 0%nat)); [reflexivity|lra].
  Qed.
  Lemma interp_above x : X n < x -> F x = 1.
  Proof.
    intros H. unfold F. rewrite np_interp_spec. destruct (Rltb_spec (X n) x); [reflexivity|lra].
  Qed.

  Lemma chord_bounds k x : (k < n)%nat -> X k <= x < X (S k) ->
    Y k <= (Y (S k) - Y k) / (X (S k) - X k) * (x - X k) + Y k <= Y (S k).
  Proof.
    intros Hk [A B]. specialize (HY k Hk). set (d := X (S k) - X k). set (e := Y (S k) - Y k).
    assert (Hd : 0 < d) by (unfold d; lra). assert (He : 0 < e) by (unfold e; lra).
    assert (Hr : 0 <= (x - X k) / d <= 1).
    { split; unfold Rdiv.
      - apply Rmult_le_pos; [lra|]. apply Rlt_le, Rinv_0_lt_compat; auto.
      - apply Rmult_le_reg_r with d; auto. rewrite Rmult_assoc, Rinv_l by lra. unfold d; lra. }
    replace (e / d * (x - X k)) with (e * ((x - X k) / d)) by (field; lra).
    assert (Y (S k) = Y k + e) by (unfold e; ring). nra.
  Qed.

  Lemma interp_bounds x : 0 <= F x <= 1.
  Proof.
    destruct (Rlt_dec x 0); [rewrite interp_below by auto; lra|].
    destruct (Rlt_dec (X n) x); [rewrite interp_above by auto; lra|].
    destruct (interp_in_range x) as (k & Hk & Xk & [[-> E]|[L [Lx E]]]); [lra|rewrite E; lra|].
    rewrite E. pose proof (chord_bounds k x L (conj Xk Lx)).
    pose proof (Y_mono 0 k ltac:(lia) ltac:(lia)). pose proof (Y_mono (S k) n ltac:(lia) ltac:(lia)). lra.
  Qed.

  Lemma interp_mono x x' : x <= x' -> F x <= F x'.
  Proof.
    intros H. pose proof (interp_bounds x) as Bx. pose proof (interp_bounds x') as Bx'.
    destruct (Rlt_dec x 0); [rewrite (interp_below x) by auto; lra|].
    destruct (Rlt_dec (X n) x'); [rewrite (interp_above x') by auto; lra|].
    destruct (interp_in_range x) as (k & Hk & Xk & C); [lra|].
    destruct (interp_in_range x') as (k' & Hk' & Xk' & C'); [lra|].
    destruct C' as [[E' C']|[L' [Lx' C']]]; [rewrite C'; lra|].
    destruct C as [[E C]|[L [Lx C]]].
    - exfalso. assert (X (S k') <= X k) by (apply X_mono; lia). lra.
    - destruct (Nat.lt_trichotomy k k') as [T|[->|T]].
      + rewrite C, C'. pose proof (chord_bounds k x L (conj Xk Lx)).
        pose proof (chord_bounds k' x' L' (conj Xk' Lx')).
        pose proof (Y_mono (S k) k' ltac:(lia) ltac:(lia)). lra.
      + rewrite C, C'. apply Rplus_le_compat_r. apply Rmult_le_compat_l; [|lra].
        specialize (HY k' L). apply Rlt_le, Rdiv_lt_0_compat; lra.
      + exfalso. assert (X (S k') <= X k) by (apply X_mono; lia). lra.
  Qed.

  Lemma interp_at_last : F (X n) = 1.
  Proof.
    pose proof (X_mono 0 n ltac:(lia) ltac:(lia)).
    destruct (interp_in_range (X n)) as (k & Hk & Xk & C); [lra|].
    destruct C as [[E C]|[L [Lx C]]]; [exact C|].
    exfalso. assert (X (S k) <= X n) by (apply X_mono; lia). lra.
  Qed.

  Lemma interp_at_zero_iff : (1 <= n)%nat -> (F 0 = 0 <-> 0 < X 1%nat).
  Proof.
    intros Hn. pose proof (X_mono 0 n ltac:(lia) ltac:(lia)).
    destruct (interp_in_range 0) as (k & Hk & Xk & C); [lra|].
    split; intros H'.
    - destruct C as [[E C]|[L [Lx C]]]; [lra|].
      destruct k; [exact Lx|exfalso].
      pose proof (chord_bounds (S k) 0 L (conj Xk Lx)).
      pose proof (Y_mono 1 (S k) ltac:(lia) ltac:(lia)). pose proof (HY 0 ltac:(lia)). lra.
    - assert (k = 0%nat).
      { destruct k; [reflexivity|exfalso].
        assert (X 1%nat <= X (S k)) by (apply X_mono; lia). lra. }
      subst k. destruct C as [[E C]|[L [Lx C]]]; [lia|]. rewrite C, HX0, HY0. ring.
  Qed.

  (** right inverse: the target lies on the chord through the returned value *)
  Lemma interp_inverse x : (1 <= n)%nat -> 0 <= x <= X n ->
    exists k, (k < n)%nat /\ Y k <= F x <= Y (S k) /\
      x = X k + (F x - Y k) / (Y (S k) - Y k) * (X (S k) - X k).
  Proof.
    intros Hn Hx. destruct (interp_in_range x Hx) as (k & Hk & Xk & C).
    destruct C as [[-> C]|[L [Lx C]]].
    - exists (n - 1)%nat. replace (S (n - 1)) with n by lia.
      pose proof (HY (n - 1) ltac:(lia)) as D. replace (S (n - 1)) with n in D by lia.
      rewrite C, HY1 in *. repeat split; try lia; try lra. field_simplify; lra.
    - exists k. split; [exact L|]. pose proof (HY k L). rewrite C. split.
      + apply chord_bounds; auto.
      + field. lra.
  Qed.
End Interp.

(** ** ArcLengthParameterizedPath *)
Section Arclen.
  Variable p : path R.
  Variable g : R -> pt.
  Variable n : nat.
  Hypothesis Hg : evaluates p g.
  Hypothesis Hn : (1 <= n)%nat.

  Definition aX := arc_upto g n.
  Definition aY := fun k : nat => INR k / INR n.
  Lemma INRn : 0 < INR n. Proof. apply lt_0_INR; lia. Qed.

  Lemma aX_step k : (k < n)%nat -> aX k <= aX (S k).
  Proof.
    intros _. unfold aX, arc_upto. cbn [sumn].
    pose proof (dist_nonneg (g (INR k / INR n)) (g (INR (S k) / INR n))). lra.
  Qed.
  Lemma aY_step k : (k < n)%nat -> aY k < aY (S k).
  Proof.
    intros _. unfold aY, Rdiv. apply Rmult_lt_compat_r; [apply Rinv_0_lt_compat, INRn|].
    apply lt_INR; lia.
  Qed.
  Lemma aY_0 : aY 0 = 0. Proof. unfold aY; cbn. unfold Rdiv; ring. Qed.
  Lemma aY_n : aY n = 1. Proof. unfold aY. pose proof INRn. field; lra. Qed.
  Lemma aX_0 : aX 0 = 0. Proof. reflexivity. Qed.

  Definition ut (t : R) : R := np_interp (t * inscribed g n) (table aX aY n) 0 1.

  Lemma arclen_path : exists q, ArcLengthParameterizedPath_n p n = Ok q /\
    (forall t, p_call q t = Ok (g (ut t))) /\ p_len q = p_len p.
  Proof.
    unfold ArcLengthParameterizedPath_n.
    destruct (Nat.ltb_spec n 1); [lia|].
    rewrite (arc_table_eq (p_call p) g n Hg Hn). cbn [bind].
    eexists. split; [reflexivity|]. cbn [p_call p_len]. split; [|reflexivity].
    intros t. unfold underlying_t. fold (table aX aY n).
    change (map (fun k => (arc_upto g n k, INR k / INR n)) (seq 0 (S n))) with (table aX aY n).
    rewrite last_table. cbn [fst]. apply Hg.
  Qed.

  Lemma ut_range t : 0 <= ut t <= 1.
  Proof. apply (interp_bounds aX aY n aX_step aY_step aY_0 aY_n aX_0). Qed.
  Lemma ut_mono s t : s <= t -> ut s <= ut t.
  Proof.
    intros H. apply (interp_mono aX aY n aX_step aY_step aY_0 aY_n aX_0).
    apply Rmult_le_compat_r; [apply inscribed_nonneg|exact H].
  Qed.
  Lemma ut_1 : ut 1 = 1.
  Proof.
    unfold ut. rewrite Rmult_1_l. change (inscribed g n) with (aX n).
    apply (interp_at_last aX aY n aX_step aY_n aX_0).
  Qed.
  Lemma ut_0_iff : ut 0 = 0 <-> 0 < dist (g 0) (g (1 / INR n)).
  Proof.
    unfold ut. rewrite Rmult_0_l.
    rewrite (interp_at_zero_iff aX aY n aX_step aY_step aY_0 aY_n aX_0 Hn).
    unfold aX, arc_upto. cbn [sumn INR]. rewrite Rplus_0_l.
    replace (0 / INR n) with 0 by (unfold Rdiv; ring). reflexivity.
  Qed.
  Lemma ut_inverse t : 0 <= t <= 1 -> sampled_arc g n (ut t) (t * inscribed g n).
  Proof.
    intros Ht. pose proof (inscribed_nonneg g n) as HI.
    assert (Hx : 0 <= t * inscribed g n <= aX n).
    { change (aX n) with (inscribed g n). nra. }
    destruct (interp_inverse aX aY n aY_step aY_n aX_0 _ Hn Hx) as (k & Hk & B & E).
    exists k. split; [exact Hk|]. split; [exact B|].
    fold (ut t) in E. rewrite E at 1. unfold aX.
    replace ((ut t - aY k) / (aY (S k) - aY k)) with (ut t * INR n - INR k); [reflexivity|].
    unfold aY. rewrite S_INR. pose proof INRn. field. lra.
  Qed.
End Arclen.

Lemma arclen_reject (p : path R) : ArcLengthParameterizedPath_n p 0 = Raise RuntimeError.
Proof. reflexivity. Qed.

Lemma arclen_all (p : path R) g n : evaluates p g -> (1 <= n)%nat ->
  exists q u, ArcLengthParameterizedPath_n p n = Ok q /\
    evaluates q (fun t => g (u t)) /\ p_len q = p_len p /\
    (forall t, 0 <= u t <= 1) /\ (forall s t, s <= t -> u s <= u t) /\
    u 1 = 1 /\ (u 0 = 0 <-> g 0 <> g (1 / INR n)) /\
    (forall t, 0 <= t <= 1 -> sampled_arc g n (u t) (t * inscribed g n)).
Proof.
  intros Hg Hn. destruct (arclen_path p g n Hg Hn) as (q & E & C & L).
  exists q, (ut g n). split; [exact E|]. split; [exact C|]. split; [exact L|].
  split; [apply ut_range; auto|]. split; [intros; apply ut_mono; auto|].
  split; [apply ut_1; auto|]. split; [|intros; apply ut_inverse; auto].
  rewrite (ut_0_iff g n Hn). pose proof (dist_nonneg (g 0) (g (1 / INR n))).
  split; intros H'.
  - intros E'. rewrite <- E' in H'. rewrite (proj2 (dist_zero _ _) eq_refl) in H'. lra.
  - destruct (Rle_lt_or_eq_dec _ _ H) as [|E']; [assumption|]. exfalso. apply H'.
    apply dist_zero. auto.
Qed.

Lemma arclen_ends (p : path R) g n : evaluates p g -> (1 <= n)%nat ->
  g 0 <> g (1 / INR n) ->
  exists q, ArcLengthParameterizedPath_n p n = Ok q /\
    p_call q 0 = p_call p 0 /\ p_call q 1 = p_call p 1.
Proof.
  intros Hg Hn H. destruct (arclen_all p g n Hg Hn) as (q & u & E & C & _ & _ & _ & U1 & U0 & _).
  exists q. split; [exact E|]. rewrite (C 0), (C 1), (Hg 0), (Hg 1).
  rewrite (proj2 U0 H), U1. auto.
Qed.

Lemma arclen_equalises (p : path R) g n : evaluates p g -> (1 <= n)%nat ->
  exists q u, ArcLengthParameterizedPath_n p n = Ok q /\
    (forall t, p_call q t = p_call p (u t)) /\
    (forall t, 0 <= t <= 1 -> sampled_arc g n (u t) (t * inscribed g n)).
Proof.
  intros Hg Hn. destruct (arclen_all p g n Hg Hn) as (q & u & E & C & _ & _ & _ & _ & _ & S).
  exists q, u. split; [exact E|]. split; [|exact S]. intros t. rewrite (C t), (Hg (u t)). reflexivity.
Qed.

Lemma length_all (p : path R) g n k :
  evaluates p g -> (1 <= n)%nat -> (1 <= k)%nat ->
  exists l l', Path_length (p_call p) n = Ok l /\ Path_length (p_call p) (n * k) = Ok l' /\
    l = inscribed g n /\ 0 <= l /\ dist (g 0) (g 1) <= l /\ l <= l'.
Proof.
  intros Hg Hn Hk. exists (inscribed g n), (inscribed g (n * k)).
  split; [apply path_length_inscribed; auto|]. split; [apply path_length_inscribed; auto; nia|].
  split; [reflexivity|]. split; [apply inscribed_nonneg|]. split; [apply inscribed_chord; auto|].
  apply inscribed_refine; auto.
Qed.

Lemma length_straight (p : path R) f a b n :
  evaluates p (fun t => lerp (f t) a b) -> (1 <= n)%nat ->
  f 0 = 0 -> f 1 = 1 ->
  (forall s t, 0 <= s -> s <= t -> t <= 1 -> f s <= f t) ->
  Path_length (p_call p) n = Ok (dist a b).
Proof.
  intros Hg Hn F0 F1 M.
  rewrite (path_length_inscribed (p_call p) (fun t => lerp (f t) a b) n Hg Hn).
  f_equal. apply inscribed_straight with (f := f); auto.
Qed.
