From Coq Require Import Reals Lra Psatz ZArith List Lia Bool.
From Verif Require Import Num NumR Py M_Vector SpecR3 M_Path SpecPath SpecPoly L_Vector L_Spline.
Import ListNotations.
Local Open Scope R_scope.

Section Roberts.
  Variable beta : R.
  Hypothesis Hb : 1 < beta.
  Let lam := (beta + 1) / (beta - 1).

  Lemma lam_gt1 : 1 < lam.
  Proof.
    unfold lam. apply Rmult_lt_reg_r with (beta - 1); [lra|].
    unfold Rdiv. rewrite Rmult_assoc, Rinv_l by lra. lra.
  Qed.
  Lemma lnlam_pos : 0 < ln lam.
  Proof. rewrite <- ln_1. apply ln_increasing; pose proof lam_gt1; lra. Qed.

  Definition pw (x : R) : R := Rpower lam x.
  Lemma pw_pos x : 0 < pw x. Proof. apply exp_pos. Qed.
  Lemma pw_lt x y : x < y -> pw x < pw y.
  Proof. intros. apply Rpower_lt; [apply lam_gt1|assumption]. Qed.
  Lemma pw_0 : pw 0 = 1.
  Proof. apply Rpower_O. pose proof lam_gt1; lra. Qed.
  Lemma pw_1 : pw 1 = lam.
  Proof. apply Rpower_1. pose proof lam_gt1; lra. Qed.
  Lemma pw_m1 : pw (-1) = / lam.
  Proof. unfold pw. replace (-1) with (- (1)) by ring. rewrite Rpower_Ropp. f_equal. apply pw_1. Qed.
  Lemma pw_plus x y : pw (x + y) = pw x * pw y. Proof. apply Rpower_plus. Qed.
  Lemma pw_opp x : pw (- x) = / pw x. Proof. apply Rpower_Ropp. Qed.
  Lemma pw_ln l : 0 < l -> pw (ln l / ln lam) = l.
  Proof.
    intros. unfold pw, Rpower. replace (ln l / ln lam * ln lam) with (ln l).
    apply exp_ln; auto. pose proof lnlam_pos. field. lra.
  Qed.

  (** one-sided (towards 1) and two-sided transformations *)
  Definition rob1 (e : R) : R := beta * (pw e - 1) / (1 + pw e).
  Definition rob2 (e : R) : R :=
    ((beta + 1) * pw (2 * e - 1) - (beta - 1)) / (2 * (1 + pw (2 * e - 1))).

  Lemma roberts_0 e : roberts e 0 beta = Ok (rob1 e).
  Proof.
    unfold roberts. numR. destruct (Reqb_spec (beta - 1) 0); [lra|].
    f_equal. unfold rob1. fold lam. rewrite Rpow_pos by (pose proof lam_gt1; lra).
    replace ((e - 0) / (1 - 0)) with e by field. fold (pw e).
    pose proof (pw_pos e). field. lra.
  Qed.
  Lemma roberts_half e : roberts e (1 / 2) beta = Ok (rob2 e).
  Proof.
    unfold roberts. numR. destruct (Reqb_spec (beta - 1) 0); [lra|].
    f_equal. unfold rob2. fold lam. rewrite Rpow_pos by (pose proof lam_gt1; lra).
    replace ((e - 1 / 2) / (1 - 1 / 2)) with (2 * e - 1) by field. fold (pw (2 * e - 1)).
    pose proof (pw_pos (2 * e - 1)). field. lra.
  Qed.

  Definition rfun (e1 e2 : bool) (e : R) : R :=
    if e1 then (if e2 then rob2 e else 1 - rob1 (1 - e)) else rob1 e.

  Lemma clustered_eq e1 e2 e : e1 || e2 = true ->
    clustered_roberts e e1 e2 beta = Ok (rfun e1 e2 e).
  Proof.
    intros H. unfold clustered_roberts.
    assert (B : nltb beta n1 = false) by (apply Rltb_false; unfold n1; cbn; lra).
    rewrite B.
    change (@nhalf R NumR) with (1 / 2). change (@n0 R NumR) with 0.
    change (@n1 R NumR) with 1. cbn [nsub NumR].
    destruct e1, e2; try discriminate; cbn [negb andb orb];
      rewrite ?roberts_half, ?roberts_0; reflexivity.
  Qed.

  Lemma rob1_0 : rob1 0 = 0.
  Proof. unfold rob1. rewrite pw_0. field. Qed.
  Lemma rob1_1 : rob1 1 = 1.
  Proof. unfold rob1. rewrite pw_1. unfold lam. field. lra. Qed.
  Lemma rob2_0 : rob2 0 = 0.
  Proof.
    unfold rob2. replace (2 * 0 - 1) with (-1) by ring. rewrite pw_m1. unfold lam. field. lra.
  Qed.
  Lemma rob2_1 : rob2 1 = 1.
  Proof.
    unfold rob2. replace (2 * 1 - 1) with 1 by ring. rewrite pw_1. unfold lam. field. lra.
  Qed.
  Lemma rob2_half : rob2 (1 / 2) = 1 / 2.
  Proof. unfold rob2. replace (2 * (1 / 2) - 1) with 0 by field. rewrite pw_0. field. Qed.
  Lemma rob1_eq e : rob1 e = beta - 2 * beta / (1 + pw e).
  Proof. unfold rob1. pose proof (pw_pos e). field. lra. Qed.
  Lemma rob2_eq e : rob2 e = (beta + 1) / 2 - beta / (1 + pw (2 * e - 1)).
  Proof. unfold rob2. pose proof (pw_pos (2 * e - 1)). field. lra. Qed.
  Lemma rob2_rob1 e : rob2 e = (rob1 (2 * e - 1) + 1) / 2.
  Proof. rewrite rob2_eq, rob1_eq. field. pose proof (pw_pos (2 * e - 1)). lra. Qed.

  Lemma rob1_lt x y : x < y -> rob1 x < rob1 y.
  Proof.
    intros H. rewrite !rob1_eq. apply pw_lt in H. pose proof (pw_pos x).
    assert (/ (1 + pw y) < / (1 + pw x)) by (apply Rinv_lt_contravar; nra).
    unfold Rdiv. nra.
  Qed.
  Lemma rob2_lt x y : x < y -> rob2 x < rob2 y.
  Proof. intros H. rewrite !rob2_rob1. pose proof (rob1_lt (2 * x - 1) (2 * y - 1)). lra. Qed.
  Lemma rob1_odd e : rob1 (- e) = - rob1 e.
  Proof. unfold rob1. rewrite pw_opp. pose proof (pw_pos e). field. lra. Qed.
  Lemma rob2_sym e : rob2 (1 - e) = 1 - rob2 e.
  Proof.
    rewrite !rob2_rob1. replace (2 * (1 - e) - 1) with (- (2 * e - 1)) by ring.
    rewrite rob1_odd. field.
  Qed.

  Lemma rfun_lt e1 e2 x y : x < y -> rfun e1 e2 x < rfun e1 e2 y.
  Proof.
    intros H. unfold rfun. destruct e1, e2.
    - apply rob2_lt, H.
    - pose proof (rob1_lt (1 - y) (1 - x)). lra.
    - apply rob1_lt, H.
    - apply rob1_lt, H.
  Qed.
  Lemma rfun_0 e1 e2 : rfun e1 e2 0 = 0.
  Proof.
    unfold rfun. destruct e1, e2; try apply rob2_0; try apply rob1_0.
    rewrite Rminus_0_r, rob1_1. ring.
  Qed.
  Lemma rfun_1 e1 e2 : rfun e1 e2 1 = 1.
  Proof.
    unfold rfun. destruct e1, e2; try apply rob2_1; try apply rob1_1.
    replace (1 - 1) with 0 by ring. rewrite rob1_0. ring.
  Qed.

  Lemma rob1_onto y : - 1 <= y <= 1 -> exists e, rob1 e = y.
  Proof.
    intros H. exists (ln ((beta + y) / (beta - y)) / ln lam).
    unfold rob1. rewrite pw_ln by (apply Rdiv_lt_0_compat; lra). field. lra.
  Qed.
  Lemma rob2_onto y : 0 <= y <= 1 -> exists e, rob2 e = y.
  Proof.
    intros H. destruct (rob1_onto (2 * y - 1)) as [e E]; [lra|].
    exists ((e + 1) / 2). rewrite rob2_rob1.
    replace (2 * ((e + 1) / 2) - 1) with e by field. rewrite E. field.
  Qed.
  Lemma rfun_onto e1 e2 y : 0 <= y <= 1 -> exists e, 0 <= e <= 1 /\ rfun e1 e2 e = y.
  Proof.
    intros H. assert (K : exists e, rfun e1 e2 e = y).
    { unfold rfun. destruct e1, e2; try (apply rob2_onto; lra); try (apply rob1_onto; lra).
      destruct (rob1_onto (1 - y)) as [e E]; [lra|]. exists (1 - e).
      replace (1 - (1 - e)) with e by ring. lra. }
    destruct K as [e E]. exists e. split; [|exact E]. split.
    - destruct (Rle_dec 0 e); [auto|]. pose proof (rfun_lt e1 e2 e 0). rewrite rfun_0 in *. lra.
    - destruct (Rle_dec e 1); [auto|]. pose proof (rfun_lt e1 e2 1 e). rewrite rfun_1 in *. lra.
  Qed.

  (** spacing shrinks towards the clustered end: strict midpoint concavity *)
  Lemma rob1_concave x h : 0 < x -> 0 < h -> rob1 (x + h) + rob1 (x - h) < 2 * rob1 x.
  Proof.
    intros Hx Hh. rewrite !rob1_eq.
    replace (x - h) with (x + - h) by ring. rewrite !pw_plus, pw_opp.
    assert (L : 1 < pw x) by (rewrite <- pw_0; apply pw_lt, Hx).
    assert (Q : 1 < pw h) by (rewrite <- pw_0; apply pw_lt, Hh).
    set (l := pw x) in *. set (q := pw h) in *.
    assert (E : 2 * beta / (1 + l * q) + 2 * beta / (1 + l * / q) - 2 * (2 * beta / (1 + l))
                = 2 * beta * (l * (l - 1) * ((q - 1) * (q - 1)))
                  / ((1 + l * q) * (q + l) * (1 + l))).
    { field. repeat split; nra. }
    assert (0 < 2 * beta * (l * (l - 1) * ((q - 1) * (q - 1)))
                  / ((1 + l * q) * (q + l) * (1 + l))).
    { apply Rdiv_lt_0_compat.
      - repeat apply Rmult_lt_0_compat; lra.
      - apply Rmult_lt_0_compat; [apply Rmult_lt_0_compat|]; nra. }
    lra.
  Qed.
End Roberts.

Lemma clustered_identity e e1 e2 beta : (e1 = false /\ e2 = false) \/ beta < 1 ->
  clustered_roberts e e1 e2 beta = Ok e.
Proof.
  intros H. unfold clustered_roberts.
  assert (K : negb (negb e1 && negb e2 || nltb beta n1) = false).
  { destruct H as [[-> ->]|H]; [reflexivity|].
    replace (nltb beta n1) with true by (symmetry; apply Rltb_true; unfold n1; cbn; lra).
    rewrite orb_true_r. reflexivity. }
  rewrite K. reflexivity.
Qed.

Lemma clustered_beta1 e e1 e2 : e1 || e2 = true ->
  clustered_roberts e e1 e2 1 = Raise ZeroDivisionError.
Proof.
  intros H. unfold clustered_roberts, roberts. numR.
  destruct (Rltb_spec 1 1); [lra|]. destruct (Reqb_spec (1 - 1) 0); [|lra].
  destruct e1, e2; try discriminate; reflexivity.
Qed.

Lemma clustered_all e1 e2 beta : 1 < beta -> e1 || e2 = true ->
  exists f, (forall x, clustered_roberts x e1 e2 beta = Ok (f x)) /\
    f 0 = 0 /\ f 1 = 1 /\ (forall x y, x < y -> f x < f y) /\
    (forall x, 0 <= x <= 1 -> 0 <= f x <= 1) /\
    (forall y, 0 <= y <= 1 -> exists x, 0 <= x <= 1 /\ f x = y).
Proof.
  intros Hb H. exists (rfun beta e1 e2). split; [intros; apply clustered_eq; auto|].
  split; [apply rfun_0; auto|]. split; [apply rfun_1; auto|].
  split; [intros; apply rfun_lt; auto|]. split; [|intros; apply rfun_onto; auto].
  intros x Hx. split.
  - destruct (proj1 Hx) as [L| <-]; [|rewrite rfun_0 by auto; lra].
    apply (rfun_lt beta Hb e1 e2) in L. rewrite rfun_0 in L by auto. lra.
  - destruct (proj2 Hx) as [L| ->]; [|rewrite rfun_1 by auto; lra].
    apply (rfun_lt beta Hb e1 e2) in L. rewrite rfun_1 in L by auto. lra.
Qed.

Lemma clustered_mirror beta x : 1 < beta ->
  exists y z w, clustered_roberts x true false beta = Ok y /\
    clustered_roberts (1 - x) false true beta = Ok (1 - y) /\
    clustered_roberts x true true beta = Ok z /\
    clustered_roberts (1 - x) true true beta = Ok (1 - z) /\
    clustered_roberts (2 * x - 1) false true beta = Ok w /\ z = (1 + w) / 2.
Proof.
  intros Hb. exists (rfun beta true false x), (rfun beta true true x), (rfun beta false true (2 * x - 1)).
  rewrite !clustered_eq by auto. cbn [rfun].
  split; [reflexivity|]. split; [f_equal; lra|]. split; [reflexivity|].
  split; [f_equal; apply rob2_sym; auto|]. split; [reflexivity|].
  rewrite rob2_rob1 by auto. field.
Qed.

Lemma clustered_shrinks beta x h : 1 < beta -> 0 < h -> 0 <= x - h -> x + h <= 1 ->
  exists a b c, clustered_roberts (x - h) false true beta = Ok a /\
    clustered_roberts x false true beta = Ok b /\
    clustered_roberts (x + h) false true beta = Ok c /\ 0 < c - b < b - a.
Proof.
  intros Hb Hh H0 H1. do 3 eexists. rewrite !clustered_eq by auto. repeat split; cbn [rfun].
  - pose proof (rob1_lt beta Hb x (x + h)). lra.
  - pose proof (rob1_concave beta Hb x h). lra.
Qed.

(** ** linspace and distribute_points *)
Lemma linspace_length (lo hi : R) n : length (np_linspace lo hi n) = n.
Proof.
  destruct n as [|[|n]]; [reflexivity..|]. cbn [np_linspace].
  rewrite app_length, map_length, seq_length. cbn; lia.
Qed.

Lemma linspace_nth (lo hi : R) n k : (k <= n)%nat -> (1 <= n)%nat ->
  nth k (np_linspace lo hi (S n)) 0 = lo + INR k / INR n * (hi - lo).
Proof.
  intros Hk Hn. destruct n as [|n]; [lia|]. cbn [np_linspace].
  assert (N : INR (S n) <> 0) by (apply not_0_INR; lia).
  destruct (Nat.eq_dec k (S n)) as [->|Ne].
  - rewrite app_nth2; rewrite map_length, seq_length; [|lia].
    rewrite Nat.sub_diag. cbn [nth]. field. auto.
  - rewrite app_nth1 by (rewrite map_length, seq_length; lia).
    rewrite (nth_indep _ 0 ((fun i => nadd (nmul (nnat i) (ndiv (nsub hi lo) (nnat (S n)))) lo) 0%nat))
      by (rewrite map_length, seq_length; lia).
    rewrite (map_nth (fun i => nadd (nmul (nnat i) (ndiv (nsub hi lo) (nnat (S n)))) lo)).
    rewrite seq_nth by lia. rewrite !nnat_INR. cbn [plus nadd nmul ndiv nsub NumR]. field. auto.
Qed.

Lemma mapM_ok {A B} (f : A -> res B) (g : A -> B) l :
  (forall a, In a l -> f a = Ok (g a)) -> mapM f l = Ok (map g l).
Proof.
  induction l as [|a l IH]; intros H; cbn [mapM map]; [reflexivity|].
  rewrite H by (left; auto). cbn [bind]. rewrite IH by (intros; apply H; right; auto). reflexivity.
Qed.
Lemma mapM_raise {A B} (f : A -> res B) e a l : f a = Raise e -> mapM f (a :: l) = Raise e.
Proof. intros H. cbn [mapM]. rewrite H. reflexivity. Qed.

Lemma distribute_all t1 t2 n e1 e2 beta : (1 <= n)%nat -> (e1 || e2 = true -> 1 < beta \/ beta < 1) ->
  exists l, distribute_points t1 t2 n e1 e2 beta = Ok l /\
    length l = S n /\ nth 0 l 0 = t1 /\ nth n l 0 = t2 /\
    (forall i j, (i < j)%nat -> (j <= n)%nat ->
       (t1 < t2 -> nth i l 0 < nth j l 0) /\ (t2 < t1 -> nth j l 0 < nth i l 0)).
Proof.
  intros Hn Hb.
  assert (F : exists f, (forall x, clustered_roberts x e1 e2 beta = Ok (f x)) /\
            f 0 = 0 /\ f 1 = 1 /\ (forall x y, x < y -> f x < f y)).
  { destruct (e1 || e2) eqn:E.
    - destruct (Hb eq_refl) as [B|B].
      + destruct (clustered_all e1 e2 beta B E) as (f & A1 & A2 & A3 & A4 & _). exists f. auto.
      + exists (fun x => x). split; [intros; apply clustered_identity; auto|]. auto.
    - apply orb_false_iff in E as [-> ->].
      exists (fun x => x). split; [intros; apply clustered_identity; auto|]. auto. }
  destruct F as (f & Hf & F0 & F1 & Fm).
  set (g := fun eta => (1 - f eta) * t1 + f eta * t2).
  exists (map g (np_linspace 0 1 (S n))).
  assert (NTH : forall k, (k <= n)%nat ->
            nth k (map g (np_linspace 0 1 (S n))) 0 = g (INR k / INR n)).
  { intros k Hk. rewrite (nth_indep _ 0 (g 0)) by (rewrite map_length, linspace_length; lia).
    rewrite map_nth, linspace_nth by lia. f_equal. ring. }
  assert (N : 0 < INR n) by (apply lt_0_INR; lia).
  split; [|split; [|split; [|split]]].
  - unfold distribute_points. rewrite Nat.add_1_r. apply mapM_ok.
    intros a _. rewrite Hf. reflexivity.
  - rewrite map_length, linspace_length. reflexivity.
  - rewrite NTH by lia. unfold g. replace (INR 0 / INR n) with 0 by (cbn; field; lra).
    rewrite F0. ring.
  - rewrite NTH by lia. unfold g. replace (INR n / INR n) with 1 by (field; lra).
    rewrite F1. ring.
  - intros i j Hij Hj. rewrite !NTH by lia. unfold g.
    assert (f (INR i / INR n) < f (INR j / INR n)).
    { apply Fm. unfold Rdiv. apply Rmult_lt_compat_r; [apply Rinv_0_lt_compat; auto|].
      apply lt_INR; auto. }
    split; intros; nra.
Qed.

Lemma distribute_beta1 t1 t2 n e1 e2 : e1 || e2 = true ->
  distribute_points t1 t2 n e1 e2 1 = Raise ZeroDivisionError.
Proof.
  intros H. unfold distribute_points. rewrite Nat.add_1_r.
  destruct n as [|n]; cbn [np_linspace seq map app]; apply mapM_raise;
    rewrite clustered_beta1 by auto; reflexivity.
Qed.

Lemma distribute_zero t1 t2 e1 e2 beta : 1 < beta ->
  distribute_points t1 t2 0 e1 e2 beta = Ok [t1].
Proof.
  intros H. unfold distribute_points. cbn [Nat.add np_linspace mapM].
  assert (K : clustered_roberts n0 e1 e2 beta = Ok 0).
  { destruct (e1 || e2) eqn:E.
    - rewrite clustered_eq by auto. f_equal. apply rfun_0; auto.
    - apply orb_false_iff in E as [-> ->]. apply clustered_identity; auto. }
  rewrite K. cbn [bind]. f_equal. f_equal. numR. ring.
Qed.

Lemma roberts_distribute_all e1 e2 beta nv : (2 <= nv)%nat -> 1 < beta ->
  exists l, roberts_distribute e1 e2 beta nv = Ok l /\ length l = nv /\
    nth 0 l 0 = 0 /\ nth (nv - 1) l 0 = 1 /\ strictly_increasing l.
Proof.
  intros Hn Hb. unfold roberts_distribute.
  destruct (distribute_all 0 1 (nv - 1) e1 e2 beta) as (l & E & L & A & B & M); [lia|auto|].
  exists l. split; [exact E|]. split; [lia|]. split; [exact A|]. split; [exact B|].
  intros i j Hij Hj. apply (proj1 (M i j Hij ltac:(lia))). lra.
Qed.
