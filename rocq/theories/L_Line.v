From Coq Require Import Reals Lra Psatz ZArith List Lia.
From Verif Require Import Num NumR Py M_Vector SpecR3 M_Path SpecPath L_Vector.
Import ListNotations.
Local Open Scope R_scope.

(** ** Line *)
Lemma line_lerp (p0 p1 : pt) t : p_call (Line p0 p1) t = Ok (lerp t p0 p1).
Proof. unfold Line; cbn [p_call]. f_equal. vring. Qed.
Lemma lerp_0 a b : lerp 0 a b = a. Proof. vring. Qed.
Lemma lerp_1 a b : lerp 1 a b = b. Proof. vring. Qed.
Lemma line_speed (p0 p1 : pt) s t : dist (lerp s p0 p1) (lerp t p0 p1) = Rabs (s - t) * dist p0 p1.
Proof.
  rewrite !dist_nrm.
  replace (vsub (lerp s p0 p1) (lerp t p0 p1)) with (vscale (vsub p0 p1) (t - s)) by vring.
  rewrite nrm_scale. f_equal. rewrite <- Rabs_Ropp. f_equal; ring.
Qed.
Lemma line_length (p0 p1 : pt) : p_len (Line p0 p1) = Ok (dist p0 p1).
Proof. unfold Line; cbn [p_len]. f_equal. rewrite vabs_nrm, <- dist_nrm. apply dist_sym. Qed.
Lemma line_offset (p0 p1 v : pt) t :
  p_call (Line_add p0 p1 v) t = Ok (translate (lerp t p0 p1) v).
Proof. unfold Line_add. rewrite line_lerp. f_equal. vring. Qed.
Lemma line_offset_len (p0 p1 v : pt) : p_len (Line_add p0 p1 v) = p_len (Line p0 p1).
Proof. unfold Line_add. rewrite !line_length. f_equal. vunf. f_equal. ring. Qed.

Lemma vadd_vscale_lerp (a b : pt) t : vadd (vscale a (nsub n1 t)) (vscale b t) = lerp t a b.
Proof. vring. Qed.

(** ** Bezier *)


Lemma linear_lerp f : linear_fun f -> forall k a b, f (lerp k a b) = (1 - k) * f a + k * f b.
Proof.
  intros H k a b.
  assert (Z : f origin = 0).
  { pose proof (H origin 1 origin) as E. replace (plus_scaled origin 1 origin) with origin in E by vring. lra. }
  replace (lerp k a b) with (plus_scaled (plus_scaled origin (1 - k) a) k b) by vring.
  rewrite !H, Z. ring.
Qed.

Lemma bez_pass_nth t m : forall Q i d, (m < length Q)%nat ->
  nth i (bez_pass t m Q) d =
  if (i <? m)%nat then lerp t (nth i Q d) (nth (S i) Q d) else nth i Q d.
Proof.
  induction m; intros Q i d HQ.
  - destruct Q; reflexivity.
  - destruct Q as [|a [|b Q]]; cbn in HQ; try lia.
    destruct i; cbn [bez_pass nth].
    + cbn. apply vadd_vscale_lerp.
    + rewrite IHm by (cbn; lia). reflexivity.
Qed.
Lemma bez_pass_length t m : forall Q, length (bez_pass t m Q) = length Q.
Proof.
  induction m; intros [|a [|b Q]]; try reflexivity.
  cbn [bez_pass length]. rewrite IHm. reflexivity.
Qed.



Lemma C_n_0 n : C n 0 = 1.
Proof. unfold C. rewrite Nat.sub_0_r. cbn [fact]. simpl INR at 2. field. apply INR_fact_neq_0. Qed.
Lemma C_n_n n : C n n = 1.
Proof. unfold C. rewrite Nat.sub_diag. cbn [fact]. simpl INR at 3. field. apply INR_fact_neq_0. Qed.
Lemma C_nonneg n i : 0 <= C n i.
Proof.
  unfold C. apply Rmult_le_pos; [apply pos_INR|].
  apply Rlt_le, Rinv_0_lt_compat, Rmult_lt_0_compat; apply INR_fact_lt_0.
Qed.

Lemma sum_split (f g : nat -> R) n :
  sum_f_R0 (fun i => f i + g i) n = sum_f_R0 f n + sum_f_R0 g n.
Proof. induction n; cbn; [|rewrite IHn]; ring. Qed.
Lemma sum_scal (k : R) (f : nat -> R) n :
  sum_f_R0 (fun i => k * f i) n = k * sum_f_R0 f n.
Proof. induction n; cbn; [|rewrite IHn]; ring. Qed.
Lemma sum_shift (f : nat -> R) n :
  sum_f_R0 f (S n) = f 0%nat + sum_f_R0 (fun i => f (S i)) n.
Proof. apply decomp_sum. lia. Qed.

Lemma bernstein_step n t q :
  bernstein n t (fun j => (1 - t) * q j + t * q (S j)) = bernstein (S n) t q.
Proof.
  unfold bernstein.
  transitivity
    (sum_f_R0 (fun i => C n i * (1 - t) ^ (S n - i) * t ^ i * q i) n +
     sum_f_R0 (fun i => C n i * (1 - t) ^ (n - i) * t ^ (S i) * q (S i)) n).
  { rewrite <- sum_split. apply sum_eq. intros i Hi.
    replace (S n - i)%nat with (S (n - i)) by lia. cbn [pow]. ring. }
  destruct n as [|n].
  { cbn [sum_f_R0 pow]. rewrite !C_n_0, ?C_n_n. cbn. ring. }
  rewrite (sum_shift (fun i => C (S n) i * (1 - t) ^ (S (S n) - i) * t ^ i * q i)).
  rewrite (tech5 (fun i => C (S n) i * (1 - t) ^ (S n - i) * t ^ S i * q (S i))).
  rewrite sum_shift. rewrite tech5.
  rewrite !C_n_0, !C_n_n.
  transitivity (1 * (1 - t) ^ (S (S n) - 0) * t ^ 0 * q 0%nat +
    (sum_f_R0 (fun i => C (S n) (S i) * (1 - t) ^ (S (S n) - S i) * t ^ (S i) * q (S i)) n
     + sum_f_R0 (fun i => C (S n) i * (1 - t) ^ (S n - i) * t ^ (S i) * q (S i)) n)
    + 1 * (1 - t) ^ (S (S n) - S (S n)) * t ^ S (S n) * q (S (S n))).
  { replace (S (S n) - S (S n))%nat with 0%nat by lia.
    replace (S n - S n)%nat with 0%nat by lia. ring. }
  rewrite <- sum_split.
  rewrite (sum_eq _ (fun i => C (S (S n)) (S i) * (1 - t) ^ (S (S n) - S i) * t ^ (S i) * q (S i))).
  - ring.
  - intros i Hi. rewrite <- (pascal (S n) i) by lia.
    replace (S (S n) - S i)%nat with (S n - i)%nat by lia. ring.
Qed.

Lemma bernstein_ext n t q q' : (forall i, (i <= n)%nat -> q i = q' i) ->
  bernstein n t q = bernstein n t q'.
Proof. intros H. apply sum_eq. intros i Hi. rewrite H by lia. reflexivity. Qed.

Lemma bernstein_const n t k : bernstein n t (fun _ => k) = k.
Proof.
  unfold bernstein.
  rewrite (sum_eq _ (fun i => k * (C n i * t ^ i * (1 - t) ^ (n - i)))) by (intros; ring).
  rewrite sum_scal, <- binomial. replace (t + (1 - t)) with 1 by ring. rewrite pow1. ring.
Qed.

Lemma bernstein_le n t q q' : 0 <= t <= 1 -> (forall i, (i <= n)%nat -> q i <= q' i) ->
  bernstein n t q <= bernstein n t q'.
Proof.
  intros Ht H. unfold bernstein. apply sum_Rle. intros i Hi.
  apply Rmult_le_compat_l; [|auto].
  apply Rmult_le_pos; [apply Rmult_le_pos; [apply C_nonneg|]|]; apply pow_le; lra.
Qed.

Lemma bez_loop_bernstein f t d : linear_fun f -> forall m Q, (m < length Q)%nat ->
  f (nth 0 (bez_loop t m Q) d) = bernstein m t (fun i => f (nth i Q d)).
Proof.
  intros Hf m. induction m; intros Q HQ.
  - cbn [bez_loop]. unfold bernstein. cbn. rewrite C_n_0. ring.
  - cbn [bez_loop]. rewrite IHm by (rewrite bez_pass_length; lia).
    rewrite <- bernstein_step. apply bernstein_ext. intros i Hi.
    rewrite bez_pass_nth by lia.
    destruct (Nat.ltb_spec i (S m)); [|lia].
    apply linear_lerp; assumption.
Qed.
Lemma bez_loop_length t m : forall Q, length (bez_loop t m Q) = length Q.
Proof. induction m; intros Q; cbn [bez_loop]; [|rewrite IHm, bez_pass_length]; reflexivity. Qed.

Lemma py_nth_nth {A} (l : list A) i d : (i < length l)%nat -> py_nth l i = Ok (nth i l d).
Proof.
  intros H. unfold py_nth. rewrite (nth_error_nth' l d H). reflexivity.
Qed.

Lemma bezier_call_loop (B : list pt) t d : B <> [] ->
  Bezier_call B t = Ok (nth 0 (bez_loop t (length B - 1) B) d).
Proof.
  destruct B as [|b [|b' B]]; [congruence|reflexivity|intros _].
  unfold Bezier_call. apply py_nth_nth. rewrite bez_loop_length. cbn; lia.
Qed.

Lemma bezier_bernstein (B : list pt) t : B <> [] ->
  exists p, p_call (Bezier B) t = Ok p /\
    forall f, linear_fun f ->
      f p = bernstein (length B - 1) t (fun i => f (nth i B origin)).
Proof.
  intros H. eexists. split; [apply (bezier_call_loop B t origin H)|].
  intros f Hf. apply bez_loop_bernstein; auto. destruct B; [congruence|cbn; lia].
Qed.

Lemma linear_vx : linear_fun vx. Proof. intros [] k []; reflexivity. Qed.
Lemma linear_vy : linear_fun vy. Proof. intros [] k []; reflexivity. Qed.
Lemma linear_vz : linear_fun vz. Proof. intros [] k []; reflexivity. Qed.
Lemma linear_inner v : linear_fun (inner v). Proof. intros a k b; vring. Qed.



Lemma bezier_bernstein_pt (B : list pt) t : B <> [] ->
  p_call (Bezier B) t = Ok (bernstein_pt B t).
Proof.
  intros H. destruct (bezier_bernstein B t H) as (p & E & F). rewrite E. f_equal.
  apply vec_ext; cbn; [apply (F vx linear_vx)|apply (F vy linear_vy)|apply (F vz linear_vz)].
Qed.

Lemma bernstein_0 n q : bernstein n 0 q = q 0%nat.
Proof.
  unfold bernstein. destruct n.
  - cbn. rewrite C_n_0. ring.
  - rewrite sum_shift. rewrite (sum_eq _ (fun _ => 0)).
    + rewrite sum_cte, C_n_0. rewrite Rminus_0_r, pow1. cbn. ring.
    + intros i _. cbn. ring.
Qed.
Lemma bernstein_1 n q : bernstein n 1 q = q n.
Proof.
  unfold bernstein. destruct n.
  - cbn. rewrite C_n_0. ring.
  - rewrite tech5. rewrite (sum_eq _ (fun _ => 0)).
    + rewrite sum_cte, C_n_n. rewrite Nat.sub_diag, pow1. cbn [pow]. ring.
    + intros i Hi. replace (S n - i)%nat with (S (n - i)) by lia.
      rewrite Rminus_diag_eq by reflexivity. cbn. ring.
Qed.

Lemma bezier_ends (B : list pt) : B <> [] ->
  p_call (Bezier B) 0 = Ok (nth 0 B origin) /\
  p_call (Bezier B) 1 = Ok (last B origin).
Proof.
  intros H. rewrite !bezier_bernstein_pt by assumption. unfold bernstein_pt.
  rewrite !bernstein_0, !bernstein_1. split; f_equal; apply vec_ext; cbn; try reflexivity;
  (replace (last B origin) with (nth (length B - 1) B origin); [reflexivity|]);
  destruct (exists_last H) as (l & a & ->); rewrite last_last, app_length, app_nth2; cbn;
  try lia; replace (length l + 1 - 1 - length l)%nat with 0%nat by lia; reflexivity.
Qed.

Lemma bezier_hull (B : list pt) t f lo hi : B <> [] -> 0 <= t <= 1 -> linear_fun f ->
  (forall b, In b B -> lo <= f b <= hi) ->
  exists p, p_call (Bezier B) t = Ok p /\ lo <= f p <= hi.
Proof.
  intros H Ht Hf Hb. destruct (bezier_bernstein B t H) as (p & E & F).
  exists p; split; [exact E|]. rewrite (F f Hf).
  assert (L : (0 < length B)%nat) by (destruct B; [congruence|cbn; lia]).
  rewrite <- (bernstein_const (length B - 1) t lo) at 1.
  rewrite <- (bernstein_const (length B - 1) t hi).
  split; apply bernstein_le; auto; intros i Hi; apply Hb, nth_In; lia.
Qed.



Lemma bez_pass_map A t (HA : affine_map A) : forall m Q,
  map A (bez_pass t m Q) = bez_pass t m (map A Q).
Proof.
  induction m; intros [|a [|b Q]]; try reflexivity.
  cbn [bez_pass map]. rewrite !vadd_vscale_lerp, HA, IHm. reflexivity.
Qed.
Lemma bez_loop_map A t (HA : affine_map A) : forall m Q,
  map A (bez_loop t m Q) = bez_loop t m (map A Q).
Proof.
  induction m; intros Q; [reflexivity|]. cbn [bez_loop]. rewrite IHm, bez_pass_map; auto.
Qed.
Lemma bezier_affine A (B : list pt) t : affine_map A -> B <> [] ->
  exists p, p_call (Bezier B) t = Ok p /\ p_call (Bezier (map A B)) t = Ok (A p).
Proof.
  intros HA H. cbn [p_call Bezier].
  rewrite (bezier_call_loop B t origin H).
  rewrite (bezier_call_loop (map A B) t (A origin)) by (destruct B; cbn; congruence).
  eexists; split; [reflexivity|].
  rewrite map_length, <- bez_loop_map by assumption. rewrite map_nth. reflexivity.
Qed.

Lemma bezier_empty t : p_call (Bezier (@nil pt)) t = Raise IndexError.
Proof. reflexivity. Qed.

Lemma line_all (p0 p1 : pt) :
  (forall t, p_call (Line p0 p1) t = Ok (lerp t p0 p1)) /\
  p_call (Line p0 p1) 0 = Ok p0 /\
  p_call (Line p0 p1) 1 = Ok p1 /\
  (forall s t p q, p_call (Line p0 p1) s = Ok p -> p_call (Line p0 p1) t = Ok q ->
     dist p q = Rabs (s - t) * dist p0 p1) /\
  p_len (Line p0 p1) = Ok (dist p0 p1).
Proof.
  split; [intros; apply line_lerp|].
  split; [rewrite line_lerp, lerp_0; reflexivity|].
  split; [rewrite line_lerp, lerp_1; reflexivity|].
  split; [|apply line_length].
  intros s t p q. rewrite !line_lerp. intros H1 H2. injection H1 as <-. injection H2 as <-.
  apply line_speed.
Qed.

Lemma line_offset_all (p0 p1 v : pt) t p :
  p_call (Line p0 p1) t = Ok p ->
  p_call (Line_add p0 p1 v) t = Ok (translate p v) /\
  p_len (Line_add p0 p1 v) = p_len (Line p0 p1).
Proof.
  rewrite line_lerp. intros H. injection H as <-.
  split; [apply line_offset|apply line_offset_len].
Qed.
