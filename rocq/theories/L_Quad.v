(** Quadratic Bezier curves, and a polyline with one such curve between two
    straight segments. *)
From Coq Require Import Reals Lra List Lia Psatz.
From Verif Require Import Num NumR Py M_Vector SpecR3 M_Path SpecPath SpecPoly SpecSurf SpecLathe SpecProfile
  L_Vector L_Line L_Polyline L_Spline L_Curves L_Fin.
Import ListNotations.
Local Open Scope R_scope.

Definition quad_num (a b c t : R) : R := (1 - t) * ((1 - t) * a + t * b) + t * ((1 - t) * b + t * c).
Definition quad_at (a b c : pt) (t : R) : pt := V3 (quad_num (vx a) (vx b) (vx c) t) (quad_num (vy a) (vy b) (vy c) t) (quad_num (vz a) (vz b) (vz c) t).
Lemma quad_evaluates a b c : evaluates (Bezier [a; b; c]) (quad_at a b c).
Proof.
  intros t. unfold Bezier; cbn [p_call]. unfold Bezier_call. cbn. f_equal.
  destruct a, b, c. unfold quad_at, quad_num, vadd, vscale; numR. apply vec_ext; cbn; ring.
Qed.
Lemma quad_0 a b c : quad_at a b c 0 = a.
Proof. destruct a. unfold quad_at, quad_num. apply vec_ext; cbn; ring. Qed.
Lemma quad_1 a b c : quad_at a b c 1 = c.
Proof. destruct c. unfold quad_at, quad_num. apply vec_ext; cbn; ring. Qed.
(** between monotone control values the curve is monotone *)
Lemma quad_le a b c s t : a <= b <= c -> 0 <= s -> s <= t -> t <= 1 -> quad_num a b c s <= quad_num a b c t.
Proof.
  intros H Hs Ht H1.
  assert (E : quad_num a b c t - quad_num a b c s = (t - s) * ((b - a) * (2 - s - t) + (c - b) * (s + t))) by (unfold quad_num; ring).
  assert (0 <= (b - a) * (2 - s - t)) by (apply Rmult_le_pos; lra). assert (0 <= (c - b) * (s + t)) by (apply Rmult_le_pos; lra).
  assert (0 <= (t - s) * ((b - a) * (2 - s - t) + (c - b) * (s + t))) by (apply Rmult_le_pos; lra). lra.
Qed.
Lemma quad_lt a b c s t : a < b < c -> 0 <= s -> s < t -> t <= 1 -> quad_num a b c s < quad_num a b c t.
Proof.
  intros H Hs Ht H1.
  assert (E : quad_num a b c t - quad_num a b c s = (t - s) * ((b - a) * (2 - s - t) + (c - b) * (s + t))) by (unfold quad_num; ring).
  assert (0 < (b - a) * (2 - s - t)) by (apply Rmult_lt_0_compat; lra). assert (0 < (c - b) * (s + t)) by (apply Rmult_lt_0_compat; lra).
  assert (0 < (t - s) * ((b - a) * (2 - s - t) + (c - b) * (s + t))) by (apply Rmult_lt_0_compat; lra). lra.
Qed.
Lemma quad_opp a b c t : quad_num (- a) (- b) (- c) t = - quad_num a b c t.
Proof. unfold quad_num. ring. Qed.
Lemma quad_ge a b c s t : c <= b <= a -> 0 <= s -> s <= t -> t <= 1 -> quad_num a b c t <= quad_num a b c s.
Proof. intros H Hs Ht H1. pose proof (quad_le (- a) (- b) (- c) s t ltac:(lra) Hs Ht H1) as Q. rewrite !quad_opp in Q. lra. Qed.

(** ** sampled lengths of monotone curves *)
Lemma dist_taxi p q : dist p q <= Rabs (vx q - vx p) + Rabs (vy q - vy p) + Rabs (vz q - vz p).
Proof.
  unfold dist, nrm. set (a := Rabs (vx q - vx p)). set (b := Rabs (vy q - vy p)). set (c := Rabs (vz q - vz p)).
  assert (0 <= a) by apply Rabs_pos. assert (0 <= b) by apply Rabs_pos. assert (0 <= c) by apply Rabs_pos.
  rewrite <- (sqrt_square (a + b + c)) by lra. apply sqrt_le_1_alt.
  assert (Q : forall u, Rabs u * Rabs u = u * u) by (intros u; rewrite <- Rabs_mult; apply Rabs_right, Rle_ge, Rle_0_sqr).
  pose proof (Q (vx q - vx p)) as Qa. pose proof (Q (vy q - vy p)) as Qb. pose proof (Q (vz q - vz p)) as Qc. fold a in Qa. fold b in Qb. fold c in Qc.
  assert (0 <= a * b) by nra. assert (0 <= a * c) by nra. assert (0 <= b * c) by nra.
  unfold inner, diff in *. cbn [vx vy vz] in *. nra.
Qed.
Lemma dist_dy p q : vy p - vy q <= dist p q.
Proof.
  unfold dist, nrm. destruct (Rle_dec 0 (vy p - vy q)) as [P|P]; [|match goal with |- _ <= sqrt ?e => pose proof (sqrt_pos e) end; apply Rnot_le_lt in P; lra].
  rewrite <- (sqrt_square (vy p - vy q)) at 1 by exact P. apply sqrt_le_1_alt. unfold inner, diff. cbn [vx vy vz]. pose proof (Rle_0_sqr (vx p - vx q)) as A. pose proof (Rle_0_sqr (vz p - vz q)) as B. unfold Rsqr in A, B. lra.
Qed.
Lemma inscribed_taxi g n : (1 <= n)%nat -> (forall s t, 0 <= s -> s <= t -> t <= 1 -> vx (g s) <= vx (g t) /\ vy (g t) <= vy (g s) /\ vz (g s) = vz (g t)) ->
  inscribed g n <= vx (g 1) - vx (g 0) + (vy (g 0) - vy (g 1)).
Proof.
  intros Hn M. assert (P : 0 < INR n) by (apply lt_0_INR; lia).
  assert (K : forall m, (m <= n)%nat -> sumn (fun i => dist (g (INR i / INR n)) (g (INR (S i) / INR n))) m <=
    vx (g (INR m / INR n)) - vx (g 0) + (vy (g 0) - vy (g (INR m / INR n)))).
  { induction m as [|m IH]; intros Hm; cbn [sumn].
    - replace (INR 0 / INR n) with 0 by (cbn [INR]; unfold Rdiv; ring). lra.
    - specialize (IH ltac:(lia)). pose proof (dist_taxi (g (INR m / INR n)) (g (INR (S m) / INR n))) as D.
      assert (A0 : 0 <= INR m / INR n) by (apply Rmult_le_pos; [apply pos_INR|left; apply Rinv_0_lt_compat, P]).
      assert (A1 : INR m / INR n <= INR (S m) / INR n) by (apply Rmult_le_compat_r; [left; apply Rinv_0_lt_compat, P|apply le_INR; lia]).
      assert (A2 : INR (S m) / INR n <= 1).
      { apply (Rmult_le_reg_r (INR n)); [exact P|]. unfold Rdiv. rewrite Rmult_assoc, Rinv_l, Rmult_1_r, Rmult_1_l by lra. apply le_INR. exact Hm. }
      destruct (M _ _ A0 A1 A2) as (X & Y & Z). rewrite Z in D.
      set (p := g (INR m / INR n)) in *. set (q := g (INR (S m) / INR n)) in *.
      rewrite (Rabs_right (vx q - vx p)) in D by lra. rewrite (Rabs_left1 (vy q - vy p)) in D by lra.
      replace (vz q - vz q) with 0 in D by ring. rewrite Rabs_R0 in D. lra. }
  specialize (K n (le_n n)). replace (INR n / INR n) with 1 in K by (field; lra). exact K.
Qed.
Lemma quad_length a b c : vx a <= vx b <= vx c -> vy c <= vy b <= vy a -> vz a = 0 -> vz b = 0 -> vz c = 0 ->
  exists l, p_len (Bezier [a; b; c]) = Ok l /\ dist a c <= l <= vx c - vx a + (vy a - vy c).
Proof.
  intros HX HY Za Zb Zc. exists (inscribed (quad_at a b c) 20). split.
  - unfold Bezier; cbn [p_len]. apply path_length_inscribed; [exact (quad_evaluates a b c)|lia].
  - split.
    + rewrite <- (quad_0 a b c) at 1. rewrite <- (quad_1 a b c) at 2. apply inscribed_chord. lia.
    + pose proof (inscribed_taxi (quad_at a b c) 20 ltac:(lia)) as T. rewrite quad_0, quad_1 in T. apply T.
      intros s t H0 H1 H2. unfold quad_at. cbn [vx vy vz]. split; [apply quad_le; assumption|]. split; [apply quad_ge; assumption|].
      rewrite Za, Zb, Zc. unfold quad_num. ring.
Qed.

(** ** a curve between two straight segments *)
Section Three.
  Variables (a b c d : pt) (s : path R) (h : R -> pt) (l1 l2 l3 : R).
  Hypothesis H1 : dist a b = l1.
  Hypothesis H3 : dist c d = l3.
  Hypothesis P1 : 0 < l1.
  Hypothesis P2 : 0 < l2.
  Hypothesis P3 : 0 < l3.
  Hypothesis Hs : evaluates s h.
  Hypothesis Hl : p_len s = Ok l2.
  Let S := l1 + l2 + l3.
  Definition three_at (t : R) : pt :=
    if Rle_dec (t * S) l1 then lerp (t * S / l1) a b else if Rle_dec (t * S) (l1 + l2) then h ((t * S - l1) / l2) else lerp ((t * S - l1 - l2) / l3) c d.
  Lemma three_evaluates : exists q, Polyline [Line a b; s; Line c d] = Ok q /\ evaluates q three_at.
  Proof using H1 H3 P1 P2 P3 Hs Hl.
    assert (PS : 0 < S) by (unfold S; lra).
    set (segs := [Line a b; s; Line c d]). set (ls := [l1; l2; l3]).
    assert (NE : segs <> []) by discriminate.
    assert (HL : lengths segs ls).
    { constructor; [rewrite line_length, H1; reflexivity|]. constructor; [exact Hl|]. constructor; [rewrite line_length, H3; reflexivity|constructor]. }
    assert (HP : Forall (fun x => 0 < x) ls) by (repeat constructor; assumption).
    assert (HT : Forall total_path segs).
    { repeat constructor; intros t; rewrite ?line_lerp, ?(Hs t); eexists; reflexivity. }
    destruct (polyline_breaks_all segs ls (nlit (Num := NumR) 1 10000000000) NE HL HP) as (pl & Hpl & Hsg & Hlen & B0 & B3 & _ & St & _).
    exists (polyline_path pl). split; [unfold Polyline; fold segs; rewrite Hpl; reflexivity|].
    assert (Sm : Rsum ls = S) by (unfold S; cbn; ring). rewrite Sm in St. change (length segs) with 3%nat in *.
    set (tv := pl_t_values pl) in *.
    assert (S0 : nth 1 tv 0 - nth 0 tv 0 = l1 / S) by exact (St 0%nat ltac:(lia)).
    assert (S1 : nth 2 tv 0 - nth 1 tv 0 = l2 / S) by exact (St 1%nat ltac:(lia)).
    rewrite B0 in S0.
    assert (B1 : nth 1 tv 0 = l1 / S) by lra. assert (B2 : nth 2 tv 0 = (l1 + l2) / S) by (unfold Rdiv in *; lra). change (nth 3 tv 0 = 1) in B3.
    intros t. cbn [p_call polyline_path].
    destruct (polyline_one_segment segs ls _ pl t NE HL HP HT Hpl) as (k & s' & (Hk & I1 & I2) & _ & Es & Hc). fold tv in I1, I2, Hc. rewrite Hc.
    change (length segs) with 3%nat in *.
    assert (LE : forall x, t <= x / S -> t * S <= x).
    { intros x Hx. apply (Rmult_le_compat_r S) in Hx; [|lra]. unfold Rdiv in Hx. rewrite Rmult_assoc, Rinv_l, Rmult_1_r in Hx by lra. exact Hx. }
    assert (GT : forall x, x / S < t -> x < t * S).
    { intros x Hx. apply (Rmult_lt_compat_r S) in Hx; [|lra]. unfold Rdiv in Hx. rewrite Rmult_assoc, Rinv_l, Rmult_1_r in Hx by lra. exact Hx. }
    unfold three_at. destruct k as [|[|[|k]]]; [| | |lia]; cbn in Es; injection Es as <-.
    - destruct I2 as [I2|I2]; [lia|]. rewrite B1 in I2. apply LE in I2. destruct (Rle_dec (t * S) l1) as [_|C]; [|contradiction].
      rewrite line_lerp. do 2 f_equal. unfold local_t. rewrite B0, B1. field; lra.
    - destruct I1 as [I1|I1]; [lia|]. destruct I2 as [I2|I2]; [lia|]. rewrite B1 in I1. rewrite B2 in I2. apply GT in I1. apply LE in I2.
      destruct (Rle_dec (t * S) l1) as [C|_]; [lra|]. destruct (Rle_dec (t * S) (l1 + l2)) as [_|C]; [|contradiction].
      rewrite (Hs _). do 2 f_equal. unfold local_t. rewrite B1, B2. field; lra.
    - destruct I1 as [I1|I1]; [lia|]. rewrite B2 in I1. apply GT in I1.
      destruct (Rle_dec (t * S) l1) as [C|_]; [lra|]. destruct (Rle_dec (t * S) (l1 + l2)) as [C|_]; [lra|].
      rewrite line_lerp. do 2 f_equal. unfold local_t. rewrite B2, B3. replace (1 - (l1 + l2) / S) with (l3 / S) by (unfold S in *; field; lra). field; lra.
  Qed.
  Lemma three_0 : three_at 0 = a.
  Proof using P1. unfold three_at. rewrite Rmult_0_l. destruct (Rle_dec 0 l1); [|lra]. replace (0 / l1) with 0 by (field; lra). apply lerp_0. Qed.
  Lemma three_1 : three_at 1 = d.
  Proof using P1 P2 P3.
    unfold three_at. rewrite Rmult_1_l. destruct (Rle_dec S l1); [unfold S in *; lra|]. destruct (Rle_dec S (l1 + l2)); [unfold S in *; lra|].
    replace ((S - l1 - l2) / l3) with 1 by (unfold S; field; lra). apply lerp_1.
  Qed.
  (** x along the three pieces *)
  Hypothesis h0 : h 0 = b.
  Hypothesis h1 : h 1 = c.
  Hypothesis Xab : vx a < vx b.
  Hypothesis Xcd : vx c = vx d.
  Hypothesis Xh : forall u v, 0 <= u -> u < v -> v <= 1 -> vx (h u) < vx (h v).
  Lemma three_first t : t * S <= l1 -> vx (three_at t) = vx a + t * S / l1 * (vx b - vx a).
  Proof using. intros H. unfold three_at. destruct (Rle_dec (t * S) l1); [|contradiction]. unfold lerp. cbn [vx]. ring. Qed.
  Lemma three_second t : l1 < t * S <= l1 + l2 -> exists u, u = (t * S - l1) / l2 /\ 0 < u <= 1 /\ three_at t = h u.
  Proof using P2.
    intros H. exists ((t * S - l1) / l2). split; [reflexivity|]. split.
    - split; [apply Rdiv_lt_0_compat; lra|]. apply (Rmult_le_reg_r l2); [exact P2|]. unfold Rdiv. rewrite Rmult_assoc, Rinv_l, Rmult_1_r by lra. lra.
    - unfold three_at. destruct (Rle_dec (t * S) l1); [lra|]. destruct (Rle_dec (t * S) (l1 + l2)); [reflexivity|lra].
  Qed.
  Lemma three_third t : l1 + l2 < t * S -> three_at t = lerp ((t * S - l1 - l2) / l3) c d.
  Proof using P2. intros H. unfold three_at. destruct (Rle_dec (t * S) l1); [lra|]. destruct (Rle_dec (t * S) (l1 + l2)); [lra|reflexivity]. Qed.
  Lemma three_forwards t t' : 0 <= t -> t <= t' -> t' <= 1 -> vx (three_at t) <= vx (three_at t').
  Proof using P1 P2 P3 h0 h1 Xab Xcd Xh.
    intros T0 T1 T2. assert (PS : 0 < S) by (unfold S; lra).
    assert (TT : t * S <= t' * S) by (apply Rmult_le_compat_r; lra). assert (T0' : 0 <= t * S) by (apply Rmult_le_pos; lra).
    assert (Xl : forall u, vx (lerp u c d) = vx d) by (intros u; unfold lerp; cbn [vx]; rewrite Xcd; ring).
    assert (Hle : forall u v, 0 <= u -> u <= v -> v <= 1 -> vx (h u) <= vx (h v)).
    { intros u v A B C. destruct (Req_dec u v) as [->|N]; [lra|]. left. apply Xh; lra. }
    assert (F : forall x, x * S <= l1 -> vx (three_at x) <= vx b).
    { intros x Hx. rewrite three_first by exact Hx. assert (x * S / l1 <= 1).
      { apply (Rmult_le_reg_r l1); [exact P1|]. unfold Rdiv. rewrite Rmult_assoc, Rinv_l, Rmult_1_r by lra. lra. }
      assert (x * S / l1 * (vx b - vx a) <= 1 * (vx b - vx a)) by (apply Rmult_le_compat_r; lra). lra. }
    destruct (Rle_dec (t' * S) l1) as [C1|C1].
    - rewrite !three_first by lra. assert (t * S / l1 <= t' * S / l1) by (apply Rmult_le_compat_r; [left; apply Rinv_0_lt_compat, P1|exact TT]).
      assert (t * S / l1 * (vx b - vx a) <= t' * S / l1 * (vx b - vx a)) by (apply Rmult_le_compat_r; lra). lra.
    - assert (SEC : forall x, l1 < x * S <= l1 + l2 -> vx b <= vx (three_at x) <= vx d).
      { intros x Hx. destruct (three_second x Hx) as (u & _ & Hu & ->). rewrite <- h0, <- Xcd, <- h1. split; apply Hle; lra. }
      assert (BD : vx b <= vx d) by (rewrite <- h0, <- Xcd, <- h1; apply Hle; lra).
      destruct (Rle_dec (t' * S) (l1 + l2)) as [C2|C2].
      + destruct (Rle_dec (t * S) l1) as [C3|C3]; [pose proof (F t C3); pose proof (SEC t' ltac:(lra)); lra|].
        destruct (three_second t ltac:(lra)) as (u & Eu & Hu & ->). destruct (three_second t' ltac:(lra)) as (u' & Eu' & Hu' & ->).
        apply Hle; [lra| |lra]. rewrite Eu, Eu'. apply Rmult_le_compat_r; [left; apply Rinv_0_lt_compat, P2|lra].
      + rewrite (three_third t') by lra. rewrite Xl. destruct (Rle_dec (t * S) l1) as [C3|C3]; [pose proof (F t C3); lra|].
        destruct (Rle_dec (t * S) (l1 + l2)) as [C4|C4]; [apply SEC; lra|]. rewrite (three_third t) by lra. rewrite Xl. lra.
  Qed.
  (** the first corner is where x is that of b *)
  Lemma three_before t : 0 <= t -> t <= 1 -> vx (three_at t) <= vx b -> t * S <= l1.
  Proof using P1 P2 P3 h0 h1 Xab Xcd Xh.
    intros T0 T1 H. destruct (Rle_dec (t * S) l1) as [C|C]; [exact C|exfalso].
    destruct (Rle_dec (t * S) (l1 + l2)) as [C2|C2].
    - destruct (three_second t ltac:(lra)) as (u & _ & Hu & E). rewrite E, <- h0 in H. pose proof (Xh 0 u ltac:(lra) ltac:(lra) ltac:(lra)). lra.
    - rewrite (three_third t) in H by lra. assert (Xl : forall u, vx (lerp u c d) = vx c) by (intros u; unfold lerp; cbn [vx]; rewrite Xcd; ring). rewrite Xl in H.
      rewrite <- h0, <- h1 in H. pose proof (Xh 0 1 ltac:(lra) ltac:(lra) ltac:(lra)). lra.
  Qed.
  Lemma three_after t : 0 <= t -> vx b <= vx (three_at t) -> l1 <= t * S.
  Proof using P1 P2 P3 Xab.
    intros T0 H. destruct (Rle_dec l1 (t * S)) as [C|C]; [exact C|exfalso]. rewrite three_first in H by lra.
    assert (t * S / l1 < 1).
    { apply (Rmult_lt_reg_r l1); [exact P1|]. unfold Rdiv. rewrite Rmult_assoc, Rinv_l, Rmult_1_r by lra. lra. }
    assert (t * S / l1 * (vx b - vx a) < 1 * (vx b - vx a)) by (apply Rmult_lt_compat_r; lra). lra.
  Qed.
End Three.

(** ** a quadratic Bezier curve as part of a profile *)
Lemma quad_draws H a b c : vz a = 0 -> vz b = 0 -> vz c = 0 -> vx c <= vx b <= vx a -> 0 <= vy a <= H -> 0 <= vy b <= H -> 0 <= vy c <= H ->
  0 < vy b -> a <> c -> draws H (Bezier [a; b; c]) a c.
Proof.
  intros Za Zb Zc X Ya Yb Yc Pb NE. split; [intros t; rewrite (quad_evaluates a b c t); eexists; reflexivity|]. split.
  - destruct (bezier_len_ok [a; b; c] ltac:(discriminate)) as (l & El & Hl). exists l. split; [exact El|]. cbn [nth last] in Hl.
    pose proof (L_Fin.dist_pos a c NE). lra.
  - exists (quad_at a b c). split; [intros t _; apply quad_evaluates|]. split; [apply quad_0|]. split; [apply quad_1|].
    split; [intros t _; unfold quad_at; cbn [vz]; rewrite Za, Zb, Zc; unfold quad_num; ring|].
    split; [intros s t [H0 H1] H2; unfold quad_at; cbn [vx]; apply quad_ge; lra|].
    split; intros t Ht; unfold quad_at; cbn [vy]; unfold quad_num.
    + assert (0 < (1 - t) * (t * vy b)) by (apply Rmult_lt_0_compat; [lra|apply Rmult_lt_0_compat; lra]).
      assert (0 <= (1 - t) * ((1 - t) * vy a)) by (repeat apply Rmult_le_pos; lra). assert (0 <= t * (t * vy c)) by (repeat apply Rmult_le_pos; lra). nra.
    + assert (A : (1 - t) * vy a + t * vy b <= H) by nra. assert (B : (1 - t) * vy b + t * vy c <= H) by nra.
      assert ((1 - t) * ((1 - t) * vy a + t * vy b) <= (1 - t) * H) by (apply Rmult_le_compat_l; lra).
      assert (t * ((1 - t) * vy b + t * vy c) <= t * H) by (apply Rmult_le_compat_l; lra). lra.
Qed.
