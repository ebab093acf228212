(** C95: what meshing does to the sharp edges of a revolved polyline: the closed cylinder. *)
From Coq Require Import Reals Lra List Lia.
From Verif Require Import Num NumR Py M_Vector SpecR3 M_Path M_Surface SpecPath SpecPoly SpecSurf SpecMesh SpecPrism
  L_Vector L_Line L_Polyline L_Component L_Prism L_Lathe P_Polyline P_Lathe SpecLathe.
Import ListNotations.
Local Open Scope R_scope.

Lemma nat_floor x : 0 <= x -> exists k, INR k <= x < INR (S k).
Proof.
  intros Hx. assert (A : exists N, x < INR N).
  { destruct (archimed x) as [U _]. exists (Z.to_nat (up x)). rewrite INR_IZR_INZ, Z2Nat.id; [exact U|]. apply le_IZR. lra. }
  destruct A as [N HN]. induction N as [|N IH]; [cbn in HN; lra|]. destruct (Rlt_le_dec x (INR N)) as [L|L]; [apply IH, L|exists N; lra].
Qed.

(** a cap at x = a, the side at the radius r, and a cap at x = b *)
Definition cylinder_line (a b r : R) : res (path R) :=
  Polyline [Line (V3 a 0 0) (V3 a r 0); Line (V3 a r 0) (V3 b r 0); Line (V3 b r 0) (V3 b 0 0)].

Section Cylinder.
  Variables a b r : R.
  Hypothesis Hab : a <> b.
  Hypothesis Hr : 0 < r.
  Let L := Rabs (b - a).
  Let l := 2 * r + L.
  (** distance s along the line: the fraction of the side behind, and the radius *)
  Definition cyl_x (s : R) : R := if Rle_dec s r then 0 else if Rle_dec s (r + L) then (s - r) / L else 1.
  Definition cyl_y (s : R) : R := if Rle_dec s r then s else if Rle_dec s (r + L) then r else l - s.
  Definition cyl_at (t : R) : pt := V3 (a + (b - a) * cyl_x (t * l)) (cyl_y (t * l)) 0.

  Lemma cyl_L : 0 < L.
  Proof. apply Rabs_pos_lt. lra. Qed.
  Lemma cyl_l : 0 < l.
  Proof. pose proof cyl_L. unfold l. lra. Qed.
  Lemma cyl_length : lengths [Line (V3 a 0 0) (V3 a r 0); Line (V3 a r 0) (V3 b r 0); Line (V3 b r 0) (V3 b 0 0)] [r; L; r].
  Proof.
    repeat constructor; unfold Line; cbn [p_len]; f_equal; rewrite vabs_nrm; unfold nrm; cbn.
    - replace (_ + _) with (r * r) by ring. apply sqrt_square. lra.
    - replace (_ + _) with (Rsqr (b - a)) by (unfold Rsqr; ring). apply sqrt_Rsqr_abs.
    - replace (_ + _) with (r * r) by ring. apply sqrt_square. lra.
  Qed.
  Lemma cyl_eval : exists p, cylinder_line a b r = Ok p /\ evaluates01 p cyl_at.
  Proof.
    pose proof cyl_L as HL. pose proof cyl_l as Hl. set (segs := [Line (V3 a 0 0) (V3 a r 0); Line (V3 a r 0) (V3 b r 0); Line (V3 b r 0) (V3 b 0 0)]).
    assert (HP : Forall (fun x => 0 < x) [r; L; r]) by (repeat constructor; assumption).
    assert (NE : segs <> []) by discriminate.
    assert (HT : Forall total_path segs) by (repeat constructor; intros t; rewrite line_lerp; eexists; reflexivity).
    destruct (C08_breakpoints segs [r; L; r] (nlit (Num := NumR) 1 10000000000) NE cyl_length HP) as (pl & Hpl & Hs & Hlen & B0 & B3 & _ & St & _).
    exists (polyline_path pl). split; [unfold cylinder_line, Polyline; fold segs; rewrite Hpl; reflexivity|].
    assert (Sm : Rsum [r; L; r] = l) by (cbn; unfold l; ring). rewrite Sm in St. change (length segs) with 3%nat in *.
    set (tv := pl_t_values pl) in *.
    assert (S0 : nth 1 tv 0 - nth 0 tv 0 = r / l) by exact (St 0%nat ltac:(lia)).
    assert (S1 : nth 2 tv 0 - nth 1 tv 0 = L / l) by exact (St 1%nat ltac:(lia)).
    rewrite B0 in S0.
    assert (B1 : nth 1 tv 0 = r / l) by lra. assert (B2 : nth 2 tv 0 = (r + L) / l) by (unfold Rdiv in *; lra). change (nth 3 tv 0 = 1) in B3.
    intros t Ht. cbn [p_call polyline_path].
    destruct (C09_one_segment segs [r; L; r] _ pl t NE cyl_length HP HT Hpl) as (k & s & (Hk & I1 & I2) & _ & Es & Hc). fold tv in I1, I2, Hc. rewrite Hc.
    change (length segs) with 3%nat in *.
    assert (LE : forall c, t <= c / l -> t * l <= c).
    { intros c Hc'. apply (Rmult_le_compat_r l) in Hc'; [|lra]. unfold Rdiv in Hc'. rewrite Rmult_assoc, Rinv_l, Rmult_1_r in Hc' by lra. exact Hc'. }
    assert (GT : forall c, c / l < t -> c < t * l).
    { intros c Hc'. apply (Rmult_lt_compat_r l) in Hc'; [|lra]. unfold Rdiv in Hc'. rewrite Rmult_assoc, Rinv_l, Rmult_1_r in Hc' by lra. exact Hc'. }
    destruct k as [|[|[|k]]]; [| | |lia]; cbn in Es; injection Es as <-; rewrite line_lerp; f_equal; unfold lerp, cyl_at, cyl_x, cyl_y.
    - destruct I2 as [I2|I2]; [lia|]. rewrite B1 in I2. apply LE in I2. destruct (Rle_dec (t * l) r) as [_|C]; [|contradiction].
      unfold local_t. rewrite B0, B1. apply vec_ext; cbn; field; lra.
    - destruct I1 as [I1|I1]; [lia|]. destruct I2 as [I2|I2]; [lia|]. rewrite B1 in I1. rewrite B2 in I2. apply GT in I1. apply LE in I2.
      destruct (Rle_dec (t * l) r) as [C|_]; [lra|]. destruct (Rle_dec (t * l) (r + L)) as [_|C]; [|contradiction].
      unfold local_t. rewrite B1, B2. apply vec_ext; cbn; field; lra.
    - destruct I1 as [I1|I1]; [lia|]. rewrite B2 in I1. apply GT in I1.
      destruct (Rle_dec (t * l) r) as [C|_]; [lra|]. destruct (Rle_dec (t * l) (r + L)) as [C|_]; [lra|].
      unfold local_t. rewrite B2, B3.
      assert (l - (r + L) = r) by (unfold l; ring).
      assert (E : 1 - (r + L) / l = r / l) by (transitivity ((l - (r + L)) / l); [field; lra|rewrite H; reflexivity]). rewrite E.
      apply vec_ext; cbn; [field; lra| |ring].
      replace ((t - (r + L) / l) / (r / l)) with ((t * l - (r + L)) / r) by (field; lra).
      transitivity (r - (t * l - (r + L))); [field; lra|unfold l; ring].
  Qed.
  Lemma cyl_ends : cyl_at 0 = V3 a 0 0 /\ cyl_at 1 = V3 b 0 0.
  Proof.
    pose proof cyl_L. unfold cyl_at, cyl_x, cyl_y. rewrite Rmult_0_l, Rmult_1_l. split.
    - destruct (Rle_dec 0 r); [|lra]. apply vec_ext; cbn; ring.
    - unfold l. destruct (Rle_dec (2 * r + L) r); [lra|]. destruct (Rle_dec (2 * r + L) (r + L)); [lra|]. apply vec_ext; cbn; ring.
  Qed.
  Lemma cyl_bounds s : 0 <= s <= l -> 0 <= cyl_y s <= r.
  Proof. pose proof cyl_L. unfold l. intros Hs. unfold cyl_y, l. destruct (Rle_dec s r), (Rle_dec s (r + L)); lra. Qed.
  Lemma cyl_x_bounds s : 0 <= cyl_x s <= 1.
  Proof.
    pose proof cyl_L as HL. unfold cyl_x. destruct (Rle_dec s r); [lra|]. destruct (Rle_dec s (r + L)); [|lra].
    split; [apply Rmult_le_pos; [lra|left; apply Rinv_0_lt_compat, HL]|]. apply Rmult_le_reg_r with L; [exact HL|].
    unfold Rdiv. rewrite Rmult_assoc, Rinv_l by lra. lra.
  Qed.
  Lemma cyl_x_mono s s' : s <= s' -> cyl_x s <= cyl_x s'.
  Proof.
    pose proof cyl_L as HL. intros Hs. pose proof (cyl_x_bounds s) as B. pose proof (cyl_x_bounds s') as B'. unfold cyl_x in *.
    destruct (Rle_dec s r), (Rle_dec s' r); try lra. destruct (Rle_dec s (r + L)), (Rle_dec s' (r + L)); try lra.
    apply Rmult_le_compat_r; [left; apply Rinv_0_lt_compat, HL|lra].
  Qed.

  (** weight of the step from s to s' *)
  Definition cyl_w (s s' : R) : R := (cyl_x s' - cyl_x s) * (cyl_y s * cyl_y s + cyl_y s * cyl_y s' + cyl_y s' * cyl_y s') / 3.
  Lemma cyl_frustum t t' : frustum (cyl_at t) (cyl_at t') = (b - a) * cyl_w (t * l) (t' * l).
  Proof. unfold frustum, cyl_at, cyl_w. cbn [vx vy]. field. Qed.
  Lemma cyl_w_le s s' : 0 <= s <= s' -> s' <= l -> 0 <= cyl_w s s' <= r * r * (cyl_x s' - cyl_x s).
  Proof.
    intros Hs Hl. pose proof (cyl_x_mono s s' ltac:(lra)) as M. pose proof (cyl_bounds s ltac:(lra)) as [Y0 Y1]. pose proof (cyl_bounds s' ltac:(lra)) as [Z0 Z1].
    unfold cyl_w. set (y := cyl_y s) in *. set (z := cyl_y s') in *. set (d := cyl_x s' - cyl_x s) in *.
    assert (0 <= d) by (unfold d; lra).
    assert (y * y <= r * r) by (apply Rmult_le_compat; lra). assert (y * z <= r * r) by (apply Rmult_le_compat; lra).
    assert (z * z <= r * r) by (apply Rmult_le_compat; lra).
    assert (0 <= y * y) by (apply Rmult_le_pos; lra). assert (0 <= y * z) by (apply Rmult_le_pos; lra). assert (0 <= z * z) by (apply Rmult_le_pos; lra).
    assert (0 <= d * (y * y + y * z + z * z)) by (apply Rmult_le_pos; lra).
    assert (d * (y * y + y * z + z * z) <= d * (3 * (r * r))) by (apply Rmult_le_compat_l; lra). lra.
  Qed.
  Lemma cyl_w_cap s s' : s <= s' -> s' <= r -> cyl_w s s' = r * r * (cyl_x s' - cyl_x s).
  Proof. intros A B. unfold cyl_w, cyl_x. destruct (Rle_dec s r); [|lra]. destruct (Rle_dec s' r); [|lra]. field. Qed.
  Lemma cyl_w_base s s' : r + L <= s -> s <= s' -> cyl_w s s' = r * r * (cyl_x s' - cyl_x s).
  Proof.
    intros A B. pose proof cyl_L as HL. assert (X : forall u, r + L <= u -> cyl_x u = 1).
    { intros u Hu. unfold cyl_x. destruct (Rle_dec u r); [lra|]. destruct (Rle_dec u (r + L)); [|lra]. replace u with (r + L) by lra. field. lra. }
    unfold cyl_w. rewrite !X by lra. field.
  Qed.
  Lemma cyl_w_side s s' : r <= s -> s <= s' -> s' <= r + L -> cyl_w s s' = r * r * (cyl_x s' - cyl_x s).
  Proof.
    intros A B C. assert (Y : forall u, r <= u -> u <= r + L -> cyl_y u = r).
    { intros u Hu Hu'. unfold cyl_y. destruct (Rle_dec u r); [lra|]. destruct (Rle_dec u (r + L)); [reflexivity|lra]. }
    unfold cyl_w. rewrite !Y by lra. field.
  Qed.
  Lemma cyl_w_edge s s' : 0 <= s < r -> r < s' -> s' <= l -> cyl_w s s' < r * r * (cyl_x s' - cyl_x s).
  Proof.
    intros A B C. pose proof cyl_L as HL. pose proof (cyl_bounds s' ltac:(lra)) as [Z0 Z1].
    assert (Ys : cyl_y s = s) by (unfold cyl_y; destruct (Rle_dec s r); lra).
    assert (Xs : cyl_x s = 0) by (unfold cyl_x; destruct (Rle_dec s r); lra).
    assert (P : 0 < cyl_x s').
    { unfold cyl_x. destruct (Rle_dec s' r); [lra|]. destruct (Rle_dec s' (r + L)); [|lra]. apply Rmult_lt_0_compat; [lra|apply Rinv_0_lt_compat, HL]. }
    unfold cyl_w. rewrite Ys, Xs. set (z := cyl_y s') in *. set (d := cyl_x s') in *.
    assert (s * s <= s * r) by (apply Rmult_le_compat_l; lra). assert (s * r < r * r) by (apply Rmult_lt_compat_r; lra).
    assert (s * z <= s * r) by (apply Rmult_le_compat_l; lra). assert (z * z <= r * r) by (apply Rmult_le_compat; lra).
    assert ((d - 0) * (s * s + s * z + z * z) < (d - 0) * (3 * (r * r))) by (apply Rmult_lt_compat_l; lra). lra.
  Qed.

  Lemma cyl_frusta n : let W := sumn (S n) (fun k => cyl_w (INR k / INR (S n) * l) (INR (S k) / INR (S n) * l)) in
    frusta (S n) cyl_at = (b - a) * W /\ 0 <= W <= r * r /\ (W = r * r <-> exists k, INR (S n) * r = INR k * l).
  Proof.
    intros W. pose proof cyl_L as HL. pose proof cyl_l as Hl. assert (PN : 0 < INR (S n)) by (apply lt_0_INR; lia).
    split. { unfold W, frusta. rewrite fold_sumn, <- sumn_scale. apply sumn_ext. intros k _. apply cyl_frustum. }
    set (x k := INR k / INR (S n) * l).
    assert (X0 : x 0%nat = 0) by (unfold x; cbn [INR]; unfold Rdiv; ring).
    assert (X1 : x (S n) = l) by (unfold x; field; lra).
    assert (IN : forall k, (k <= S n)%nat -> 0 <= x k <= l).
    { intros k Hk. pose proof (le_INR _ _ Hk) as Q. pose proof (pos_INR k). unfold x. split.
      - apply Rmult_le_pos; [|lra]. apply Rmult_le_pos; [lra|left; apply Rinv_0_lt_compat, PN].
      - rewrite <- (Rmult_1_l l) at 2. apply Rmult_le_compat_r; [lra|]. apply Rmult_le_reg_r with (INR (S n)); [exact PN|].
        unfold Rdiv. rewrite Rmult_assoc, Rinv_l by lra. lra. }
    assert (MO : forall j k, (j <= k)%nat -> x j <= x k).
    { intros j k Hk. apply le_INR in Hk. unfold x. apply Rmult_le_compat_r; [lra|]. apply Rmult_le_compat_r; [left; apply Rinv_0_lt_compat, PN|exact Hk]. }
    assert (T : sumn (S n) (fun k => r * r * (cyl_x (x (S k)) - cyl_x (x k))) = r * r).
    { rewrite sumn_scale, (sumn_tele (S n) (fun k => cyl_x (x k))), X0, X1. unfold cyl_x, l.
      destruct (Rle_dec 0 r); [|lra]. destruct (Rle_dec (2 * r + L) r); [lra|]. destruct (Rle_dec (2 * r + L) (r + L)); [lra|]. ring. }
    assert (B : forall k, (k < S n)%nat -> 0 <= cyl_w (x k) (x (S k)) <= r * r * (cyl_x (x (S k)) - cyl_x (x k))).
    { intros k Hk. apply cyl_w_le; [split; [apply IN; lia|apply MO; lia]|apply IN; lia]. }
    assert (LE : forall m, (m <= S n)%nat -> 0 <= sumn m (fun k => cyl_w (x k) (x (S k))) <= sumn m (fun k => r * r * (cyl_x (x (S k)) - cyl_x (x k)))).
    { induction m as [|m IH]; intros Hm; [cbn; lra|]. rewrite !sumn_S. specialize (IH ltac:(lia)). specialize (B m ltac:(lia)). lra. }
    split. { pose proof (LE (S n) ltac:(lia)) as Q. rewrite T in Q. exact Q. }
    split.
    - intros E. destruct (nat_floor (INR (S n) * r / l)) as (k & K0 & K1).
      { apply Rmult_le_pos; [apply Rmult_le_pos; lra|left; apply Rinv_0_lt_compat, Hl]. }
      assert (Q0 : INR k * l <= INR (S n) * r).
      { apply (Rmult_le_compat_r l) in K0; [|lra]. unfold Rdiv in K0. rewrite Rmult_assoc, Rinv_l in K0 by lra. lra. }
      assert (Q1 : INR (S n) * r < INR (S k) * l).
      { apply (Rmult_lt_compat_r l) in K1; [|lra]. unfold Rdiv in K1. rewrite Rmult_assoc, Rinv_l in K1 by lra. lra. }
      destruct (Req_dec (INR (S n) * r) (INR k * l)) as [Z|NZ]; [exists k; exact Z|exfalso].
      assert (D : forall c, x c * INR (S n) = INR c * l) by (intros c; unfold x; field; lra).
      assert (Sk : x k < r) by (apply Rmult_lt_reg_r with (INR (S n)); [exact PN|rewrite D; lra]).
      assert (Sk' : r < x (S k)) by (apply Rmult_lt_reg_r with (INR (S n)); [exact PN|rewrite D; lra]).
      assert (Hk : (k < S n)%nat).
      { apply Nat.nle_gt. intros C. specialize (MO _ _ C). rewrite X1 in MO. unfold l in MO. lra. }
      assert (ST := cyl_w_edge (x k) (x (S k)) (conj (proj1 (IN k ltac:(lia))) Sk) Sk' (proj2 (IN (S k) ltac:(lia)))).
      assert (Q : forall m, (k < m <= S n)%nat -> sumn m (fun j => cyl_w (x j) (x (S j))) < sumn m (fun j => r * r * (cyl_x (x (S j)) - cyl_x (x j)))).
      { induction m as [|m IH]; intros Hm; [lia|]. rewrite !sumn_S. destruct (Nat.eq_dec m k) as [-> |NE].
        - pose proof (LE k ltac:(lia)). lra.
        - specialize (IH ltac:(lia)). specialize (B m ltac:(lia)). lra. }
      specialize (Q (S n) ltac:(lia)). rewrite T in Q. unfold W in E. fold x in E. change (sumn (S n) (fun k => cyl_w (x k) (x (S k))) = r * r) in E. lra.
    - intros (K & HK). rewrite <- T. unfold W. apply sumn_ext. intros k Hk. change (cyl_w (x k) (x (S k)) = r * r * (cyl_x (x (S k)) - cyl_x (x k))).
      assert (D : forall c, x c * INR (S n) = INR c * l) by (intros c; unfold x; field; lra).
      destruct (Nat.lt_ge_cases k K) as [L1|L1].
      + apply cyl_w_cap; [apply MO; lia|]. apply Rmult_le_reg_r with (INR (S n)); [exact PN|]. rewrite D.
        assert (INR (S k) <= INR K) by (apply le_INR; lia). apply (Rmult_le_compat_r l) in H; lra.
      + assert (R1 : r <= x k).
        { apply Rmult_le_reg_r with (INR (S n)); [exact PN|]. rewrite D. apply le_INR in L1. apply (Rmult_le_compat_r l) in L1; lra. }
        assert (E : (r + L) * INR (S n) = INR (S n) * l - INR K * l) by (rewrite <- HK; unfold l; ring).
        destruct (Nat.le_gt_cases (S k + K) (S n)) as [L2|L2].
        * apply cyl_w_side; [exact R1|apply MO; lia|]. apply Rmult_le_reg_r with (INR (S n)); [exact PN|]. rewrite D, E.
          apply le_INR in L2. rewrite plus_INR in L2. apply (Rmult_le_compat_r l) in L2; lra.
        * apply cyl_w_base; [|apply MO; lia]. apply Rmult_le_reg_r with (INR (S n)); [exact PN|]. rewrite D, E.
          assert (L3 : (S n <= k + K)%nat) by lia. apply le_INR in L3. rewrite plus_INR in L3. apply (Rmult_le_compat_r l) in L3; lra.
  Qed.
End Cylinder.

(** C95: the closed cylinder drawn as one polyline (cap, side, cap): the mesh is
    closed, never encloses more than the prism over the regular 4n-gon, and
    encloses as much as that iff the edges happen to lie on the grid, that is
    iff n r is a multiple of the length 2 r + |b - a| of the line; otherwise the
    edges are cut off *)
Theorem C95_cylinder a b r n : a <> b -> 0 < r ->
  exists p mesh, cylinder_line a b r = Ok p /\ turned_mesh n p = Ok mesh /\ watertight mesh /\
    Rabs (signed_volume mesh) <= ngon (4 * S n) * (r * r * Rabs (b - a)) /\
    (signed_volume mesh = ngon (4 * S n) * (r * r * (b - a)) <-> exists k, INR (S n) * r = INR k * (2 * r + Rabs (b - a))) /\
    (~ (exists k, INR (S n) * r = INR k * (2 * r + Rabs (b - a))) -> Rabs (signed_volume mesh) < ngon (4 * S n) * (r * r * Rabs (b - a))).
Proof.
  intros Hab Hr. destruct (cyl_eval a b r Hab Hr) as (p & Ep & Ev). destruct (cyl_ends a b r Hab Hr) as [E0 E1].
  destruct (C90_volume p (cyl_at a b r) n Ev) as (m & Hm & W & V).
  - rewrite E0. split; reflexivity.
  - rewrite E1. split; reflexivity.
  - intros t _. reflexivity.
  - exists p, m. split; [exact Ep|]. split; [exact Hm|]. split; [exact W|].
    destruct (cyl_frusta a b r Hab Hr n) as (F & B & I). set (w := sumn _ _) in *. rewrite V, F.
    assert (N : 0 < ngon (4 * S n)) by (apply ngon_pos; lia). assert (D : 0 < Rabs (b - a)) by (apply Rabs_pos_lt; lra).
    assert (A : Rabs (ngon (4 * S n) * ((b - a) * w)) = ngon (4 * S n) * (w * Rabs (b - a))).
    { rewrite !Rabs_mult, (Rabs_right (ngon _)), (Rabs_right w) by lra. ring. }
    rewrite A. split; [apply Rmult_le_compat_l; [lra|]; apply Rmult_le_compat_r; lra|]. split.
    + rewrite <- I. split; intros H.
      * apply Rmult_eq_reg_l in H; [|lra]. rewrite (Rmult_comm (r * r)) in H. apply Rmult_eq_reg_l in H; lra.
      * rewrite H. ring.
    + intros NI. apply Rmult_lt_compat_l; [exact N|]. apply Rmult_lt_compat_r; [exact D|].
      destruct (Req_dec w (r * r)) as [Z|Z]; [exfalso; apply NI, I, Z|lra].
Qed.
(** the body of the Falcon 9 (radius 1.875, length 60) loses its edges at the
    resolution 50 used; with radius 1 and length 48 they are kept *)
Example C95_meets : (~ exists k, INR 50 * (1875 / 1000) = INR k * (2 * (1875 / 1000) + Rabs (- 66 - - 6))) /\
  exists k, INR 50 * 1 = INR k * (2 * 1 + Rabs (- 54 - - 6)).
Proof.
  assert (F : INR 50 = 50) by (cbn; ring). rewrite F. split.
  - intros (k & Hk). rewrite Rabs_left in Hk by lra. destruct k as [|[|k]]; [cbn in Hk; lra|cbn in Hk; lra|].
    rewrite !S_INR in Hk. pose proof (pos_INR k). lra.
  - exists 1%nat. rewrite Rabs_left by lra. cbn. lra.
Qed.

Print Assumptions C95_cylinder.
