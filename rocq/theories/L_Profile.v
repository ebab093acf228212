(** Profiles of bodies of revolution: polylines, lines, and the sign of the
    volume. *)
From Coq Require Import Reals Lra List Lia.
From Verif Require Import Num NumR Py M_Vector SpecR3 M_Path M_Surface SpecPath SpecPoly SpecSurf SpecMesh SpecPrism SpecLathe SpecProfile
  L_Vector L_Line L_Polyline L_Component L_Prism L_Lathe P_Polyline P_Lathe.
Import ListNotations.
Local Open Scope R_scope.

Lemma draws_line H p q : vz p = 0 -> vz q = 0 -> vx q <= vx p -> 0 <= vy p <= H -> 0 <= vy q <= H -> 0 < vy p + vy q -> p <> q ->
  draws H (Line p q) p q.
Proof.
  intros Zp Zq X Yp Yq Y NE. split; [intros t; rewrite line_lerp; eexists; reflexivity|]. split.
  - eexists. split; [reflexivity|]. rewrite vabs_nrm. unfold nrm. apply sqrt_lt_R0. cbn.
    destruct p as [a b c], q as [a' b' c']. cbn in *. subst.
    assert (a <> a' \/ b <> b') as [D|D].
    { destruct (Req_dec a a') as [->|D]; [|auto]. destruct (Req_dec b b') as [->|D]; [congruence|auto]. }
    + assert (0 < (a' - a) * (a' - a)) by (apply Rsqr_pos_lt; lra). assert (0 <= (b' - b) * (b' - b)) by apply Rle_0_sqr. lra.
    + assert (0 < (b' - b) * (b' - b)) by (apply Rsqr_pos_lt; lra). assert (0 <= (a' - a) * (a' - a)) by apply Rle_0_sqr. lra.
  - exists (fun t => lerp t p q). split; [intros t _; apply line_lerp|].
    split; [destruct p; unfold lerp; apply vec_ext; cbn; ring|]. split; [destruct q; unfold lerp; apply vec_ext; cbn; ring|].
    split; [intros t _; unfold lerp; cbn; rewrite Zp, Zq; ring|].
    split; [intros s t Hs Ht; unfold lerp; cbn; assert (0 <= (t - s) * (vx p - vx q)) by (apply Rmult_le_pos; lra); lra|].
    split; intros t Ht; unfold lerp; cbn.
    + assert (0 <= (1 - t) * vy p) by (apply Rmult_le_pos; lra). assert (0 <= t * vy q) by (apply Rmult_le_pos; lra).
      destruct (Rle_lt_dec (vy p) 0) as [L|L].
      * assert (0 < t * vy q) by (apply Rmult_lt_0_compat; lra). lra.
      * assert (0 < (1 - t) * vy p) by (apply Rmult_lt_0_compat; lra). lra.
    + assert ((1 - t) * vy p <= (1 - t) * H) by (apply Rmult_le_compat_l; lra). assert (t * vy q <= t * H) by (apply Rmult_le_compat_l; lra). lra.
Qed.

(** ** polylines *)
Section Poly.
  Variables (H : R) (segs : list (path R)) (cs : list pt).
  Hypothesis Hne : segs <> [].
  Hypothesis G : forall k s, nth_error segs k = Some s -> draws H s (nth k cs origin) (nth (S k) cs origin).
  Hypothesis C : forall k, (0 < k < length segs)%nat -> 0 < vy (nth k cs origin).

  Lemma chain_lengths : exists ls, lengths segs ls /\ Forall (fun l => 0 < l) ls.
  Proof using G.
    clear Hne C. revert cs G. induction segs as [|s l IH]; intros cs0 G0; [exists []; split; constructor|].
    destruct (G0 0%nat s eq_refl) as (_ & (x & Lx & Px) & _). destruct (IH (tl cs0)) as (ls & A & B).
    { intros k s' E. specialize (G0 (S k) s' E). destruct cs0 as [|c cs0]; cbn [nth tl] in *; [|exact G0].
      destruct k; exact G0. }
    exists (x :: ls). split; constructor; assumption.
  Qed.
  Lemma chain_x j k : (j <= k <= length segs)%nat -> vx (nth k cs origin) <= vx (nth j cs origin).
  Proof using G.
    intros [L1 L2]. induction L1 as [|k L1 IH]; [lra|].
    assert (E : (k < length segs)%nat) by lia. apply nth_error_Some in E. destruct (nth_error segs k) as [s|] eqn:Es; [|congruence].
    destruct (G k s Es) as (_ & _ & g & _ & G0 & G1 & _ & M & _). specialize (IH ltac:(lia)). specialize (M 0 1 ltac:(lra) ltac:(lra)).
    rewrite G0, G1 in M. lra.
  Qed.

  Theorem draws_polyline : exists p, Polyline segs = Ok p /\ draws H p (nth 0 cs origin) (nth (length segs) cs origin).
  Proof using Hne G C.
    destruct chain_lengths as (ls & HL & HP).
    assert (HT : Forall total_path segs).
    { apply Forall_forall. intros s Hs. apply In_nth_error in Hs. destruct Hs as [k E]. apply (G k s E). }
    destruct (C08_breakpoints segs ls (nlit (Num := NumR) 1 10000000000) Hne HL HP) as (pl & Hpl & Hs & Hlen & B0 & B1 & Hinc & _ & PL).
    destruct (C09_breakpoint_values segs ls _ pl Hne HL HP HT Hpl) as (K0 & K1 & _).
    assert (One := fun t => C09_one_segment segs ls _ pl t Hne HL HP HT Hpl).
    exists (polyline_path pl). split; [unfold Polyline; rewrite Hpl; reflexivity|].
    assert (N0 : (0 < length segs)%nat) by (destruct segs; [congruence|cbn; lia]).
    set (tv := pl_t_values pl) in *.
    assert (Inc : forall a b, (a < b <= length segs)%nat -> nth a tv 0 < nth b tv 0) by (intros a b Hab; apply Hinc; [lia|rewrite Hlen; lia]).
    (* where t lies *)
    assert (At : forall t, 0 <= t <= 1 -> exists k g, (k < length segs)%nat /\ in_segment (length segs) tv t k /\
              Polyline_call pl t = Ok (g (local_t tv k t)) /\ 0 <= local_t tv k t <= 1 /\
              (0 < t -> 0 < local_t tv k t) /\ (t < 1 -> local_t tv k t < 1 \/ (S k < length segs)%nat) /\
              g 0 = nth k cs origin /\ g 1 = nth (S k) cs origin /\ planar g /\ retreating g /\ above g /\ below H g /\
              forall s, nth_error segs k = Some s -> evaluates01 s g).
    { intros t Ht. destruct (One t) as (k & s & IS & _ & Es & Hc). pose proof IS as (Hk & I1 & I2).
      destruct (G k s Es) as (_ & _ & g & E & G0 & G1 & P & M & A & B). exists k, g.
      assert (D : 0 < nth (S k) tv 0 - nth k tv 0) by (assert (nth k tv 0 < nth (S k) tv 0) by (apply Inc; lia); lra).
      assert (Lo : nth k tv 0 <= t) by (destruct I1 as [-> |I1]; [rewrite B0; lra|lra]).
      assert (Up : t <= nth (S k) tv 0).
      { destruct I2 as [-> |I2]; [|exact I2]. replace (S (length segs - 1)) with (length segs) by lia. rewrite B1. lra. }
      assert (U : 0 <= local_t tv k t <= 1).
      { unfold local_t. split; [apply Rmult_le_pos; [lra|left; apply Rinv_0_lt_compat; lra]|].
        apply Rmult_le_reg_r with (nth (S k) tv 0 - nth k tv 0); [exact D|]. unfold Rdiv. rewrite Rmult_assoc, Rinv_l by lra. lra. }
      split; [exact Hk|]. split; [exact IS|]. split; [rewrite Hc; apply E, U|]. split; [exact U|]. split; [|split].
      - intros T. apply Rmult_lt_0_compat; [|apply Rinv_0_lt_compat; lra]. destruct I1 as [-> |I1]; [rewrite B0; lra|lra].
      - intros T. destruct (Nat.eq_dec (S k) (length segs)) as [Q|Q]; [left|right; lia].
        unfold local_t. apply Rmult_lt_reg_r with (nth (S k) tv 0 - nth k tv 0); [exact D|]. unfold Rdiv. rewrite Rmult_assoc, Rinv_l by lra.
        rewrite Q, B1. lra.
      - repeat split; try assumption. intros s' Es'. rewrite Es in Es'. injection Es' as <-. exact E. }
    set (g := fun t => match Polyline_call pl t with Ok q => q | Raise _ => origin end).
    split; [|split].
    - intros t. cbn [p_call polyline_path]. destruct (One t) as (k & s & _ & _ & Es & Hc). rewrite Hc. rewrite Forall_forall in HT.
      apply HT. eapply nth_error_In, Es.
    - exists (Rsum ls). split; [exact PL|]. inversion HL as [E1 E2|s l sl ll L1 L2 E1 E2]; [rewrite <- E1 in Hne; congruence|]. subst ls.
      clear - HP. unfold Rsum. inversion HP as [|? ? P1 P2]; subst. cbn.
      assert (Q : 0 <= fold_right Rplus 0 ll) by (clear - P2; induction P2; cbn; lra). lra.
    - exists g.
      assert (Eg : evaluates01 (polyline_path pl) g).
      { intros t Ht. cbn [p_call polyline_path]. unfold g. destruct (At t Ht) as (k & g' & _ & _ & Hc & _). rewrite Hc. reflexivity. }
      split; [exact Eg|].
      assert (V0 : g 0 = nth 0 cs origin).
      { unfold g. destruct (nth_error segs 0) as [s|] eqn:E0; [|apply nth_error_None in E0; lia]. rewrite (K0 s eq_refl).
        destruct (G 0%nat s E0) as (_ & _ & g0 & Q & Q0 & _). rewrite (Q 0) by lra. exact Q0. }
      assert (V1 : g 1 = nth (length segs) cs origin).
      { unfold g. destruct (nth_error segs (length segs - 1)) as [s|] eqn:E0; [|apply nth_error_None in E0; lia]. rewrite (K1 s eq_refl).
        destruct (G _ s E0) as (_ & _ & g0 & Q & _ & Q1 & _). rewrite (Q 1) by lra. rewrite Q1. f_equal. lia. }
      split; [exact V0|]. split; [exact V1|].
      split; [|split; [|split]].
      + intros t Ht. unfold g. destruct (At t Ht) as (k & g' & _ & _ & Hc & U & _ & _ & _ & _ & P & _). rewrite Hc. apply P, U.
      + intros s t Hst Ht1. assert (Hs0 : 0 <= s <= 1) by lra. assert (Ht0 : 0 <= t <= 1) by lra. unfold g.
        destruct (At s Hs0) as (j & gj & Hj & (_ & J1 & J2) & Cj & Uj & _ & _ & J0 & JE & _ & Mj & _ & _ & Ej).
        destruct (At t Ht0) as (k & gk & Hk & (_ & I1 & I2) & Ck & Uk & _ & _ & I0 & IE & _ & Mk & _ & _ & Ek). rewrite Cj, Ck.
        destruct (Nat.lt_trichotomy j k) as [L|[L|L]].
        * pose proof (Mj (local_t tv j s) 1 ltac:(lra) ltac:(lra)) as Q1. rewrite JE in Q1.
          pose proof (Mk 0 (local_t tv k t) ltac:(lra) ltac:(lra)) as Q2. rewrite I0 in Q2.
          pose proof (chain_x (S j) k ltac:(lia)). lra.
        * subst k. assert (D : 0 < nth (S j) tv 0 - nth j tv 0) by (assert (nth j tv 0 < nth (S j) tv 0) by (apply Inc; lia); lra).
          assert (LL : local_t tv j s <= local_t tv j t).
          { unfold local_t, Rdiv. apply Rmult_le_compat_r; [left; apply Rinv_0_lt_compat; lra|lra]. }
          assert (E : nth_error segs j <> None) by (apply nth_error_Some; lia). destruct (nth_error segs j) as [sg|]; [|congruence].
          specialize (Ej sg eq_refl). specialize (Ek sg eq_refl).
          pose proof (Ej (local_t tv j s) Uj) as Q1. rewrite (Ek (local_t tv j s) Uj) in Q1. injection Q1 as Q1. rewrite <- Q1. apply Mk; lra.
        * exfalso. destruct J1 as [J1|J1]; [lia|]. destruct I2 as [I2|I2]; [lia|].
          assert (nth (S k) tv 0 <= nth j tv 0); [|lra]. destruct (Nat.eq_dec (S k) j) as [-> |NE]; [lra|]. left. apply Inc. lia.
      + intros t Ht. unfold g. destruct (At t ltac:(lra)) as (k & g' & Hk & _ & Hc & U & U0 & U1 & _ & E1 & _ & _ & A & _). rewrite Hc.
        destruct (Rlt_le_dec (local_t tv k t) 1) as [L|L]; [apply A; split; [apply U0; lra|exact L]|].
        replace (local_t tv k t) with 1 by lra. rewrite E1. apply C. destruct (U1 ltac:(lra)) as [Q|Q]; [lra|lia].
      + intros t Ht. unfold g. destruct (At t Ht) as (k & g' & _ & _ & Hc & U & _ & _ & _ & _ & _ & _ & _ & B & _). rewrite Hc. apply B, U.
  Qed.
End Poly.

(** ** the sign of the volume *)
Lemma frustum_bounds H p q : vx q <= vx p -> 0 <= vy p <= H -> 0 <= vy q <= H -> (vx q - vx p) * (H * H) <= frustum p q <= 0.
Proof.
  intros X P Q. unfold frustum.
  assert (A : 0 <= vy p * vy p + vy p * vy q + vy q * vy q <= 3 * (H * H)).
  { assert (vy p * vy p <= H * H) by (apply Rmult_le_compat; lra). assert (vy p * vy q <= H * H) by (apply Rmult_le_compat; lra).
    assert (vy q * vy q <= H * H) by (apply Rmult_le_compat; lra). split; [|lra].
    assert (0 <= vy p * vy p) by nra. assert (0 <= vy p * vy q) by (apply Rmult_le_pos; lra). assert (0 <= vy q * vy q) by nra. lra. }
  assert (B : (vx q - vx p) * (3 * (H * H)) <= (vx q - vx p) * (vy p * vy p + vy p * vy q + vy q * vy q)).
  { apply Rmult_le_compat_neg_l; lra. }
  assert (D : (vx q - vx p) * (vy p * vy p + vy p * vy q + vy q * vy q) <= 0) by nra. lra.
Qed.
Lemma sumn_le n F F' : (forall k, (k < n)%nat -> F k <= F' k) -> sumn n F <= sumn n F'.
Proof.
  induction n as [|n IH]; intros E; [cbn; lra|]. rewrite !sumn_S. specialize (IH (fun k Hk => E k ltac:(lia))). specialize (E n ltac:(lia)). lra.
Qed.
Lemma sumn_zero n F : (forall k, (k < n)%nat -> F k <= 0) -> 0 <= sumn n F -> forall k, (k < n)%nat -> F k = 0.
Proof.
  induction n as [|n IH]; intros E Z k Hk; [lia|]. rewrite sumn_S in Z. pose proof (E n ltac:(lia)) as En.
  assert (L : sumn n F <= 0).
  { clear - E. induction n as [|n IH]; [cbn; lra|]. rewrite sumn_S. specialize (IH (fun k Hk => E k ltac:(lia))). specialize (E n ltac:(lia)). lra. }
  destruct (Nat.eq_dec k n) as [-> |NE]; [lra|]. apply IH; [intros; apply E; lia|lra|lia].
Qed.
Lemma unit_step n k : (k <= S n)%nat -> 0 <= INR k / INR (S n) <= 1.
Proof.
  intros L. assert (P : 0 < INR (S n)) by (apply lt_0_INR; lia). pose proof (pos_INR k). pose proof (le_INR _ _ L).
  split; [apply Rmult_le_pos; [lra|left; apply Rinv_0_lt_compat, P]|].
  apply Rmult_le_reg_r with (INR (S n)); [exact P|]. unfold Rdiv. rewrite Rmult_assoc, Rinv_l by lra. lra.
Qed.
Lemma unit_step_lt n j k : (j < k)%nat -> INR j / INR (S n) < INR k / INR (S n).
Proof.
  intros L. apply Rmult_lt_compat_r; [apply Rinv_0_lt_compat, lt_0_INR; lia|apply lt_INR, L].
Qed.

Lemma retreating_frusta H g n : vy (g 0) = 0 -> vy (g 1) = 0 -> retreating g -> above g -> below H g -> vx (g 1) < vx (g 0) ->
  - (H * H * (vx (g 0) - vx (g 1))) <= frusta (S n) g <= 0 /\ ((0 < n)%nat -> frusta (S n) g < 0).
Proof.
  intros A0 A1 M A B X. unfold frusta. rewrite fold_sumn.
  set (x k := INR k / INR (S n)). assert (X0 : x 0%nat = 0) by (unfold x; cbn [INR]; unfold Rdiv; apply Rmult_0_l).
  assert (X1 : x (S n) = 1) by (unfold x; field; apply not_0_INR; lia).
  assert (U : forall k, (k <= S n)%nat -> 0 <= x k <= 1) by (intros k; apply unit_step).
  assert (St : forall k, x k < x (S k)) by (intros k; apply unit_step_lt; lia).
  assert (Y : forall k, (k <= S n)%nat -> 0 <= vy (g (x k)) <= H).
  { intros k Hk. split; [|apply B, U, Hk]. destruct (Nat.eq_dec k 0) as [-> |N0]; [rewrite X0; lra|].
    destruct (Nat.eq_dec k (S n)) as [-> |N1]; [rewrite X1; lra|]. left. apply A. split.
    - rewrite <- X0. apply unit_step_lt. lia.
    - rewrite <- X1. apply unit_step_lt. lia. }
  assert (D : forall k, (k < S n)%nat -> vx (g (x (S k))) <= vx (g (x k))).
  { intros k Hk. apply M; [split; [apply U; lia|left; apply St]|apply U; lia]. }
  assert (F : forall k, (k < S n)%nat -> (vx (g (x (S k))) - vx (g (x k))) * (H * H) <= frustum (g (x k)) (g (x (S k))) <= 0).
  { intros k Hk. apply frustum_bounds; [apply D, Hk|apply Y; lia|apply Y; lia]. }
  assert (L1 : - (H * H * (vx (g 0) - vx (g 1))) <= sumn (S n) (fun k => frustum (g (x k)) (g (x (S k))))).
  { apply Rle_trans with (sumn (S n) (fun k => H * H * (vx (g (x (S k))) - vx (g (x k))))).
    - rewrite sumn_scale, (sumn_tele (S n) (fun k => vx (g (x k)))), X0, X1. lra.
    - apply sumn_le. intros k Hk. specialize (F k Hk). lra. }
  assert (L2 : sumn (S n) (fun k => frustum (g (x k)) (g (x (S k)))) <= 0).
  { apply Rle_trans with (sumn (S n) (fun _ => 0)); [apply sumn_le; intros k Hk; apply F, Hk|]. rewrite sumn_const. lra. }
  split; [split; [exact L1|exact L2]|]. intros Hn. destruct (Rlt_le_dec (sumn (S n) (fun k => frustum (g (x k)) (g (x (S k))))) 0) as [L|L]; [exact L|exfalso].
  pose proof (sumn_zero (S n) _ (fun k Hk => proj2 (F k Hk)) L) as Z.
  assert (C : forall k, (k <= S n)%nat -> vx (g (x k)) = vx (g 0)).
  { induction k as [|k IH]; intros Hk; [rewrite X0; reflexivity|]. rewrite <- IH by lia. specialize (Z k ltac:(lia)). unfold frustum in Z.
    assert (P : 0 < vy (g (x k)) * vy (g (x k)) + vy (g (x k)) * vy (g (x (S k))) + vy (g (x (S k))) * vy (g (x (S k)))).
    { pose proof (Y k ltac:(lia)) as [Y1 _]. pose proof (Y (S k) ltac:(lia)) as [Y2 _].
      assert (Q : 0 < vy (g (x k)) \/ 0 < vy (g (x (S k)))).
      { destruct (Nat.eq_dec k 0) as [-> |N0].
        - right. apply A. split; [rewrite <- X0; apply unit_step_lt; lia|rewrite <- X1; apply unit_step_lt; lia].
        - left. apply A. split; [rewrite <- X0; apply unit_step_lt; lia|rewrite <- X1; apply unit_step_lt; lia]. }
      pose proof (Rmult_le_pos _ _ Y1 Y2). pose proof (Rle_0_sqr (vy (g (x k)))) as S1. pose proof (Rle_0_sqr (vy (g (x (S k))))) as S2. unfold Rsqr in *.
      destruct Q as [Q|Q]; pose proof (Rmult_lt_0_compat _ _ Q Q); lra. }
    apply Rmult_eq_reg_r with (vy (g (x k)) * vy (g (x k)) + vy (g (x k)) * vy (g (x (S k))) + vy (g (x (S k))) * vy (g (x (S k)))); [|lra]. lra. }
  specialize (C (S n) ltac:(lia)). rewrite X1 in C. lra.
Qed.
