(** The parametric HIFiRE 8: the line of its fuselage. *)
From Coq Require Import String Reals Lra ZArith List Permutation Lia Bool.
From Verif Require Import Num NumR Py M_Vector SpecR3 M_Path M_Surface M_Geometry M_Mesh M_Component M_Common M_Wing M_Fin M_Vehicle M_VecHeap M_Sens M_Gen M_Hangar M_Htv M_X43 M_Hifire8
  SpecPath SpecPoly SpecSurf SpecMesh SpecComp SpecVehicle SpecAdd SpecPrism SpecHangar SpecWing SpecFin SpecPair SpecFiles SpecHtv SpecHalf SpecX43 SpecLathe
  L_Vector L_Line L_Polyline L_Curves L_Component L_RevolvedComp L_Edges L_Volume L_Prism L_Lathe L_Profile L_Block L_Falcon L_Mesh L_Pair L_Htv L_Parts L_Parts2 P_Polyline.
Import ListNotations.
Local Open Scope R_scope.

Lemma tan_ratio q : ntan (Num := NumR) (natan2 q 1) = q.
Proof.
  numR. assert (E : Ratan2 q 1 = atan q). { unfold Ratan2. destruct (Rlt_dec 0 1); [|lra]. f_equal. field. }
  rewrite E, Rtan_regular; [apply tan_atan|]. pose proof (atan_bound q). apply Rgt_not_eq, cos_gt_0; lra.
Qed.

Lemma node_vertex' n (v : R -> R -> pt) i j : (i <= S n)%nat -> (j <= S n)%nat -> vertex_of (patch_grid n v) (grid_of n v i j).
Proof.
  intros Hi Hj. pose proof (node_vertex n [("x"%string, fun r s => Ok (v r s))] "x" _ i j _ (or_introl eq_refl) Hi Hj eq_refl) as V.
  unfold wing_grid, values_of, dvals in V. cbn [map flat_map snd] in V. rewrite app_nil_r in V. exact V.
Qed.

Section Body.
  Variables L Rb Rn nl : R.
  Hypothesis HL : 0 < L.
  Hypothesis Hb : 0 < Rb.
  Hypothesis Hn : 0 < Rn.
  Hypothesis Hz : 0 < nl.
  (** the taper; the radius at x *)
  Lemma h8_radius x : h8_r L Rb Rn x = Rb - x * ((Rb - Rn) / L).
  Proof using. unfold h8_r, h8_slope. change (nsub Rb (nmul x (ntan (natan2 (ndiv (nsub Rb Rn) L) n1)))) with (Rb - x * ntan (Num := NumR) (natan2 ((Rb - Rn) / L) 1)). rewrite tan_ratio. reflexivity. Qed.
  Lemma h8_ends : h8_r_b L Rb Rn = Rn /\ h8_R1 L Rb Rn = Rn /\ h8_R2 L Rb Rn = Rb.
  Proof using HL.
    unfold h8_r_b, h8_R1, h8_R2, h8_X1.
    assert (A : h8_r L Rb Rn L = Rn) by (rewrite h8_radius; field; lra).
    split; [exact A|]. split.
    - rewrite <- A at 2. unfold h8_r. numR. f_equal. ring.
    - numR. ring.
  Qed.
  (** the length of the tapered part, and of the whole line *)
  Definition taper : R := sqrt (L * L + (Rb - Rn) * (Rb - Rn)).
  Let a := taper.
  Let l := a + nl + Rb.
  Definition h8_x (s : R) : R := if Rle_dec s a then L - L * (s / a) else if Rle_dec s (a + nl) then a - s else - nl.
  Definition h8_y (s : R) : R := if Rle_dec s a then Rn + (Rb - Rn) * (s / a) else if Rle_dec s (a + nl) then Rb else l - s.
  Definition h8_at (t : R) : pt := V3 (h8_x (t * l)) (h8_y (t * l)) 0.
  Lemma taper_pos : 0 < a.
  Proof using HL. apply sqrt_lt_R0. pose proof (Rle_0_sqr (Rb - Rn)) as S. unfold Rsqr in S. pose proof (Rmult_lt_0_compat _ _ HL HL). lra. Qed.
  Let segs : list (path R) := [Line (V3 L Rn 0) (V3 0 Rb 0); Line (V3 0 Rb 0) (V3 (- nl) Rb 0); Line (V3 (- nl) Rb 0) (V3 (- nl) 0 0)].
  Lemma h8_lengths : lengths segs [a; nl; Rb].
  Proof using Hb Hz.
    repeat constructor; unfold Line; cbn [p_len]; f_equal; rewrite vabs_nrm; unfold nrm; cbn.
    - unfold a, taper. f_equal. ring.
    - replace (_ + _) with (nl * nl) by ring. apply sqrt_square. lra.
    - replace (_ + _) with (Rb * Rb) by ring. apply sqrt_square. lra.
  Qed.
  Lemma h8_line_eq : h8_fuse_line L Rb Rn nl = Polyline segs.
  Proof using HL.
    destruct h8_ends as (_ & E1 & E2). unfold h8_fuse_line. rewrite E1, E2. unfold segs, h8_X1, h8_X3, vec2. numR.
    replace (1 * L) with L by ring. reflexivity.
  Qed.
  Lemma h8_eval : exists p, h8_fuse_line L Rb Rn nl = Ok p /\ evaluates01 p h8_at.
  Proof using HL Hb Hz.
    pose proof taper_pos as Ha. assert (Hl : 0 < l) by (unfold l; lra).
    assert (HP : Forall (fun x => 0 < x) [a; nl; Rb]) by (repeat constructor; assumption).
    assert (NE : segs <> []) by discriminate.
    assert (HT : Forall total_path segs) by (repeat constructor; intros t; rewrite line_lerp; eexists; reflexivity).
    destruct (C08_breakpoints segs [a; nl; Rb] (nlit (Num := NumR) 1 10000000000) NE h8_lengths HP) as (pl & Hpl & Hs & Hlen & B0 & B3 & _ & St & _).
    exists (polyline_path pl). split; [rewrite h8_line_eq; unfold Polyline; rewrite Hpl; reflexivity|].
    assert (Sm : Rsum [a; nl; Rb] = l) by (cbn; unfold l; ring). rewrite Sm in St. change (length segs) with 3%nat in *.
    set (tv := pl_t_values pl) in *.
    assert (S0 : nth 1 tv 0 - nth 0 tv 0 = a / l) by exact (St 0%nat ltac:(lia)).
    assert (S1 : nth 2 tv 0 - nth 1 tv 0 = nl / l) by exact (St 1%nat ltac:(lia)).
    rewrite B0 in S0.
    assert (B1 : nth 1 tv 0 = a / l) by lra. assert (B2 : nth 2 tv 0 = (a + nl) / l) by (unfold Rdiv in *; lra). change (nth 3 tv 0 = 1) in B3.
    intros t Ht. cbn [p_call polyline_path].
    destruct (C09_one_segment segs [a; nl; Rb] _ pl t NE h8_lengths HP HT Hpl) as (k & s & (Hk & I1 & I2) & _ & Es & Hc). fold tv in I1, I2, Hc. rewrite Hc.
    change (length segs) with 3%nat in *.
    assert (LE : forall c, t <= c / l -> t * l <= c).
    { intros c Hc'. apply (Rmult_le_compat_r l) in Hc'; [|lra]. unfold Rdiv in Hc'. rewrite Rmult_assoc, Rinv_l, Rmult_1_r in Hc' by lra. exact Hc'. }
    assert (GT : forall c, c / l < t -> c < t * l).
    { intros c Hc'. apply (Rmult_lt_compat_r l) in Hc'; [|lra]. unfold Rdiv in Hc'. rewrite Rmult_assoc, Rinv_l, Rmult_1_r in Hc' by lra. exact Hc'. }
    destruct k as [|[|[|k]]]; [| | |lia]; cbn in Es; injection Es as <-; rewrite line_lerp; f_equal; unfold lerp, h8_at, h8_x, h8_y.
    - destruct I2 as [I2|I2]; [lia|]. rewrite B1 in I2. apply LE in I2. destruct (Rle_dec (t * l) a) as [_|C]; [|contradiction].
      unfold local_t. rewrite B0, B1. apply vec_ext; cbn; field; lra.
    - destruct I1 as [I1|I1]; [lia|]. destruct I2 as [I2|I2]; [lia|]. rewrite B1 in I1. rewrite B2 in I2. apply GT in I1. apply LE in I2.
      destruct (Rle_dec (t * l) a) as [C|_]; [lra|]. destruct (Rle_dec (t * l) (a + nl)) as [_|C]; [|contradiction].
      unfold local_t. rewrite B1, B2. apply vec_ext; cbn; field; lra.
    - destruct I1 as [I1|I1]; [lia|]. rewrite B2 in I1. apply GT in I1.
      destruct (Rle_dec (t * l) a) as [C|_]; [lra|]. destruct (Rle_dec (t * l) (a + nl)) as [C|_]; [lra|].
      unfold local_t. rewrite B2, B3.
      assert (l - (a + nl) = Rb) by (unfold l; ring).
      assert (E : 1 - (a + nl) / l = Rb / l) by (transitivity ((l - (a + nl)) / l); [field; lra|rewrite H; reflexivity]). rewrite E.
      apply vec_ext; cbn; [field; lra| |ring].
      replace ((t - (a + nl) / l) / (Rb / l)) with ((t * l - (a + nl)) / Rb) by (field; lra).
      transitivity (Rb - (t * l - (a + nl))); [field; lra|unfold l; ring].
  Qed.
  Definition h8_cap : R -> pt := straight (V3 L 0 0) (V3 L Rn 0).
  Lemma h8_cap_eval : evaluates01 (h8_cap_line L Rb Rn) h8_cap.
  Proof using HL.
    intros t _. unfold h8_cap_line. destruct h8_ends as (_ & E1 & _). rewrite E1. unfold h8_X1, vec2. numR. rewrite line_lerp. f_equal.
    unfold lerp, h8_cap, straight. apply vec_ext; cbn; ring.
  Qed.
  (** the ends of the tapered part *)
  Lemma h8_at_0 : h8_at 0 = V3 L Rn 0.
  Proof using HL. pose proof taper_pos. unfold h8_at, h8_x, h8_y. rewrite Rmult_0_l. destruct (Rle_dec 0 a); [|lra]. apply vec_ext; cbn; field; lra. Qed.
  Lemma h8_at_1 : h8_at 1 = V3 (- nl) 0 0.
  Proof using HL Hb Hz.
    pose proof taper_pos. unfold h8_at, h8_x, h8_y. rewrite Rmult_1_l. destruct (Rle_dec l a); [unfold l in *; lra|]. destruct (Rle_dec l (a + nl)); [unfold l in *; lra|].
    apply vec_ext; cbn; ring.
  Qed.
  Definition h8_fuse (n : nat) : list (tri R) := lathe_mesh n [h8_at; h8_cap].
  Lemma h8_profile : closed_profile [h8_cap; h8_at].
  Proof using HL Hb Hz.
    unfold closed_profile. cbn [joined_from]. rewrite h8_at_0, h8_at_1. unfold h8_cap, straight, on_axis. cbn [vx vy vz].
    repeat split; try ring. apply vec_ext; cbn; ring.
  Qed.
  Lemma lathe_swap n f g : lathe_mesh n [f; g] = (lathe_mesh n [f] ++ lathe_mesh n [g])%list /\ lathe_mesh n [g; f] = (lathe_mesh n [g] ++ lathe_mesh n [f])%list.
  Proof using. clear. unfold lathe_mesh. cbn [flat_map]. rewrite !app_nil_r, !flat_map_app. auto. Qed.
  Lemma h8_watertight n : watertight (h8_fuse n).
  Proof using HL Hb Hz.
    pose proof (lathe_watertight n _ h8_profile) as W. destruct (lathe_swap n h8_cap h8_at) as [E1 E2]. unfold h8_fuse. rewrite E2. rewrite E1 in W.
    unfold watertight in *. eapply balanced_perm; [|exact W]. unfold mesh_edges. rewrite !flat_map_app. apply Permutation_app_comm.
  Qed.
  Lemma h8_planar : Forall planar [h8_cap; h8_at].
  Proof using. repeat constructor; intros t _; unfold h8_cap, straight, h8_at; cbn [vz]; ring. Qed.
  Lemma h8_volume n : signed_volume (h8_fuse n) = ngon (4 * S n) * frusta (S n) h8_at.
  Proof using HL Hb Hz.
    destruct (lathe_swap n h8_cap h8_at) as [E1 E2].
    assert (S : signed_volume (h8_fuse n) = signed_volume (lathe_mesh n [h8_cap; h8_at])) by (unfold h8_fuse; rewrite E1, E2, !signed_volume_app; ring).
    rewrite S, (lathe_volume n _ h8_profile h8_planar). cbn [map fold_right]. unfold h8_cap. rewrite straight_frusta. unfold frustum. cbn [vx vy]. f_equal. field.
  Qed.
  Let H := Rmax Rb Rn.
  Lemma frac s : 0 <= s <= a -> 0 <= s / a <= 1.
  Proof using HL.
    intros Hs. pose proof taper_pos. split; [apply Rmult_le_pos; [lra|left; apply Rinv_0_lt_compat; lra]|].
    apply (Rmult_le_reg_r a); [lra|]. unfold Rdiv. rewrite Rmult_assoc, Rinv_l by lra. lra.
  Qed.
  Lemma h8_y_range s : 0 <= s <= l -> 0 <= h8_y s <= H.
  Proof using HL Hb Hn Hz.
    intros Hs. unfold h8_y. assert (Rb <= H) by apply Rmax_l. assert (Rn <= H) by apply Rmax_r.
    destruct (Rle_dec s a); [pose proof (frac s ltac:(lra)); nra|]. destruct (Rle_dec s (a + nl)); [lra|]. unfold l in *. lra.
  Qed.
  Lemma h8_x_down s s' : 0 <= s <= s' -> h8_x s' <= h8_x s.
  Proof using HL Hz.
    intros Hs. pose proof taper_pos as Ha. unfold h8_x.
    destruct (Rle_dec s a) as [A|A], (Rle_dec s' a) as [B|B]; try lra.
    - assert (s / a <= s' / a) by (apply Rmult_le_compat_r; [left; apply Rinv_0_lt_compat, Ha|lra]). nra.
    - pose proof (frac s ltac:(lra)). assert (0 <= L - L * (s / a)) by nra. destruct (Rle_dec s' (a + nl)); lra.
    - destruct (Rle_dec s (a + nl)), (Rle_dec s' (a + nl)); lra.
  Qed.
  Lemma h8_x_base s : 0 <= s -> - nl <= h8_x s /\ (h8_x s = - nl <-> a + nl <= s).
  Proof using HL Hz.
    intros Hs. pose proof taper_pos as Ha. unfold h8_x. destruct (Rle_dec s a) as [A|A].
    - pose proof (frac s ltac:(lra)). assert (0 <= L - L * (s / a)) by nra. split; [lra|]. split; lra.
    - destruct (Rle_dec s (a + nl)); split; try lra; split; lra.
  Qed.
  (** inside out *)
  Lemma h8_negative n : (0 < n)%nat -> - (PI * (H * H) * (L + nl)) < signed_volume (h8_fuse n) < 0.
  Proof using HL Hb Hn Hz.
    intros Hn0. rewrite h8_volume. pose proof taper_pos as Ha. assert (Hl : 0 < l) by (unfold l; lra).
    unfold frusta. rewrite fold_sumn. set (x k := INR k / INR (S n)).
    assert (U : forall k, (k <= S n)%nat -> 0 <= x k <= 1) by (intros k; apply unit_step).
    assert (St : forall k, x k < x (S k)) by (intros k; apply unit_step_lt; lia).
    assert (F : forall k, (k < S n)%nat -> (vx (h8_at (x (S k))) - vx (h8_at (x k))) * (H * H) <= frustum (h8_at (x k)) (h8_at (x (S k))) <= 0).
    { intros k Hk. pose proof (U k ltac:(lia)). pose proof (U (S k) ltac:(lia)). pose proof (St k). apply frustum_bounds.
      - cbn [vx h8_at]. apply h8_x_down. nra.
      - cbn [vy h8_at]. apply h8_y_range. nra.
      - cbn [vy h8_at]. apply h8_y_range. nra. }
    set (S1 := sumn (S n) _).
    assert (X0 : x 0%nat = 0) by (unfold x; cbn [INR]; unfold Rdiv; apply Rmult_0_l).
    assert (X1 : x (S n) = 1) by (unfold x; field; apply not_0_INR; lia).
    assert (L1 : - (H * H * (L + nl)) <= S1).
    { apply Rle_trans with (sumn (S n) (fun k => H * H * (vx (h8_at (x (S k))) - vx (h8_at (x k))))).
      - rewrite sumn_scale, (sumn_tele (S n) (fun k => vx (h8_at (x k)))), X0, X1, h8_at_0, h8_at_1. cbn [vx]. right. ring.
      - apply sumn_le. intros k Hk. specialize (F k Hk). cbv beta. rewrite (Rmult_comm (H * H)). exact (proj1 F). }
    assert (L2 : S1 < 0).
    { destruct (Rlt_le_dec S1 0) as [Q|Q]; [exact Q|exfalso]. pose proof (sumn_zero (S n) _ (fun k Hk => proj2 (F k Hk)) Q 0%nat ltac:(lia)) as Z.
      unfold frustum in Z. rewrite X0, h8_at_0 in Z. cbn [vx vy h8_at] in Z. pose proof (St 0%nat) as S0. rewrite X0 in S0. pose proof (U 1%nat ltac:(lia)) as U1.
      assert (XL : h8_x (x 1%nat * l) < L).
      { assert (P : 0 < x 1%nat * l) by nra. unfold h8_x. destruct (Rle_dec (x 1%nat * l) a).
        - assert (0 < x 1%nat * l / a) by (apply Rdiv_lt_0_compat; lra). nra.
        - destruct (Rle_dec (x 1%nat * l) (a + nl)); lra. }
      pose proof (h8_y_range (x 1%nat * l) ltac:(nra)) as [Y _]. set (y := h8_y _) in *. set (xx := h8_x _) in *.
      assert (0 < Rn * Rn + Rn * y + y * y) by nra. nra. }
    assert (G : 0 < ngon (4 * S n)) by (apply ngon_pos; lia). pose proof (ngon_bound (4 * S n) ltac:(lia)) as GB.
    assert (HP : 0 < H) by (apply Rlt_le_trans with Rb; [exact Hb|apply Rmax_l]).
    split; [|nra]. apply Rlt_le_trans with (ngon (4 * S n) * - (H * H * (L + nl))).
    - assert (0 < H * H * (L + nl)) by (apply Rmult_lt_0_compat; [nra|lra]). nra.
    - apply Rmult_le_compat_l; lra.
  Qed.
  (** ** the base *)
  Lemma turn_vx b p : vx (turn b p) = vx p. Proof using. reflexivity. Qed.
  Lemma h8_ring k : (k <= 8)%nat -> vertex_of (h8_fuse 7) (h8_at (INR k / 8)).
  Proof using.
    intros Hk. set (v := rev_val h8_at 0).
    assert (E : h8_at (INR k / 8) = grid_of 7 v k 0).
    { unfold grid_of, v, rev_val. replace (INR 8) with 8 by (cbn; lra). unfold turn. cbn [INR Nat.add].
      replace (0 * PI / 2 * (1 - 0 / 8) + 1 * PI / 2 * (0 / 8)) with 0 by field. rewrite cos_0, sin_0. unfold h8_at. cbn [vx vy vz]. apply vec_ext; cbn [vx vy vz]; ring. }
    rewrite E. pose proof (node_vertex' 7 v k 0 Hk ltac:(lia)) as (t & I & P). exists t. split; [|exact P].
    unfold h8_fuse, lathe_mesh. apply in_flat_map. exists v. split; [left; reflexivity|exact I].
  Qed.
  Lemma h8_base : (forall p, vertex_of (h8_fuse 7) p -> vx p = - nl -> on_axis p) <-> 7 * Rb < taper + nl.
  Proof using HL Hb Hn Hz.
    pose proof taper_pos as Ha. fold a. assert (Hl : 0 < l) by (unfold l; lra). split.
    - intros Q. destruct (Rlt_le_dec (7 * Rb) (a + nl)) as [C|C]; [exact C|exfalso].
      pose proof (Q _ (h8_ring 7 ltac:(lia))) as B. assert (E : INR 7 / 8 * l = 7 / 8 * l) by (cbn; field). cbn [h8_at vx] in B. rewrite E in B.
      assert (G : a + nl <= 7 / 8 * l) by (unfold l; lra).
      destruct B as [B _]; [apply h8_x_base; [nra|exact G]|]. cbn [h8_at vy] in B. rewrite E in B. unfold h8_y in B.
      destruct (Rle_dec (7 / 8 * l) a); [lra|]. destruct (Rle_dec (7 / 8 * l) (a + nl)); lra.
    - intros C p (t & I & P) X. unfold h8_fuse, lathe_mesh in I. apply in_flat_map in I as (v & Iv & It).
      assert (V : vertex_of (patch_grid 7 v) p) by (exists t; auto). apply grid_vertex in V. cbn [flat_map] in Iv. rewrite app_nil_r in Iv. apply in_app_or in Iv as [Iv|Iv].
      + unfold four in Iv. apply in_map_iff in Iv as (q & <- & _).
        assert (XK : forall k, (k < 8)%nat -> - nl < h8_x (INR k / INR 8 * l)).
        { intros k Hk. assert (0 <= INR k <= 7) by (split; [apply pos_INR|replace 7 with (INR 7) by (cbn; lra); apply le_INR; lia]).
          assert (E8 : INR 8 = 8) by (cbn; lra). rewrite E8. destruct (h8_x_base (INR k / 8 * l) ltac:(nra)) as [N1 N2]. destruct N1 as [N1|N1]; [exact N1|]. symmetry in N1. apply N2 in N1.
          assert (INR k / 8 * l <= 7 / 8 * l) by (apply Rmult_le_compat_r; lra). unfold l in *. lra. }
        assert (XG : forall k, - nl <= h8_x (INR k / INR 8 * l)).
        { intros k. apply h8_x_base. apply Rmult_le_pos; [|lra]. apply Rmult_le_pos; [apply pos_INR|]. left. apply Rinv_0_lt_compat. cbn. lra. }
        destruct V as [(i & j & Hi & Hj & ->)|(i & j & Hi & Hj & ->)].
        * unfold grid_of, rev_val in X |- *. rewrite turn_vx in X. cbn [vx h8_at] in X. destruct (Nat.eq_dec i 8) as [-> |Ni].
          -- replace (INR 8 / INR 8) with 1 by (cbn; field). rewrite h8_at_1. unfold on_axis, turn. cbn [vx vy vz]. split; ring.
          -- pose proof (XK i ltac:(lia)). lra.
        * exfalso. unfold centred, mean4, grid_of, rev_val in X. cbn [vx turn] in X. cbn [vx h8_at] in X.
          pose proof (XK i ltac:(lia)). pose proof (XG (S i)). lra.
      + exfalso. unfold four in Iv. apply in_map_iff in Iv as (q & <- & _).
        assert (XC : forall r s, vx (rev_val h8_cap q r s) = L) by (intros r s; unfold rev_val; rewrite turn_vx; unfold h8_cap, straight; cbn [vx]; ring).
        destruct V as [(i & j & Hi & Hj & ->)|(i & j & Hi & Hj & ->)]; unfold centred, mean4, grid_of in X; cbn [vx] in X; rewrite ?XC in X; lra.
  Qed.
  (** the extent along the axis *)
  Lemma h8_extent n p : vertex_of (h8_fuse n) p -> - nl <= vx p <= L.
  Proof using HL Hb Hz.
    pose proof taper_pos as Ha. assert (Hl : 0 < l) by (unfold l; lra).
    assert (X : forall t, 0 <= t -> - nl <= h8_x (t * l) <= L).
    { intros t Ht. split; [apply h8_x_base; nra|]. replace L with (h8_x 0); [apply h8_x_down; nra|]. pose proof h8_at_0 as E. apply (f_equal vx) in E. cbn [h8_at vx] in E. rewrite Rmult_0_l in E. exact E. }
    assert (XI : forall i, 0 <= INR i / INR (S n)) by (intros i; apply Rmult_le_pos; [apply pos_INR|left; apply Rinv_0_lt_compat, lt_0_INR; lia]).
    intros (t & I & P). unfold h8_fuse, lathe_mesh in I. apply in_flat_map in I as (v & Iv & It).
    assert (V : vertex_of (patch_grid n v) p) by (exists t; auto). apply grid_vertex in V. cbn [flat_map] in Iv. rewrite app_nil_r in Iv.
    assert (XV : forall i j, - nl <= vx (grid_of n v i j) <= L).
    { intros i j. unfold grid_of. apply in_app_or in Iv as [Iv|Iv]; unfold four in Iv; apply in_map_iff in Iv as (q & <- & _); unfold rev_val; rewrite turn_vx.
      - cbn [h8_at vx]. apply X, XI.
      - unfold h8_cap, straight. cbn [vx]. lra. }
    destruct V as [(i & j & _ & _ & ->)|(i & j & _ & _ & ->)]; [apply XV|]. unfold centred, mean4. cbn [vx].
    pose proof (XV i j). pose proof (XV (S i) j). pose proof (XV i (S j)). pose proof (XV (S i) (S j)). lra.
  Qed.
  Lemma h8_cap_centre : vertex_of (h8_fuse 7) (V3 L 0 0).
  Proof using.
    set (v := rev_val h8_cap 0). assert (E : V3 L 0 0 = grid_of 7 v 0 0).
    { unfold grid_of, v, rev_val, turn, h8_cap, straight. cbn [vx vy vz INR]. apply vec_ext; cbn [vx vy vz]; field. }
    rewrite E. destruct (node_vertex' 7 v 0 0 ltac:(lia) ltac:(lia)) as (t & I & P). exists t. split; [|exact P].
    unfold h8_fuse, lathe_mesh. apply in_flat_map. exists v. split; [cbn [flat_map]; apply in_or_app; right; left; reflexivity|exact I].
  Qed.
End Body.
