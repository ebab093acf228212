(** C93: which way the normals of a revolved body point; OgiveNose. *)
From Coq Require Import Reals Lra List Lia.
From Verif Require Import Num NumR Py M_Vector SpecR3 M_Path M_Surface M_Common SpecPath SpecPoly SpecSurf SpecMesh SpecPrism
  L_Vector L_Line L_Arc L_Polyline L_Component L_Prism L_Lathe P_Polyline P_Ogive P_Lathe SpecLathe SpecProfile L_Profile.
Import ListNotations.
Local Open Scope R_scope.

(** C93: a body whose profile runs from the axis to the axis towards smaller x
    has its normals pointing inwards: its volume is negative, at every
    resolution from 2 on; it is no larger than that of the cylinder around it *)
Theorem C93_inward line g n H : evaluates01 line g -> on_axis (g 0) -> on_axis (g 1) -> planar g ->
  retreating g -> above g -> below H g -> vx (g 1) < vx (g 0) ->
  exists mesh, turned_mesh (S n) line = Ok mesh /\ watertight mesh /\
    - (ngon (4 * S (S n)) * (H * H) * (vx (g 0) - vx (g 1))) <= signed_volume mesh < 0.
Proof.
  intros E A0 A1 P M A B X. destruct (C90_volume line g (S n) E A0 A1 P) as (mesh & Hm & W & V). exists mesh. split; [exact Hm|]. split; [exact W|].
  destruct (retreating_frusta H g (S n) (proj1 A0) (proj1 A1) M A B X) as [[L1 L2] L3]. specialize (L3 ltac:(lia)). rewrite V.
  assert (N : 0 < ngon (4 * S (S n))) by (apply ngon_pos; lia). split.
  - apply Rle_trans with (ngon (4 * S (S n)) * - (H * H * (vx (g 0) - vx (g 1)))); [lra|]. apply Rmult_le_compat_l; lra.
  - apply Rmult_lt_compat_l with (r := ngon (4 * S (S n))) in L3; [|exact N]. lra.
Qed.
(** C93: towards larger x they point outwards *)
Theorem C93_outward line g n H : evaluates01 line g -> on_axis (g 0) -> on_axis (g 1) -> planar g ->
  advancing g -> above g -> below H g -> vx (g 0) < vx (g 1) ->
  exists mesh, turned_mesh (S n) line = Ok mesh /\ watertight mesh /\
    0 < signed_volume mesh <= ngon (4 * S (S n)) * (H * H) * (vx (g 1) - vx (g 0)).
Proof.
  intros E A0 A1 P M A B X. destruct (C90_volume line g (S n) E A0 A1 P) as (mesh & Hm & W & V). exists mesh. split; [exact Hm|]. split; [exact W|].
  assert (Q : - (H * H * (vx (g (1 - 0)) - vx (g (1 - 1)))) <= frusta (S (S n)) (fun t => g (1 - t)) <= 0 /\ ((0 < S n)%nat -> frusta (S (S n)) (fun t => g (1 - t)) < 0)).
  { apply (retreating_frusta H (fun t => g (1 - t)) (S n)).
    - rewrite Rminus_0_r. apply A1.
    - rewrite Rminus_eq_0. apply A0.
    - intros s t Hs Ht. apply M; lra.
    - intros t Ht. apply A. lra.
    - intros t Ht. apply B. lra.
    - rewrite Rminus_eq_0, Rminus_0_r. exact X. }
  rewrite frusta_back, Rminus_eq_0, Rminus_0_r in Q. destruct Q as [[L1 L2] L3]. specialize (L3 ltac:(lia)). rewrite V.
  assert (N : 0 < ngon (4 * S (S n))) by (apply ngon_pos; lia). split.
  - apply Rmult_lt_0_compat; lra.
  - rewrite Rmult_assoc. apply Rmult_le_compat_l; lra.
Qed.
(** C93: at resolution 1 nothing is enclosed *)
Theorem C93_single line g : evaluates01 line g -> on_axis (g 0) -> on_axis (g 1) -> planar g ->
  exists mesh, turned_mesh 0 line = Ok mesh /\ signed_volume mesh = 0.
Proof.
  intros E A0 A1 P. destruct (C90_volume line g 0 E A0 A1 P) as (mesh & Hm & _ & V). exists mesh. split; [exact Hm|]. rewrite V.
  unfold frusta. cbn [seq map fold_right]. replace (INR 0 / INR 1) with 0 by (cbn; lra). replace (INR 1 / INR 1) with 1 by (cbn; lra).
  unfold frustum. rewrite (proj1 A0), (proj1 A1). lra.
Qed.

(** ** OgiveNose *)
Section Ogive.
  Variables (h rn ro Lo : R).
  Hypothesis Hn : 0 < rn.
  Hypothesis Hh : rn < h < ro.
  Hypothesis HL : 0 < Lo.
  Let d := ro - rn.
  Let e := ro - h.
  Let X := sqrt (d * d - e * e).
  Let a_o : pt := V3 (X * ro / d) (rn * e / d) 0.

  Lemma og_tangent : 0 < rn * e / d <= h.
  Proof.
    pose proof (og_d h rn ro Hh) as D. pose proof (og_e h rn ro Hh) as E. fold d in D. fold d in E. fold e in E.
    split; [apply Rmult_lt_0_compat; [apply Rmult_lt_0_compat; lra|apply Rinv_0_lt_compat; lra]|].
    apply Rmult_le_reg_r with d; [exact D|]. unfold Rdiv. rewrite Rmult_assoc, Rinv_l, Rmult_1_r by lra.
    assert (rn * e <= h * d) by (apply Rmult_le_compat; lra). exact H.
  Qed.
  Lemma og_nose_draws : draws h (Arc (V3 (X + rn) 0 0) a_o (V3 X 0 0)) (V3 (X + rn) 0 0) a_o.
  Proof.
    pose proof (og_d h rn ro Hh) as D. pose proof (og_e h rn ro Hh) as E. pose proof (og_X h rn ro Hh) as HX.
    pose proof og_tangent as OT. fold d in D. fold d in E. fold e in E. fold d e in HX. fold X in HX.
    destruct (og_nose_ok h rn ro Hn Hh) as (th & T & C & Sn & L & Ev). fold d e in C, Sn, L, Ev. fold X in C, L, Ev. fold a_o in L, Ev.
    pose proof PI_RGT_0 as HP.
    assert (A1 : forall t, 0 <= t <= 1 -> 0 <= t * th <= th) by (intros t Ht; split; [apply Rmult_le_pos; lra|]; rewrite <- (Rmult_1_l th) at 2; apply Rmult_le_compat_r; lra).
    split; [intros t; rewrite (Ev t); eexists; reflexivity|]. split; [eexists; split; [exact L|]; apply Rmult_lt_0_compat; lra|].
    exists (nose_at h rn ro th). split; [intros t _; apply Ev|].
    unfold nose_at. fold d e. fold X.
    split; [rewrite Rmult_0_l, cos_0, sin_0; apply vec_ext; cbn; ring|].
    split; [rewrite Rmult_1_l, C, Sn; unfold a_o; apply vec_ext; cbn; [unfold d in *; field; lra|field; lra|reflexivity]|].
    split; [intros t _; reflexivity|]. split; [|split].
    - intros s t Hs Ht. cbn [vx]. apply Rplus_le_compat_l, Rmult_le_compat_l; [lra|].
      pose proof (A1 s ltac:(lra)). pose proof (A1 t ltac:(lra)). apply cos_decr_1; try lra. apply Rmult_le_compat_r; lra.
    - intros t Ht. cbn [vy]. pose proof (A1 t ltac:(lra)). apply Rmult_lt_0_compat; [lra|]. apply sin_gt_0; [apply Rmult_lt_0_compat; lra|lra].
    - intros t Ht. cbn [vy]. pose proof (A1 t Ht) as A2.
      assert (Q : sin (t * th) <= sin th) by (apply sin_incr_1; lra). rewrite Sn in Q. apply Rmult_le_compat_l with (r := rn) in Q; [|lra].
      unfold Rdiv in *. lra.
  Qed.
  Lemma og_arc_draws : draws h (Arc a_o (V3 0 h 0) (V3 0 (- e) 0)) a_o (V3 0 h 0).
  Proof.
    pose proof (og_d h rn ro Hh) as D. pose proof (og_e h rn ro Hh) as E. pose proof (og_X h rn ro Hh) as HX. pose proof (og_X2 h rn ro Hh) as HX2.
    fold d in D. fold d in E. fold e in E. fold d e in HX. fold X in HX. fold d e in HX2. fold X in HX2.
    destruct (og_ogive_ok h rn ro Hn Hh) as (th & T & C & Sn & L & Ev). fold d e in C, Sn, L, Ev. fold X in Sn, L, Ev. fold a_o in L, Ev.
    pose proof PI_RGT_0 as HP.
    assert (A1 : forall t, 0 <= t <= 1 -> 0 <= t * th <= th) by (intros t Ht; split; [apply Rmult_le_pos; lra|]; rewrite <- (Rmult_1_l th) at 2; apply Rmult_le_compat_r; lra).
    assert (Qx : forall a, X * cos a - e * sin a = d * sin (th - a)) by (intros a; rewrite sin_minus, C, Sn; field; lra).
    assert (Qy : forall a, e * cos a + X * sin a = d * cos (th - a)) by (intros a; rewrite cos_minus, C, Sn; field; lra).
    split; [intros t; rewrite (Ev t); eexists; reflexivity|]. split; [eexists; split; [exact L|]; apply Rmult_lt_0_compat; lra|].
    exists (fun t => V3 (ro * sin (th - t * th)) (ro * cos (th - t * th) - e) 0). split.
    { intros t _. rewrite (Ev t). f_equal. unfold ogive_at. fold d e. fold X. rewrite Qx, Qy. apply vec_ext; cbn; [field; lra|field; lra|reflexivity]. }
    split; [rewrite Rmult_0_l, Rminus_0_r, C, Sn; unfold a_o; apply vec_ext; cbn; [field; lra|unfold d in *; field; lra|reflexivity]|].
    split; [rewrite Rmult_1_l, Rminus_eq_0, cos_0, sin_0; apply vec_ext; cbn; [ring|unfold e; ring|reflexivity]|].
    split; [intros t _; reflexivity|]. split; [|split].
    - intros s t Hs Ht. cbn [vx]. apply Rmult_le_compat_l; [lra|].
      pose proof (A1 s ltac:(lra)). pose proof (A1 t ltac:(lra)). assert (s * th <= t * th) by (apply Rmult_le_compat_r; lra). apply sin_incr_1; lra.
    - intros t Ht. cbn [vy]. pose proof (A1 t ltac:(lra)). assert (Q : cos th <= cos (th - t * th)) by (apply cos_decr_1; lra).
      rewrite C in Q. apply Rmult_le_compat_l with (r := ro) in Q; [|lra].
      assert (0 < ro * (e / d) - e); [|lra]. replace (ro * (e / d) - e) with (rn * (e / d)) by (unfold d in *; field; lra).
      apply Rmult_lt_0_compat; [lra|]. apply Rmult_lt_0_compat; [lra|apply Rinv_0_lt_compat; lra].
    - intros t Ht. cbn [vy]. pose proof (COS_bound (th - t * th)) as [_ Q]. apply Rmult_le_compat_l with (r := ro) in Q; [|lra]. unfold e. lra.
  Qed.
  Lemma ogive_draws : exists p, OgiveNose h rn ro Lo = Ok p /\ draws h p (V3 (X + rn) 0 0) (V3 (- Lo) 0 0).
  Proof.
    destruct (og_parts h rn ro Lo Hn Hh) as (P1 & P2 & P3 & P4). fold d e in P1, P2. fold X in P1, P2. fold a_o in P1, P2.
    pose proof og_tangent as OT.
    destruct (draws_polyline h [og_nose (ogive_parts h rn ro Lo); og_arc (ogive_parts h rn ro Lo); og_fairing (ogive_parts h rn ro Lo); og_base (ogive_parts h rn ro Lo)]
      [V3 (X + rn) 0 0; a_o; V3 0 h 0; V3 (- Lo) h 0; V3 (- Lo) 0 0]) as (p & E & Dr).
    - discriminate.
    - intros k s Es. rewrite P1, P2, P3, P4 in Es. destruct k as [|[|[|[|k]]]]; cbn in Es; [injection Es as <-..|destruct k; discriminate].
      + apply og_nose_draws.
      + apply og_arc_draws.
      + apply draws_line; cbn; try lra. intros Q. injection Q as Q. lra.
      + apply draws_line; cbn; try lra. intros Q. injection Q as Q. lra.
    - intros k Hk. cbn [length] in Hk. destruct k as [|[|[|[|k]]]]; [lia| | | |lia]; cbn; try lra.
    - exists p. split; [exact E|exact Dr].
  Qed.
End Ogive.

(** C93: OgiveNose draws its profile from the tip to the base, towards smaller
    x, so every OgiveNose is closed but inside out *)
Theorem C93_ogive h rn ro Lo n : 0 < rn -> rn < h < ro -> 0 < Lo ->
  exists line mesh tip, OgiveNose h rn ro Lo = Ok line /\ p_call line 0 = Ok (V3 tip 0 0) /\ 0 < tip /\
    turned_mesh (S n) line = Ok mesh /\ watertight mesh /\
    - (ngon (4 * S (S n)) * (h * h) * (tip + Lo)) <= signed_volume mesh < 0.
Proof.
  intros Hn Hh HL. destruct (ogive_draws h rn ro Lo Hn Hh HL) as (line & E & _ & _ & g & Eg & G0 & G1 & P & M & A & B).
  pose proof (og_X h rn ro Hh) as HX. set (X := sqrt _) in *.
  destruct (C93_inward line g n h Eg) as (mesh & Hm & W & V).
  - rewrite G0. split; reflexivity.
  - rewrite G1. split; reflexivity.
  - exact P.
  - exact M.
  - exact A.
  - exact B.
  - rewrite G0, G1. cbn. lra.
  - exists line, mesh, (X + rn). split; [exact E|]. split; [rewrite (Eg 0) by lra; rewrite G0; reflexivity|]. split; [lra|].
    split; [exact Hm|]. split; [exact W|]. rewrite G0, G1 in V. cbn [vx] in V.
    replace (X + rn + Lo) with (X + rn - - Lo) by ring. exact V.
Qed.

(** the nose of the ReFEX in the hangar; and the same cone drawn from its tip
    and from its base *)
Example C93_meets : 0 < 0.075 /\ 0.075 < 0.225 < 1.5 /\ 0 < 0.05 /\
  (let g t := V3 (3 * t) (t * (1 - t)) 0 in on_axis (g 0) /\ on_axis (g 1) /\ planar g /\ advancing g /\ above g /\ below 1 g /\ vx (g 0) < vx (g 1)) /\
  (let g t := V3 (- 3 * t) (t * (1 - t)) 0 in on_axis (g 0) /\ on_axis (g 1) /\ planar g /\ retreating g /\ above g /\ below 1 g /\ vx (g 1) < vx (g 0)).
Proof.
  unfold on_axis, planar, advancing, retreating, above, below. cbn. repeat split; intros; lra || nra.
Qed.

Print Assumptions C93_inward.
Print Assumptions C93_outward.
Print Assumptions C93_single.
Print Assumptions C93_ogive.
