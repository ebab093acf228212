(** The parametric HIFiRE 4: its parts can be built. *)
From Coq Require Import String Reals Lra ZArith List Lia Bool.
From Verif Require Import Num NumR Py M_Vector SpecR3 M_Path M_Surface M_Geometry M_Mesh M_Component M_Common M_Wing M_Fin M_Vehicle M_VecHeap M_Sens M_Gen M_Hangar M_Htv M_X43 M_D21 M_Hifire4
  SpecPath SpecPoly SpecSurf SpecMesh SpecComp SpecVehicle SpecAdd SpecPrism SpecHangar SpecWing SpecFin SpecPair SpecFiles SpecHtv SpecHalf SpecX43 SpecD21 SpecHifire4
  L_Vector L_Line L_Arc L_Coons L_Curves L_Wing L_WingOk L_WingTotal L_WingLocal L_Fin L_FinSeams L_FinTotal L_Component L_RevolvedComp L_Mesh L_Edges L_Heap L_Rigid L_Reflect L_Pipeline L_Generate L_Cache L_Files L_Prism L_Hangar L_Block L_Wedge L_Pair L_Htv L_Parts L_Finner L_Falcon L_Perimeter P_Cylinder.
From Verif Require Import SpecLathe SpecProfile L_Profile L_Lathe L_Quad L_Volume L_Closed L_Parts2 L_Parts3 L_D21.
Import ListNotations.
Local Open Scope R_scope.

(** ** the curvatures *)
Definition hf4_bends (xm ym : R) : list bend :=
  [mkBend true (fun x y => Ok (hf4_curv_x xm x y)) (fun x y => Ok (hf4_curv_xd xm x y));
   mkBend false (fun x y => Ok (hf4_curv_y ym x y)) (fun x y => Ok (hf4_curv_yd ym x y))].
Lemma hf4_written xm ym : hf4_curvatures xm ym = map written_bend (hf4_bends xm ym).
Proof. reflexivity. Qed.
Lemma turn_y_0 p : rodrigues (axis_vec "y") origin (0 * (PI / 180)) p = p.
Proof. rewrite Rmult_0_l. unfold rodrigues, axis_vec, crossR, inner, translate, plus_scaled, scaled, diff, origin. rewrite cos_0, sin_0. apply vec_ext; cbn; ring. Qed.
Lemma sqrt1_pos m : 0 < sqrt (1 + m * m).
Proof. apply sqrt_lt_R0. nra. Qed.
Lemma hf4_bent xm ym p : in_order (map SpecVehicle.bent (hf4_bends xm ym) ++ [SpecVehicle.turned 0 "y"%string]) p = Ok (hifire4_curved xm ym p).
Proof.
  cbn [hf4_bends map app in_order fold_right]. unfold and_then at 1. unfold SpecVehicle.bent at 1. cbn [offset_of slope_of along_x].
  unfold hf4_curv_x, hf4_curv_xd, nsq. numR.
  set (q := plus_scaled _ _ _). assert (Q : q = arched_x (xm / 20) p).
  { unfold q, arched_x, plus_scaled. cbv zeta. cbn [vx vy vz]. replace (2 * (xm / 20) * vx p) with (xm * (5 / 100) * 2 * vx p) by field.
    set (m := xm * (5 / 100) * 2 * vx p). pose proof (sqrt1_pos m). apply vec_ext; cbn [vx vy vz]; field; lra. }
  rewrite Q. clear q Q. set (q := arched_x (xm / 20) p).
  unfold and_then at 1. unfold SpecVehicle.bent at 1. cbn [offset_of slope_of along_x]. unfold hf4_curv_y, hf4_curv_yd, nsq. numR.
  set (r := plus_scaled _ _ _). assert (E : r = arched_y (ym / 10) q).
  { unfold r, arched_y, plus_scaled. cbv zeta. cbn [vx vy vz]. replace (2 * (ym / 10) * vy q) with (ym * (1 / 10) * 2 * vy q) by field.
    set (m := ym * (1 / 10) * 2 * vy q). pose proof (sqrt1_pos m). apply vec_ext; cbn [vx vy vz]; field; lra. }
  rewrite E. unfold and_then, SpecVehicle.turned. cbn [fold_right]. rewrite turn_y_0. reflexivity.
Qed.
Lemma curved_flat p : hifire4_curved 0 0 p = p.
Proof.
  unfold hifire4_curved, arched_x, arched_y. cbv zeta. cbn [vx vy vz].
  replace (2 * (0 / 20) * vx p) with 0 by field. replace (2 * (0 / 10) * vy p) with 0 by field. rewrite Rmult_0_l, Rplus_0_r, sqrt_1. apply vec_ext; cbn [vx vy vz]; field.
Qed.
(** points of the plane z = 0 *)
Lemma curved_plane xm ym x y : let c := xm / 20 * (x * x) in let m := ym / 5 * y in
  hifire4_curved xm ym (V3 x y 0) = V3 x (y - c * (m / sqrt (1 + m * m))) (ym / 10 * (y * y) + c / sqrt (1 + m * m)).
Proof.
  cbv zeta. unfold hifire4_curved, arched_x, arched_y. cbv zeta. cbn [vx vy vz].
  replace (2 * (ym / 10) * y) with (ym / 5 * y) by field.
  pose proof (sqrt1_pos (ym / 5 * y)). pose proof (sqrt1_pos (2 * (xm / 20) * x)). apply vec_ext; cbn [vx vy vz]; field; lra.
Qed.
Lemma curved_middle xm ym p : vy p = 0 -> vy (hifire4_curved xm ym p) = 0.
Proof.
  intros Y. unfold hifire4_curved, arched_x, arched_y. cbv zeta. cbn [vx vy vz]. rewrite Y. unfold Rdiv. ring.
Qed.
Lemma micro_round x : whole_micro x <-> Rround 6 x = x.
Proof.
  assert (E : powerRZ 10 6 = 1000000) by (simpl; lra). unfold whole_micro, Rround. rewrite E. split.
  - intros [k ->]. replace (IZR k / 1000000 * 1000000) with (IZR k) by field. rewrite Rrne_IZR. reflexivity.
  - intros H. exists (Rrne (x * 1000000)). symmetry. exact H.
Qed.

Section Fuselage.
  Variables R0 Ln Lb : R.
  Hypothesis HR : 0 < R0.
  Hypothesis HN : 0 < Ln.
  Hypothesis HB : 0 < Lb.
  Definition fuse_rho : R := (R0 * R0 + Ln * Ln) / (2 * R0).
  Definition fuse_R : R := Rround 6 R0.
  Lemma fuse_rho_pos : 0 < fuse_rho.
  Proof using HR HN. unfold fuse_rho. apply Rdiv_lt_0_compat; nra. Qed.
  Lemma fuse_rho_eq : Ln * Ln + (fuse_rho - R0) * (fuse_rho - R0) = fuse_rho * fuse_rho.
  Proof using HR. unfold fuse_rho. field. lra. Qed.
  Lemma fuse_y : hf4_y_o R0 Ln Ln = fuse_R.
  Proof using HR HN.
    unfold hf4_y_o, fuse_R, hf4_rho, nsq. numR. fold fuse_rho. pose proof fuse_rho_pos as P.
    replace (fuse_rho * fuse_rho - (Ln - Ln) * (Ln - Ln)) with (fuse_rho * fuse_rho) by ring. rewrite sqrt_square by lra. f_equal. ring.
  Qed.
  Definition fa : pt := V3 0 0 0.
  Definition fb : pt := V3 (- Ln) fuse_R 0.
  Definition fc : pt := V3 (- Ln) (fuse_R - fuse_rho) 0.
  Definition fw : R := fuse_rho - fuse_R.
  Definition fru : R := sqrt (Ln * Ln + fw * fw).
  Lemma fru_pos : 0 < fru /\ Rabs fw < fru /\ fru * fru = Ln * Ln + fw * fw.
  Proof using HN.
    unfold fru. assert (P : 0 < Ln * Ln + fw * fw) by nra. pose proof (sqrt_lt_R0 _ P). rewrite sqrt_sqrt by lra. split; [exact H|]. split; [|reflexivity].
    rewrite <- sqrt_Rsqr_abs. unfold Rsqr. apply sqrt_lt_1; nra.
  Qed.
  (** the rounding error of the radius bounds the error of the arc *)
  Lemma fuse_radii : Rabs (fru - fuse_rho) <= Rabs (fuse_R - R0).
  Proof using HR HN.
    destruct fru_pos as (P & W & E). pose proof fuse_rho_pos as Q. pose proof fuse_rho_eq as E'.
    assert (W0 : Rabs (fuse_rho - R0) <= fuse_rho).
    { apply Rabs_le. split; nra. }
    assert (D : (fru - fuse_rho) * (fru + fuse_rho) = (R0 - fuse_R) * (fw + (fuse_rho - R0))).
    { unfold fw in *. nra. }
    apply (f_equal Rabs) in D. rewrite !Rabs_mult in D. rewrite (Rabs_pos_eq (fru + fuse_rho)) in D by lra.
    pose proof (Rabs_triang fw (fuse_rho - R0)) as T. rewrite (Rabs_minus_sym fuse_R).
    pose proof (Rabs_pos (R0 - fuse_R)). pose proof (Rabs_pos (fru - fuse_rho)).
    apply (Rmult_le_reg_r (fru + fuse_rho)); [lra|]. rewrite D. apply Rmult_le_compat_l; lra.
  Qed.
  Lemma fuse_parts : hf4_fuseline R0 Ln Lb = Polyline [Arc fa fb fc; Line fb (V3 (- Ln - Lb) fuse_R 0); Line (V3 (- Ln - Lb) fuse_R 0) (V3 (- Ln - Lb) (fuse_R - R0) 0)].
  Proof using HR HN.
    unfold hf4_fuseline. assert (B : hf4_b_o R0 Ln = fb) by (unfold hf4_b_o, vec2; rewrite fuse_y; apply vec_ext; cbn; ring).
    assert (C : hf4_c_o R0 Ln = fc) by (unfold hf4_c_o, vec2; rewrite B; apply vec_ext; cbn [vx vy vz fb fc]; unfold hf4_rho, nsq; numR; try fold fuse_rho; reflexivity || ring).
    assert (B1 : hf4_b1 R0 Ln Lb = V3 (- Ln - Lb) fuse_R 0) by (unfold hf4_b1, vec2; rewrite B; apply vec_ext; cbn; ring).
    assert (B2 : hf4_b2 R0 Ln Lb = V3 (- Ln - Lb) (fuse_R - R0) 0) by (unfold hf4_b2, vec2; rewrite B1; apply vec_ext; cbn; ring).
    rewrite B, C, B1, B2. reflexivity.
  Qed.
  Lemma fuse_cross : crossR (diff fa fc) (diff fb fc) = V3 0 0 (Ln * fuse_rho).
  Proof using. unfold crossR, diff, fa, fb, fc. apply vec_ext; cbn; ring. Qed.
  Definition fuse_start : pt := V3 (- Ln + fuse_rho / fru * Ln) ((fuse_rho / fru - 1) * fw) 0.
  Lemma fuse_evaluates : exists p g, hf4_fuseline R0 Ln Lb = Ok p /\ evaluates p g /\ g 0 = fuse_start /\ g 1 = V3 (- Ln - Lb) (fuse_R - R0) 0.
  Proof using HR HN HB.
    rewrite fuse_parts. pose proof fuse_rho_pos as Q. destruct fru_pos as (Pu & _ & Eu).
    assert (HNz : crossR (diff fa fc) (diff fb fc) <> origin).
    { rewrite fuse_cross. intros E. apply (f_equal vz) in E. cbn in E. nra. }
    assert (NU : nrm (diff fa fc) = fru).
    { unfold nrm, diff, fa, fc, fru, fw. cbn [vx vy vz]. f_equal. ring. }
    assert (NV : nrm (diff fb fc) = fuse_rho).
    { unfold nrm, diff, fb, fc. cbn [vx vy vz]. replace ((- Ln - - Ln) * (- Ln - - Ln) + _ + _) with (fuse_rho * fuse_rho) by ring. apply sqrt_square. lra. }
    assert (Hr : Rabs (nrm (diff fa fc) - nrm (diff fb fc)) <= 1 / 100000).
    { rewrite NU, NV. eapply Rle_trans; [apply fuse_radii|]. rewrite Rabs_minus_sym. eapply Rle_trans; [apply Rround_err6|]. lra. }
    pose proof (arc_theta_range fa fb fc HNz) as TH.
    apply (segs_evaluate _ [arc_theta fa fb fc * fuse_rho; dist fb (V3 (- Ln - Lb) fuse_R 0); dist (V3 (- Ln - Lb) fuse_R 0) (V3 (- Ln - Lb) (fuse_R - R0) 0)]
      (Arc fa fb fc) (Line (V3 (- Ln - Lb) fuse_R 0) (V3 (- Ln - Lb) (fuse_R - R0) 0))).
    - discriminate.
    - constructor; [|constructor; [apply line_length|constructor; [apply line_length|constructor]]].
      cbn [p_len Arc]. rewrite (arc_eval_value fa fb fc HNz _ Hr). cbn [bind]. rewrite NV. reflexivity.
    - constructor; [nra|]. constructor; [apply dist_pos; unfold fb; intros E; apply (f_equal vx) in E; cbn in E; lra|].
      constructor; [apply dist_pos; intros E; apply (f_equal vy) in E; cbn in E; lra|constructor].
    - constructor; [|constructor; [|constructor; [|constructor]]].
      + intros t. cbn [p_call Arc]. rewrite (arc_eval_value fa fb fc HNz _ Hr). eexists; reflexivity.
      + intros t. rewrite line_lerp. eexists; reflexivity.
      + intros t. rewrite line_lerp. eexists; reflexivity.
    - reflexivity.
    - reflexivity.
    - cbn [p_call Arc]. rewrite (arc_eval_value fa fb fc HNz _ Hr). cbn [bind]. f_equal. rewrite Rmult_0_l, cos_0, sin_0, NU, NV. cbv zeta.
      unfold plus_scaled, diff, fa, fc, fuse_start, fw. apply vec_ext; cbn [vx vy vz]; field; lra.
    - rewrite line_lerp, lerp_1. reflexivity.
  Qed.
  Lemma fuse_open_start : fuse_R <> R0 -> Rabs ((fuse_rho / fru - 1) * fw) < Rabs (fuse_R - R0).
  Proof using HR HN.
    intros N. destruct fru_pos as (Pu & W & _). pose proof fuse_radii as F. assert (D : 0 < Rabs (fuse_R - R0)) by (apply Rabs_pos_lt; lra).
    replace ((fuse_rho / fru - 1) * fw) with (- ((fru - fuse_rho) * (fw / fru))) by (field; lra). rewrite Rabs_Ropp, Rabs_mult.
    assert (K : Rabs (fw / fru) < 1).
    { unfold Rdiv. rewrite Rabs_mult, (Rabs_pos_eq (/ fru)) by (left; apply Rinv_0_lt_compat, Pu). apply (Rmult_lt_reg_r fru); [exact Pu|]. rewrite Rmult_assoc, Rinv_l by lra. lra. }
    pose proof (Rabs_pos (fw / fru)). pose proof (Rabs_pos (fru - fuse_rho)). nra.
  Qed.
  (** the mesh before it is bent *)
  Lemma fuse_mesh n : exists p, hf4_fuseline R0 Ln Lb = Ok p /\ (exists g, evaluates01 p g) /\ (forall u, In u (dvals (revolved_patches p)) -> on_square u) /\
    (watertight (wing_grid n (revolved_patches p)) <-> whole_micro R0) /\
    (forall xm ym, whole_micro R0 -> watertight (moved_grid (hifire4_curved xm ym) n (revolved_patches p))) /\
    forall xm ym, whole_micro R0 -> vertex_of (moved_grid (hifire4_curved xm ym) n (revolved_patches p)) (V3 0 0 0) /\
      vertex_of (moved_grid (hifire4_curved xm ym) n (revolved_patches p)) (V3 (- (Ln + Lb)) 0 (xm / 20 * ((Ln + Lb) * (Ln + Lb)))).
  Proof using HR HN HB.
    destruct fuse_evaluates as (p & g & Ep & Ev & G0 & G1). exists p. split; [exact Ep|].
    assert (Ev1 : evaluates01 p g) by (intros t _; apply Ev).
    destruct (revolved_grid n p g Ev1) as [MG SQ]. split; [eauto|]. split; [exact SQ|].
    pose proof (profile_turned n p g Ev1) as TM. unfold P_Lathe.turned_mesh in TM.
    assert (Z : whole_micro R0 -> fuse_R = R0) by apply micro_round.
    assert (K : whole_micro R0 -> fuse_start = V3 0 0 0).
    { intros H. apply Z in H. pose proof fuse_radii as F. rewrite H in F. replace (R0 - R0) with 0 in F by ring. rewrite Rabs_R0 in F.
      assert (E : fru = fuse_rho) by (pose proof (Rabs_pos (fru - fuse_rho)); assert (Rabs (fru - fuse_rho) = 0) as A by lra; destruct (Req_dec (fru - fuse_rho) 0) as [B|B]; [lra|apply Rabs_no_R0 in B; lra]).
      pose proof fuse_rho_pos. unfold fuse_start. rewrite E. apply vec_ext; cbn [vx vy vz]; field; lra. }
    assert (W : watertight (wing_grid n (revolved_patches p)) <-> whole_micro R0).
    { rewrite MG. split.
      - intros H. apply micro_round. destruct (Req_dec fuse_R R0) as [E|E]; [exact E|]. exfalso.
        destruct (revolved_open p g n Ev1) as (m & Em & O).
        + rewrite G0, G1. unfold fuse_start, radius_x. cbn [vy vz]. pose proof (fuse_open_start E) as L. intros Q.
          replace (0 * 0) with 0 in Q by ring. rewrite !Rplus_0_r in Q. rewrite !sqrt_Rsqr_abs in Q || (change (sqrt (Rsqr ((fuse_rho / fru - 1) * fw)) = sqrt (Rsqr (fuse_R - R0))) in Q; rewrite !sqrt_Rsqr_abs in Q). lra.
        + rewrite TM in Em. apply ok_inj in Em. subst m. contradiction.
      - intros H. destruct (revolved_watertight p g n Ev1) as (m & Em & O & _); [rewrite G0, (K H); reflexivity..| | |].
        + rewrite G1. cbn. rewrite (Z H). ring.
        + rewrite G1. reflexivity.
        + rewrite TM in Em. apply ok_inj in Em. subst m. exact O. }
    split; [exact W|]. split; [intros xm ym H; apply closed_moved, W, H|].
    intros xm ym H.
    assert (V : forall i t, (i <= S n)%nat -> INR i / INR (S n) = t -> vy (g t) = 0 -> vz (g t) = 0 -> vertex_of (moved_grid (hifire4_curved xm ym) n (revolved_patches p)) (hifire4_curved xm ym (g t))).
    { intros i t Hi Et Y ZZ. eapply (node_moved _ n (revolved_patches p) _ _ i 0); [left; reflexivity|exact Hi|lia|].
      rewrite Et. replace (INR 0 / INR (S n)) with 0 by (cbn [INR]; unfold Rdiv; ring).
      rewrite (rev_patch p g 0 t 0 Ev1) by (rewrite <- Et; apply ratio01; exact Hi). f_equal. unfold rev_val. apply turn_axis; assumption. }
    split.
    - pose proof (V 0%nat 0 ltac:(lia)) as V0. rewrite G0, (K H) in V0. specialize (V0 ltac:(cbn [INR]; unfold Rdiv; ring) eq_refl eq_refl).
      pose proof (curved_plane xm ym 0 0) as C. cbv zeta in C. rewrite C in V0.
      match type of V0 with vertex_of _ ?q => replace (V3 0 0 0) with q; [exact V0|] end. pose proof (sqrt1_pos (ym / 5 * 0)). apply vec_ext; cbn [vx vy vz]; field; lra.
    - pose proof (V (S n) 1 ltac:(lia)) as V1. rewrite G1 in V1. rewrite (Z H) in V1. replace (R0 - R0) with 0 in V1 by ring.
      specialize (V1 ltac:(field; apply not_0_INR; lia) eq_refl eq_refl).
      pose proof (curved_plane xm ym (- Ln - Lb) 0) as C. cbv zeta in C. rewrite C in V1. replace (ym / 5 * 0) with 0 in V1 by ring. rewrite Rmult_0_l, Rplus_0_r, sqrt_1 in V1.
      match type of V1 with vertex_of _ ?q => replace (V3 (- (Ln + Lb)) 0 (xm / 20 * ((Ln + Lb) * (Ln + Lb)))) with q; [exact V1|] end. apply vec_ext; cbn [vx vy vz]; field.
  Qed.
End Fuselage.

Section Shapes.
  Variable bisect : (R -> res R) -> R -> R -> res R.
  Variables xm ym R0 Ln Lb : R.
  Hypothesis HR : 0 < R0 <= 1000000.
  Hypothesis HL : 0 < Ln + Lb.
  Let L : R := Ln + Lb.
  Let W : R := 35 / 10 * R0.

  (** ** the wing *)
  Lemma hf4_pts : hf4_A0 Ln Lb = V3 (- (8 / 10 * L)) 0 0 /\ hf4_A1 Ln Lb = V3 (- (4 / 10 * L)) 0 0 /\ hf4_TT Ln Lb = V3 (- (3 / 10)) 0 0 /\
    hf4_B0 R0 Ln Lb = V3 (- (8 / 10 * L)) W 0 /\ hf4_B1 R0 Ln Lb = V3 (- (4 / 10 * L)) (95 / 100 * W) 0 /\ hf4_B2 R0 Ln Lb = V3 (- (3 / 10)) (15 / 100 * W) 0.
  Proof using.
    unfold L, W. unfold hf4_B2, hf4_B1, hf4_B0, hf4_TT, hf4_A1, hf4_A0, hf4_a_o, hf4_wing_L, hf4_span, hf4_L_t, vec2, vsub, vadd. numR.
    repeat split; apply vec_ext; cbn; field.
  Qed.
  Lemma hf4_edge_ok : exists q g, hf4_edge R0 Ln Lb = Ok q /\ evaluates q g /\ g 0 = V3 (- (8 / 10 * L)) W 0 /\ g 1 = V3 (- (3 / 10)) 0 0.
  Proof using HR HL.
    destruct hf4_pts as (A0 & A1 & TT & B0 & B1 & B2). unfold hf4_edge. rewrite B0, B1, B2, TT.
    destruct (chain_evaluates [(V3 (- (8 / 10 * L)) W 0, V3 (- (4 / 10 * L)) (95 / 100 * W) 0); (V3 (- (4 / 10 * L)) (95 / 100 * W) 0, V3 (- (3 / 10)) (15 / 100 * W) 0);
      (V3 (- (3 / 10)) (15 / 100 * W) 0, V3 (- (3 / 10)) 0 0)] (origin, origin)) as (q & g & E & V & G0 & G1).
    - discriminate.
    - unfold L, W. repeat constructor; cbn [fst snd]; intros E; [apply (f_equal vx) in E|apply (f_equal vy) in E|apply (f_equal vy) in E]; cbn in E; lra.
    - exists q, g. auto.
  Qed.
  Lemma uniform_up t : vertical (uniform_thickness_function t "top") (fun _ _ => - (t / 2)) /\ vertical (uniform_thickness_function t "bot") (fun _ _ => t / 2).
  Proof using. split; intros x y z; unfold uniform_thickness_function; numR; cbn; f_equal; apply vec_ext; cbn; field. Qed.
  Lemma hf4_wing_ok q g : in_interval bisect -> answers bisect -> hf4_edge R0 Ln Lb = Ok q -> evaluates q g -> g 0 = V3 (- (8 / 10 * L)) W 0 -> g 1 = V3 (- (3 / 10)) 0 0 ->
    3 / 4 <= L ->
    exists d t1, wing_patches bisect (hf4_wing R0 Ln Lb q) = Ok d /\ wing_t_B1 bisect (hf4_wing R0 Ln Lb q) = Ok t1 /\ dkeys d = open_wing_keys /\
      (forall u, In u (dvals d) -> on_square u) /\
      (forall F n, (forall p, vy p = 0 -> vy (F p) = 0) -> exists e, In e (mesh_edges (moved_grid F n d)) /\ in_plane "y" e) /\
      forall F n, vertex_of (moved_grid F n d) (F (V3 (- (9 / 10 * L)) 0 0)) /\ vertex_of (moved_grid F n d) (F (V3 (- (9 / 10 * L)) W 0)).
  Proof using HR HL.
    intros Hi Han Eq Ev G0 G1 LL. destruct hf4_pts as (A0 & A1 & TT & B0 & B1 & B2). set (w := hf4_wing R0 Ln Lb q).
    destruct (uniform_up (hf4_thickness R0)) as [Vt Vb].
    destruct (wing_made bisect Hi Han w g (fun _ _ => - (hf4_thickness R0 / 2)) (fun _ _ => hf4_thickness R0 / 2) (1 / 100) (1 / 100) Ev) as (d & Ed & [t1 T1] & Kd & Sd & (u & Iu & U0 & U1)).
    - unfold w; cbn [w_B0 hf4_wing]. rewrite B0. exact G0.
    - unfold w; cbn [w_TT hf4_wing]. rewrite TT. exact G1.
    - exact Vt.
    - exact Vb.
    - reflexivity.
    - reflexivity.
    - reflexivity.
    - reflexivity.
    - reflexivity.
    - unfold w; cbn [w_B0 w_A1 w_TT hf4_wing]. rewrite B0, A1, TT. cbn [vx]. unfold L in *. lra.
    - intros t Ht. unfold w, wing_width. cbn [w_width hf4_wing w_LE_type String.eqb Ascii.eqb Bool.eqb]. destruct (default_width t Ht) as (k & Ek & _). eauto.
    - apply default_0.
    - apply small_of; [|lra]. unfold half_h, hf4_thickness. numR. lra.
    - discriminate.
    - exists d, t1. split; [exact Ed|]. split; [exact T1|]. split; [rewrite Kd; apply app_nil_r|]. split; [exact Sd|]. split.
      + intros F n HF. apply (chord_moved F bisect w d g (fun _ _ => - (hf4_thickness R0 / 2)) n HF Ed Ev).
        * unfold w; cbn [w_B0 hf4_wing]. rewrite B0. exact G0.
        * exact Vt.
        * unfold w; cbn [w_A0 hf4_wing]. rewrite A0. reflexivity.
        * unfold w; cbn [w_A1 hf4_wing]. rewrite A1. reflexivity.
      + intros F n. assert (R1 : INR 0 / INR (S n) = 0) by (cbn [INR]; unfold Rdiv; ring).
        assert (R2 : INR (S n) / INR (S n) = 1) by (field; apply not_0_INR; lia).
        assert (TP : forall p, vz p = 0 -> tip (w_flap_length w) (w_flap_angle w) (lift (mid_h (fun _ _ => - (hf4_thickness R0 / 2)) (fun _ _ => hf4_thickness R0 / 2)) p) = V3 (vx p - 1 / 10 * L) (vy p) 0).
        { intros p Z. unfold w, tip, lift, mid_h. cbn [w_flap_length w_flap_angle hf4_wing]. unfold hf4_flap_length, hf4_L_t. numR. rewrite Rmult_0_l, cos_0, sin_0.
          fold L. apply vec_ext; cbn [vx vy vz]; rewrite ?Z; field. }
        rewrite !TP in U0, U1 by (unfold w; cbn [w_A0 w_B0 hf4_wing]; rewrite ?A0, ?B0; reflexivity).
        unfold w in U0, U1. cbn [w_A0 w_B0 hf4_wing] in U0, U1. rewrite A0 in U0. rewrite B0 in U1. cbn [vx vy] in U0, U1. split.
        * replace (- (9 / 10 * L)) with (- (8 / 10 * L) - 1 / 10 * L) by field. eapply (node_moved F n d _ u 0 0 _ Iu); [lia|lia|]. rewrite R1. exact U0.
        * replace (- (9 / 10 * L)) with (- (8 / 10 * L) - 1 / 10 * L) by field. eapply (node_moved F n d _ u (S n) 0 _ Iu); [lia|lia|]. rewrite R1, R2. exact U1.
  Qed.
  (** the search for the point on the leading edge fails when the vehicle is short *)
  Lemma hf4_wing_short q g : refuses bisect -> evaluates q g -> g 0 = V3 (- (8 / 10 * L)) W 0 -> g 1 = V3 (- (3 / 10)) 0 0 ->
    L < 3 / 4 -> wing_t_B1 bisect (hf4_wing R0 Ln Lb q) = Raise ValueError.
  Proof using HR HL.
    intros Rf Ev G0 G1 LL. destruct hf4_pts as (A0 & A1 & TT & B0 & B1 & B2). unfold wing_t_B1. cbn [w_tB1 hf4_wing w_line w_A1]. rewrite A1. cbn [vx]. numR.
    rewrite (Rf _ (fun t => vx (g t) - - (4 / 10 * L))); [reflexivity| |].
    - intros t _. rewrite (Ev t). reflexivity.
    - rewrite G0, G1. cbn [vx]. unfold L in *. nra.
  Qed.

  (** ** the fins *)
  Definition fin_at (p : pt) : pt := V3 (vx p) (vz p) (- vy p).
  Definition hf4_rise (x : R) : R := xm / 20 * (x * x).
  Lemma hf4_fin_pts : let f := hf4_fin xm R0 Ln Lb in
    (forall o, f_p0 (f o) = V3 (- (9 / 10 * L)) (- hf4_rise (9 / 10 * L)) 0) /\ (forall o, f_p1 (f o) = V3 (- (9 / 10 * L)) (R0 - hf4_rise (9 / 10 * L)) 0) /\
    (forall o, f_p2 (f o) = V3 (- (82 / 100 * L)) (R0 / 2 - hf4_rise (82 / 100 * L)) 0) /\ (forall o, f_p3 (f o) = V3 (- (74 / 100 * L)) (- hf4_rise (74 / 100 * L)) 0).
  Proof using.
    destruct hf4_pts as (A0 & _). cbv zeta. unfold hf4_fin, hf4_shifted, hf4_p3, hf4_p2, hf4_p1, hf4_p0, hf4_fin_length, hf4_flap_length, hf4_wing_L, hf4_L_t, hf4_curv_x, nsq, hf4_rise.
    cbn [f_p0 f_p1 f_p2 f_p3]. rewrite A0. unfold vec2, vsub, vadd, L. numR. cbn [vx vy vz]. repeat split; intros _; apply vec_ext; cbn; field.
  Qed.
  Lemma quarter : cos (ndeg2rad (nneg (nZ 90))) = 0 /\ sin (ndeg2rad (nneg (nZ 90))) = -1.
  Proof using. numR. match goal with |- cos ?e = 0 /\ _ => replace e with (- (PI / 2)) by field end. rewrite cos_neg, sin_neg, cos_PI2, sin_PI2. auto. Qed.
  Lemma hf4_fin_ok o : in_interval bisect -> answers bisect ->
    exists d, fin_patches bisect (hf4_fin xm R0 Ln Lb o) = Ok d /\ dkeys d = fin_keys (hf4_fin xm R0 Ln Lb o) /\ (forall u, In u (dvals d) -> on_square u) /\
    forall n, vertex_of (wing_grid n d) (vadd (V3 (- (9 / 10 * L) - R0 / 4) 0 (hf4_rise (9 / 10 * L))) o) /\
      forall s, (s = R0 / 8 \/ s = - (R0 / 8)) ->
      vertex_of (wing_grid n d) (vadd (V3 (- (9 / 10 * L)) s (hf4_rise (9 / 10 * L))) o) /\
      vertex_of (wing_grid n d) (vadd (V3 (- (9 / 10 * L)) s (hf4_rise (9 / 10 * L) - R0)) o) /\
      vertex_of (wing_grid n d) (vadd (V3 (- (74 / 100 * L)) s (hf4_rise (74 / 100 * L))) o).
  Proof using HR HL.
    intros Hi Han. set (f := hf4_fin xm R0 Ln Lb o). set (h := R0 / 8).
    destruct hf4_fin_pts as (F0 & F1 & F2 & F3). specialize (F0 o). specialize (F1 o). specialize (F2 o). specialize (F3 o). fold f in F0, F1, F2, F3.
    assert (Vt : vertical (f_top f) (fun _ _ => - h)).
    { intros x y z. unfold f, hf4_fin, hf4_thickness, uniform_thickness_function, h. numR. cbn. f_equal. apply vec_ext; cbn; field. }
    assert (Vb : vertical (f_bot f) (fun _ _ => h)).
    { intros x y z. unfold f, hf4_fin, hf4_thickness, uniform_thickness_function, h. numR. cbn. f_equal. apply vec_ext; cbn; field. }
    assert (LP : 0 < L) by (unfold L; exact HL).
    destruct (fin_made bisect Hi Han f h (1 / 100) (1 / 100) o) as (d & Ed & Kd & Sd & (u & Iu & U0 & _)); try assumption.
    - unfold f, hf4_fin, hf4_thickness, h. cbn [f_thickness]. numR. field.
    - rewrite F1, F2. intros Q. apply (f_equal vx) in Q. cbn in Q. lra.
    - rewrite F2, F3. intros Q. apply (f_equal vx) in Q. cbn in Q. lra.
    - rewrite F1, F2, F3. cbn [vx]. lra.
    - rewrite F1. reflexivity.
    - reflexivity.
    - intros t Ht. unfold fin_width. cbn [f_width f hf4_fin]. destruct (default_width t Ht) as (k & Ek & _). eauto.
    - apply default_0.
    - unfold fin_width, f, hf4_fin. cbn [f_width]. unfold leading_edge_width_function. cbn. f_equal. field.
    - apply small_of; unfold h; lra.
    - apply small_of; unfold h; lra.
    - reflexivity.
    - reflexivity.
    - exists d. split; [exact Ed|]. split; [exact Kd|]. split; [exact Sd|]. intros n.
      assert (RT : forall p, rodrigues (axis_vec "x") origin (f_angle f) p = fin_at p).
      { intros p. destruct quarter as [C1 C2]. unfold f. cbn [f_angle hf4_fin]. unfold fin_at, rodrigues, axis_vec, crossR, inner, translate, plus_scaled, scaled, diff, origin. rewrite C1, C2. apply vec_ext; cbn; ring. }
      split.
      { eapply corner_vertex; [exact Iu|]. rewrite U0. f_equal. rewrite RT. f_equal. unfold fin_at, rudder_tip. rewrite F0. unfold f. cbn [f_rudder_length f_rudder_angle hf4_fin vx vy vz].
        unfold hf4_thickness. numR. rewrite sin_0. apply vec_ext; cbn [vx vy vz]; field. }
      intros s Hs.
      destruct (fin_faces bisect f h d Ed Vt Vb eq_refl) as (top & bot & It & Ib & F).
      assert (Val : forall p z q, fin_at (V3 (vx p) (vy p) (vz p + z)) = q -> (let q := rodrigues (axis_vec "x") origin (f_angle f) (V3 (vx p) (vy p) (vz p + z)) in
          match f_offset f with Some o => let! v := o (vx q) (vy q) (Some (vz q)) in Ok (vadd q v) | None => Ok q end) = Ok (vadd q o)).
      { intros p z q Q. rewrite RT, Q. reflexivity. }
      assert (N0 : INR 0 / INR (S n) = 0) by (cbn [INR]; unfold Rdiv; ring).
      assert (N1 : INR (S n) / INR (S n) = 1) by (field; apply not_0_INR; lia).
      destruct Hs as [-> | ->]; repeat split.
      + apply (node_vertex n d "bot_patch" bot 0 0); [exact Ib|lia|lia|]. rewrite N0. rewrite (F h bot (f_p0 f)) by tauto. apply Val. rewrite F0. unfold fin_at, h. apply vec_ext; cbn [vx vy vz]; ring.
      + apply (node_vertex n d "bot_patch" bot 0 (S n)); [exact Ib|lia|lia|]. rewrite N0, N1. rewrite (F h bot (f_p1 f)) by tauto. apply Val. rewrite F1. unfold fin_at, h. apply vec_ext; cbn [vx vy vz]; ring.
      + apply (node_vertex n d "bot_patch" bot (S n) 0); [exact Ib|lia|lia|]. rewrite N0, N1. rewrite (F h bot (f_p3 f)) by tauto. apply Val. rewrite F3. unfold fin_at, h. apply vec_ext; cbn [vx vy vz]; ring.
      + apply (node_vertex n d "top_patch" top 0 0); [exact It|lia|lia|]. rewrite N0. rewrite (F (- h) top (f_p0 f)) by tauto. apply Val. rewrite F0. unfold fin_at, h. apply vec_ext; cbn [vx vy vz]; ring.
      + apply (node_vertex n d "top_patch" top (S n) 0); [exact It|lia|lia|]. rewrite N0, N1. rewrite (F (- h) top (f_p1 f)) by tauto. apply Val. rewrite F1. unfold fin_at, h. apply vec_ext; cbn [vx vy vz]; ring.
      + apply (node_vertex n d "top_patch" top 0 (S n)); [exact It|lia|lia|]. rewrite N0, N1. rewrite (F (- h) top (f_p3 f)) by tauto. apply Val. rewrite F3. unfold fin_at, h. apply vec_ext; cbn [vx vy vz]; ring.
  Qed.
  (** the same fin at another place *)
  Lemma hf4_fin_slid n o d0 d : fin_patches bisect (hf4_fin xm R0 Ln Lb (V3 0 0 0)) = Ok d0 -> fin_patches bisect (hf4_fin xm R0 Ln Lb o) = Ok d ->
    (forall u, In u (dvals d0) -> on_square u) -> wing_grid n d = map_mesh (translate o) (wing_grid n d0).
  Proof using.
    intros E0 E SQ. destruct (fin_turned bisect (hf4_fin xm R0 Ln Lb o)) as (base & HB').
    set (a := ndeg2rad (nneg (nZ 90))) in *.
    pose proof (HB' a (Some (fun _ _ _ => Ok (V3 0 0 0)))) as B0. pose proof (HB' a (Some (fun _ _ _ => Ok o))) as B1.
    change (turned_fin _ a (Some (fun _ _ _ => Ok (V3 0 0 0)))) with (hf4_fin xm R0 Ln Lb (V3 0 0 0)) in B0.
    change (turned_fin _ a (Some (fun _ _ _ => Ok o))) with (hf4_fin xm R0 Ln Lb o) in B1.
    rewrite E0 in B0. rewrite E in B1. destruct base as [b|]; [|discriminate]. cbn [bind] in B0, B1. apply ok_inj in B0, B1. subst d0 d.
    revert SQ. generalize (dmap (fun u => RotatedPatch u a "x" default_point) b). intros l SQ. unfold wing_grid, values_of, dvals, dmap in *.
    induction l as [|[k u] l IH]; [reflexivity|]. cbn [map flat_map fst snd] in *. unfold map_mesh in *. rewrite map_app, <- IH by (intros u' Hu'; apply SQ; right; exact Hu'). f_equal.
    etransitivity; [|apply patch_grid_affine, translate_affine]. apply patch_grid_same. intros r s Hr Hs.
    destruct (SQ _ (or_introl eq_refl) r s Hr Hs) as [p Ep]. unfold OffsetPatchFunction in Ep |- *. destruct (u r s) as [q|]; [|discriminate]. cbn [bind].
    unfold translate, vadd; numR. apply vec_ext; cbn [vx vy vz]; ring.
  Qed.
End Shapes.

(** ** the vehicle *)
Section Parts.
  Variable bisect : (R -> res R) -> R -> R -> res R.
  Variables xm ym : R.
  Definition hf4_made (c : nat) : vehicle R :=
    let names := [("revolved_1", c + 0); ("wing_1", c + 1); ("fin_1", c + 2); ("fin_2", c + 3); ("fin_3", c + 4)]%nat%string in
    mkVehicle [c + 0; c + 1; c + 2; c + 3; c + 4]%nat "HIFiRE4" 0 1 false
      [("revolved"%string, 1%nat); ("wing"%string, 1%nat); ("fin"%string, 3%nat)] names names [].
  Definition hf4_first (k c : nat) : vehicle R :=
    let v := hf4_made c in
    mkVehicle (firstn k (v_components v)) "HIFiRE4" 0 1 false
      (match k with 0 => [] | 1 => [("revolved"%string, 1)] | 2 => [("revolved"%string, 1); ("wing"%string, 1)]
       | 3 => [("revolved"%string, 1); ("wing"%string, 1); ("fin"%string, 1)] | 4 => [("revolved"%string, 1); ("wing"%string, 1); ("fin"%string, 2)]
       | _ => v_counts v end)%nat
      (firstn k (v_enumerated v)) (firstn k (v_named v)) [].
  Definition hf4_comps (p : path R) (w : wing R) (f1 f2 f3 : fin R) (d : nat) : list (comp R) :=
    [with_options 1 (hf4_add xm ym None) (rev_comp p 20 (d + 0));
     with_options 1 (hf4_add xm ym (Some "y"%string)) (wing_comp bisect w (ResInt 3) None (d + 1));
     with_options 1 default_add (L_Parts.fin_comp bisect f1 (ResInt 3) None (d + 2));
     with_options 1 default_add (L_Parts.fin_comp bisect f2 (ResInt 3) None (d + 3));
     with_options 1 default_add (L_Parts.fin_comp bisect f3 (ResInt 3) None (d + 4))].
  Definition off1 (R0 : R) : pt := V3 0 (35 / 10 * R0) 0.
  Definition off2 (R0 : R) : pt := V3 0 (- (35 / 10 * R0)) 0.
  Definition off3 (R0 : R) : pt := V3 0 0 (- (95 / 100 * R0)).
  Lemma hf4_offsets R0 : hf4_offset1 R0 = off1 R0 /\ hf4_offset2 R0 = off2 R0 /\ hf4_offset3 R0 = off3 R0.
  Proof using. unfold hf4_offset1, hf4_offset2, hf4_offset3, hf4_span, off1, off2, off3, vec2. numR. repeat split; apply vec_ext; cbn; ring. Qed.
  Lemma hf4_run R0 Ln Lb h p line t1 : hf4_fuseline R0 Ln Lb = Ok p -> hf4_edge R0 Ln Lb = Ok line ->
    wing_t_B1 bisect (hf4_wing R0 Ln Lb line) = Ok t1 ->
    hf4_vehicle bisect xm ym R0 Ln Lb h =
    (ext h [[]; []; []; []; []]
       (hf4_comps p (hf4_wing R0 Ln Lb line) (hf4_fin xm R0 Ln Lb (off1 R0)) (hf4_fin xm R0 Ln Lb (off2 R0)) (hf4_fin xm R0 Ln Lb (off3 R0)) (length (dicts h))),
     Ok (hf4_made (length (comps h)))).
  Proof using.
    intros Ep El Et. unfold hf4_vehicle. destruct (hf4_offsets R0) as (O1 & O2 & O3). rewrite O1, O2, O3. rewrite <- (ext_nil h) at 1.
    set (w := hf4_wing R0 Ln Lb line) in *. set (f1 := hf4_fin xm R0 Ln Lb (off1 R0)). set (f2 := hf4_fin xm R0 Ln Lb (off2 R0)). set (f3 := hf4_fin xm R0 Ln Lb (off3 R0)).
    unfold bindM at 1. unfold M_Vehicle.lift at 1. rewrite Ep. unfold bindM at 1. rewrite new_rev. cbn [app length].
    unfold bindM at 1. unfold M_Vehicle.lift at 1. rewrite El. fold w. unfold bindM at 1. rewrite (new_wing_ext bisect h _ _ w (ResInt 3) None t1 Et). cbn [app length].
    unfold bindM at 1. rewrite (new_fin_ext bisect h _ _ f1). cbn [app length].
    unfold bindM at 1. rewrite (new_fin_ext bisect h _ _ f2). cbn [app length].
    unfold bindM at 1. rewrite (new_fin_ext bisect h _ _ f3). cbn [app length].
    unfold bindM at 1. rewrite (add_to h _ _ (configured "HIFiRE4") 0 (rev_comp p 20 (length (dicts h) + 0)) _ (hf4_first 1 (length (comps h)))) by reflexivity. cbn [list_set].
    unfold bindM at 1. rewrite (add_to h _ _ _ 1 (wing_comp bisect w (ResInt 3) None (length (dicts h) + 1)) _ (hf4_first 2 (length (comps h)))) by reflexivity. cbn [list_set].
    unfold bindM at 1. rewrite (add_to h _ _ _ 2 (L_Parts.fin_comp bisect f1 (ResInt 3) None (length (dicts h) + 2)) _ (hf4_first 3 (length (comps h)))) by reflexivity. cbn [list_set].
    unfold bindM at 1. rewrite (add_to h _ _ _ 3 (L_Parts.fin_comp bisect f2 (ResInt 3) None (length (dicts h) + 3)) _ (hf4_first 4 (length (comps h)))) by reflexivity. cbn [list_set].
    rewrite (add_to h _ _ _ 4 (L_Parts.fin_comp bisect f3 (ResInt 3) None (length (dicts h) + 4)) _ (hf4_first 5 (length (comps h)))) by reflexivity.
    reflexivity.
  Qed.
  Lemma hf4_run_short R0 Ln Lb h p line : hf4_fuseline R0 Ln Lb = Ok p -> hf4_edge R0 Ln Lb = Ok line ->
    wing_t_B1 bisect (hf4_wing R0 Ln Lb line) = Raise ValueError -> snd (hf4_vehicle bisect xm ym R0 Ln Lb h) = Raise ValueError.
  Proof using.
    intros Ep El Et. unfold hf4_vehicle. rewrite <- (ext_nil h) at 1.
    unfold bindM at 1. unfold M_Vehicle.lift at 1. rewrite Ep. unfold bindM at 1. rewrite new_rev. cbn [app length].
    unfold bindM at 1. unfold M_Vehicle.lift at 1. rewrite El. unfold bindM at 1. unfold new_wing. unfold bindM at 1. rewrite object_ext. unfold bindM at 1. unfold M_Vehicle.lift.
    rewrite Et. reflexivity.
  Qed.

  Definition hf4_piece {A} (p w f1 f2 f3 : A) (k : nat) : A :=
    match k with 0 => p | 1 => w | 2 => f1 | 3 => f2 | _ => f3 end%nat.
  Definition curved_plan (axis : option string) : plan := mkPlan None (hf4_bends xm ym) axis true [].
  Lemma hf4_generates p w f1 f2 f3 gp gw g1 g2 g3 h : separate h -> evaluates01 p gp ->
    wing_patches bisect w = Ok gw -> dkeys gw = open_wing_keys -> (forall u, In u (dvals gw) -> on_square u) ->
    d21_fin_done bisect f1 g1 -> d21_fin_done bisect f2 g2 -> d21_fin_done bisect f3 g3 ->
    let C := length (comps h) in let v := hf4_made C in let cs := hf4_comps p w f1 f2 f3 (length (dicts h)) in
    let F := hifire4_curved xm ym in
    exists h2, generate v (ext h [[]; []; []; []; []] cs) = (h2, mark_generated v, Ok tt) /\ length (comps h2) = (C + 5)%nat /\
      (forall k c, nth_error cs k = Some c -> ghost_at h2 (C + k) = c_ghost c /\ type_at h2 (C + k) = c_type c /\ tag_at h2 (C + k) = c_name c) /\
      forall k, (k < 5)%nat -> mesh_of h2 (C + k) = Ok (hf4_piece (moved_grid F 19 (revolved_patches p))
        (moved_grid F 2 gw ++ map_mesh (reflect (axis_vec "y")) (moved_grid F 2 gw)) (wing_grid 2 g1) (wing_grid 2 g2) (wing_grid 2 g3) k).
  Proof using.
    intros SP Ev Ew Kw Sw (E1 & K1 & S1) (E2 & K2 & S2) (E3 & K3 & S3) C v cs F.
    destruct (revolved_grid 19 p gp Ev) as [_ Sp].
    assert (NF : forall (f : fin R) (g : dict (surf R)), dkeys g = fin_keys f -> g <> []).
    { intros f g K ->. cbn in K. unfold fin_keys in K. destruct (String.eqb (f_rudder f) "sharp"); discriminate K. }
    assert (PC : forall axis, (forall a, axis = Some a -> is_axis a) -> plan_ok (curved_plan axis)) by (intros axis H; split; [exact H|constructor]).
    assert (PS : plan_ok still) by (split; [discriminate|constructor]).
    destruct (plans_generate v h [[]; []; []; []; []] cs [0; 1; 2; 3; 4]%nat (hf4_piece (revolved_patches p) gw g1 g2 g3) (hf4_piece 19 2 2 2 2)%nat
      (hf4_piece (curved_plan None) (curved_plan (Some "y"%string)) still still still) (hf4_piece F F (fun p => p) (fun p => p) (fun p => p))
      (hf4_piece F (fun p => reflect (axis_vec "y") (F p)) (fun p => p) (fun p => p) (fun p => p))) as (h2 & A & B & D & Q).
    - eapply (ext_separate h _ _ [0; 1; 2; 3; 4]%nat SP); [reflexivity| |]; repeat constructor; cbn; lia || intuition discriminate.
    - reflexivity.
    - repeat constructor; cbn; intuition discriminate.
    - reflexivity.
    - intros k Hk. cbn [In] in Hk. destruct Hk as [<-|[<-|[<-|[<-|[<-|[]]]]]]; cbn [hf4_piece].
      + eexists _, false. split; [reflexivity|]. split; [reflexivity|]. split; [apply revolved_fine|]. split; [discriminate|]. split; [exact Sp|].
        split; [right; exists 0%nat; split; reflexivity|]. split; [split; [reflexivity|]; split; [left; reflexivity|]; repeat split|].
        split; [apply PC; discriminate|]. repeat split.
      + eexists _, false. split; [reflexivity|]. split; [cbn [with_options wing_comp c_kind]; unfold wing_result; rewrite Ew; reflexivity|].
        split; [rewrite Kw; apply fineb_fine; reflexivity|]. split; [intros ->; discriminate Kw|]. split; [exact Sw|]. split; [right; exists 1%nat; split; reflexivity|].
        split; [split; [reflexivity|]; split; [left; reflexivity|]; repeat split|]. split; [apply PC; intros a Ha; injection Ha as <-; right; left; reflexivity|]. repeat split.
      + eexists _, true. split; [reflexivity|]. split; [cbn [with_options L_Parts.fin_comp c_kind]; rewrite E1; reflexivity|].
        split; [rewrite K1; apply fin_fine|]. split; [apply (NF f1), K1|]. split; [exact S1|]. split; [left; reflexivity|].
        split; [split; [reflexivity|]; split; [right; auto|]; repeat split|]. split; [exact PS|]. repeat split.
      + eexists _, true. split; [reflexivity|]. split; [cbn [with_options L_Parts.fin_comp c_kind]; rewrite E2; reflexivity|].
        split; [rewrite K2; apply fin_fine|]. split; [apply (NF f2), K2|]. split; [exact S2|]. split; [left; reflexivity|].
        split; [split; [reflexivity|]; split; [right; auto|]; repeat split|]. split; [exact PS|]. repeat split.
      + eexists _, true. split; [reflexivity|]. split; [cbn [with_options L_Parts.fin_comp c_kind]; rewrite E3; reflexivity|].
        split; [rewrite K3; apply fin_fine|]. split; [apply (NF f3), K3|]. split; [exact S3|]. split; [left; reflexivity|].
        split; [split; [reflexivity|]; split; [right; auto|]; repeat split|]. split; [exact PS|]. repeat split.
    - assert (BT : forall l f, motion_total l f -> forall q, in_order (map SpecVehicle.bent (hf4_bends xm ym) ++ SpecVehicle.turned 0 "y" :: l) q = Ok (f (F q))).
      { intros l f H q. pose proof (hf4_bent xm ym q) as HB. cbn [hf4_bends map app in_order fold_right] in HB |- *. unfold and_then at 1 in HB. unfold and_then at 1.
        destruct (SpecVehicle.bent _ q) as [q1|] in HB |- *; [|discriminate]. unfold and_then at 1 in HB. unfold and_then at 1.
        destruct (SpecVehicle.bent _ q1) as [q2|] in HB |- *; [|discriminate]. unfold and_then at 1 in HB. unfold and_then at 1. unfold SpecVehicle.turned in HB |- *.
        apply ok_inj in HB. rewrite HB. apply H. }
      intros k Hk. cbn [In] in Hk. change (v_angle v) with 0. destruct Hk as [<-|[<-|[<-|[<-|[<-|[]]]]]]; cbn [hf4_piece].
      + split; [|discriminate]. intros q. exact (BT [] (fun p => p) (fun p => eq_refl) q).
      + split; [intros q; exact (BT [] (fun p => p) (fun p => eq_refl) q)|]. intros a Ha q. injection Ha as <-.
        exact (BT [mirrored_in "y"] (reflect (axis_vec "y")) (fun p => eq_refl) q).
      + split; [exact still_total|discriminate].
      + split; [exact still_total|discriminate].
      + split; [exact still_total|discriminate].
    - exists h2. split; [exact A|]. split; [exact B|]. split; [exact D|]. intros k Hk.
      assert (I : In k [0; 1; 2; 3; 4]%nat) by (destruct k as [|[|[|[|[|k]]]]]; cbn; lia).
      unfold C. rewrite (Q k I). destruct k as [|[|[|[|[|k]]]]]; cbn [hf4_piece]; unfold planned_mesh; cbn [p_axis p_append curved_plan still]; try lia; rewrite ?moved_id; try reflexivity.
      rewrite (moved_affine (reflect (axis_vec "y")) F) by apply reflect_affine. reflexivity.
  Qed.
End Parts.
