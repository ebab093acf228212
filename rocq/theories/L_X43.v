(** The parametric X-43: its wings and fins can be built. *)
From Coq Require Import String Reals Lra ZArith List Lia Bool.
From Verif Require Import Num NumR Py M_Vector SpecR3 M_Path M_Surface M_Geometry M_Mesh M_Component M_Common M_Wing M_Fin M_Vehicle M_VecHeap M_Sens M_Gen M_Hangar M_Htv M_X43
  SpecPath SpecPoly SpecSurf SpecMesh SpecComp SpecVehicle SpecAdd SpecPrism SpecHangar SpecWing SpecFin SpecPair SpecFiles SpecHtv SpecHalf SpecX43
  L_Vector L_Line L_Curves L_Wing L_WingOk L_WingTotal L_Fin L_FinSeams L_FinTotal L_Component L_Mesh L_Edges L_Heap L_Rigid L_Reflect L_Pipeline L_Generate L_Cache L_Files L_Prism L_Hangar L_Block L_Wedge L_Pair L_Htv L_Parts.
Import ListNotations.
Local Open Scope R_scope.

Lemma tan_atan2 q : Rtan (- Ratan2 q 1) = - q.
Proof. rewrite Ratan2_1. unfold Rtan. rewrite tan_neg, atan_right_inv.
  destruct (Req_EM_T _ _) as [E|]; [|reflexivity]. exfalso. rewrite cos_neg in E.
  destruct (atan_bound q) as [A B]. pose proof (cos_gt_0 (atan q) ltac:(lra) ltac:(lra)). lra.
Qed.
Lemma small_fine b : 0 < b <= 1 -> small b (1 / 1000).
Proof.
  intros Hb. unfold small, tan_big. split; [lra|]. split; [lra|]. split; [lra|].
  assert (A : 0 <= b * (b * b) <= 1) by (split; nra).
  unfold Rdiv at 1. 
  apply Rle_trans with (1 * / (2 * (1 / 1000 * (1 / 1000)) * (16331239353195370 * 16331239353195370))); [|lra].
  apply Rmult_le_compat_r; [|lra]. left. apply Rinv_0_lt_compat. lra.
Qed.
Lemma x43_width_ok t : exists k, x43_width (T := R) t = Ok k.
Proof. unfold x43_width. cbn. eexists; reflexivity. Qed.
Lemma x43_width_0 : x43_width (T := R) 0 = Ok (2 / 100).
Proof. unfold x43_width. cbn. f_equal. field. Qed.
Lemma x43_width_1 : x43_width (T := R) 1 = Ok (5 / 100).
Proof. unfold x43_width. cbn. f_equal. field. Qed.
Lemma x43_width2_ok t : x43_width2 (T := R) t = Ok (1 / 1000).
Proof. unfold x43_width2. cbn. f_equal. field. Qed.

Lemma quarter_down a p o : cos a = 0 -> sin a = -1 -> vadd (rodrigues (axis_vec "x") origin a p) (V3 0 o 0) = V3 (vx p) (o + vz p) (- vy p).
Proof.
  intros C S. unfold rodrigues, axis_vec, vadd, crossR, inner, translate, plus_scaled, scaled, diff, origin. rewrite C, S. numR.
  apply vec_ext; cbn; ring.
Qed.
Section Shapes.
  Variable bisect : (R -> res R) -> R -> R -> res R.
  Hypothesis Hin : in_interval bisect.
  Hypothesis Han : answers bisect.
  Variables L bw ba ws wl wt fl eh fh fn rl fa ra : R.
  Hypothesis HL : 0 < L <= 1000000.
  Hypothesis Hbw : 0 < bw.

  Definition made (w : wing R) (d : dict (surf R)) : Prop := wing_patches bisect w = Ok d /\ (exists t1, wing_t_B1 bisect w = Ok t1) /\
    dkeys d = wing_entries w /\ forall u, In u (dvals d) -> on_square u.

  Lemma x43_local_tail x : ~ x < 18 / 10 * L / (37 / 10) -> x43_local_y L bw x = (x - L) * (4 / 10 * (bw / 2) - bw / 2) / (L - 18 / 10 * L / (37 / 10)) + 4 / 10 * (bw / 2).
  Proof using. intros H. unfold x43_local_y, x43_B1, x43_B2, x43_A1, x43_B0, x43_TT, x43_nom, vec2. numR. cbn [vx vy].
    rewrite (proj2 (Rltb_false _ _)) by lra. reflexivity. Qed.
  Lemma x43_local_head x : x < 18 / 10 * L / (37 / 10) -> x43_local_y L bw x = bw / 2.
  Proof using. intros H. unfold x43_local_y, x43_B1, x43_B2, x43_A1, x43_B0, x43_TT, x43_nom, vec2. numR. cbn [vx vy].
    rewrite (proj2 (Rltb_true _ _)) by lra. reflexivity. Qed.

  Lemma x43_bot_value x : x43_bot_z L ba x = (L - x) * (((- L * Rtan (ba * (PI / 180)) + 1 / 2 * (2 / 10 * L / (37 / 10))) - 1 / 2 * (5 / 100 * L / (37 / 10))) / L) + 5 / 100 * L / (37 / 10) / 2.
  Proof using. unfold x43_bot_z, x43_TE, x43_LE, x43_beta, x43_nom. numR. rewrite tan_atan2. ring. Qed.

  (** body *)
  Lemma x43_body_ok : exists w d, x43_body L bw ba = Ok w /\ made w d /\ wing_entries w = open_wing_keys /\
    forall n, exists e, In e (mesh_edges (wing_grid n d)) /\ in_plane "y" e.
  Proof using Hin Han HL Hbw.
    unfold x43_body, x43_line.
    destruct (chain_evaluates [(x43_B0 bw, x43_B1 L bw); (x43_B1 L bw, x43_B2 L bw); (x43_B2 L bw, x43_TT L)] (origin, origin)) as (q & g & Eq & Vq & G0 & G1).
    { discriminate. }
    { unfold x43_B0, x43_B1, x43_B2, x43_TT, x43_A1, x43_nom, vec2. numR. cbn [vx vy].
      constructor; [|constructor; [|constructor; [|constructor]]]; cbn [fst snd]; intros E.
      - apply (f_equal vx) in E. cbn in E. lra.
      - apply (f_equal vx) in E. cbn in E. lra.
      - apply (f_equal vy) in E. cbn in E. lra. }
    unfold segment in Eq. cbn [map fst snd] in Eq. rewrite Eq. cbn [bind].
    cbn [hd last fst snd] in G0, G1.
    set (w := mkWing _ _ _ _ _ _ _ _ _ _ _ _ _ _ _ _).
    destruct (wing_made bisect Hin Han w g (fun x y => match x43_top L bw ba x y None with Ok p => vz p | Raise _ => 0 end) (fun x _ => x43_bot_z L ba x) (2 / 100) 0)
      as (d & Ed & Et & Kd & Sd & _); try reflexivity; try assumption.
    - intros x y z. unfold w; cbn [w_top]. unfold x43_top, x43_rounding. cbn. reflexivity.
    - intros x y z. reflexivity.
    - unfold w; cbn [w_B0 w_A1 w_TT]. unfold x43_B0, x43_A1, x43_TT, x43_nom, vec2. numR. cbn [vx]. lra.
    - intros t _. apply x43_width_ok.
    - apply x43_width_0.
    - unfold w; cbn [w_B0]. apply small_of; [|lra]. unfold half_h. rewrite x43_bot_value. unfold x43_B0, vec2. cbn [vx vy].
      unfold x43_top. numR. rewrite x43_local_head by lra. replace (bw / 2 / (bw / 2)) with 1 by (field; lra).
      unfold x43_rounding, x43_B0, x43_TE, x43_LE, x43_beta, x43_nom, vec2. numR.
      rewrite tan_atan2. cbn. 
      set (k := Rtan (ba * (PI / 180))).
      match goal with |- 0 < ?e <= _ => replace e with (1 / 2 * (2 / 10 * L / (37 / 10))) by (field; lra) end. lra.
    - discriminate.
    - eexists _, d. split; [reflexivity|]. split; [split; [exact Ed|split; [exact Et|split; assumption]]|]. split; [reflexivity|].
      intros n. apply (chord_edge bisect w d g (fun x y => match x43_top L bw ba x y None with Ok p => vz p | Raise _ => 0 end) n Ed Vq G0); try reflexivity.
      intros x y z. unfold w; cbn [w_top]. unfold x43_top, x43_rounding. cbn. reflexivity.
  Qed.

  Lemma x43_inlet_ok : exists w d, x43_inlet L bw ba eh = Ok w /\ made w d /\ wing_entries w = open_wing_keys /\
    forall n, exists e, In e (mesh_edges (wing_grid n d)) /\ in_plane "y" e.
  Proof using Hin Han HL Hbw.
    unfold x43_inlet, x43_iline.
    destruct (chain_evaluates [(x43_B0 bw, x43_B1 L bw); (x43_B1 L bw, x43_iB2 L bw); (x43_iB2 L bw, x43_iTT L bw)] (origin, origin)) as (q & g & Eq & Vq & G0 & G1).
    { discriminate. }
    { unfold x43_iB2, x43_iTT, x43_B0, x43_B1, x43_B2, x43_TT, x43_A1, x43_nom, vec2. numR. cbn [vx vy].
      constructor; [|constructor; [|constructor; [|constructor]]]; cbn [fst snd]; intros E.
      - apply (f_equal vx) in E. cbn in E. lra.
      - apply (f_equal vx) in E. cbn in E. lra.
      - apply (f_equal vy) in E. cbn [vy] in E.
        assert (D : L - 18 / 10 * L / (37 / 10) <> 0) by lra. revert E. apply Rgt_not_eq.
        match goal with |- ?e > _ => replace e with (7 / 10 * (bw / 2)) end; [lra|]. change (vy (x43_B0 bw)) with (bw / 2). field. lra. }
    unfold segment in Eq. cbn [map fst snd] in Eq. rewrite Eq. cbn [bind].
    cbn [hd last fst snd] in G0, G1.
    set (w := mkWing _ _ _ _ _ _ _ _ _ _ _ _ _ _ _ _).
    destruct (wing_made bisect Hin Han w g (fun x _ => x43_bot_z L ba x - 5 / 100) (fun x y => match x43_inlet_bot L bw ba eh x y None with Ok p => vz p | Raise _ => 0 end) (1 / 1000) 0)
      as (d & Ed & Et & Kd & Sd & _); try reflexivity; try assumption.
    - intros x y z. reflexivity.
    - intros x y z. reflexivity.
    - unfold w; cbn [w_B0 w_A1 w_TT]. unfold x43_iTT, x43_B0, x43_B1, x43_A1, x43_TT, x43_nom, vec2. numR. cbn [vx]. lra.
    - intros t _. eexists. apply x43_width2_ok.
    - apply x43_width2_ok.
    - unfold w; cbn [w_B0]. apply small_fine. unfold half_h. unfold x43_B0, vec2. cbn [vx vy].
      unfold x43_inlet_bot. cbn [vz]. set (z := x43_bot_z L ba n0). 
      assert (Z : x43_engine L bw eh n0 = 0).
      { unfold x43_engine, x43_exit_start, x43_B1, x43_B0, x43_A1, x43_A0, x43_nom, vec2. numR. cbn [vx].
        rewrite (proj2 (Rltb_true _ _)) by lra. ring. }
      rewrite Z. numR. replace (z : R) with z by reflexivity.
      match goal with |- context [if ?b then ?e else 0] => replace (if b then e else 0) with 0 by (destruct b; ring) end.
      lra.
    - discriminate.
    - eexists _, d. split; [reflexivity|]. split; [split; [exact Ed|split; [exact Et|split; assumption]]|]. split; [reflexivity|].
      intros n. apply (chord_edge bisect w d g (fun x _ => x43_bot_z L ba x - 5 / 100) n Ed Vq G0); try reflexivity. intros x y z. reflexivity.
  Qed.

  Hypothesis Hws : 0 < ws.
  Hypothesis Hwl : 0 < wl.
  Hypothesis Hback : fl - wt <= wl / 2.
  (** the flap: the mean surface has slope tan beta, and vanishes at x = L *)
  Lemma x43_wing_ok : exists w d, x43_wing L bw ba ws wl wt fl fa = Ok w /\ made w d /\ wing_entries w = (open_wing_keys ++ closing_keys)%list /\
    forall n, vertex_of (wing_grid n d) (x43_flap_inner L bw ba fl fa) /\
      vertex_of (wing_grid n d) (x43_flap_outer L bw ba ws wt fl fa).
  Proof using Hin Han HL Hbw Hws Hwl Hback.
    unfold x43_wing.
    destruct (chain_evaluates [(x43_fB0 bw ws wt fl, x43_fB1 bw ws wl); (x43_fB1 bw ws wl, x43_fTT L bw wl)] (origin, origin)) as (q & g & Eq & Vq & G0 & G1).
    { discriminate. }
    { unfold x43_fB0, x43_fB1, x43_fTT, x43_A0, vec2. numR. cbn [vx vy].
      constructor; [|constructor; [|constructor]]; cbn [fst snd]; intros E.
      - apply (f_equal vy) in E. cbn [vy] in E. lra.
      - apply (f_equal vx) in E. cbn [vx] in E. lra. }
    unfold segment in Eq. cbn [map fst snd] in Eq. rewrite Eq. cbn [bind].
    cbn [hd last fst snd] in G0, G1.
    set (w := mkWing _ _ _ _ _ _ _ _ _ _ _ _ _ _ _ _).
    set (t := 3 / 100 * L / (37 / 10)). set (m := Rtan (ba * (PI / 180))).
    assert (Ht : 0 < t <= 1000000) by (unfold t; lra).
    destruct (wing_made bisect Hin Han w g (fun x _ => - t / 2 - (- (x - L) * m)) (fun x _ => t / 2 - (- (x - L) * m)) (2 / 100) (5 / 100))
      as (d & Ed & Et & Kd & Sd & (u & Iu & Eu0 & Eu1)); try reflexivity; try assumption.
    - intros x y z. reflexivity.
    - intros x y z. reflexivity.
    - unfold w; cbn [w_B0 w_A1 w_TT]. unfold x43_fB0, x43_fA1, x43_fTT, x43_A0, vec2. numR. cbn [vx]. lra.
    - intros s _. apply x43_width_ok.
    - apply x43_width_0.
    - apply small_of; [|lra]. unfold half_h. lra.
    - intros _. split; [apply x43_width_1|]. apply small_of; [|lra]. unfold half_h. lra.
    - eexists _, d. split; [reflexivity|]. split; [split; [exact Ed|split; [exact Et|split; assumption]]|]. split; [reflexivity|].
      intros n. split.
      + eapply corner_vertex; [exact Iu|]. rewrite Eu0. f_equal. unfold tip, lift, mid_h, w, x43_flap_inner. cbn [w_flap_length w_flap_angle w_A0].
        unfold x43_fA0, x43_B0, vec2. numR. cbn [vx vy vz]. unfold m, degrees. apply vec_ext; cbn [vx vy vz]; field.
      + eapply corner1_vertex; [exact Iu|]. rewrite Eu1. f_equal. unfold tip, lift, mid_h, w, x43_flap_outer. cbn [w_flap_length w_flap_angle w_B0].
        unfold x43_fB0, x43_B0, x43_A0, vec2. numR. cbn [vx vy vz]. unfold m, degrees. apply vec_ext; cbn [vx vy vz]; field.
  Qed.

  Hypothesis Hfn : 0 < fn.
  Hypothesis Hrl : rl < fn / 2.
  Lemma x43_fin_ok ysh : exists d, fin_patches bisect (x43_fin L ba fh fn rl ra ysh) = Ok d /\ dkeys d = fin_keys (x43_fin L ba fh fn rl ra ysh) /\
    (forall u, In u (dvals d) -> on_square u) /\
    forall n, vertex_of (wing_grid n d) (x43_rudder_foot L ba fn rl ra ysh) /\ vertex_of (wing_grid n d) (x43_rudder_top L ba fh fn rl ra ysh).
  Proof using Hin Han HL Hfn Hrl.
    set (f := x43_fin L ba fh fn rl ra ysh). set (h := 1 / 100 * L / (37 / 10)).
    assert (Hh : 0 < h <= 1000000) by (unfold h; lra).
    destruct (fin_made bisect Hin Han f h (2 / 100) (5 / 100) (V3 0 ysh 0)) as (d & Ed & Kd & Sd & (u & Iu & Eu0 & Eu1)); try reflexivity.
    - unfold f, x43_fin, x43_fin_thickness, x43_nom, h. numR. cbn [f_thickness]. field.
    - intros x y z. unfold f, x43_fin, uniform_thickness_function, x43_fin_thickness, x43_nom, h. cbn. f_equal. apply vec_ext; cbn; field.
    - intros x y z. unfold f, x43_fin, uniform_thickness_function, x43_fin_thickness, x43_nom, h. cbn. f_equal. apply vec_ext; cbn; field.
    - unfold f, x43_fin, vec2. numR. cbn [f_p1 f_p2]. intros E. apply (f_equal vx) in E. cbn [vx] in E. lra.
    - unfold f, x43_fin, vec2. numR. cbn [f_p2 f_p3]. intros E. apply (f_equal vx) in E. cbn [vx] in E. lra.
    - unfold f, x43_fin, vec2. numR. cbn [f_p1 f_p2 f_p3 vx]. lra.
    - intros t _. apply x43_width_ok.
    - apply x43_width_0.
    - apply x43_width_1.
    - apply small_of; [exact Hh|lra].
    - apply small_of; [exact Hh|lra].
    - exists d. split; [exact Ed|]. split; [exact Kd|]. split; [exact Sd|].
      assert (C : cos (f_angle f) = 0 /\ sin (f_angle f) = -1).
      { unfold f, x43_fin. numR. cbn [f_angle]. match goal with |- cos ?e = 0 /\ _ => replace e with (- (PI / 2)) by field end. rewrite cos_neg, sin_neg, cos_PI2, sin_PI2. auto. }
      destruct C as [C1 C2]. rewrite (quarter_down _ _ _ C1 C2) in Eu0. rewrite (quarter_down _ _ _ C1 C2) in Eu1.
      assert (P0 : rudder_tip f (f_p0 f) = V3 (rl - rl) (- (fn - L) * Rtan (degrees ba)) (rl * sin (degrees ra))) by reflexivity.
      assert (P1 : rudder_tip f (f_p1 f) = V3 (rl - rl) (- (fn - L) * Rtan (degrees ba) + fh) (rl * sin (degrees ra))) by reflexivity.
      rewrite P0 in Eu0. rewrite P1 in Eu1. cbn [vx vy vz] in Eu0, Eu1. clearbody f. clear - Iu Eu0 Eu1.
      intros n. split.
      + eapply corner_vertex; [exact Iu|]. rewrite Eu0. unfold x43_rudder_foot. f_equal. apply vec_ext; cbn [vx vy vz]; ring.
      + eapply corner1_vertex; [exact Iu|]. rewrite Eu1. unfold x43_rudder_top. f_equal. apply vec_ext; cbn [vx vy vz]; ring.
  Qed.
End Shapes.

(** ** the six components *)
Definition x43_made (c : nat) : vehicle R :=
  mkVehicle [c + 0; c + 5; c + 1; c + 2; c + 3; c + 4]%nat "X-43A" 0 1 false [("wing"%string, 4%nat); ("fin"%string, 2%nat)]
    [("wing_1", c + 0); ("wing_2", c + 5); ("wing_3", c + 1); ("wing_4", c + 2); ("fin_1", c + 3); ("fin_2", c + 4)]%nat%string
    [("body", c + 0); ("wing1", c + 5); ("wing2", c + 1); ("inlet", c + 2); ("fin1", c + 3); ("fin2", c + 4)]%nat%string [].
Definition x43_comps bisect (wb ww wi : wing R) (f1 f2 : fin R) (d : nat) : list (comp R) :=
  [with_options 1 (named_add "body" (Some "y"%string)) (wing_comp bisect wb (ResInt 4) None (d + 0));
   with_options 1 (named_add "wing2" (Some "y"%string)) (wing_comp bisect ww (ResInt 2) None (d + 1));
   with_options 1 (named_add "inlet" (Some "y"%string)) (wing_comp bisect wi (ResInt 4) None (d + 2));
   with_options 1 (named_add "fin1" None) (fin_comp bisect f1 (ResInt 2) None (d + 3));
   with_options 1 (named_add "fin2" None) (fin_comp bisect f2 (ResInt 2) None (d + 4));
   with_options 1 (named_add "wing1" None) (wing_comp bisect ww (ResInt 2) None (d + 5))].
(** after the first k additions *)
Definition x43_first (k c : nat) : vehicle R :=
  let v := x43_made c in
  mkVehicle (firstn k (v_components v)) "X-43A" 0 1 false
    (match k with 0 => [] | 1 => [("wing"%string, 1)] | 2 => [("wing"%string, 2)] | 3 => [("wing"%string, 3)] | 4 => [("wing"%string, 4)]
     | 5 => [("wing"%string, 4); ("fin"%string, 1)] | _ => [("wing"%string, 4); ("fin"%string, 2)] end)%nat
    (firstn k (v_enumerated v)) (firstn k (v_named v)) [].
Lemma x43_run bisect L bw ba ws wl wt fl eh fh fn rl fa ra h wb ww wi tb tw ti :
  x43_body L bw ba = Ok wb -> wing_t_B1 bisect wb = Ok tb -> x43_wing L bw ba ws wl wt fl fa = Ok ww -> wing_t_B1 bisect ww = Ok tw ->
  x43_inlet L bw ba eh = Ok wi -> wing_t_B1 bisect wi = Ok ti ->
  x43_vehicle bisect L bw ba ws wl wt fl eh fh fn rl fa ra h =
  (ext h [[]; []; []; []; []; []]
     (x43_comps bisect wb ww wi (x43_fin L ba fh fn rl ra (bw / 2)) (x43_fin L ba fh fn rl ra (- (bw / 2))) (length (dicts h))),
   Ok (x43_made (length (comps h)))).
Proof.
  intros Eb Tb Ew Tw Ei Ti. unfold x43_vehicle. rewrite <- (ext_nil h) at 1.
  unfold bindM at 1. unfold M_Vehicle.lift at 1. rewrite Eb. unfold bindM at 1. rewrite (new_wing_ext bisect h [] [] wb (ResInt 4) None tb Tb). cbn [app length].
  unfold bindM at 1. unfold M_Vehicle.lift at 1. rewrite Ew. unfold bindM at 1. rewrite (new_wing_ext bisect h _ _ ww (ResInt 2) None tw Tw). cbn [app length].
  unfold bindM at 1. unfold M_Vehicle.lift at 1. rewrite Ei. unfold bindM at 1. rewrite (new_wing_ext bisect h _ _ wi (ResInt 4) None ti Ti). cbn [app length].
  change (vy (x43_B0 bw)) with (bw / 2). change (nneg (bw / 2)) with (- (bw / 2)).
  set (f1 := x43_fin _ _ _ _ _ _ (bw / 2)). set (f2 := x43_fin _ _ _ _ _ _ (- (bw / 2))).
  unfold bindM at 1. rewrite (new_fin_ext bisect h _ _ f1). cbn [app length].
  unfold bindM at 1. rewrite (new_fin_ext bisect h _ _ f2). cbn [app length].
  unfold bindM at 1. rewrite (add_to h _ _ (configured "X-43A") 0 (wing_comp bisect wb (ResInt 4) None (length (dicts h) + 0)) _ (x43_first 1 (length (comps h)))) by reflexivity.
  cbn [list_set].
  unfold bindM at 1. unfold deepcopy_comp. unfold bindM at 1.
  rewrite (get_ext h _ _ 1 (wing_comp bisect ww (ResInt 2) None (length (dicts h) + 1))) by reflexivity.
  cbn [wing_comp c_kind c_patches]. unfold bindM at 1. rewrite (getd_ext h _ _ 1 []) by reflexivity.
  unfold bindM at 1. rewrite newd_ext, newc_ext. cbn [app length].
  unfold bindM at 1. rewrite (add_to h _ _ _ 5 (wing_comp bisect ww (ResInt 2) None (length (dicts h) + 5)) _ (x43_first 2 (length (comps h)))) by reflexivity.
  cbn [list_set].
  unfold bindM at 1. rewrite (add_to h _ _ _ 1 (wing_comp bisect ww (ResInt 2) None (length (dicts h) + 1)) _ (x43_first 3 (length (comps h)))) by reflexivity.
  cbn [list_set].
  unfold bindM at 1. rewrite (add_to h _ _ _ 2 (wing_comp bisect wi (ResInt 4) None (length (dicts h) + 2)) _ (x43_first 4 (length (comps h)))) by reflexivity.
  cbn [list_set].
  unfold bindM at 1. rewrite (add_to h _ _ _ 3 (fin_comp bisect f1 (ResInt 2) None (length (dicts h) + 3)) _ (x43_first 5 (length (comps h)))) by reflexivity.
  cbn [list_set].
  rewrite (add_to h _ _ _ 4 (fin_comp bisect f2 (ResInt 2) None (length (dicts h) + 4)) _ (x43_first 6 (length (comps h)))) by reflexivity.
  reflexivity.
Qed.

(** what the six components are made of *)
Definition x43_piece {A} (b w i f1 f2 w' : A) (k : nat) : A :=
  match k with 0 => b | 1 => w | 2 => i | 3 => f1 | 4 => f2 | _ => w' end%nat.
Definition fin_done bisect (f : fin R) (g : dict (surf R)) : Prop :=
  fin_patches bisect f = Ok g /\ dkeys g = fin_keys f /\ forall u, In u (dvals g) -> on_square u.
Lemma x43_generates bisect wb ww wi f1 f2 gb gw gi g1 g2 h : separate h -> made bisect wb gb -> made bisect ww gw -> made bisect wi gi ->
  fin_done bisect f1 g1 -> fin_done bisect f2 g2 ->
  let C := length (comps h) in let v := x43_made C in let cs := x43_comps bisect wb ww wi f1 f2 (length (dicts h)) in
  exists h2, generate v (ext h [[]; []; []; []; []; []] cs) = (h2, mark_generated v, Ok tt) /\
    length (comps h2) = (C + 6)%nat /\
    (forall k c, nth_error cs k = Some c -> ghost_at h2 (C + k) = c_ghost c /\ type_at h2 (C + k) = c_type c /\ tag_at h2 (C + k) = c_name c) /\
    forall k, In k [0; 5; 1; 2; 3; 4]%nat -> mesh_of h2 (C + k) =
      Ok (grid_y (x43_piece true true true false false false k) (wing_grid (x43_piece 3 1 3 1 1 1 k)%nat (x43_piece gb gw gi g1 g2 gw k))).
Proof.
  intros SP (Eb & _ & Kb & Sb) (Ew & _ & Kw & Sw) (Ei & _ & Ki & Si) (E1 & K1 & S1) (E2 & K2 & S2) C v cs.
  assert (NW : forall w (g : dict (surf R)), dkeys g = wing_entries w -> g <> []) by (intros w g K ->; discriminate K).
  assert (NF : forall f (g : dict (surf R)), dkeys g = fin_keys f -> g <> []).
  { intros f g K ->. unfold fin_keys in K. discriminate K. }
  destruct (parts_generate v h [[]; []; []; []; []; []] cs [0; 5; 1; 2; 3; 4]%nat (x43_piece gb gw gi g1 g2 gw) (x43_piece 3 1 3 1 1 1)%nat
    (x43_piece true true true false false false)) as (h2 & A & B & D & Q).
  - eapply (ext_separate h _ _ [0; 1; 2; 3; 4; 5]%nat SP); [reflexivity| |]; repeat constructor; cbn; lia || intuition discriminate.
  - reflexivity.
  - repeat constructor; cbn; intuition discriminate.
  - reflexivity.
  - reflexivity.
  - intros k Hk. cbn [In] in Hk. destruct Hk as [<-|[<-|[<-|[<-|[<-|[<-|[]]]]]]]; cbn [x43_piece].
    + eexists _, false. split; [reflexivity|]. split; [cbn [with_options wing_comp c_kind]; unfold wing_result; rewrite Eb; reflexivity|].
      split; [rewrite Kb; apply wing_fine|]. split; [apply (NW wb), Kb|]. split; [exact Sb|]. split; [right; exists 0%nat; split; reflexivity|].
      split; [split; [reflexivity|]; split; [right; auto|]; repeat split|]. repeat split.
    + eexists _, false. split; [reflexivity|]. split; [cbn [with_options wing_comp c_kind]; unfold wing_result; rewrite Ew; reflexivity|].
      split; [rewrite Kw; apply wing_fine|]. split; [apply (NW ww), Kw|]. split; [exact Sw|]. split; [right; exists 5%nat; split; reflexivity|].
      split; [split; [reflexivity|]; split; [right; auto|]; repeat split|]. repeat split.
    + eexists _, false. split; [reflexivity|]. split; [cbn [with_options wing_comp c_kind]; unfold wing_result; rewrite Ew; reflexivity|].
      split; [rewrite Kw; apply wing_fine|]. split; [apply (NW ww), Kw|]. split; [exact Sw|]. split; [right; exists 1%nat; split; reflexivity|].
      split; [split; [reflexivity|]; split; [right; auto|]; repeat split|]. repeat split.
    + eexists _, false. split; [reflexivity|]. split; [cbn [with_options wing_comp c_kind]; unfold wing_result; rewrite Ei; reflexivity|].
      split; [rewrite Ki; apply wing_fine|]. split; [apply (NW wi), Ki|]. split; [exact Si|]. split; [right; exists 2%nat; split; reflexivity|].
      split; [split; [reflexivity|]; split; [right; auto|]; repeat split|]. repeat split.
    + eexists _, true. split; [reflexivity|]. split; [cbn [with_options fin_comp c_kind]; rewrite E1; reflexivity|].
      split; [rewrite K1; apply fin_fine|]. split; [apply (NF f1), K1|]. split; [exact S1|]. split; [left; reflexivity|].
      split; [split; [reflexivity|]; split; [right; auto|]; repeat split|]. repeat split.
    + eexists _, true. split; [reflexivity|]. split; [cbn [with_options fin_comp c_kind]; rewrite E2; reflexivity|].
      split; [rewrite K2; apply fin_fine|]. split; [apply (NF f2), K2|]. split; [exact S2|]. split; [left; reflexivity|].
      split; [split; [reflexivity|]; split; [right; auto|]; repeat split|]. repeat split.
  - exists h2. auto.
Qed.
