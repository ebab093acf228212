(** C113: the parametric ReFEX end to end (hangar/refex.py). *)
From Coq Require Import String Reals Lra ZArith List Permutation Lia Bool.
From Verif Require Import Num NumR Py M_Vector SpecR3 M_Path M_Surface M_Geometry M_Mesh M_Component M_Stl M_Common M_Wing M_Fin M_Vehicle M_VecHeap M_Sens M_Gen M_Inertia M_Hangar M_Htv M_X43 M_D21 M_Transform M_Refex
  SpecPath SpecPoly SpecSurf SpecMesh SpecComp SpecVehicle SpecAdd SpecFiles SpecInertia SpecPrism SpecHangar SpecWing SpecFin SpecPair SpecHalf SpecHtv SpecX43 SpecD21 SpecLathe SpecProfile SpecHifire8 SpecRefex
  L_Vector L_Edges L_Component L_SweptComp L_Coons L_Heap L_Pipeline L_Generate L_Files L_Prism L_Reflect L_Volume L_Hangar L_Finner L_Study L_Block L_Wing L_WingTotal L_Fin L_FinTotal L_Lathe L_Pair L_Half L_Htv L_Parts L_Profile L_Falcon L_Closed L_Parts2 L_Parts3 L_D21 L_Hifire4 L_Hifire8 L_Hifire8b L_Parts4 L_Refex L_Refex2 L_Refex3
  P_Component P_Vehicle P_Gen P_Inertia P_Hangar P_Ogive P_Profile P_Falcon P_Half P_Planform P_Htv P_Ledger P_X43 P_Cylinder P_D21 P_Cart3D P_Waverider.
Import ListNotations.
Local Open Scope R_scope.

(** the attributes that are numbers, with their defaults *)
Definition rx_attributes (P : rx_params R) : list (string * R * R) :=
  [("h", 225 / 1000, rx_h P); ("r_n", 75 / 1000, rx_r_n P); ("r_o", 15 / 10, rx_r_o P); ("L_o", 5 / 100, rx_L_o P); ("L_b", 25 / 10, rx_L_b P); ("fin_thickness", 2 / 100, rx_fin_thickness P); ("wing_length", 9 / 10, rx_wing_length P); ("wing_span", 35 / 100, rx_wing_span P); ("tail_height", 35 / 100, rx_tail_height P); ("tail_thickness", 2 / 100, rx_tail_thickness P); ("canard_angle", 0, rx_canard_angle P)]%string.
Definition rx_keywords (kw : dict (pval R)) (P : rx_params R) : Prop := plain_keywords kw /\
  forall k default x, In (k, default, x) (rx_attributes P) -> SpecHangar.given kw k default = PNum x.
Definition rx_defaults : dict (pval R) := [("h", PNum (225 / 1000)); ("r_n", PNum (75 / 1000)); ("r_o", PNum (15 / 10)); ("L_o", PNum (5 / 100)); ("L_b", PNum (25 / 10)); ("fin_thickness", PNum (2 / 100)); ("wing_length", PNum (9 / 10)); ("wing_span", PNum (35 / 100)); ("tail_height", PNum (35 / 100)); ("tail_thickness", PNum (2 / 100)); ("canard_angle", PNum (0))]%string.
Lemma rx_init bisect b1 b2 b3 b4 cs kw : run_init (g_classes (ParametricReFEX (T := R) bisect b1 b2 b3 b4 cs)) kw (g_init (ParametricReFEX bisect b1 b2 b3 b4 cs)) [] = Ok (generator_init kw rx_defaults).
Proof. reflexivity. Qed.
Lemma rx_program bisect b1 b2 b3 b4 cs call kw P : rx_keywords kw P ->
  make_vehicle call (ParametricReFEX bisect b1 b2 b3 b4 cs) kw = Ok (rx_vehicle bisect b1 b2 b3 b4 cs P).
Proof.
  intros ((Nd & S1 & S2) & HK). unfold make_vehicle, instantiate. rewrite no_key by exact S1.
  rewrite rx_init. unfold bind at 1. unfold create_instance. rewrite generator_init_get by exact Nd.
  destruct (dget kw "create_instance") as [v|] eqn:E.
  { exfalso. apply S2. apply dget_in in E. apply (in_map fst) in E. exact E. }
  change (dget rx_defaults "create_instance") with (@None (pval R)). cbv iota beta.
  set (d := rx_defaults). change (g_classes (ParametricReFEX (T := R) bisect b1 b2 b3 b4 cs)) with (@nil (dict (pval R))).
  unfold g_create, ParametricReFEX. cbv beta iota.
  refine (eq_trans (bind_eq (read_attr kw [] d "h" _ _ (225 / 1000) Nd eq_refl (HK "h"%string _ _ ltac:(cbn; tauto)) ltac:(lra)) _) _). cbv beta.
  refine (eq_trans (bind_eq (read_attr kw [] d "r_n" _ _ (75 / 1000) Nd eq_refl (HK "r_n"%string _ _ ltac:(cbn; tauto)) ltac:(lra)) _) _). cbv beta.
  refine (eq_trans (bind_eq (read_attr kw [] d "r_o" _ _ (15 / 10) Nd eq_refl (HK "r_o"%string _ _ ltac:(cbn; tauto)) ltac:(lra)) _) _). cbv beta.
  refine (eq_trans (bind_eq (read_attr kw [] d "L_o" _ _ (5 / 100) Nd eq_refl (HK "L_o"%string _ _ ltac:(cbn; tauto)) ltac:(lra)) _) _). cbv beta.
  refine (eq_trans (bind_eq (read_attr kw [] d "L_b" _ _ (25 / 10) Nd eq_refl (HK "L_b"%string _ _ ltac:(cbn; tauto)) ltac:(lra)) _) _). cbv beta.
  refine (eq_trans (bind_eq (read_attr kw [] d "fin_thickness" _ _ (2 / 100) Nd eq_refl (HK "fin_thickness"%string _ _ ltac:(cbn; tauto)) ltac:(lra)) _) _). cbv beta.
  refine (eq_trans (bind_eq (read_attr kw [] d "wing_length" _ _ (9 / 10) Nd eq_refl (HK "wing_length"%string _ _ ltac:(cbn; tauto)) ltac:(lra)) _) _). cbv beta.
  refine (eq_trans (bind_eq (read_attr kw [] d "wing_span" _ _ (35 / 100) Nd eq_refl (HK "wing_span"%string _ _ ltac:(cbn; tauto)) ltac:(lra)) _) _). cbv beta.
  refine (eq_trans (bind_eq (read_attr kw [] d "tail_height" _ _ (35 / 100) Nd eq_refl (HK "tail_height"%string _ _ ltac:(cbn; tauto)) ltac:(lra)) _) _). cbv beta.
  refine (eq_trans (bind_eq (read_attr kw [] d "tail_thickness" _ _ (2 / 100) Nd eq_refl (HK "tail_thickness"%string _ _ ltac:(cbn; tauto)) ltac:(lra)) _) _). cbv beta.
  refine (eq_trans (bind_eq (read_attr kw [] d "canard_angle" _ _ (0) Nd eq_refl (HK "canard_angle"%string _ _ ltac:(cbn; tauto)) ltac:(lra)) _) _). cbv beta.
  destruct P. reflexivity.
Qed.

(** the seven components before they are turned, from the nose, the body, one
    canard, a half of the wing, the transition and the tail *)
Definition other_canard (xc a : R) (canard : list (tri R)) : list (tri R) := map_mesh (fun p => rolled PI (pitched xc (- (2 * a)) p)) canard.
Definition rx_meshes (xc a : R) (nose body canard wing trans tail : list (tri R)) : list (string * list (tri R)) :=
  [("revolved_1", nose); ("revolved_2", body); ("fin_1", canard); ("fin_2", other_canard xc a canard);
   ("wing_1", (wing ++ map_mesh (reflect (axis_vec "y")) wing)%list); ("swept_1", trans); ("fin_3", tail)]%string.
Definition rx_file (prefix : option string) (k : string) : string :=
  ((match text prefix with Some p => p | None => "ReFEX" end) ++ "-" ++
   (match dget [("revolved_1", "revolved-0"); ("revolved_2", "revolved-1"); ("fin_1", "fin-0"); ("fin_2", "fin-1"); ("wing_1", "wing-0"); ("swept_1", "swept-0"); ("fin_3", "fin-2")] k with
    | Some s => s | None => "" end) ++ ".stl")%string.
(** delivered in the frame of Cart3D, to one file each *)
Definition rx_parts (v : vehicle R) (h2 : heap R) (ms : list (string * list (tri R))) : Prop :=
  v_name v = "ReFEX"%string /\ v_components v = map snd (v_named v) /\
  map (fun ki => (fst ki, mesh_of h2 (snd ki))) (v_named v) = map (fun km => (fst km, Ok (map_mesh to_cart3d (snd km)))) ms /\
  forall prefix fs0, exists h3 fs, to_stl (mark_generated v) prefix h2 fs0 = (h3, fs, Ok tt) /\
    (forall k m, In (k, m) ms -> dget fs (rx_file prefix k) = Some (map_mesh to_cart3d m)) /\
    forall s, (forall k m, In (k, m) ms -> s <> rx_file prefix k) -> dget fs s = dget fs0 s.

(** the middle of the canards *)
Definition rx_middle (cs : pt) (P : rx_params R) : R := - rx_L_o P + vx cs - 845 / 1000 * rx_h P.
Definition in_radians (a : R) : R := a * (PI / 180).

Definition rx_fair (P : rx_params R) : Prop :=
  0 < rx_r_n P /\ rx_r_n P < rx_h P < rx_r_o P /\ 0 < rx_L_o P /\ 0 < rx_L_b P /\ 0 < rx_fin_thickness P <= 300 /\ 0 < rx_wing_length P /\ 0 < rx_tail_height P /\ 0 < rx_tail_thickness P <= 1000.
Definition rx_shapes (cs : pt) (P : rx_params R) (nose body canard wing trans tail : list (tri R)) : Prop :=
  let h := rx_h P in let Lo := rx_L_o P in let Lb := rx_L_b P in let wl := rx_wing_length P in let ft := rx_fin_thickness P in
  let th := rx_tail_height P in let tt := rx_tail_thickness P in
  let tip := sqrt ((rx_r_o P - rx_r_n P) * (rx_r_o P - rx_r_n P) - (rx_r_o P - h) * (rx_r_o P - h)) + rx_r_n P in
  (watertight nose /\ length nose = (4 * (4 * 50 * 50))%nat /\ - (ngon 200 * (h * h) * (tip + Lo)) <= signed_volume nose < 0 /\
   vertex_of nose (V3 tip 0 0) /\ vertex_of nose (V3 (- Lo) 0 0) /\ (forall p, vertex_of nose p -> - Lo <= vx p <= tip /\ radius_x p <= h)) /\
  (watertight body /\ length body = (4 * (4 * 50 * 50))%nat /\ - (ngon 200 * (h * h) * Lb) <= signed_volume body < 0 /\
   (signed_volume body = - (ngon 200 * (h * h) * Lb) <-> exists k, 50 * h = INR k * (2 * h + Lb)) /\
   vertex_of body (V3 0 0 0) /\ vertex_of body (V3 (- Lb) 0 0) /\ (forall p, vertex_of body p -> - Lb <= vx p <= 0 /\ radius_x p <= h)) /\
  (length canard = 468%nat /\ let x := - Lo + vx cs in let y := 974 / 1000 * h + vy cs in
   (forall s, s = ft / 2 \/ s = - (ft / 2) -> forall p, p = V3 (x - 169 / 100 * h) y s \/ p = V3 (x - 169 / 100 * h) (y + 1274 / 1000 * h) s \/ p = V3 x y s ->
     vertex_of canard (pitched (rx_middle cs P) (in_radians (rx_canard_angle P)) p)) /\
   forall p, p = V3 (x - 169 / 100 * h - ft) y 0 \/ p = V3 (x - 169 / 100 * h - ft) (y + 1274 / 1000 * h) 0 -> vertex_of canard (pitched (rx_middle cs P) (in_radians (rx_canard_angle P)) p)) /\
  (length wing = 468%nat /\
   (let whole := map_mesh to_cart3d (wing ++ map_mesh (reflect (axis_vec "y")) wing)%list in stl_check whole (mesh_normals whole) false true = Ok false) /\
   let y := rx_wing_span P + h in vertex_of wing (V3 (- Lb) 0 (h - 15 / 10 * ft)) /\ vertex_of wing (V3 (- Lb) y (h - 15 / 10 * ft)) /\
   forall s, s = h - 3 * ft \/ s = h -> vertex_of wing (V3 (- Lb + 1 / 10 * wl) 0 s) /\ vertex_of wing (V3 (- Lb + 1 / 10 * wl) y s) /\ vertex_of wing (V3 (- Lb + 11 / 10 * wl) 0 s)) /\
  (watertight trans /\ length trans = (24 * 20 * 20)%nat /\
   (forall x y z, x = - Lb \/ x = - Lb + 9 / 10 * wl -> y = h \/ y = - h -> z = 0 \/ z = h -> vertex_of trans (V3 x y z)) /\
   forall y z, (y = h \/ y = - h) /\ z = 0 \/ (y = h / 2 \/ y = - (h / 2)) /\ z = h * (sqrt 3 / 2) -> vertex_of trans (V3 (- Lb + 13 / 10 * wl) y z)) /\
  (length tail = 468%nat /\ (forall y, y = h - 2 / 100 * th \/ y = h + 96 / 100 * th -> vertex_of tail (V3 (- Lb + tt) 0 (- y))) /\ forall s, s = tt / 2 \/ s = - (tt / 2) ->
   vertex_of tail (V3 (- Lb + 2 * tt) s (- (h - 2 / 100 * th))) /\ vertex_of tail (V3 (- Lb + 2 * tt) s (- (h + 96 / 100 * th))) /\
   vertex_of tail (V3 (- Lb + 2 * tt + 12 / 10 * th) s (- (h - 4 / 100 * th)))).

Lemma rx_apart prefix k k' a b :
  dget [("revolved_1", "revolved-0"); ("revolved_2", "revolved-1"); ("fin_1", "fin-0"); ("fin_2", "fin-1"); ("wing_1", "wing-0"); ("swept_1", "swept-0"); ("fin_3", "fin-2")]%string k = Some a ->
  dget [("revolved_1", "revolved-0"); ("revolved_2", "revolved-1"); ("fin_1", "fin-0"); ("fin_2", "fin-1"); ("wing_1", "wing-0"); ("swept_1", "swept-0"); ("fin_3", "fin-2")]%string k' = Some b ->
  (a ++ ".stl")%string <> (b ++ ".stl")%string -> rx_file prefix k <> rx_file prefix k'.
Proof.
  intros A B H. unfold rx_file. rewrite A, B.
  assert (NE : forall (s a b : string), a <> b -> (s ++ a)%string <> (s ++ b)%string).
  { induction s as [|ch s IH]; intros x y Hxy; [exact Hxy|]. intros C. injection C as C. exact (IH x y Hxy C). }
  apply NE, NE, H.
Qed.
Lemma val_vertex n (d : dict (surf R)) vs v i j : values01 (dvals d) vs -> In v vs -> (i <= S n)%nat -> (j <= S n)%nat -> vertex_of (wing_grid n d) (v (INR i / INR (S n)) (INR j / INR (S n))).
Proof.
  intros V I Hi Hj.
  assert (X : exists key u, In (key, u) d /\ forall r s, 0 <= r <= 1 -> 0 <= s <= 1 -> u r s = Ok (v r s)).
  { clear Hi Hj. unfold dvals, values01 in V. revert vs V I. induction d as [|[k u] d IH]; intros vs V I; inversion V; subst; [destruct I|].
    destruct I as [<-|I]; [exists k, u; split; [left; reflexivity|assumption]|]. destruct (IH _ H3 I) as (k' & u' & I' & E). exists k', u'. split; [right; exact I'|exact E]. }
  destruct X as (key & u & Iu & E). assert (N : 0 < INR (S n)) by (apply lt_0_INR; lia).
  assert (B : forall i, (i <= S n)%nat -> 0 <= INR i / INR (S n) <= 1).
  { intros i' H. apply le_INR in H. pose proof (pos_INR i'). split; [apply Rmult_le_pos; [assumption|left; apply Rinv_0_lt_compat; exact N]|apply Rmult_le_reg_r with (INR (S n)); [exact N|]; field_simplify; lra]. }
  apply (node_vertex n d key u i j _ Iu Hi Hj). apply E; apply B; assumption.
Qed.
Lemma blend_half (p : nat -> pt) : L_Component.blend 1 p (INR 10 / INR 20) = p 1%nat.
Proof.
  assert (E : INR 10 / INR 20 * INR 2 = INR 1) by (cbn; field). unfold L_Component.blend.
  replace (seg 1 (INR 10 / INR 20)) with 1%nat by (unfold seg; rewrite E, Int_part_INR; reflexivity).
  rewrite E, Rminus_eq_0. apply lerp_0.
Qed.

Section Refex.
  Variable bisect : (R -> res R) -> R -> R -> res R.
  Variable cs : pt.
  Hypothesis Zs : vz cs = 0.

  (** the patches of all the parts, and their shapes *)
  Definition rx_done P p q line t1 gp gq g1 g2 g3 gw gs rr rs : Prop :=
    OgiveNose (rx_h P) (rx_r_n P) (rx_r_o P) (rx_L_o P) = Ok p /\ rx_body_line P = Ok q /\ rx_edge P = Ok line /\ wing_t_B1 bisect (rx_wing P line) = Ok t1 /\
    Swept_init (rx_sections P) true (ResInt 20) = Ok 4%nat /\ evaluates01 p gp /\ evaluates01 q gq /\
    d21_fin_done bisect (rx_canard cs P (nZ 0) (rx_canard_angle P)) g1 /\ d21_fin_done bisect (rx_canard cs P (nZ 180) (nneg (rx_canard_angle P))) g2 /\ d21_fin_done bisect (rx_tail P) g3 /\
    M_Wing.wing_patches bisect (rx_wing P line) = Ok gw /\ dkeys gw = open_wing_keys /\ (forall u, In u (dvals gw) -> on_square u) /\
    swept_result (rx_sections P) 20 = Ok (gs, rr, rs) /\ dkeys gs = ["swept_patch_0"; "swept_patch_1"; "swept_patch_2"; "swept_patch_3"; "swept_patch_end_0"; "swept_patch_end_1"]%string /\
    (forall u, In u (dvals gs) -> on_square u) /\ wing_grid 2 g2 = other_canard (rx_middle cs P) (in_radians (rx_canard_angle P)) (wing_grid 2 g1).
  Lemma rx_drawn : in_interval bisect -> answers bisect -> forall P, rx_fair P -> exists p q line t1 gp gq g1 g2 g3 gw gs rr rs,
    rx_done P p q line t1 gp gq g1 g2 g3 gw gs rr rs /\
    rx_shapes cs P (profile_mesh 49 gp) (profile_mesh 49 gq) (wing_grid 2 g1) (wing_grid 2 gw) (wing_grid 19 gs) (wing_grid 2 g3).
  Proof using Zs.
    intros Hi Han P (Hn & Hh & HLo & HLb & Hft & Hwl & Hth & Htt).
    assert (LN : forall n (g : dict (surf R)) ks, dkeys g = ks -> length (wing_grid n g) = (length ks * (4 * (S n * S n)))%nat).
    { intros n gg ks K. rewrite wing_grid_length, <- (map_length fst). change (map fst gg) with (dkeys gg). rewrite K. lia. }
    assert (H0 : 0 < rx_h P) by lra. pose proof (og_X (rx_h P) (rx_r_n P) (rx_r_o P) Hh) as HX.
    destruct (ogive_draws (rx_h P) (rx_r_n P) (rx_r_o P) (rx_L_o P) Hn Hh HLo) as (p & Ep & Dp). destruct (rx_body_draws P H0 HLb) as (q & Eq & Dq).
    destruct (drawn_mesh _ p _ _ 48 Dp) as (gp & Evp & Wp & Lp & Vp & P0 & P1 & Ip).
    { split; reflexivity. } { split; reflexivity. } { cbn. lra. }
    destruct (drawn_mesh _ q _ _ 48 Dq) as (gq & Evq & Wq & Lq & Vq & Q0 & Q1 & Iq).
    { split; reflexivity. } { split; reflexivity. } { cbn. lra. }
    cbn [vx] in Vp, Ip, Vq, Iq.
    destruct (rx_canard_ok bisect cs P Zs H0 Hft (nZ 0) (rx_canard_angle P) Hi Han) as (g1 & D1 & V1).
    destruct (rx_canard_ok bisect cs P Zs H0 Hft (nZ 180) (nneg (rx_canard_angle P)) Hi Han) as (g2 & D2 & _).
    pose proof (rx_canards_alike bisect cs P Zs 2 g1 g2 (proj1 D1) (proj1 D2) (proj2 (proj2 D1))) as G2.
    destruct (rx_canard_pts cs P Zs) as (C0 & C1 & _ & C3 & CX & _). cbv zeta in C0, C1, C3, CX. fold (rx_middle cs P) in CX. fold (in_radians (rx_canard_angle P)) in G2. rewrite CX in G2.
    destruct (rx_tail_ok bisect P Hth Htt Hi Han) as (g3 & D3 & V3'). destruct (rx_tail_pts P) as (T0 & T1 & _ & T3). cbv zeta in T0, T1, T3.
    destruct (rx_wing_ok bisect P Hft Hwl Hi Han) as (line & gw & t1 & El & Ew & Et & Kw & Sw & Ow & Fw).
    destruct (trans_ok (rx_h P) (- rx_L_b P) (- rx_L_b P + 9 / 10 * rx_wing_length P) (- rx_L_b P + 13 / 10 * rx_wing_length P) H0 19) as (gs & rr & rs & g & Es0 & Es & Ks & Ss & Ws & Ls & Vs & GA & GB & X0 & X1 & X2 & X3 & _).
    rewrite <- rx_sections_are in Es0, Es.
    exists p, q, line, t1, gp, gq, g1, g2, g3, gw, gs, rr, rs. split; [unfold rx_done; tauto|].
    { unfold rx_shapes. cbv zeta. split; [|split; [|split; [|split; [|split]]]].
      - split; [exact Wp|]. split; [exact Lp|]. split; [match type of Vp with context [?a - - ?b] => replace (a - - b) with (a + b) in Vp by ring end; exact Vp|]. split; [exact P0|]. split; [exact P1|exact Ip].
      - split; [exact Wq|]. split; [exact Lq|]. split; [replace (0 - - rx_L_b P) with (rx_L_b P) in Vq by ring; exact Vq|]. split; [|split; [exact Q0|split; [exact Q1|exact Iq]]].
        destruct (C95_cylinder 0 (- rx_L_b P) (rx_h P) 49) as (q' & m & Eq' & Em & _ & _ & I & _); [lra|lra|].
        rewrite rx_body_parts in Eq. unfold cylinder_line in Eq'. rewrite Eq in Eq'. apply ok_inj in Eq'. subst q'.
        rewrite (profile_turned 49 q gq Evq) in Em. apply ok_inj in Em. subst m.
        rewrite Rminus_0_r, Rabs_Ropp, (Rabs_right (rx_L_b P)) in I by lra. replace (INR 50) with 50 in I by (cbn; ring).
        rewrite <- I. change (4 * 50)%nat with 200%nat. split; intros E; rewrite E; ring.
      - split; [rewrite (LN _ _ _ (proj1 (proj2 D1))); reflexivity|].
        assert (A0 : ndeg2rad (N := NumR) (nZ 0) = 0) by (numR; ring). pose proof (rx_canard_tip bisect cs P Zs _ _ _ (proj1 D1) 2) as V2.
        rewrite A0, CX in V1, V2. change (ndeg2rad (rx_canard_angle P)) with (in_radians (rx_canard_angle P)) in V1, V2.
        split; [|intros p' [-> | ->]; [pose proof (V2 _ (or_introl eq_refl)) as V; rewrite rolled_0, C0 in V; exact V|pose proof (V2 _ (or_intror eq_refl)) as V; rewrite rolled_0, C1 in V; exact V]].
        intros s Hs p' Hp.
        destruct Hp as [-> |[-> | ->]].
        + pose proof (V1 2%nat s _ Hs (or_introl eq_refl)) as V. rewrite rolled_0, C0 in V. exact V.
        + pose proof (V1 2%nat s _ Hs (or_intror (or_introl eq_refl))) as V. rewrite rolled_0, C1 in V. exact V.
        + pose proof (V1 2%nat s _ Hs (or_intror (or_intror eq_refl))) as V. rewrite rolled_0, C3 in V. exact V.
      - split; [rewrite (LN _ _ _ Kw); reflexivity|]. split; [|exact (Fw 2%nat)].
        destruct (Ow 2%nat) as (e & I & B). apply (reflected_open_moved to_cart3d "y" _ e); [right; left; reflexivity|exact I|exact B].
      - split; [exact Ws|]. split; [exact Ls|].
        assert (R1 : INR 0 / INR 20 = 0) by (cbn [INR]; unfold Rdiv; ring). assert (R2 : INR 20 / INR 20 = 1) by (field; apply not_0_INR; lia).
        assert (SV : forall e, (e < 4)%nat -> In (side_val 1 g e) [side_val 1 g 0; side_val 1 g 1; side_val 1 g 2; side_val 1 g 3; cap0 g; cap1 1 g]%nat).
        { intros e He. destruct e as [|[|[|[|e]]]]; [cbn; tauto..|lia]. }
        assert (VA : forall e, (e < 4)%nat -> vertex_of (wing_grid 19 gs) (g 0%nat e 0)).
        { intros e He. pose proof (val_vertex 19 gs _ _ 0 0 Vs (SV e He) ltac:(lia) ltac:(lia)) as V. rewrite R1 in V. unfold side_val in V. rewrite blend_0 in V. exact V. }
        assert (VB : forall e, (e < 4)%nat -> vertex_of (wing_grid 19 gs) (g 1%nat e 0)).
        { intros e He. pose proof (val_vertex 19 gs _ _ 10 0 Vs (SV e He) ltac:(lia) ltac:(lia)) as V. rewrite R1 in V. unfold side_val in V. rewrite blend_half in V. exact V. }
        assert (VC : forall e, (e < 4)%nat -> vertex_of (wing_grid 19 gs) (g 2%nat e 0)).
        { intros e He. pose proof (val_vertex 19 gs _ _ 20 0 Vs (SV e He) ltac:(lia) ltac:(lia)) as V. rewrite R1, R2 in V. unfold side_val in V. rewrite blend_1 in V. exact V. }
        split.
        + intros x y z Hx Hy Hz.
          assert (Q : forall x, (forall e, (e < 4)%nat -> vertex_of (wing_grid 19 gs) (square_edge (rx_h P) x e 0)) -> vertex_of (wing_grid 19 gs) (V3 x y z)).
          { intros x' HV. destruct (square_corners (rx_h P) x') as (S0 & S1 & S2 & S3).
            pose proof (HV 0%nat ltac:(lia)) as B0. pose proof (HV 1%nat ltac:(lia)) as B1. pose proof (HV 2%nat ltac:(lia)) as B2. pose proof (HV 3%nat ltac:(lia)) as B3.
            rewrite S0 in B0. rewrite S1 in B1. rewrite S2 in B2. rewrite S3 in B3. destruct Hy as [-> | ->], Hz as [-> | ->]; assumption. }
          destruct Hx as [-> | ->]; apply Q; intros e He; [rewrite <- GA; apply VA, He|rewrite <- GB; apply VB, He].
        + intros y z Hyz.
          pose proof (VC 0%nat ltac:(lia)) as B0. pose proof (VC 1%nat ltac:(lia)) as B1. pose proof (VC 2%nat ltac:(lia)) as B2. pose proof (VC 3%nat ltac:(lia)) as B3.
          rewrite X0 in B0. rewrite X1 in B1. rewrite X2 in B2. rewrite X3 in B3. destruct Hyz as [[[-> | ->] ->]|[[-> | ->] ->]]; assumption.
      - split; [rewrite (LN _ _ _ (proj1 (proj2 D3))); reflexivity|]. split.
        { intros y [-> | ->].
          - pose proof (rx_tail_tip bisect P _ (proj1 D3) 2 _ (or_introl eq_refl)) as V. rewrite T0 in V. cbn [vx vy] in V.
            replace (- rx_L_b P + 2 * rx_tail_thickness P - rx_tail_thickness P) with (- rx_L_b P + rx_tail_thickness P) in V by ring. exact V.
          - pose proof (rx_tail_tip bisect P _ (proj1 D3) 2 _ (or_intror eq_refl)) as V. rewrite T1 in V. cbn [vx vy] in V.
            replace (- rx_L_b P + 2 * rx_tail_thickness P - rx_tail_thickness P) with (- rx_L_b P + rx_tail_thickness P) in V by ring.
            replace (rx_h P - 2 / 100 * rx_tail_height P + 98 / 100 * rx_tail_height P) with (rx_h P + 96 / 100 * rx_tail_height P) in V by field. exact V. }
        intros s Hs.
        pose proof (V3' 2%nat s _ Hs (or_introl eq_refl)) as S0. pose proof (V3' 2%nat s _ Hs (or_intror (or_introl eq_refl))) as S1. pose proof (V3' 2%nat s _ Hs (or_intror (or_intror eq_refl))) as S3.
        rewrite T0 in S0. rewrite T1 in S1. rewrite T3 in S3. cbn [vx vy] in S0, S1, S3.
        replace (rx_h P - 2 / 100 * rx_tail_height P + 98 / 100 * rx_tail_height P) with (rx_h P + 96 / 100 * rx_tail_height P) in S1 by field.
        replace (rx_h P - 2 / 100 * rx_tail_height P - 2 / 100 * rx_tail_height P) with (rx_h P - 4 / 100 * rx_tail_height P) in S3 by field. auto. }
  Qed.
  Lemma rx_all : in_interval bisect -> answers bisect -> forall P, rx_fair P ->
    exists nose body canard wing trans tail, rx_shapes cs P nose body canard wing trans tail /\
      let ms := rx_meshes (rx_middle cs P) (in_radians (rx_canard_angle P)) nose body canard wing trans tail in
      forall call kw h, separate h -> rx_keywords kw P ->
      exists v h2 h3, flies call (ParametricReFEX bisect true true true true cs) kw h v h2 /\ rx_parts v h2 ms /\
        transform_vehicle (mark_generated v) CART3D h2 = (h3, Ok tt) /\
        map (fun ki => (fst ki, mesh_of h3 (snd ki))) (v_named v) = map (fun km => (fst km, Ok (snd km))) ms.
  Proof using Zs.
    intros Hi Han P HP. destruct (rx_drawn Hi Han P HP) as (p & q & line & t1 & gp & gq & g1 & g2 & g3 & gw & gs & rr & rs & (Ep & Eq & El & Et & Es0 & Evp & Evq & D1 & D2 & D3 & Ew & Kw & Sw & Es & Ks & Ss & G2) & SH).
    exists (profile_mesh 49 gp), (profile_mesh 49 gq), (wing_grid 2 g1), (wing_grid 2 gw), (wing_grid 19 gs), (wing_grid 2 g3). split; [exact SH|].
    cbv zeta. intros call kw h SP K.
    pose proof (rx_run bisect cs P h p q line t1 Ep Eq El Et Es0) as RUN.
    destruct (rx_generates bisect p q _ _ _ _ _ gp gq g1 g2 g3 gw gs rr rs h SP Evp Evq D1 D2 D3 Ew Kw Sw Es Ks Ss) as (h2 & A & LC & OP & Q).
    destruct (rx_turned_back bisect p q _ _ _ _ _ gp gq g1 g2 g3 gw gs rr rs h SP Evp Evq D1 D2 D3 Ew Kw Sw Es Ks Ss) as (h2' & h3' & A' & TB & QB).
    rewrite A in A'. injection A' as <-. unfold rx_built in Q, QB. rewrite G2 in Q, QB.
    set (c0 := length (comps h)) in *. exists (rx_made c0), h2, h3'.
    split; [eexists _, _; split; [apply rx_program, K|]; split; [exact RUN|exact A]|].
    set (nose := profile_mesh 49 gp) in *. set (body := profile_mesh 49 gq) in *. set (canard := wing_grid 2 g1) in *. set (wing := wing_grid 2 gw) in *. set (trans := wing_grid 19 gs) in *. set (tail := wing_grid 2 g3) in *.
    split; [|split; [exact TB|]].
    2: { pose proof (QB 0%nat ltac:(cbn; tauto)) as M0. pose proof (QB 1%nat ltac:(cbn; tauto)) as M1. pose proof (QB 2%nat ltac:(cbn; tauto)) as M2. pose proof (QB 3%nat ltac:(cbn; tauto)) as M3.
         pose proof (QB 4%nat ltac:(cbn; tauto)) as M4. pose proof (QB 5%nat ltac:(cbn; tauto)) as M5. pose proof (QB 6%nat ltac:(cbn; tauto)) as M6. cbn [rx_piece] in M0, M1, M2, M3, M4, M5, M6.
         cbn [rx_made v_named map fst snd]. rewrite M0, M1, M2, M3, M4, M5, M6. reflexivity. }
    pose proof (Q 0%nat ltac:(cbn; tauto)) as M0. pose proof (Q 1%nat ltac:(cbn; tauto)) as M1. pose proof (Q 2%nat ltac:(cbn; tauto)) as M2. pose proof (Q 3%nat ltac:(cbn; tauto)) as M3.
    pose proof (Q 4%nat ltac:(cbn; tauto)) as M4. pose proof (Q 5%nat ltac:(cbn; tauto)) as M5. pose proof (Q 6%nat ltac:(cbn; tauto)) as M6. cbn [rx_piece] in M0, M1, M2, M3, M4, M5, M6. clear Q QB.
    split; [reflexivity|]. split; [reflexivity|].
    split; [cbn [rx_made v_named map fst snd]; rewrite M0, M1, M2, M3, M4, M5, M6; reflexivity|].
    intros prefix fs0. set (v := mark_generated _).
    set (m := fun i => match mesh_of h2 i with Ok t => t | Raise _ => [] end).
    destruct (filed v prefix h2 fs0 [(rx_file prefix "revolved_1", c0 + 0); (rx_file prefix "revolved_2", c0 + 1); (rx_file prefix "fin_1", c0 + 2);
      (rx_file prefix "fin_2", c0 + 3); (rx_file prefix "wing_1", c0 + 4); (rx_file prefix "swept_1", c0 + 5); (rx_file prefix "fin_3", c0 + 6)]%nat%string m) as (h3 & fs & WR & F1 & F2).
    { intros i Hc. unfold m. cbn [v mark_generated rx_made v_components In] in Hc.
      destruct Hc as [<-|[<-|[<-|[<-|[<-|[<-|[<-|[]]]]]]]]; (split; [rewrite LC; lia|]); [rewrite M0|rewrite M1|rewrite M2|rewrite M3|rewrite M4|rewrite M5|rewrite M6]; reflexivity. }
    { destruct (OP 0%nat _ eq_refl) as (Y0 & U0 & N0). destruct (OP 1%nat _ eq_refl) as (Y1 & U1 & N1). destruct (OP 2%nat _ eq_refl) as (Y2 & U2 & N2).
      destruct (OP 3%nat _ eq_refl) as (Y3 & U3 & N3). destruct (OP 4%nat _ eq_refl) as (Y4 & U4 & N4). destruct (OP 5%nat _ eq_refl) as (Y5 & U5 & N5). destruct (OP 6%nat _ eq_refl) as (Y6 & U6 & N6).
      cbn [v mark_generated rx_made v_components files]. rewrite Y0, Y1, Y2, Y3, Y4, Y5, Y6. cbn [with_options wing_comp L_Parts.fin_comp rev_comp swept_comp default_add mirrored_add c_ghost a_ghost app].
      unfold file_name, earlier. rewrite N0, N1, N2, N3, N4, N5, N6. cbn [filter]. rewrite U0, U1, U2, U3, U4, U5, U6. unfold rx_file.
      cbn [with_options default_add mirrored_add a_name over c_name c_type wing_comp L_Parts.fin_comp rev_comp swept_comp text truthy String.eqb Ascii.eqb Bool.eqb negb length dget].
      destruct (text prefix); reflexivity. }
    { cbn [map fst]. repeat constructor; cbn [In]; intros H; repeat (destruct H as [H|H]; [revert H; eapply rx_apart; [reflexivity|reflexivity|discriminate]|]); exact H. }
    { intros s i Hc. cbn [v mark_generated rx_made v_components In] in *.
      repeat (destruct Hc as [Hc|Hc]; [injection Hc as _ <-; tauto|]). destruct Hc. }
    exists h3, fs. split; [exact WR|]. split.
    - intros k t I. unfold rx_meshes in I. cbn [In] in I.
      destruct I as [I|[I|[I|[I|[I|[I|[I|[]]]]]]]]; injection I as <- <-.
      + rewrite (F1 (rx_file prefix "revolved_1") (c0 + 0)%nat) by (left; reflexivity). unfold m. rewrite M0. reflexivity.
      + rewrite (F1 (rx_file prefix "revolved_2") (c0 + 1)%nat) by (do 1 right; left; reflexivity). unfold m. rewrite M1. reflexivity.
      + rewrite (F1 (rx_file prefix "fin_1") (c0 + 2)%nat) by (do 2 right; left; reflexivity). unfold m. rewrite M2. reflexivity.
      + rewrite (F1 (rx_file prefix "fin_2") (c0 + 3)%nat) by (do 3 right; left; reflexivity). unfold m. rewrite M3. reflexivity.
      + rewrite (F1 (rx_file prefix "wing_1") (c0 + 4)%nat) by (do 4 right; left; reflexivity). unfold m. rewrite M4. reflexivity.
      + rewrite (F1 (rx_file prefix "swept_1") (c0 + 5)%nat) by (do 5 right; left; reflexivity). unfold m. rewrite M5. reflexivity.
      + rewrite (F1 (rx_file prefix "fin_3") (c0 + 6)%nat) by (do 6 right; left; reflexivity). unfold m. rewrite M6. reflexivity.
    - intros s H. apply F2. cbn [map fst In]. intros I. unfold rx_meshes in H. cbn [In] in H.
      destruct I as [I|[I|[I|[I|[I|[I|[I|[]]]]]]]]; symmetry in I; revert I; eapply H.
      + left; reflexivity.
      + right; left; reflexivity.
      + do 2 right; left; reflexivity.
      + do 3 right; left; reflexivity.
      + do 4 right; left; reflexivity.
      + do 5 right; left; reflexivity.
      + do 6 right; left; reflexivity.
  Qed.

  (** C113: ParametricReFEX on any heap, with all parts switched on *)
  Theorem C113_refex : in_interval bisect -> answers bisect -> forall P, rx_fair P ->
    exists nose body canard wing trans tail, rx_shapes cs P nose body canard wing trans tail /\
      forall call kw h, separate h -> rx_keywords kw P ->
      exists v h2, flies call (ParametricReFEX bisect true true true true cs) kw h v h2 /\
        rx_parts v h2 (rx_meshes (rx_middle cs P) (in_radians (rx_canard_angle P)) nose body canard wing trans tail).
  Proof using Zs.
    intros Hi Han P HP. destruct (rx_all Hi Han P HP) as (a & b & c & d & e & f & S & H). exists a, b, c, d, e, f. split; [exact S|].
    intros call kw h SP K. destruct (H call kw h SP K) as (v & h2 & h3 & A & B & _). eauto.
  Qed.
  (** C113: the script of refex.py turns the generated vehicle to the frame of Cart3D
      a second time, which takes it out of that frame again *)
  Theorem C113_script : in_interval bisect -> answers bisect -> forall P, rx_fair P ->
    exists nose body canard wing trans tail, rx_shapes cs P nose body canard wing trans tail /\
      forall call kw h, separate h -> rx_keywords kw P ->
      exists v h2 h3, flies call (ParametricReFEX bisect true true true true cs) kw h v h2 /\
        transform_vehicle (mark_generated v) CART3D h2 = (h3, Ok tt) /\
        map (fun ki => (fst ki, mesh_of h3 (snd ki))) (v_named v) =
        map (fun km => (fst km, Ok (snd km))) (rx_meshes (rx_middle cs P) (in_radians (rx_canard_angle P)) nose body canard wing trans tail).
  Proof using Zs.
    intros Hi Han P HP. destruct (rx_all Hi Han P HP) as (a & b & c & d & e & f & S & H). exists a, b, c, d, e, f. split; [exact S|].
    intros call kw h SP K. destruct (H call kw h SP K) as (v & h2 & h3 & A & _ & B & C). eauto 6.
  Qed.

  (** C113: the wing is weightless, and the nose and the body count as negative *)
  Theorem C113_mass mp areas : in_interval bisect -> answers bisect -> weighs mp -> forall P, rx_fair P ->
    exists nose body canard wing trans tail, rx_shapes cs P nose body canard wing trans tail /\
      forall call kw h densities, separate h -> rx_keywords kw P ->
      (forall k, In k ["revolved_1"; "revolved_2"; "fin_1"; "fin_2"; "wing_1"; "swept_1"; "fin_3"]%string -> exists r, dget densities k = Some r) ->
      let rho k := match dget densities k with Some r => r | None => 0 end in
      let other := other_canard (rx_middle cs P) (in_radians (rx_canard_angle P)) canard in
      exists v h2 h3 cog moi, flies call (ParametricReFEX bisect true true true true cs) kw h v h2 /\
        analyse mp areas (mark_generated v) densities h2 = (h3, mark_generated v,
          Ok (signed_volume nose + signed_volume body + signed_volume canard + signed_volume other + signed_volume trans + signed_volume tail,
              rho "revolved_1"%string * signed_volume nose + rho "revolved_2"%string * signed_volume body + rho "fin_1"%string * signed_volume canard + rho "fin_2"%string * signed_volume other
              + rho "swept_1"%string * signed_volume trans + rho "fin_3"%string * signed_volume tail, cog, moi)).
  Proof using Zs.
    intros Hi Han MP P HP. destruct (C113_refex Hi Han P HP) as (nose & body & canard & wing & trans & tail & SH & H).
    exists nose, body, canard, wing, trans, tail. split; [exact SH|]. intros call kw h densities SP K Den rho other. destruct (H call kw h SP K) as (v & h2 & FL & _ & _ & MM & _). clear H.
    unfold rx_meshes in MM.
    destruct (v_named v) as [|[k1 i1] [|[k2 i2] [|[k3 i3] [|[k4 i4] [|[k5 i5] [|[k6 i6] [|[k7 i7] [|]]]]]]]] eqn:Evn; try discriminate MM.
    cbn [map fst snd] in MM. injection MM as -> A1 -> A2 -> A3 -> A4 -> A5 -> A6 -> A7.
    assert (Z : forall m, signed_volume (m ++ map_mesh (reflect (axis_vec "y")) m) = 0).
    { intros m. rewrite signed_volume_app, reflect_volume by (apply axis_cases; right; left; reflexivity). ring. }
    assert (W : forall m, signed_volume (map_mesh to_cart3d m) = signed_volume m).
    { intros m. rewrite volume_fix0; [|exact to_cart3d_affine|unfold to_cart3d, origin; apply vec_ext; cbn; ring]. destruct C92_rotation as (_ & -> & _). ring. }
    set (m := fun i => match mesh_of h2 i with Ok t => t | Raise _ => [] end).
    destruct (weighed mp areas (mark_generated v) h2 densities m MP eq_refl) as (h3 & cog & moi & AN).
    - cbn [mark_generated v_named]. rewrite Evn. discriminate.
    - cbn [mark_generated v_named]. rewrite Evn. intros k i I. cbn [In] in I. unfold m.
      destruct I as [I|[I|[I|[I|[I|[I|[I|[]]]]]]]]; injection I as <- <-;
        (split; [first [rewrite A1|rewrite A2|rewrite A3|rewrite A4|rewrite A5|rewrite A6|rewrite A7]; reflexivity|apply Den; cbn; tauto]).
    - exists v, h2, h3, cog, moi. split; [exact FL|].
      rewrite AN. cbn [mark_generated v_named]. rewrite Evn. cbn [rsum fst snd]. unfold m. rewrite A1, A2, A3, A4, A5, A6, A7, !W, Z.
      fold other.
      change (match dget densities "revolved_1" with Some r => r | None => 0 end) with (rho "revolved_1"%string).
      change (match dget densities "revolved_2" with Some r => r | None => 0 end) with (rho "revolved_2"%string).
      change (match dget densities "fin_1" with Some r => r | None => 0 end) with (rho "fin_1"%string).
      change (match dget densities "fin_2" with Some r => r | None => 0 end) with (rho "fin_2"%string).
      change (match dget densities "swept_1" with Some r => r | None => 0 end) with (rho "swept_1"%string).
      change (match dget densities "fin_3" with Some r => r | None => 0 end) with (rho "fin_3"%string).
      match goal with |- (_, _, Ok (?a, ?b, _, _)) = (_, _, Ok (?c, ?d, _, _)) => replace a with c by ring; replace b with d by ring end. reflexivity.
  Qed.
End Refex.

Lemma vertex_moved f (m : list (tri R)) p : vertex_of m p -> vertex_of (map_mesh f m) (f p).
Proof.
  intros (t & I & H). exists (map_tri f t). split; [apply in_map, I|]. destruct H as [-> |[-> | ->]]; cbn; auto.
Qed.
(** C113: the three corners of each face of one canard have their mirror images on
    the other, whatever the angle of the canards *)
Theorem C113_canards cs P nose body canard wing trans tail : rx_shapes cs P nose body canard wing trans tail ->
  let h := rx_h P in let x := - rx_L_o P + vx cs in let y := 974 / 1000 * h + vy cs in let a := in_radians (rx_canard_angle P) in
  forall s, s = rx_fin_thickness P / 2 \/ s = - (rx_fin_thickness P / 2) ->
  forall p, p = V3 (x - 169 / 100 * h) y s \/ p = V3 (x - 169 / 100 * h) (y + 1274 / 1000 * h) s \/ p = V3 x y s ->
  let q := pitched (rx_middle cs P) a p in vertex_of canard q /\ vertex_of (other_canard (rx_middle cs P) a canard) (V3 (vx q) (- vy q) (vz q)).
Proof.
  intros (_ & _ & (_ & H & _) & _) h x y a s Hs p Hp q. cbv zeta in H. split; [exact (H s Hs p Hp)|].
  assert (E : V3 (vx q) (- vy q) (vz q) = rolled PI (pitched (rx_middle cs P) (- (2 * a)) (pitched (rx_middle cs P) a (V3 (vx p) (vy p) (- vz p))))).
  { rewrite <- pitched_sum. replace (- (2 * a) + a) with (- a) by ring. unfold q, rolled, pitched. rewrite cos_PI, sin_PI, cos_neg, sin_neg. apply vec_ext; cbn; ring. }
  rewrite E. unfold other_canard. apply (vertex_moved (fun p => rolled PI (pitched (rx_middle cs P) (- (2 * a)) p))).
  apply (H (- s)); [destruct Hs as [-> | ->]; [right; reflexivity|left; ring]|].
  destruct Hp as [-> |[-> | ->]]; cbn [vx vy vz]; auto.
Qed.
(** C113: the transition stands out of the round body: it has edges sqrt 2 times the
    radius from the axis, at both ends of its square part; the nose reaches into
    the body, when the body is longer than the fairing *)
Theorem C113_apart cs P nose body canard wing trans tail : rx_fair P -> rx_shapes cs P nose body canard wing trans tail ->
  (forall x, x = - rx_L_b P \/ x = - rx_L_b P + 9 / 10 * rx_wing_length P ->
   exists p, vertex_of trans p /\ vx p = x /\ radius_x p = sqrt 2 * rx_h P /\ forall q, vertex_of body q -> radius_x q < radius_x p) /\
  (rx_L_o P < rx_L_b P -> exists p a b, vertex_of nose p /\ vertex_of body a /\ vertex_of body b /\ vx a < vx p < vx b /\ on_axis p /\ on_axis a /\ on_axis b).
Proof.
  intros (Hn & Hh & HLo & HLb & _) ((_ & _ & _ & _ & N1 & NI) & (_ & _ & _ & _ & B0 & B1 & BI) & _ & _ & (_ & _ & T & _) & _).
  assert (RX : radius_x (V3 0 (rx_h P) (rx_h P)) = sqrt 2 * rx_h P).
  { unfold radius_x. cbn [vy vz]. replace (rx_h P * rx_h P + rx_h P * rx_h P) with (2 * (rx_h P * rx_h P)) by ring. rewrite sqrt_mult by nra. rewrite sqrt_square by lra. reflexivity. }
  assert (S2 : 1 < sqrt 2) by (rewrite <- sqrt_1 at 1; apply sqrt_lt_1; lra).
  split.
  - intros x Hx. exists (V3 x (rx_h P) (rx_h P)). split; [apply (T x (rx_h P) (rx_h P) Hx); auto|]. split; [reflexivity|].
    change (radius_x (V3 x (rx_h P) (rx_h P))) with (radius_x (V3 0 (rx_h P) (rx_h P))). rewrite RX. split; [reflexivity|]. intros q Hq. apply BI in Hq. nra.
  - intros H. exists (V3 (- rx_L_o P) 0 0), (V3 (- rx_L_b P) 0 0), (V3 0 0 0). split; [exact N1|]. split; [exact B1|]. split; [exact B0|]. cbn [vx]. split; [lra|]. repeat split.
Qed.
(** C113: with the default attributes the exact volume of the body is missed; the
    roots of the canards are inside the body; and the nose reaches into it *)
Definition rx_default : rx_params R := mkRx (225 / 1000) (75 / 1000) (15 / 10) (5 / 100) (25 / 10) (2 / 100) (9 / 10) (35 / 100) (35 / 100) (2 / 100) 0.
Theorem C113_default nose body canard wing trans tail : rx_shapes (V3 (15 / 100) 0 0) rx_default nose body canard wing trans tail ->
  - (ngon 200 * (225 / 1000 * (225 / 1000)) * (25 / 10)) < signed_volume body /\
  exists p q, vertex_of canard p /\ vertex_of canard q /\ radius_x p < 225 / 1000 < radius_x q.
Proof.
  intros H. pose proof H as (_ & (_ & _ & [VL _] & VI & _) & _). cbn [rx_default rx_h rx_L_b] in VL, VI. split.
  - destruct VL as [VL|VL]; [exact VL|exfalso]. destruct (proj1 VI (eq_sym VL)) as (k & E).
    assert (U : INR k * (2 * (225 / 1000) + 25 / 10) = 225 / 20) by (rewrite <- E; lra).
    assert (B : 3 < INR k < 4) by lra.
    assert (k = 3 \/ k <= 2 \/ 4 <= k)%nat as [-> |[L|L]] by lia; [cbn in B; lra|apply le_INR in L; cbn in L; lra|apply le_INR in L; cbn in L; lra].
  - pose proof (C113_canards _ _ _ _ _ _ _ _ H) as C. cbv zeta in C. cbn [rx_default rx_h rx_L_o rx_fin_thickness rx_canard_angle vx vy] in C. unfold in_radians in C. rewrite Rmult_0_l in C.
    specialize (C (2 / 100 / 2) (or_introl eq_refl)). pose proof (proj1 (C _ (or_introl eq_refl))) as V0. pose proof (proj1 (C _ (or_intror (or_introl eq_refl)))) as V1. rewrite pitched_0 in V0, V1.
    eexists _, _. split; [exact V0|]. split; [exact V1|]. unfold radius_x. cbn [vy vz]. pose proof (sqrt_square (225 / 1000) ltac:(lra)) as SQ. split; eapply Rle_lt_trans; [apply Rle_refl| |apply Req_le; symmetry; exact SQ|]; [rewrite <- SQ at 3|]; apply sqrt_lt_1; lra.
Qed.

(** the default vehicle; and one with a longer nose and deflected canards *)
Example C113_meets : in_interval (loop_bisect 20) /\ answers (loop_bisect 20) /\ separate (mkHeap [] []) /\ vz (V3 (15 / 100) 0 0 : pt) = 0 /\
  rx_keywords [] rx_default /\ rx_fair rx_default /\
  rx_keywords [("r_o"%string, PNum 3); ("canard_angle"%string, PNum 10)] (mkRx (225 / 1000) (75 / 1000) 3 (5 / 100) (25 / 10) (2 / 100) (9 / 10) (35 / 100) (35 / 100) (2 / 100) 10) /\
  rx_fair (mkRx (225 / 1000) (75 / 1000) 3 (5 / 100) (25 / 10) (2 / 100) (9 / 10) (35 / 100) (35 / 100) (2 / 100) 10) /\
  weighs (fun m rho => (signed_volume m, signed_volume m * rho, origin, M3 origin origin origin)).
Proof.
  destruct (loop_bisects 20) as (A & B & _). split; [exact A|]. split.
  { intros f phi E S. destruct (B f phi E S) as (t & _ & _ & H & _). eauto. }
  split; [split; [intros j Hj; cbn in Hj; lia|]; intros j k c c' H; destruct j; discriminate|].
  split; [reflexivity|].
  split; [split; [split; [constructor|split; cbn; intuition discriminate]|]; intros k d x I; cbn [rx_attributes rx_default In] in I; repeat (destruct I as [I|I]; [injection I as <- <- <-; reflexivity|]); destruct I|].
  split; [unfold rx_fair; cbn; lra|].
  split; [split; [split; [repeat constructor; cbn; intuition discriminate|split; cbn; intuition discriminate]|]; intros k d x I; cbn [rx_attributes In] in I; repeat (destruct I as [I|I]; [injection I as <- <- <-; reflexivity|]); destruct I|].
  split; [unfold rx_fair; cbn; lra|].
  intros m rho. eauto.
Qed.

Print Assumptions C113_refex.
Print Assumptions C113_script.
Print Assumptions C113_mass.
Print Assumptions C113_canards.
Print Assumptions C113_apart.
Print Assumptions C113_default.
