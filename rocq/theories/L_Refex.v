(** The parametric ReFEX: its parts. *)
From Coq Require Import String Reals Lra ZArith List Permutation Lia Bool.
From Verif Require Import Num NumR Py M_Vector SpecR3 M_Path M_Surface M_Geometry M_Mesh M_Component M_Common M_Wing M_Fin M_Vehicle M_VecHeap M_Sens M_Gen M_Hangar M_Htv M_X43 M_D21 M_Refex
  SpecPath SpecPoly SpecSurf SpecMesh SpecComp SpecVehicle SpecAdd SpecPrism SpecHangar SpecWing SpecFin SpecPair SpecFiles SpecHtv SpecHalf SpecX43 SpecLathe SpecProfile SpecHifire8 SpecRefex
  L_Vector L_Line L_Polyline L_Coons L_Curves L_Ellipse L_Wing L_WingOk L_WingTotal L_Fin L_FinSeams L_FinTotal L_Component L_RevolvedComp L_Mesh L_Heap L_Volume L_Rigid L_Reflect L_Pipeline L_Generate L_Cache L_Files L_Wedge L_SweptComp L_Closed L_Edges L_Prism L_Lathe L_Hangar L_Block L_Pair L_Half L_Htv L_Parts L_Finner L_Profile L_Falcon L_Parts2 L_Parts3 L_D21 L_Hifire4 L_Hifire8 L_Hifire8b L_Cluster L_Parts4 P_Arc M_Wing.
Import ListNotations.
Local Open Scope R_scope.

(** ** fins turned about their pivot *)
Lemma pitched_rodrigues c a p : vz c = 0 -> translate c (rodrigues (axis_vec "y"%string) origin a (diff p c)) = pitched (vx c) a p.
Proof. intros Z. unfold pitched, rodrigues, axis_vec, crossR, inner, translate, plus_scaled, scaled, diff, origin. apply vec_ext; cbn; rewrite ?Z; ring. Qed.
Lemma turned_patch u a c r s p : vz c = 0 -> u r s = Ok p -> RotatedPatch u a "y"%string c r s = Ok (pitched (vx c) a p).
Proof.
  intros Z E. unfold RotatedPatch. rewrite E. cbn [bind]. unfold rotate_vec, lower_axis. cbn [String.eqb Ascii.eqb Bool.eqb bind]. f_equal.
  unfold pitched, vadd, vsub; numR; apply vec_ext; cbn; rewrite ?Z; ring.
Qed.
Lemma rolled_patch u a r s p : u r s = Ok p -> RotatedPatch u a "x"%string default_point r s = Ok (rolled a p).
Proof.
  intros E. unfold RotatedPatch. rewrite E. cbn [bind]. unfold rotate_vec, lower_axis. cbn [String.eqb Ascii.eqb Bool.eqb bind]. f_equal.
  unfold rolled, vadd, vsub, default_point; numR; apply vec_ext; cbn; ring.
Qed.
Lemma pivoted_faces bisect f h d : fin_patches bisect f = Ok d -> vertical (f_top f) (fun _ _ => - h) -> vertical (f_bot f) (fun _ _ => h) ->
  vz (f_pivot_point f) = 0 -> f_offset f = None ->
  let place p side := rolled (f_angle f) (pitched (vx (f_pivot_point f)) (f_pivot_angle f) (V3 (vx p) (vy p) (vz p + side))) in
  exists top bot, In ("top_patch"%string, top) d /\ In ("bot_patch"%string, bot) d /\
    top 1 0 = Ok (place (f_p1 f) (- h)) /\ top 0 1 = Ok (place (f_p3 f) (- h)) /\ top 0 0 = Ok (place (f_p0 f) (- h)) /\
    bot 0 1 = Ok (place (f_p1 f) h) /\ bot 1 0 = Ok (place (f_p3 f) h) /\ bot 0 0 = Ok (place (f_p0 f) h).
Proof.
  intros Ed Vt Vb PZ OF place. unfold fin_patches in Ed.
  destruct (fin_edge f) as [q|] eqn:E1; [|discriminate Ed]. cbn [bind] in Ed.
  destruct (fin_panels f) as [pa|] eqn:E2; [|discriminate Ed]. cbn [bind] in Ed.
  destruct (fin_t_B1 bisect f q) as [t1|] eqn:E3; [|discriminate Ed]. cbn [bind] in Ed.
  destruct (fin_bottom f) as [bo|] eqn:E4; [|discriminate Ed]. cbn [bind] in Ed.
  destruct (if String.eqb (f_rudder f) "sharp" then fin_sharp f else fin_flat f) as [tr|] eqn:E5; [|discriminate Ed]. cbn [bind] in Ed.
  unfold fin_panels in E2.
  destruct (CoonsPatch (Line (f_p1 f) (f_p2 f)) _ _ _) as [pl|] eqn:C1 in E2; [|discriminate E2]. cbn [bind] in E2.
  destruct (CoonsPatch (Line (f_p3 f) (f_p2 f)) _ _ _) as [fl|] eqn:C2 in E2; [|discriminate E2]. cbn [bind] in E2. injection E2 as <-.
  rewrite OF in Ed.
  set (move := fun u : surf R => RotatedPatch (RotatedPatch u (f_pivot_angle f) "y" (f_pivot_point f)) (f_angle f) "x" default_point).
  assert (IM : forall (F : surf R -> surf R) k (v : surf R) l, In (k, v) l -> In (k, F v) (dmap F l)).
  { intros F k v l I. unfold dmap. apply in_map_iff. exists (k, v). auto. }
  assert (MV : forall k u, In (k, u) ([("top_patch"%string, OffsetPatchFunction fl (f_top f)); ("bot_patch"%string, OffsetPatchFunction pl (f_bot f))] ++
      fin_leading_edge f q t1 ++ bo ++ tr) -> In (k, move u) d).
  { intros k u I. injection Ed as <-. unfold move.
    apply (IM (fun u => RotatedPatch u (f_pivot_angle f) "y" (f_pivot_point f)) k u) in I.
    apply (IM (fun u => RotatedPatch u (f_angle f) "x" default_point) k _) in I. exact I. }
  exists (move (OffsetPatchFunction fl (f_top f))), (move (OffsetPatchFunction pl (f_bot f))).
  split; [apply MV; left; reflexivity|]. split; [apply MV; right; left; reflexivity|].
  assert (X : forall u r s p, u r s = Ok p -> move u r s = Ok (rolled (f_angle f) (pitched (vx (f_pivot_point f)) (f_pivot_angle f) p))).
  { intros u r s p E. unfold move. apply rolled_patch, turned_patch; assumption. }
  destruct (coons_surf_w _ _ _ _ _ _ _ _ fl (line_evaluates _ _) (line_evaluates _ _) (line_evaluates _ _) (line_evaluates _ _) C2) as (F0 & F1 & _).
  destruct (coons_surf_w _ _ _ _ _ _ _ _ pl (line_evaluates _ _) (line_evaluates _ _) (line_evaluates _ _) (line_evaluates _ _) C1) as (P0 & P1 & _).
  unfold place. repeat split; apply X.
  - rewrite (offset_patch fl _ _ 1 0 _ Vt (F1 0)), lerp_0. reflexivity.
  - rewrite (offset_patch fl _ _ 0 1 _ Vt (F0 1)), lerp_1. reflexivity.
  - rewrite (offset_patch fl _ _ 0 0 _ Vt (F0 0)), lerp_0. reflexivity.
  - rewrite (offset_patch pl _ _ 0 1 _ Vb (P0 1)), lerp_1. reflexivity.
  - rewrite (offset_patch pl _ _ 1 0 _ Vb (P1 0)), lerp_0. reflexivity.
  - rewrite (offset_patch pl _ _ 0 0 _ Vb (P0 0)), lerp_0. reflexivity.
Qed.

(** the width of the leading edges *)
Lemma rx_width_ok : (forall t, 0 <= t <= 1 -> exists k, rx_width (T := R) t = Ok k) /\ rx_width (T := R) 0 = Ok (1 / 100) /\ rx_width (T := R) 1 = Ok (1 / 100).
Proof.
  split; [|split].
  - intros t Ht. unfold rx_width. cbn. eexists. reflexivity.
  - unfold rx_width. cbn. f_equal. field.
  - unfold rx_width. cbn. f_equal. field.
Qed.

(** a fin of uniform thickness with a sharp rudder *)
Definition sharp_fin (p0 p1 p2 p3 : pt) (t a pa : R) (pv : pt) : fin R :=
  mkFin p0 p1 p2 p3 t a (uniform_thickness_function t "top") (uniform_thickness_function t "bot") (Some rx_width) "sharp" t 0 pa pv None.
Lemma sharp_fin_ok bisect p0 p1 p2 p3 t a pa pv : in_interval bisect -> answers bisect -> vx p1 < vx p2 < vx p3 -> vz p0 = 0 -> vz p1 = 0 -> vz p3 = 0 -> vz pv = 0 ->
  0 < t <= 1000 -> let f := sharp_fin p0 p1 p2 p3 t a pa pv in
  exists d, d21_fin_done bisect f d /\ forall n s p, (s = t / 2 \/ s = - (t / 2)) -> p = p0 \/ p = p1 \/ p = p3 ->
    vertex_of (wing_grid n d) (rolled a (pitched (vx pv) pa (V3 (vx p) (vy p) s))).
Proof.
  intros Hi Han HX Z0 Z1 Z3 Zp Ht f. destruct rx_width_ok as (W & W0 & W1). destruct (uniform_up t) as [Vt Vb].
  destruct (fin_built bisect f (t / 2) (1 / 100) (1 / 100) Hi Han) as (d & Ed & Kd & Sd); try assumption.
  - unfold f. cbn [f_thickness sharp_fin]. field.
  - unfold f; cbn [f_p1 f_p2 sharp_fin]. intros Q. rewrite Q in HX. lra.
  - unfold f; cbn [f_p2 f_p3 sharp_fin]. intros Q. rewrite Q in HX. lra.
  - unfold f; cbn [f_p1 f_p2 f_p3 sharp_fin]. lra.
  - apply small_of; lra.
  - apply small_of; lra.
  - discriminate.
  - exists d. split; [split; [exact Ed|split; [exact Kd|exact Sd]]|]. intros n s p Hs Hp.
    destruct (pivoted_faces bisect f (t / 2) d Ed Vt Vb Zp eq_refl) as (top & bot & It & Ib & T1 & T3 & T0 & B1 & B3 & B0).
    cbn [f sharp_fin f_angle f_pivot_point f_pivot_angle f_p0 f_p1 f_p3] in T0, T1, T3, B0, B1, B3. rewrite Z0, Rplus_0_l in T0, B0. rewrite Z1, Rplus_0_l in T1, B1. rewrite Z3, Rplus_0_l in T3, B3.
    assert (N0 : INR 0 / INR (S n) = 0) by (cbn [INR]; unfold Rdiv; ring).
    assert (N1 : INR (S n) / INR (S n) = 1) by (field; apply not_0_INR; lia).
    destruct Hs as [-> | ->]; destruct Hp as [-> | [-> | ->]].
    + apply (node_vertex n d "bot_patch" bot 0 0); [exact Ib|lia|lia|]. rewrite N0. exact B0.
    + apply (node_vertex n d "bot_patch" bot 0 (S n)); [exact Ib|lia|lia|]. rewrite N0, N1. exact B1.
    + apply (node_vertex n d "bot_patch" bot (S n) 0); [exact Ib|lia|lia|]. rewrite N0, N1. exact B3.
    + apply (node_vertex n d "top_patch" top 0 0); [exact It|lia|lia|]. rewrite N0. exact T0.
    + apply (node_vertex n d "top_patch" top (S n) 0); [exact It|lia|lia|]. rewrite N0, N1. exact T1.
    + apply (node_vertex n d "top_patch" top 0 (S n)); [exact It|lia|lia|]. rewrite N0, N1. exact T3.
Qed.

(** the sharp trailing edge stands out by the length of the rudder, behind both ends of the root and the tip *)
Lemma pivoted_tip bisect f h d : fin_patches bisect f = Ok d -> vertical (f_top f) (fun _ _ => - h) -> vertical (f_bot f) (fun _ _ => h) ->
  vz (f_pivot_point f) = 0 -> f_offset f = None -> f_rudder f = "sharp"%string ->
  let place p := rolled (f_angle f) (pitched (vx (f_pivot_point f)) (f_pivot_angle f) p) in
  exists u, In ("TE_top"%string, u) d /\ u 0 0 = Ok (place (rudder_tip f (f_p0 f))) /\ u 1 0 = Ok (place (rudder_tip f (f_p1 f))).
Proof.
  intros Ed Vt Vb PZ OF Sh place. unfold fin_patches in Ed.
  destruct (fin_edge f) as [q|] eqn:E1; [|discriminate Ed]. cbn [bind] in Ed.
  destruct (fin_panels f) as [pan|] eqn:E2; [|discriminate Ed]. cbn [bind] in Ed.
  destruct (fin_t_B1 bisect f q) as [t1|] eqn:E3; [|discriminate Ed]. cbn [bind] in Ed.
  destruct (fin_bottom f) as [bo|] eqn:E4; [|discriminate Ed]. cbn [bind] in Ed.
  rewrite Sh in Ed. cbn [String.eqb Ascii.eqb Bool.eqb] in Ed.
  destruct (fin_sharp f) as [tr|] eqn:E5; [|discriminate Ed]. cbn [bind] in Ed. rewrite OF in Ed.
  assert (exists u rest, tr = ("TE_top"%string, u) :: rest /\ u 0 0 = Ok (rudder_tip f (f_p0 f)) /\ u 1 0 = Ok (rudder_tip f (f_p1 f))) as (u & rest & -> & Ea0 & Ea1).
  { unfold fin_sharp in E5.
    destruct (TrailingEdgePatch (f_p0 f) (f_p1 f) _ _ _ "top") as [u|] eqn:T1 in E5; [|discriminate E5]. cbn [bind] in E5.
    destruct (TrailingEdgePatch (f_p0 f) (f_p1 f) _ _ _ "bot") as [b|] eqn:T2 in E5; [|discriminate E5]. cbn [bind] in E5.
    rewrite Vt, Vb in E5. cbn [bind] in E5.
    destruct (fin_ellipses f (f_p1 f) n0) as [[et eb]|]; [|discriminate E5]. cbn [bind] in E5.
    destruct (CoonsPatch eb _ _ _) as [e|] in E5; [|discriminate E5]. cbn [bind] in E5.
    match type of E5 with (let! _ := ?c in _) = _ => destruct c as [tt'|]; [|discriminate E5] end. cbn [bind] in E5.
    injection E5 as <-. exists u. eexists. split; [reflexivity|].
    destruct (te_top _ _ _ _ _ _ _ (te_path _ _ _ _ Vt) T1) as (A & B & _).
    split; [generalize (A 0)|generalize (B 0)]; cbn [on_side fst snd]; intros ->; rewrite lerp_0; reflexivity. }
  set (move := fun u : surf R => RotatedPatch (RotatedPatch u (f_pivot_angle f) "y" (f_pivot_point f)) (f_angle f) "x" default_point).
  assert (IM : forall (F : surf R -> surf R) k (v : surf R) l, In (k, v) l -> In (k, F v) (dmap F l)).
  { intros F k v l I. unfold dmap. apply in_map_iff. exists (k, v). auto. }
  exists (move u). split.
  { injection Ed as <-. unfold move. apply (IM (fun u => RotatedPatch u (f_angle f) "x" default_point)), (IM (fun u => RotatedPatch u (f_pivot_angle f) "y" (f_pivot_point f))).
    apply in_or_app; right. do 4 right. apply in_or_app; right. left; reflexivity. }
  assert (X : forall r s w, u r s = Ok w -> move u r s = Ok (place w)).
  { intros r s w E. unfold move, place. apply rolled_patch, turned_patch; assumption. }
  split; apply X; assumption.
Qed.
Lemma sharp_fin_tip bisect p0 p1 p2 p3 t a pa pv d : vz pv = 0 -> fin_patches bisect (sharp_fin p0 p1 p2 p3 t a pa pv) = Ok d ->
  forall n p, p = p0 \/ p = p1 -> vertex_of (wing_grid n d) (rolled a (pitched (vx pv) pa (V3 (vx p - t) (vy p) 0))).
Proof.
  intros PZ Ed n p Hp. destruct (uniform_up t) as [Vt Vb].
  destruct (pivoted_tip bisect (sharp_fin p0 p1 p2 p3 t a pa pv) (t / 2) d Ed Vt Vb PZ eq_refl eq_refl) as (u & I & Ea0 & Ea1). clear Ed.
  cbn [sharp_fin f_angle f_pivot_point f_pivot_angle f_p0 f_p1] in Ea0, Ea1.
  assert (TP : forall w, rudder_tip (sharp_fin p0 p1 p2 p3 t a pa pv) w = V3 (vx w - t) (vy w) 0).
  { intros w. unfold rudder_tip. cbn [sharp_fin f_rudder_length f_rudder_angle]. rewrite sin_0, Rmult_0_r. reflexivity. }
  rewrite TP in Ea0, Ea1.
  assert (N0 : INR 0 / INR (S n) = 0) by (cbn [INR]; unfold Rdiv; ring).
  assert (N1 : INR (S n) / INR (S n) = 1) by (field; apply not_0_INR; lia).
  destruct Hp as [-> | ->].
  - apply (node_vertex n d "TE_top" u 0 0); [exact I|lia|lia|]. rewrite N0. exact Ea0.
  - apply (node_vertex n d "TE_top" u (S n) 0); [exact I|lia|lia|]. rewrite N0, N1. exact Ea1.
Qed.

(** ** arcs in a plane across the axis *)
Lemma arc_across a b c : vx a = vx c -> vx b = vx c -> dist a c = dist b c -> crossR (diff a c) (diff b c) <> origin ->
  exists g, evaluates (Arc a b c) g /\ g 0 = a /\ g 1 = b /\ forall t, dist (g t) c = dist a c /\ vx (g t) = vx c.
Proof.
  intros Xa Xb D NZ.
  assert (F : vy (crossR (diff a c) (diff b c)) = 0) by (unfold crossR, diff; cbn; rewrite Xa, Xb; ring).
  destruct (C13_arc_flat a b c D NZ F) as (th & _ & _ & E0 & E1 & E). exists (fun t => arc_point a b c (t * th)). split; [intros t; apply E|].
  assert (U : forall t p, p_call (Arc a b c) t = Ok p -> arc_point a b c (t * th) = p) by (intros t p Q; destruct (E t) as [Q' _]; congruence).
  split; [apply U, E0|]. split; [apply U, E1|]. intros t. split; [apply E|].
  unfold arc_point, arc_normal, plus_scaled, scaled, crossR, diff, translate. cbn [vx vy vz]. rewrite Xa, Xb. ring.
Qed.

(** ** the transition between the body and the wings *)
Section Transition.
  Variables h x0 x1 x2 : R.
  Hypothesis Hh : 0 < h.
  Let sw x := V3 x (- h) 0.
  Let nw x := V3 x h 0.
  Let se x := V3 x (- h) h.
  Let ne x := V3 x h h.
  Let su x := V3 x (- (h / 2)) (h * (sqrt 3 / 2)).
  Let nu x := V3 x (h / 2) (h * (sqrt 3 / 2)).
  Lemma root3 : sqrt 3 / 2 * (sqrt 3 / 2) = 3 / 4 /\ 0 < sqrt 3.
  Proof using. pose proof (sqrt_sqrt 3 ltac:(lra)). pose proof (sqrt_lt_R0 3 ltac:(lra)). split; [lra|assumption]. Qed.
  Lemma sixty : ncos (Num := NumR) (ndeg2rad (nZ 60)) = 1 / 2 /\ nsin (Num := NumR) (ndeg2rad (nZ 60)) = sqrt 3 / 2.
  Proof using. numR. replace (60 * (PI / 180)) with (PI / 3) by field. split; [apply cos_PI3|apply sin_PI3]. Qed.
  Lemma round_is x : let c := V3 x 0 0 in
    [Arc (nw x) (nu x) c; ReversedPath (Arc (su x) (nu x) c); ReversedPath (Arc (sw x) (su x) c); Line (sw x) (nw x)] =
    rx_round (mkRx h 0 0 0 0 0 0 0 0 0 0) x.
  Proof using.
    destruct sixty as [C S]. cbv zeta. unfold rx_round. cbn [rx_h]. rewrite C, S. numR. unfold nw, sw, nu, su.
    replace (- h * (1 / 2)) with (- (h / 2)) by field. replace (h * (1 / 2)) with (h / 2) by field. reflexivity.
  Qed.
  Lemma arcs_ok x : exists ga gb gc, let c := V3 x 0 0 in
    (evaluates (Arc (nw x) (nu x) c) ga /\ ga 0 = nw x /\ ga 1 = nu x) /\
    (evaluates (Arc (su x) (nu x) c) gb /\ gb 0 = su x /\ gb 1 = nu x) /\
    (evaluates (Arc (sw x) (su x) c) gc /\ gc 0 = sw x /\ gc 1 = su x) /\
    forall t, (dist (ga t) c = h /\ vx (ga t) = x) /\ (dist (gb t) c = h /\ vx (gb t) = x) /\ (dist (gc t) c = h /\ vx (gc t) = x).
  Proof using Hh.
    destruct root3 as [R3 R0]. set (k := sqrt 3 / 2) in *. assert (K0 : 0 < k) by (unfold k; lra).
    assert (D1 : forall s, (s = h \/ s = - h) -> dist (V3 x s 0) (V3 x 0 0) = h).
    { intros s Hs. unfold dist. cbn [vx vy vz]. replace (_ + _) with (h * h) by (destruct Hs as [-> | ->]; ring). apply sqrt_square. lra. }
    assert (D2 : forall s, (s = h / 2 \/ s = - (h / 2)) -> dist (V3 x s (h * k)) (V3 x 0 0) = h).
    { intros s Hs. unfold dist. cbn [vx vy vz]. transitivity (sqrt (h * h)); [f_equal|apply sqrt_square; lra].
      assert (E : h * k * (h * k) = 3 / 4 * (h * h)) by (rewrite <- R3; ring). destruct Hs as [-> | ->]; nra. }
    assert (HK : 0 < h * k) by (apply Rmult_lt_0_compat; lra).
    assert (HHK : 0 < h * (h * k)) by (apply Rmult_lt_0_compat; lra).
    destruct (arc_across (nw x) (nu x) (V3 x 0 0)) as (ga & A1 & A2 & A3 & A4); try reflexivity.
    { unfold nw, nu. fold k. rewrite D1, D2 by tauto. reflexivity. }
    { intros Q. apply (f_equal vx) in Q. unfold nw, nu, crossR, diff, origin in Q. cbn [vx vy vz] in Q. fold k in Q. lra. }
    destruct (arc_across (su x) (nu x) (V3 x 0 0)) as (gb & B1 & B2 & B3 & B4); try reflexivity.
    { unfold su, nu. fold k. rewrite !D2 by tauto. reflexivity. }
    { intros Q. apply (f_equal vx) in Q. unfold su, nu, crossR, diff, origin in Q. cbn [vx vy vz] in Q. fold k in Q. lra. }
    destruct (arc_across (sw x) (su x) (V3 x 0 0)) as (gc & C1 & C2 & C3 & C4); try reflexivity.
    { unfold sw, su. fold k. rewrite D1, D2 by tauto. reflexivity. }
    { intros Q. apply (f_equal vx) in Q. unfold sw, su, crossR, diff, origin in Q. cbn [vx vy vz] in Q. fold k in Q. lra. }
    exists ga, gb, gc. cbv zeta. split; [auto|]. split; [auto|]. split; [auto|]. intros t.
    destruct (A4 t) as [DA XA], (B4 t) as [DB XB], (C4 t) as [DC XC]. rewrite DA, DB, DC, XA, XB, XC. unfold nw, su, sw. fold k. rewrite !D1, !D2 by tauto. auto.
  Qed.

  Definition rx_parts3 : list (list (path R)) :=
    let P := mkRx h 0 0 0 0 0 0 0 0 0 0 in [rx_square P x0; rx_square P x1; rx_round P x2].
  Definition square_edge (x : R) (e : nat) (t : R) : pt :=
    match e with 0 => lerp t (nw x) (ne x) | 1 => lerp (1 - t)%R (se x) (ne x) | 2 => lerp (1 - t)%R (sw x) (se x) | _ => lerp t (sw x) (nw x) end%nat.
  Definition section_edge (ga gb gc : R -> pt) (k e : nat) (t : R) : pt :=
    match k with
    | 0 => square_edge x0 e t
    | 1 => square_edge x1 e t
    | _ => match e with 0 => ga t | 1 => gb (1 - t)%R | 2 => gc (1 - t)%R | _ => lerp t (sw x2) (nw x2) end
    end%nat.
  Lemma square_are P x e p : rx_h P = h -> nth_error (rx_square P x) e = Some p -> evaluates01 p (square_edge x e).
  Proof using.
    intros E. unfold rx_square. rewrite E. numR. intros N. destruct e as [|[|[|[|e]]]]; cbn in N; [injection N as <-..|destruct e; discriminate].
    - intros t _. apply line_evaluates.
    - apply (reversed01 _ (fun t => lerp t (se x) (ne x))). intros t _. apply line_evaluates.
    - apply (reversed01 _ (fun t => lerp t (sw x) (se x))). intros t _. apply line_evaluates.
    - intros t _. apply line_evaluates.
  Qed.
  Lemma square_corners x : square_edge x 0 0 = nw x /\ square_edge x 1 0 = ne x /\ square_edge x 2 0 = se x /\ square_edge x 3 0 = sw x.
  Proof using.
    unfold square_edge. rewrite Rminus_0_r, !lerp_0, !lerp_1. auto.
  Qed.
  Lemma trans_ok n : exists d rr rs g, Swept_init rx_parts3 true (ResInt (S n)) = Ok 4%nat /\
    (let! l := swept_patches rx_parts3 4 true (ResInt (S n)) in Ok (sized_patches l, sized_res_r l, sized_res_s l)) = Ok (d, rr, rs) /\
    dkeys d = ["swept_patch_0"; "swept_patch_1"; "swept_patch_2"; "swept_patch_3"; "swept_patch_end_0"; "swept_patch_end_1"]%string /\
    (forall u, In u (dvals d) -> on_square u) /\ watertight (wing_grid n d) /\ length (wing_grid n d) = (24 * S n * S n)%nat /\
    values01 (dvals d) [side_val 1 g 0; side_val 1 g 1; side_val 1 g 2; side_val 1 g 3; cap0 g; cap1 1 g]%nat /\
    (forall e, g 0%nat e = square_edge x0 e) /\ (forall e, g 1%nat e = square_edge x1 e) /\
    g 2%nat 0%nat 0 = nw x2 /\ g 2%nat 1%nat 0 = nu x2 /\ g 2%nat 2%nat 0 = su x2 /\ g 2%nat 3%nat 0 = sw x2 /\ 
    (forall e t, vx (g 2%nat e t) = x2) /\ (forall e t, (e < 3)%nat -> dist (g 2%nat e t) (V3 x2 0 0) = h) /\ loops_close 4 3 g.
  Proof using Hh.
    destruct (arcs_ok x2) as (ga & gb & gc & (A1 & A2 & A3) & (B1 & B2 & B3) & (C1 & C2 & C3) & CI). set (g := section_edge ga gb gc).
    assert (G : sections_are 4 rx_parts3 g).
    { intros k cs H. destruct k as [|[|[|k]]]; cbn [rx_parts3 nth_error] in H; [injection H as <-..|destruct k; discriminate].
      - split; [reflexivity|]. intros e p N. exact (square_are (mkRx h 0 0 0 0 0 0 0 0 0 0) x0 e p eq_refl N).
      - split; [reflexivity|]. intros e p N. exact (square_are (mkRx h 0 0 0 0 0 0 0 0 0 0) x1 e p eq_refl N).
      - rewrite <- round_is. split; [reflexivity|]. intros e p N. destruct e as [|[|[|[|e]]]]; cbn in N; [injection N as <-..|destruct e; discriminate].
        + intros t _. apply A1.
        + apply (reversed01 _ gb). intros t _. apply B1.
        + apply (reversed01 _ gc). intros t _. apply C1.
        + intros t _. apply line_evaluates. }
    assert (J : loops_close 4 3 g).
    { intros k e Hk He. unfold g, section_edge, square_edge. replace (1 - 1) with 0 by ring. replace (1 - 0) with 1 by ring.
      destruct k as [|[|[|k]]]; [..|lia]; (destruct e as [|[|[|[|e]]]]; [..|lia]); cbn [next_edge Nat.eqb]; rewrite ?lerp_0, ?lerp_1; congruence || reflexivity. }
    assert (SI : Swept_init rx_parts3 true (ResInt (S n)) = Ok 4%nat).
    { assert (is_ok (Swept_init rx_parts3 true (ResInt (S n)))) as [y E].
      { apply (swept_init_iff rx_parts3 true (ResInt (S n)) g).
        { intros k cs H e p He. exact (proj2 (G k cs H) e p He). }
        exists 4%nat. split; [discriminate|]. split.
        + intros k cs H. split; [exact (proj1 (G k cs H))|]. intros e He.
          assert (k < 3)%nat by (change 3%nat with (length rx_parts3); apply nth_error_Some; congruence).
          rewrite <- (J k e) by lia. unfold SpecComp.within. rewrite !Rminus_eq_0, Rabs_R0. unfold small12.
          assert (0 < 1 / 1000000000000) by lra. split; [|split]; apply Rlt_le; assumption.
        + intros _. split; [reflexivity|]. discriminate. }
      rewrite E. f_equal. revert E. unfold Swept_init. cbn [py_nth rx_parts3 nth_error bind].
      destruct (mapM _ _); cbn [bind]; [|discriminate]. destruct (check_ends _ _ _); cbn [bind]; [|discriminate].
      intros Q. injection Q as <-. reflexivity. }
    destruct (closed_patches 1 rx_parts3 g (ResInt (S n)) eq_refl G J) as (l & El & u0 & u1 & u2 & u3 & v0 & v1 & Ed & V).
    { intros; eexists; reflexivity. } { eexists; reflexivity. }
    destruct (swept_watertight 1 rx_parts3 g n eq_refl G J) as (l' & mesh & El' & FM & WT & LN). rewrite El in El'. injection El' as <-.
    exists (sized_patches l), (sized_res_r l), (sized_res_s l), g. split; [exact SI|]. split; [rewrite El; reflexivity|].
    assert (K : dkeys (sized_patches l) = ["swept_patch_0"; "swept_patch_1"; "swept_patch_2"; "swept_patch_3"; "swept_patch_end_0"; "swept_patch_end_1"]%string) by (rewrite Ed; reflexivity).
    assert (VL : values01 (dvals (sized_patches l)) [side_val 1 g 0; side_val 1 g 1; side_val 1 g 2; side_val 1 g 3; cap0 g; cap1 1 g]%nat) by (rewrite Ed; exact V).
    assert (SQ : forall u, In u (dvals (sized_patches l)) -> on_square u).
    { clear - VL. unfold values01 in VL. induction VL as [|u v us vs E _ IH]; [intros ? []|]. intros w [<-|I]; [|apply IH, I].
      intros r s Hr Hs. rewrite E by assumption. eexists; reflexivity. }
    split; [exact K|]. split; [exact SQ|].
    assert (EM : mesh = wing_grid n (sized_patches l)).
    { assert (ND : NoDup (dkeys (sized_patches l))) by (rewrite K; repeat constructor; cbn; intuition discriminate).
      pose proof (dict_clustered None None (fun t => t) (fun t => t) (sized_patches l) _ n (sized_res_r l) (sized_res_s l) places_none places_none keeps_id keeps_id ND ltac:(intros Q; rewrite Q in K; discriminate K) (values_of_ok _ SQ)) as Q.
      assert (Q2 := eq_trans (eq_sym FM) Q). injection Q2 as ->. unfold wing_grid. f_equal. rewrite <- (map_id (values_of _)) at 2. reflexivity. }
    rewrite <- EM. split; [exact WT|]. split; [exact LN|]. split; [exact VL|]. split; [reflexivity|]. split; [reflexivity|].
    unfold g. cbn [section_edge]. replace (1 - 0) with 1 by ring. rewrite lerp_0. split; [exact A2|]. split; [exact B3|]. split; [exact C3|]. split; [reflexivity|]. split.
    { intros e t. destruct (CI t) as ((_ & X1) & _). destruct (CI (1 - t)) as (_ & (_ & X2) & (_ & X3)). destruct e as [|[|[|e]]]; try assumption. unfold lerp, sw, nw. cbn [vx]. ring. }
    split; [|exact J]. intros e t He. destruct (CI t) as ((X1 & _) & _). destruct (CI (1 - t)) as (_ & (X2 & _) & (X3 & _)). destruct e as [|[|[|e]]]; try assumption. lia.
  Qed.
End Transition.
