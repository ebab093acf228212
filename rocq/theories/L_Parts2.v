(** More parts of a vehicle: revolved bodies, fins with a flat trailing edge, and
    wings whose thickness is known over their planform only. *)
From Coq Require Import String Reals Lra ZArith List Lia Bool.
From Verif Require Import Num NumR Py M_Vector SpecR3 M_Path M_Surface M_Geometry M_Mesh M_Component M_Common M_Wing M_Fin M_Vehicle M_VecHeap M_Sens M_Gen M_Hangar M_Htv M_X43
  SpecPath SpecPoly SpecSurf SpecMesh SpecComp SpecVehicle SpecAdd SpecPrism SpecHangar SpecWing SpecFin SpecPair SpecHtv SpecFiles SpecHalf
  L_Vector L_Line L_Polyline L_Coons L_Curves L_Ellipse L_Wing L_WingOk L_WingTotal L_WingLocal L_Fin L_FinSeams L_FinTotal L_Component L_Mesh L_Heap L_Volume L_Rigid L_Reflect L_Pipeline L_Generate L_Cache L_Files L_Wedge L_SweptComp L_Edges L_Prism L_Lathe L_Hangar L_Block L_Pair L_Htv L_Parts L_Finner L_Falcon P_Planform.
Import ListNotations.
Local Open Scope R_scope.

(** ** meshes *)
Lemma patch_grid_same n (u v : R -> R -> pt) : (forall r s, 0 <= r <= 1 -> 0 <= s <= 1 -> u r s = v r s) -> patch_grid n u = patch_grid n v.
Proof.
  intros H. assert (G : forall i j, (i <= S n)%nat -> (j <= S n)%nat -> grid_of n u i j = grid_of n v i j).
  { intros i j Hi Hj. unfold grid_of. apply H; apply ratio01; lia. }
  unfold patch_grid, grid_mesh. rewrite !flat_map_concat_map. f_equal. apply map_ext_in. intros i Hi. apply in_seq in Hi.
  rewrite !flat_map_concat_map. f_equal. apply map_ext_in. intros j Hj. apply in_seq in Hj.
  apply map_ext_in. intros k Hk. apply in_seq in Hk. unfold cell_tri, at_corner, centred.
  rewrite (G i j), (G (S i) j), (G i (S j)), (G (S i) (S j)) by lia. 
  destruct k as [|[|[|[|k]]]]; cbn [corner fst snd]; try lia; rewrite !G by lia; reflexivity.
Qed.
Lemma wing_grid_same n d d' : same_entries d d' -> wing_grid n d = wing_grid n d'.
Proof.
  intros H. unfold wing_grid, values_of, dvals. induction H as [|a b l l' [_ E] _ IH]; [reflexivity|]. cbn [map flat_map].
  f_equal; [|exact IH]. apply patch_grid_same. intros r s Hr Hs. rewrite E by assumption. reflexivity.
Qed.
Lemma same_in d d' k u' : same_entries d d' -> In (k, u') d' -> exists u, In (k, u) d /\ same_square u u'.
Proof.
  induction 1 as [|[k1 u1] [k2 u2] l l' [E S] _ IH]; intros I; [destruct I|]. cbn [fst snd] in *. destruct I as [I|I].
  - injection I as -> ->. exists u1. subst. split; [left; reflexivity|exact S].
  - destruct (IH I) as (u & I' & Q). exists u. split; [right; exact I'|exact Q].
Qed.
(** every node of the grid is a vertex *)
Lemma node_vertex n (g : dict (surf R)) key u i j p : In (key, u) g -> (i <= S n)%nat -> (j <= S n)%nat ->
  u (INR i / INR (S n)) (INR j / INR (S n)) = Ok p -> vertex_of (wing_grid n g) p.
Proof.
  intros I Hi Hj E. set (v := fun r s => match u r s with Ok q => q | Raise _ => origin end).
  assert (V : vertex_of (patch_grid n v) (grid_of n v i j)).
  { unfold patch_grid. set (Q := grid_of n v).
    assert (T : forall a b k, (a <= n)%nat -> (b <= n)%nat -> (k < 4)%nat -> In (cell_tri Q (centred Q) a b k) (grid_mesh Q (centred Q) (S n) (S n))).
    { intros a b k Ha Hb Hk. unfold grid_mesh. apply in_flat_map. exists a. split; [apply in_seq; lia|].
      apply in_flat_map. exists b. split; [apply in_seq; lia|]. apply in_map, in_seq. lia. }
    destruct (le_lt_dec i n) as [Li|Li], (le_lt_dec j n) as [Lj|Lj].
    - eexists. split; [apply (T i j 0%nat); lia|]. left. reflexivity.
    - assert (j = S n) as -> by lia. eexists. split; [apply (T i n 3%nat); lia|]. left. reflexivity.
    - assert (i = S n) as -> by lia. eexists. split; [apply (T n j 1%nat); lia|]. left. reflexivity.
    - assert (i = S n) as -> by lia. assert (j = S n) as -> by lia. eexists. split; [apply (T n n 2%nat); lia|]. left. reflexivity. }
  assert (Ep : grid_of n v i j = p) by (unfold grid_of, v; rewrite E; reflexivity). rewrite Ep in V.
  destruct V as (t & Ht & Hp). exists t. split; [|exact Hp]. unfold wing_grid, values_of, dvals. apply in_flat_map. exists v. split; [|exact Ht].
  rewrite map_map. exact (in_map (fun x => fun r s => match snd x r s with Ok q => q | Raise _ => origin end) _ _ I).
Qed.

(** ** revolved bodies *)
Lemma revolved_grid n line g : evaluates01 line g -> wing_grid n (revolved_patches line) = profile_mesh n g /\ forall u, In u (dvals (revolved_patches line)) -> on_square u.
Proof.
  intros H. pose proof (four_values line g H) as V. unfold wing_grid, profile_mesh, values_of. revert V. generalize (dvals (revolved_patches line)) (four g). clear.
  unfold values01. induction 1 as [|u v us vs E _ [IH1 IH2]]; [split; [reflexivity|intros ? []]|]. cbn [map flat_map]. split.
  - f_equal; [|exact IH1]. apply patch_grid_same. intros r s Hr Hs. rewrite E by assumption. reflexivity.
  - intros w [<-|I]; [intros r s Hr Hs; rewrite E by assumption; eexists; reflexivity|exact (IH2 w I)].
Qed.
Lemma revolved_fine line : fine_keys (dkeys (revolved_patches (T := R) line)).
Proof. apply fineb_fine. reflexivity. Qed.

(** ** wings *)
Lemma wing_made_on bisect w g ft fb lo hi k0 : in_interval bisect -> answers bisect -> planform w g lo hi ->
  vertical_on lo hi (w_top w) ft -> vertical_on lo hi (w_bot w) fb -> w_tB1 w = None -> w_tB2 w = None -> wing_flat w = false -> w_close w = false ->
  (forall t, 0 <= t <= 1 -> exists k, wing_width w t = Ok k) -> wing_width w 0 = Ok k0 -> small (half_h ft fb (vx (w_B0 w)) (vy (w_B0 w))) k0 ->
  exists d d' t1, wing_patches bisect w = Ok d /\ wing_t_B1 bisect w = Ok t1 /\ dkeys d = open_wing_keys /\ (forall u, In u (dvals d) -> on_square u) /\
    wing_patches bisect (with_tf w (extended ft) (extended fb)) = Ok d' /\ same_entries d d' /\
    exists u, In ("TE_top_patch"%string, u) d /\
      u 0 0 = Ok (tip (w_flap_length w) (w_flap_angle w) (lift (mid_h ft fb) (w_A0 w))) /\
      u 1 0 = Ok (tip (w_flap_length w) (w_flap_angle w) (lift (mid_h ft fb) (w_B0 w))).
Proof.
  intros Hi An P Vt Vb N1 N2 FL CL Hw W0 S0. pose proof P as (Hl & G0 & G1 & Bz & Fl & A0 & A1 & Lo & Hh & Mo & B1 & B2).
  assert (In01 : forall t, 0 <= t <= 1 -> lo <= vx (g t) <= hi).
  { intros t Ht. pose proof (Mo 0 t ltac:(lra) ltac:(lra) ltac:(lra)) as M0. pose proof (Mo t 1 ltac:(lra) ltac:(lra) ltac:(lra)) as M1.
    rewrite G0 in M0. rewrite G1 in M1. lra. }
  set (w' := with_tf w (extended ft) (extended fb)).
  destruct (wing_made bisect Hi An w' g ft fb k0 k0) as (d' & Ed' & [t1 T1] & Kd & Sd & (u & Iu & U0 & U1)); try assumption.
  { apply extended_vertical. } { apply extended_vertical. } { intros C. exfalso. change (w_close w' = true) in C. change (w_close w') with (w_close w) in C. congruence. }
  destruct (wing_local bisect Hi w g ft fb lo hi Hl G0 G1 B1 Vt Vb In01 Mo A0 ltac:(lra) d' Ed') as (d & Ed & SE).
  exists d, d', t1. split; [exact Ed|]. split; [exact T1|]. split; [rewrite (same_keys _ _ SE), Kd; unfold wing_entries; change (w_close w') with (w_close w); rewrite CL; apply app_nil_r|].
  split; [exact (same_on_square d d' SE Sd)|]. split; [exact Ed'|]. split; [exact SE|].
  destruct (same_in d d' _ u SE Iu) as (v & Iv & Q). exists v. split; [exact Iv|].
  rewrite !Q by lra. auto.
Qed.

(** ** fins *)
Lemma fin_built bisect (f : fin R) h k0 k1 : in_interval bisect -> answers bisect ->
  f_thickness f = 2 * h -> vertical (f_top f) (fun _ _ => - h) -> vertical (f_bot f) (fun _ _ => h) ->
  f_p1 f <> f_p2 f -> f_p2 f <> f_p3 f -> vx (f_p1 f) <= vx (f_p2 f) <= vx (f_p3 f) -> vz (f_p1 f) = 0 ->
  (forall t, 0 <= t <= 1 -> exists k, fin_width f t = Ok k) -> fin_width f 0 = Ok k0 -> fin_width f 1 = Ok k1 -> small h k0 -> small h k1 ->
  (forall o, f_offset f = Some o -> forall x y z, is_ok (o x y z)) ->
  exists d, fin_patches bisect f = Ok d /\ dkeys d = fin_keys f /\ (forall u, In u (dvals d) -> on_square u).
Proof.
  intros Hin Han Hk Vt Vb H12 H23 HX Z Hw W0 W1 S0 S1 Ho.
  destruct (fin_ok bisect f h Hk Vt Vb k0 k1 H12 H23 (fun _ => Z) W0 W1 S0 S1) as [d Ed].
  { intros q Vq. unfold fin_t_B1. numR. destruct (bent_ends _ _ _ H12 H23) as (E0 & _ & E1).
    destruct (Han (fun t => let! p := p_call q t in Ok (vx p - vx (f_p2 f))) (fun t => vx (bent (f_p1 f) (f_p2 f) (f_p3 f) t) - vx (f_p2 f))) as [t Et].
    - intros t _. rewrite (Vq t). reflexivity.
    - rewrite E0, E1. lra.
    - rewrite Et. eexists; reflexivity. }
  exists d. split; [exact Ed|]. exact (fin_square bisect Hin f _ _ d H12 H23 Vt Vb Hw Ho Ed).
Qed.
(** the fin before it is turned about the x axis and moved *)
Definition turned_fin (f : fin R) (a : R) (o : option (tfun R)) : fin R :=
  mkFin (f_p0 f) (f_p1 f) (f_p2 f) (f_p3 f) (f_thickness f) a (f_top f) (f_bot f) (f_width f) (f_rudder f) (f_rudder_length f) (f_rudder_angle f)
    (f_pivot_angle f) (f_pivot_point f) o.
Lemma fin_turned bisect f : exists base, forall a o, fin_patches bisect (turned_fin f a o) =
  let! d := base in let d := dmap (fun u => RotatedPatch u a "x" default_point) d in
  Ok (match o with Some o => dmap (fun u => OffsetPatchFunction u o) d | None => d end).
Proof.
  exists (let! p1p3 := fin_edge f in let! panels := fin_panels f in let! t_B1 := fin_t_B1 bisect f p1p3 in
          let leading := fin_leading_edge f p1p3 t_B1 in let! bottom := fin_bottom f in
          let! trailing := (if String.eqb (f_rudder f) "sharp" then fin_sharp f else fin_flat f) in
          Ok (dmap (fun u => RotatedPatch u (f_pivot_angle f) "y" (f_pivot_point f)) (panels ++ leading ++ bottom ++ trailing)%list)).
  intros a o. unfold fin_patches.
  change (fin_edge (turned_fin f a o)) with (fin_edge f). destruct (fin_edge f) as [q|]; [|reflexivity]. cbn [bind].
  change (fin_panels (turned_fin f a o)) with (fin_panels f). destruct (fin_panels f) as [pa|]; [|reflexivity]. cbn [bind].
  change (fin_t_B1 bisect (turned_fin f a o) q) with (fin_t_B1 bisect f q). destruct (fin_t_B1 bisect f q) as [t|]; [|reflexivity]. cbn [bind].
  change (fin_bottom (turned_fin f a o)) with (fin_bottom f). destruct (fin_bottom f) as [bo|]; [|reflexivity]. cbn [bind].
  change (f_rudder (turned_fin f a o)) with (f_rudder f).
  change (fin_sharp (turned_fin f a o)) with (fin_sharp f). change (fin_flat (turned_fin f a o)) with (fin_flat f).
  destruct (if String.eqb (f_rudder f) "sharp" then fin_sharp f else fin_flat f) as [tr|]; reflexivity.
Qed.
(** the corners of its two faces *)
Lemma fin_faces bisect f h d : fin_patches bisect f = Ok d -> vertical (f_top f) (fun _ _ => - h) -> vertical (f_bot f) (fun _ _ => h) -> f_pivot_angle f = 0 ->
  exists top bot, In ("top_patch"%string, top) d /\ In ("bot_patch"%string, bot) d /\
    forall side u p i j, ((side = - h /\ u = top /\ p = f_p1 f /\ i = 1 /\ j = 0) \/ (side = - h /\ u = top /\ p = f_p3 f /\ i = 0 /\ j = 1) \/
                          (side = h /\ u = bot /\ p = f_p1 f /\ i = 0 /\ j = 1) \/ (side = h /\ u = bot /\ p = f_p3 f /\ i = 1 /\ j = 0) \/
                          (side = - h /\ u = top /\ p = f_p0 f /\ i = 0 /\ j = 0) \/ (side = h /\ u = bot /\ p = f_p0 f /\ i = 0 /\ j = 0)) ->
      u i j = let q := rodrigues (axis_vec "x") origin (f_angle f) (V3 (vx p) (vy p) (vz p + side)) in
        match f_offset f with Some o => let! v := o (vx q) (vy q) (Some (vz q)) in Ok (vadd q v) | None => Ok q end.
Proof.
  intros Ed Vt Vb PA. unfold fin_patches in Ed.
  destruct (fin_edge f) as [q|] eqn:E1; [|discriminate Ed]. cbn [bind] in Ed.
  destruct (fin_panels f) as [pa|] eqn:E2; [|discriminate Ed]. cbn [bind] in Ed.
  destruct (fin_t_B1 bisect f q) as [t1|] eqn:E3; [|discriminate Ed]. cbn [bind] in Ed.
  destruct (fin_bottom f) as [bo|] eqn:E4; [|discriminate Ed]. cbn [bind] in Ed.
  destruct (if String.eqb (f_rudder f) "sharp" then fin_sharp f else fin_flat f) as [tr|] eqn:E5; [|discriminate Ed]. cbn [bind] in Ed.
  unfold fin_panels in E2.
  destruct (CoonsPatch (Line (f_p1 f) (f_p2 f)) _ _ _) as [pl|] eqn:C1 in E2; [|discriminate E2]. cbn [bind] in E2.
  destruct (CoonsPatch (Line (f_p3 f) (f_p2 f)) _ _ _) as [fl|] eqn:C2 in E2; [|discriminate E2]. cbn [bind] in E2. injection E2 as <-.
  set (move := fun u : surf R => let v := RotatedPatch (RotatedPatch u (f_pivot_angle f) "y" (f_pivot_point f)) (f_angle f) "x" default_point in
    match f_offset f with Some o => OffsetPatchFunction v o | None => v end).
  assert (IM : forall (F : surf R -> surf R) k (v : surf R) l, In (k, v) l -> In (k, F v) (dmap F l)).
  { intros F k v l I. unfold dmap. apply in_map_iff. exists (k, v). auto. }
  assert (MV : forall k u, In (k, u) ([("top_patch"%string, OffsetPatchFunction fl (f_top f)); ("bot_patch"%string, OffsetPatchFunction pl (f_bot f))] ++
      fin_leading_edge f q t1 ++ bo ++ tr) -> In (k, move u) d).
  { intros k u I. injection Ed as <-. unfold move.
    apply (IM (fun u => RotatedPatch u (f_pivot_angle f) "y" (f_pivot_point f)) k u) in I.
    apply (IM (fun u => RotatedPatch u (f_angle f) "x" default_point) k _) in I.
    destruct (f_offset f) as [o|]; [apply (IM (fun u => OffsetPatchFunction u o) k _) in I|]; exact I. }
  exists (move (OffsetPatchFunction fl (f_top f))), (move (OffsetPatchFunction pl (f_bot f))).
  split; [apply MV; left; reflexivity|]. split; [apply MV; right; left; reflexivity|].
  assert (X : forall u r s p, u r s = Ok p -> move u r s = let q := rodrigues (axis_vec "x") origin (f_angle f) p in
      match f_offset f with Some o => let! v := o (vx q) (vy q) (Some (vz q)) in Ok (vadd q v) | None => Ok q end).
  { intros u r s p E. unfold move. 
    assert (Y : RotatedPatch (RotatedPatch u (f_pivot_angle f) "y" (f_pivot_point f)) (f_angle f) "x" default_point r s = Ok (rodrigues (axis_vec "x") origin (f_angle f) p)).
    { unfold RotatedPatch. rewrite E. cbn [bind]. rewrite PA. unfold rotate_vec, lower_axis. cbn [String.eqb Ascii.eqb Bool.eqb bind]. f_equal.
      numR. rewrite cos_0, sin_0. unfold rodrigues, axis_vec, vadd, vsub, default_point, crossR, inner, translate, plus_scaled, scaled, diff, origin; numR.
      apply vec_ext; cbn; ring. }
    cbv zeta. destruct (f_offset f) as [o|]; [|exact Y]. unfold OffsetPatchFunction. rewrite Y. reflexivity. }
  destruct (coons_surf_w _ _ _ _ _ _ _ _ fl (line_evaluates _ _) (line_evaluates _ _) (line_evaluates _ _) (line_evaluates _ _) C2) as (F0 & F1 & _).
  destruct (coons_surf_w _ _ _ _ _ _ _ _ pl (line_evaluates _ _) (line_evaluates _ _) (line_evaluates _ _) (line_evaluates _ _) C1) as (P0 & P1 & _).
  intros side u p i j [(-> & -> & -> & -> & ->)|[(-> & -> & -> & -> & ->)|[(-> & -> & -> & -> & ->)|[(-> & -> & -> & -> & ->)|[(-> & -> & -> & -> & ->)|(-> & -> & -> & -> & ->)]]]]]; apply X.
  - rewrite (offset_patch fl _ _ 1 0 _ Vt (F1 0)), lerp_0. reflexivity.
  - rewrite (offset_patch fl _ _ 0 1 _ Vt (F0 1)), lerp_1. reflexivity.
  - rewrite (offset_patch pl _ _ 0 1 _ Vb (P0 1)), lerp_1. reflexivity.
  - rewrite (offset_patch pl _ _ 1 0 _ Vb (P1 0)), lerp_0. reflexivity.
  - rewrite (offset_patch fl _ _ 0 0 _ Vt (F0 0)), lerp_0. reflexivity.
  - rewrite (offset_patch pl _ _ 0 0 _ Vb (P0 0)), lerp_0. reflexivity.
Qed.
