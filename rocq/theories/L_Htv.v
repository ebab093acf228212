(** The parametric HTV: its two wings can be built, and its three components. *)
From Coq Require Import String Reals Lra ZArith List Permutation Lia Bool.
From Verif Require Import Num NumR Py M_Vector SpecR3 M_Path M_Surface M_Geometry M_Mesh M_Component M_Common M_Wing M_Vehicle M_VecHeap M_Sens M_Gen M_Hangar M_Htv
  SpecPath SpecPoly SpecSurf SpecMesh SpecComp SpecVehicle SpecAdd SpecFiles SpecPrism SpecHangar SpecWing SpecFin SpecPair SpecHtv
  L_Vector L_Edges L_Mesh L_Volume L_Component L_Coons L_Curves L_Wing L_WingOk L_WingTotal L_Fin
  L_SweptComp L_Heap L_Rigid L_Reflect L_Pipeline L_Generate L_Cache L_Files L_Prism L_Hangar L_Block L_Wedge L_Pair P_Planform.
Import ListNotations.
Local Open Scope R_scope.

(** ** bent leading edges *)
Section Bent.
  Variables p1 p2 p3 : pt.
  Hypothesis X12 : vx p1 < vx p2.
  Hypothesis X23 : vx p2 < vx p3.
  Lemma bent_apart : p1 <> p2 /\ p2 <> p3.
  Proof using X12 X23. split; intros E; rewrite E in *; lra. Qed.
  Lemma bent_x t : let T := corner_time p1 p2 p3 in
    vx (bent p1 p2 p3 t) = if Rle_dec t T then vx p1 + t * ((vx p2 - vx p1) / T) else vx p2 + (t - T) * ((vx p3 - vx p2) / (1 - T)).
  Proof using X12 X23.
    intros T. destruct bent_apart as [N1 N2]. pose proof (corner_range p1 p2 p3 N1 N2) as HT. fold T in HT.
    unfold bent. fold T. destruct (Rle_dec t T); cbn; field; lra.
  Qed.
  Lemma bent_forwards t t' : t <= t' -> vx (bent p1 p2 p3 t) <= vx (bent p1 p2 p3 t').
  Proof using X12 X23.
    intros H. destruct bent_apart as [N1 N2]. pose proof (corner_range p1 p2 p3 N1 N2) as HT.
    rewrite !bent_x. set (T := corner_time p1 p2 p3) in *.
    assert (A : 0 < (vx p2 - vx p1) / T) by (apply Rdiv_lt_0_compat; lra).
    assert (B : 0 < (vx p3 - vx p2) / (1 - T)) by (apply Rdiv_lt_0_compat; lra).
    assert (C : vx p1 + T * ((vx p2 - vx p1) / T) = vx p2) by (field; lra).
    destruct (Rle_dec t T), (Rle_dec t' T); try lra; try nra.
  Qed.
End Bent.

Lemma small_of b k : 0 < b <= 1000000 -> 1 / 100 <= k -> small b k.
Proof.
  intros Hb Hk. unfold small, tan_big. split; [lra|]. split; [lra|]. split; [lra|].
  assert (A : 0 <= b * (b * b) <= 1000000 * (1000000 * 1000000)).
  { assert (b * b <= 1000000 * 1000000) by nra. assert (0 <= b * b) by nra. split; nra. }
  assert (B : 1 / 10000 <= k * k) by nra.
  set (D := 2 * (k * k) * (16331239353195370 * 16331239353195370)).
  assert (E : 2 * (1 / 10000) * (16331239353195370 * 16331239353195370) <= D) by (unfold D; nra).
  apply Rmult_le_reg_r with D; [lra|]. unfold Rdiv at 1. rewrite Rmult_assoc, Rinv_l by lra. lra.
Qed.

(** ** the body *)
Section Shapes.
  Variable bisect : (R -> res R) -> R -> R -> res R.
  Hypothesis Hin : in_interval bisect.
  Hypothesis Han : answers bisect.

  Definition htv_edge (L bw : R) : R -> pt := bent (V3 0 (bw / 2) 0) (V3 (15 / 100 * L) (bw / 2) 0) (V3 L 0 0).
  Lemma htv_line_ok L bw : 0 < L -> exists line, htv_line L bw = Ok line /\ evaluates line (htv_edge L bw).
  Proof using.
    intros HL. unfold htv_line, vec2. numR.
    destruct (bent_apart (V3 0 (bw / 2) 0) (V3 (15 / 100 * L) (bw / 2) 0) (V3 L 0 0)) as [N1 N2]; [cbn; lra|cbn; lra|].
    exact (bent_evaluates _ _ _ N1 N2).
  Qed.

  Definition tf_value (f : tfun R) (x y : R) : R := match f x y None with Ok p => vz p | Raise _ => 0 end.
  Lemma htv_top_value line L bw h t x y z : 0 < L -> 0 < h -> 0 < t -> evaluates line (htv_edge L bw) -> 0 <= x <= L ->
    exists u, htv_top bisect line L h t x y z = Ok (V3 0 0 (- (u * (L - x + 5 / 100)))) /\ 0 < u <= h + t.
  Proof using Hin Han.
    intros HL Hh Ht El Hx. unfold htv_top, htv_local_width. numR.
    destruct (bent_apart (V3 0 (bw / 2) 0) (V3 (15 / 100 * L) (bw / 2) 0) (V3 L 0 0)) as [N1 N2]; [cbn; lra|cbn; lra|].
    destruct (bent_ends _ _ _ N1 N2) as (E0 & _ & E1).
    destruct (Han (fun s => let! p := p_call line s in Ok (vx p - x)) (fun s => vx (htv_edge L bw s) - x)) as [s Es].
    { intros s _. rewrite (El s). reflexivity. }
    { unfold htv_edge. rewrite E0, E1. cbn. lra. }
    rewrite Es. cbn [bind]. rewrite (El s). cbn [bind].
    set (inner := 2 * vy (htv_edge L bw s) - 2 * t). destruct (Rltb y (1 / 2 * inner)).
    - eexists. split; [reflexivity|]. pose proof (COS_bound (2 * PI * y / inner)) as Hc.
      set (c := cos (2 * PI * y / inner)) in *. clearbody c. destruct (Rle_dec 0 (h - t)); split; nra.
    - exists t. split; [|lra]. destruct (Reqb y (1 / 2 * inner)); reflexivity.
  Qed.

  Definition part_ok (w : wing R) : Prop := exists d, wing_patches bisect w = Ok d /\ dkeys d = open_wing_keys /\
    (forall u, In u (dvals d) -> on_square u) /\ exists t1, wing_t_B1 bisect w = Ok t1.
  Lemma part_of w g ft fb lo hi : planform w g lo hi -> vertical_on lo hi (w_top w) ft -> vertical_on lo hi (w_bot w) fb ->
    edge_fits w ft fb -> wing_flat w = false -> w_close w = false -> part_ok w.
  Proof using Hin Han.
    intros P V1 V2 E F C. destruct (C102_planform bisect w g ft fb lo hi Hin Han P V1 V2 E) as (d & Ed & Sq & _).
    exists d. split; [exact Ed|]. split; [exact (wing_keys bisect w d Ed F C)|]. split; [exact Sq|].
    destruct (wing_inv bisect w d Ed) as (t1 & _ & _ & _ & _ & _ & _ & _ & _ & E1 & _). eauto.
  Qed.

  Lemma body_ok L bw h t line : 0 < L -> 0 < h -> 0 < t -> (h + t) * (L + 1) <= 1000000 -> htv_line L bw = Ok line ->
    part_ok (htv_body bisect line L bw h t).
  Proof using Hin Han.
    intros HL Hh Ht Hs El. destruct (htv_line_ok L bw HL) as (line' & El' & Ev). rewrite El in El'. injection El' as <-.
    set (w := htv_body bisect line L bw h t).
    destruct (bent_apart (V3 0 (bw / 2) 0) (V3 (15 / 100 * L) (bw / 2) 0) (V3 L 0 0)) as [N1 N2]; [cbn; lra|cbn; lra|].
    destruct (bent_ends _ _ _ N1 N2) as (E0 & _ & E1).
    apply (part_of w (htv_edge L bw) (tf_value (htv_top bisect line L h t)) (fun _ _ => 2 / 10 * t) 0 L); try reflexivity.
    - split; [exact Ev|]. split; [exact E0|]. split; [exact E1|]. split; [reflexivity|]. split; [reflexivity|].
      unfold w, htv_body, vec2; numR; cbn. repeat split; try lra; try discriminate; [|left; reflexivity].
      intros s s' _ H _. apply bent_forwards; cbn; lra.
    - intros x y z Hx. destruct (htv_top_value line L bw h t x y z HL Hh Ht Ev Hx) as (u & Eu & _).
      destruct (htv_top_value line L bw h t x y None HL Hh Ht Ev Hx) as (u' & Eu' & _).
      assert (Z : htv_top bisect line L h t x y z = htv_top bisect line L h t x y None) by reflexivity.
      unfold w, htv_body; cbn [w_top]. rewrite Z. unfold tf_value. rewrite Eu'. reflexivity.
    - intros x y z _. reflexivity.
    - split; [right; split|discriminate].
      + intros s _. exists (1 / 100). reflexivity.
      + exists (1 / 100). split; [reflexivity|]. apply small_of; [|lra].
        destruct (htv_top_value line L bw h t 0 (bw / 2) None HL Hh Ht Ev ltac:(lra)) as (u & Eu & Hu).
        unfold half_h, tf_value, w, htv_body, vec2; cbn [w_B0 vx vy]; numR. rewrite Eu. cbn [vz].
        assert (A : u * (L - 0 + 5 / 100) <= (h + t) * (L + 5 / 100)) by (rewrite Rminus_0_r; apply Rmult_le_compat_r; lra).
        assert (B : 0 < u * (L - 0 + 5 / 100)) by (apply Rmult_lt_0_compat; lra).
        assert (C : (h + t) * (L + 5 / 100) + 95 / 100 * (h + t) = (h + t) * (L + 1)) by field. lra.
  Qed.

  Lemma flap_ok L bw t a Ln bn : 0 < L -> 0 < t -> t <= 1000000 -> exists w, htv_flap L bw t a Ln bn = Ok w /\ part_ok w.
  Proof using Hin Han.
    intros HL Ht Hs. unfold htv_flap, vec2. numR. cbn [vx vy].
    set (fl := htv_flap_length L Ln). set (gap := htv_flap_gap bw bn).
    set (B0 := V3 fl (8 / 10 * bw / 2 + 1 / 2 * gap) 0). set (B1 := V3 (fl + 5 / 100 * L) (1 / 2 * (8 / 10 * bw / 2 + 1 / 2 * gap)) 0).
    set (TT := V3 (fl + 1 / 10 * L) (0 + 1 / 2 * gap) 0).
    destruct (bent_apart B0 B1 TT) as [N1 N2]; [cbn; lra|cbn; lra|].
    destruct (bent_ends _ _ _ N1 N2) as (E0 & _ & E1).
    destruct (bent_evaluates _ _ _ N1 N2) as (line & El & Ev). rewrite El. cbn [bind]. eexists. split; [reflexivity|].
    eapply (part_of _ (bent B0 B1 TT) (fun _ _ => - t - 1 / 10 * t) (fun _ _ => 2 / 10 * t - 1 / 10 * t) fl (fl + 1 / 10 * L)); try reflexivity.
    - split; [exact Ev|]. split; [exact E0|]. split; [exact E1|]. split; [reflexivity|]. split; [reflexivity|].
      cbn. repeat split; try lra; try discriminate; [|left; reflexivity].
      intros s s' _ H _. apply bent_forwards; cbn; lra.
    - intros x y z _. reflexivity.
    - intros x y z _. reflexivity.
    - split; [right; split|discriminate].
      + intros s Hs'. destruct (default_width s Hs') as (k & E & _). exists k. exact E.
      + destruct (default_width 0 ltac:(lra)) as (k & E & Hk). exists k. split; [exact E|]. apply small_of; [|lra].
        unfold half_h. lra.
  Qed.
End Shapes.

(** ** wings on the heap *)
Definition wing_result (w : wing R) bisect : res (dict (surf R) * dict nat * dict nat) :=
  let! d := wing_patches bisect w in Ok (d, [], []).
Definition wing_comp bisect (w : wing R) (r : resolution) (name : option string) (d : nat) : comp R :=
  mkComp "wing" (Own false (wing_result w bisect)) d [] [] r None None None no_clustering [] None None true false name 1%Z.
Lemma new_wing_ext bisect h ds cs w r name t1 : wing_t_B1 bisect w = Ok t1 -> new_wing bisect w r name (ext h ds cs) =
  (ext h (ds ++ [[]]) (cs ++ [wing_comp bisect w r name (length (dicts h) + length ds)]), Ok (length (comps h) + length cs)%nat).
Proof. intros E. unfold new_wing, bindM. rewrite object_ext. unfold lift. rewrite E. reflexivity. Qed.
Lemma wing_ready bisect h ds cs k c w g p : nth_error cs k = Some c -> c_kind c = Own false (wing_result w bisect) ->
  wing_patches bisect w = Ok g -> dkeys g = open_wing_keys ->
  (exists d, c_patches c = (length (dicts h) + d)%nat /\ nth_error ds d = Some []) -> plan_ok p -> planned c p ->
  ready (ext h ds cs) (length (comps h) + k) g p.
Proof.
  intros E K G Kl (d & D1 & D2) O P.
  assert (E' : nth_error (comps (ext h ds cs)) (length (comps h) + k) = Some c) by (unfold ext; cbn [comps]; rewrite nth_ext; exact E).
  assert (ND : NoDup (dkeys g)) by (rewrite Kl; repeat constructor; cbn; intuition discriminate).
  split; [|split; [|split; [exact O|exists c; auto]]].
  - left. exists c, false. eexists _, _. split; [exact E'|]. split; [rewrite K; unfold wing_result; rewrite G; reflexivity|].
    split; [exact ND|]. right. unfold patches_at. rewrite E', D1. unfold ext. cbn [dicts]. rewrite nth_ext. exact D2.
  - split; [exact ND|]. rewrite Kl. intros k0 Hk. 
    unfold open_wing_keys in Hk |- *. cbn [In] in Hk.
    repeat (destruct Hk as [<-|Hk]; [cbn; intuition discriminate|]). destruct Hk.
Qed.

Definition mirrored_total (f : pt -> pt) axis b := motion_total (before_reflection (mirror_plan axis b) 0 ++ mirrored_in axis :: after_reflection (mirror_plan axis b) []) f.
Lemma mirror_total axis b : motion_total (before_reflection (mirror_plan axis b) 0 ++ after_reflection (mirror_plan axis b) []) (fun p => p).
Proof. intros p. rewrite (mirror_turned 0 axis b p), Rmult_0_l, rodrigues_0 by (right; left; reflexivity). reflexivity. Qed.
Lemma mirror_total2 axis b : mirrored_total (reflect (axis_vec axis)) axis b.
Proof. intros p. rewrite (mirror_turned2 0 axis b p), Rmult_0_l, rodrigues_0 by (right; left; reflexivity). reflexivity. Qed.

(** the mesh of a wing *)
Definition wing_grid (n : nat) (g : dict (surf R)) : list (tri R) := flat_map (patch_grid n) (values_of (dvals g)).
Lemma wing_grid_length n g : length (wing_grid n g) = (length g * (4 * S n * S n))%nat.
Proof.
  unfold wing_grid, values_of, dvals. rewrite map_map. induction g as [|a g IH]; [reflexivity|]. cbn [map flat_map length].
  rewrite app_length, IH. unfold patch_grid. rewrite grid_mesh_length. lia.
Qed.
Lemma wing_grid_affine f n g : affine f -> flat_map (patch_grid n) (map (fun u r s => f (u r s)) (values_of (dvals g))) = map_mesh f (wing_grid n g).
Proof. apply grids_affine. Qed.

(** ** the vehicle *)
Definition htv_made (c : nat) : vehicle R :=
  mkVehicle [c + 0; c + 2; c + 1]%nat "Hypersonic Technology Vehicle" 0 1 false [("wing"%string, 3%nat)]
    [("wing_1", c + 0); ("wing_2", c + 2); ("wing_3", c + 1)]%nat%string
    [("wing_1", c + 0); ("wing_2", c + 2); ("wing_3", c + 1)]%nat%string [].
Definition htv_comps bisect (wb wf : wing R) (d : nat) : list (comp R) :=
  [with_options 1 reflected_y (wing_comp bisect wb (ResInt 5) None (d + 0));
   with_options 1 reflected_y (wing_comp bisect wf (ResInt 5) None (d + 1));
   with_options 1 default_add (wing_comp bisect wf (ResInt 5) None (d + 2))].
Lemma htv_run bisect L bw hh t a Ln bn h line wf t1 t2 : htv_line L bw = Ok line ->
  wing_t_B1 bisect (htv_body bisect line L bw hh t) = Ok t1 -> htv_flap L bw t a Ln bn = Ok wf -> wing_t_B1 bisect wf = Ok t2 ->
  htv_vehicle bisect L bw hh t a Ln bn h =
  (ext h [[]; []; []] (htv_comps bisect (htv_body bisect line L bw hh t) wf (length (dicts h))), Ok (htv_made (length (comps h)))).
Proof.
  intros El E1 Ef E2. set (wb := htv_body bisect line L bw hh t). unfold htv_vehicle. rewrite <- (ext_nil h) at 1. unfold bindM at 1. unfold M_Vehicle.lift at 1. rewrite El.
  fold wb. unfold bindM at 1. rewrite (new_wing_ext bisect h [] [] wb (ResInt 5) None t1 E1). cbn [app length].
  unfold bindM at 1. rewrite (add_ext h _ _ (configured "Hypersonic Technology Vehicle") 0 (wing_comp bisect wb (ResInt 5) None (length (dicts h) + 0))) by reflexivity.
  cbv zeta. unfold bindM at 1. unfold M_Vehicle.lift at 1. rewrite Ef. unfold bindM at 1. 
  rewrite (new_wing_ext bisect h _ _ wf (ResInt 5) None t2 E2).
  set (cb := with_options _ reflected_y _). cbn [app length list_set].
  unfold bindM at 1. unfold deepcopy_comp. unfold bindM at 1.
  rewrite (get_ext h _ _ 1 (wing_comp bisect wf (ResInt 5) None (length (dicts h) + 1))) by reflexivity.
  cbn [wing_comp c_kind c_patches]. unfold bindM at 1. rewrite (getd_ext h _ _ 1 []) by reflexivity.
  unfold bindM at 1. rewrite newd_ext, newc_ext. cbn [app length].
  unfold bindM at 1. rewrite (add_ext h _ _ _ 2 (wing_comp bisect wf (ResInt 5) None (length (dicts h) + 2))) by reflexivity.
  cbv zeta. cbn [list_set].
  rewrite (add_ext h _ _ _ 1 (wing_comp bisect wf (ResInt 5) None (length (dicts h) + 1))) by reflexivity.
  reflexivity.
Qed.

Lemma htv_generates bisect (wb wf : wing R) h : separate h -> part_ok bisect wb -> part_ok bisect wf ->
  exists gb gf, wing_patches bisect wb = Ok gb /\ wing_patches bisect wf = Ok gf /\
  let c := length (comps h) in
  exists h2, generate (htv_made c) (ext h [[]; []; []] (htv_comps bisect wb wf (length (dicts h)))) = (h2, mark_generated (htv_made c), Ok tt) /\
    length (comps h2) = (3 + c)%nat /\
    (forall k, (k < 3)%nat -> ghost_at h2 (c + k) = false /\ type_at h2 (c + k) = "wing"%string /\ tag_at h2 (c + k) = None) /\
    mesh_of h2 (c + 0) = Ok (wing_grid 4 gb ++ map_mesh (reflect (axis_vec "y")) (wing_grid 4 gb)) /\
    mesh_of h2 (c + 2) = Ok (wing_grid 4 gf) /\
    mesh_of h2 (c + 1) = Ok (wing_grid 4 gf ++ map_mesh (reflect (axis_vec "y")) (wing_grid 4 gf)) /\
    length (wing_grid 4 gb) = 1300%nat /\ length (wing_grid 4 gf) = 1300%nat.
Proof.
  intros SP (gb & Eb & Kb & Sb & _) (gf & Ef & Kf & Sf & _). exists gb, gf. split; [exact Eb|]. split; [exact Ef|]. intros c.
  set (h1 := ext h _ _). set (cs := htv_comps bisect wb wf (length (dicts h))) in *.
  assert (PS : plan_ok still) by (split; [discriminate|constructor]).
  assert (PM : plan_ok (mirror_plan "y" true)).
  { split; [intros x Hx; injection Hx as <-; right; left; reflexivity|constructor]. }
  assert (N0 : nth_error (comps h1) (c + 0) = nth_error cs 0) by (unfold h1, ext, c; cbn [comps]; apply nth_ext).
  assert (N1 : nth_error (comps h1) (c + 1) = nth_error cs 1) by (unfold h1, ext, c; cbn [comps]; apply nth_ext).
  assert (N2 : nth_error (comps h1) (c + 2) = nth_error cs 2) by (unfold h1, ext, c; cbn [comps]; apply nth_ext).
  assert (R0 : ready h1 (c + 0) gb (mirror_plan "y" true)).
  { eapply wing_ready; [reflexivity|reflexivity|exact Eb|exact Kb| |exact PM|].
    - exists 0%nat. split; reflexivity.
    - split; [reflexivity|]. split; [right; auto|]. repeat split. }
  assert (R1 : ready h1 (c + 1) gf (mirror_plan "y" true)).
  { eapply wing_ready; [reflexivity|reflexivity|exact Ef|exact Kf| |exact PM|].
    - exists 1%nat. split; reflexivity.
    - split; [reflexivity|]. split; [right; auto|]. repeat split. }
  assert (R2 : ready h1 (c + 2) gf still).
  { eapply wing_ready; [reflexivity|reflexivity|exact Ef|exact Kf| |exact PS|].
    - exists 2%nat. split; reflexivity.
    - split; [reflexivity|]. split; [right; auto|]. repeat split. }
  assert (U0 : unmeshed h1 (c + 0) 4) by (eexists; split; [exact N0|repeat split]).
  assert (U1 : unmeshed h1 (c + 1) 4) by (eexists; split; [exact N1|repeat split]).
  assert (U2 : unmeshed h1 (c + 2) 4) by (eexists; split; [exact N2|repeat split]).
  assert (NB : gb <> []) by (intros ->; discriminate Kb).
  assert (NF : gf <> []) by (intros ->; discriminate Kf).
  pose proof (values_of_ok (dvals gb) Sb) as Vb. pose proof (values_of_ok (dvals gf) Sf) as Vf.
  assert (SP1 : separate h1).
  { unfold h1, cs, htv_comps. eapply (ext_separate h _ _ [0; 1; 2]%nat SP); [reflexivity| |]; repeat constructor; cbn; lia || intuition discriminate. }
  assert (ND : NoDup (flat_map (with_children h1) (v_components (htv_made c)))).
  { cbn [htv_made v_components flat_map]. unfold with_children. rewrite N0, N1, N2. cbn. 
    repeat constructor; cbn; lia || tauto. }
  assert (RD : forall i, In i (v_components (htv_made c)) -> exists g p, ready h1 i g p).
  { intros j [<-|[<-|[<-|[]]]]; eauto. }
  destruct (generated_meshes (htv_made c) h1 [] SP1 ND RD eq_refl ltac:(constructor)) as (h2 & A & LN & S & Q).
  pose proof (reflected_meshes (htv_made c) h1 [] SP1 ND RD eq_refl ltac:(constructor) h2 A) as RM.
  exists h2. split; [exact A|]. split; [rewrite LN; unfold h1, ext, c; cbn [comps]; rewrite app_length; cbn; lia|].
  split.
  { assert (X : forall k cc, nth_error (comps h1) (c + k) = Some cc -> c_ghost cc = false -> c_type cc = "wing"%string -> c_name cc = None ->
      ghost_at h2 (c + k) = false /\ type_at h2 (c + k) = "wing"%string /\ tag_at h2 (c + k) = None).
    { intros k cc E G1 G2 G3. destruct (S _ _ E) as (c' & E' & SO). destruct (so_inv _ _ SO) as (O1 & _ & _ & _ & _ & _ & _ & _ & _ & O2 & O3).
      unfold ghost_at, type_at, tag_at. rewrite E', O1, O2, O3, G1, G2, G3. auto. }
    intros [|[|[|k]]] Hk; [| | |lia]; eapply X; try (eassumption || reflexivity); [exact N0|..]; try reflexivity; [exact N1|..]; try reflexivity; [exact N2|..]; reflexivity. }
  assert (AF : affine (reflect (axis_vec "y"))) by apply reflect_affine.
  assert (MID : forall n g, flat_map (patch_grid n) (map (fun u r s => (fun p => p) (u r s)) (values_of (dvals g))) = wing_grid n g).
  { intros n g. unfold wing_grid. f_equal. rewrite <- (map_id (values_of (dvals g))) at 2. reflexivity. }
  split.
  { rewrite (RM (c + 0)%nat gb (mirror_plan "y" true) 4%nat (values_of (dvals gb)) "y"%string (fun p => p) (reflect (axis_vec "y")) (or_introl eq_refl) R0 U0 NB Vb eq_refl
      (mirror_total "y" true) (mirror_total2 "y" true)). cbn [p_append mirror_plan]. rewrite MID, wing_grid_affine by exact AF. reflexivity. }
  split.
  { rewrite (Q (c + 2)%nat gf still 4%nat (values_of (dvals gf)) (fun p => p) (or_intror (or_introl eq_refl)) R2 U2 NF Vf eq_refl still_total). rewrite MID. reflexivity. }
  split.
  { rewrite (RM (c + 1)%nat gf (mirror_plan "y" true) 4%nat (values_of (dvals gf)) "y"%string (fun p => p) (reflect (axis_vec "y")) (or_intror (or_intror (or_introl eq_refl))) R1 U1 NF Vf eq_refl
      (mirror_total "y" true) (mirror_total2 "y" true)). cbn [p_append mirror_plan]. rewrite MID, wing_grid_affine by exact AF. reflexivity. }
  rewrite !wing_grid_length. rewrite <- !(map_length fst). change (map fst gb) with (dkeys gb). change (map fst gf) with (dkeys gf). rewrite Kb, Kf. split; reflexivity.
Qed.

(** ** edges along the root *)
Lemma root_chord bisect (w : wing R) d g lo hi ft : wing_patches bisect w = Ok d -> evaluates (w_line w) g -> g 0 = w_B0 w ->
  vertical_on lo hi (w_top w) ft -> lo <= vx (w_A0 w) <= hi -> lo <= vx (w_A1 w) <= hi ->
  exists u rest, d = ("top_patch_0"%string, u) :: rest /\
    forall r, 0 <= r <= 1 -> exists z, u r 0 = Ok (V3 (vx (lerp r (w_A1 w) (w_A0 w))) (vy (lerp r (w_A1 w) (w_A0 w))) z).
Proof.
  intros Hd Hl G0 V A0 A1.
  destruct (wing_inv bisect w d Hd) as (t1 & t2 & B1 & f0 & f1 & p0 & p1 & tr & cl & E1 & E2 & _ & EB & (_ & _ & C2 & _) & ET & EC & ED).
  rewrite (Hl t1) in EB. injection EB as <-.
  pose proof (sub_evaluates (w_line w) g 0 t1 Hl) as S01.
  destruct (coons_surf _ _ _ _ _ _ _ _ f0 (sub_evaluates _ _ 1 0 S01) (line_evaluates _ _) (line_evaluates _ _) (line_evaluates _ _) C2)
    as (_ & _ & F3 & _); rewrite ?lerp_0, ?lerp_1; auto.
  { f_equal. ring. } { rewrite <- G0. f_equal. ring. }
  eexists _, _. split; [exact ED|]. intros r Hr. unfold OffsetPatchFunction. rewrite F3. cbn [bind].
  rewrite V by (unfold lerp; cbn [vx]; split; nra). cbn [bind]. unfold vadd; numR. cbn [vx vy vz]. rewrite !Rplus_0_r. eexists. reflexivity.
Qed.
Lemma south_edge n v : exists e, In e (mesh_edges (patch_grid n v)) /\
  ((fst e = grid_of n v 0 0 /\ snd e = grid_of n v 1 0) \/ (fst e = grid_of n v 1 0 /\ snd e = grid_of n v 0 0)).
Proof.
  unfold patch_grid, grid_mesh. cbn [seq flat_map map app]. unfold mesh_edges. cbn [flat_map].
  unfold cell_tri, tri_edges, at_corner. cbn [t0 t1 t2 corner fst snd app].
  eexists. split; [left; reflexivity|]. cbn. auto.
Qed.
