(** Wings and fins as parts of a vehicle. *)
From Coq Require Import String Reals Lra ZArith List Lia Bool.
From Verif Require Import Num NumR Py M_Vector SpecR3 M_Path M_Surface M_Geometry M_Mesh M_Component M_Common M_Wing M_Fin M_Vehicle M_VecHeap M_Sens M_Gen M_Hangar M_Htv M_X43
  SpecPath SpecPoly SpecSurf SpecMesh SpecComp SpecVehicle SpecAdd SpecPrism SpecHangar SpecWing SpecFin SpecPair SpecHtv SpecFiles SpecHalf
  L_Vector L_Line L_Polyline L_Coons L_Curves L_Ellipse L_Wing L_WingOk L_WingTotal L_Fin L_FinSeams L_FinTotal L_Component L_Mesh L_Heap L_Volume L_Rigid L_Reflect L_Pipeline L_Generate L_Cache L_Files L_Wedge L_SweptComp L_Edges L_Prism L_Hangar L_Block L_Pair L_Htv.
Import ListNotations.
Local Open Scope R_scope.

(** ** polylines of straight segments *)
Definition segment (ab : pt * pt) : path R := Line (fst ab) (snd ab).
Lemma chain_evaluates (l : list (pt * pt)) d : l <> [] -> Forall (fun ab => fst ab <> snd ab) l ->
  exists q g, Polyline (map segment l) = Ok q /\ evaluates q g /\ g 0 = fst (hd d l) /\ g 1 = snd (last l d).
Proof.
  intros NE F. set (segs := map segment l). set (ls := map (fun ab => dist (fst ab) (snd ab)) l).
  assert (Hn : segs <> []) by (unfold segs; destruct l; [congruence|discriminate]).
  assert (Hl : lengths segs ls).
  { unfold segs, ls, lengths. clear. induction l as [|a l IH]; constructor; [apply line_length|exact IH]. }
  assert (Hp : Forall (fun x => 0 < x) ls).
  { unfold ls. clear -F. induction F; constructor; auto. apply dist_pos. assumption. }
  assert (Ht : Forall total_path segs).
  { unfold segs. clear. induction l as [|a l IH]; constructor; [|exact IH]. intros u. unfold segment. rewrite line_lerp. eexists; reflexivity. }
  pose proof (init_open segs ls (nlit 1 10000000000) Hn Hl) as IO.
  unfold Polyline. rewrite IO. cbn [bind].
  exists (polyline_path (mkPoly segs (breaks ls))), (fun t => match Polyline_call (mkPoly segs (breaks ls)) t with Ok p => p | Raise _ => origin end).
  split; [reflexivity|].
  destruct (polyline_values_all segs ls _ _ Hn Hl Hp Ht IO) as (V0 & V1 & _).
  split; [|split].
  - intros t. cbn [p_call polyline_path].
    destruct (polyline_one_segment segs ls _ _ t Hn Hl Hp Ht IO) as (k & s & _ & _ & Es & E).
    destruct (proj1 (Forall_forall _ _) Ht s (nth_error_In _ _ Es) (local_t (pl_t_values (mkPoly segs (breaks ls))) k t)) as [p Ep].
    rewrite E, Ep. reflexivity.
  - destruct l as [|a l]; [congruence|]. rewrite (V0 (segment a) eq_refl). unfold segment. rewrite line_lerp, lerp_0. reflexivity.
  - assert (E : nth_error segs (length segs - 1) = Some (segment (last l d))).
    { unfold segs. rewrite map_length. rewrite nth_error_map. rewrite <- (rev_involutive l). 
      destruct (rev l) as [|a r] eqn:Q; [apply (f_equal (@rev _)) in Q; rewrite rev_involutive in Q; cbn in Q; congruence|].
      cbn [rev]. rewrite last_last, app_length, List.rev_length. cbn [length].
      rewrite nth_error_app2 by (rewrite List.rev_length; lia). rewrite List.rev_length. replace (length r + 1 - 1 - length r)%nat with 0%nat by lia. reflexivity. }
    rewrite (V1 _ E). unfold segment. rewrite line_lerp, lerp_1. reflexivity.
Qed.

(** ** wings *)
Definition closing_keys : list string :=
  ["wing_close_top_patch0"; "wing_close_top_patch1"; "wing_close_bot_patch0"; "wing_close_bot_patch1"; "interior_ellip"; "interior_flap_patch"]%string.
Definition wing_entries (w : wing R) : list string := open_wing_keys ++ (if w_close w then closing_keys else []).

Section Wing.
  Variable bisect : (R -> res R) -> R -> R -> res R.
  Hypothesis Hin : in_interval bisect.
  Hypothesis Han : answers bisect.

  Lemma wing_made w g ft fb k0 k1 : evaluates (w_line w) g -> g 0 = w_B0 w -> g 1 = w_TT w ->
    vertical (w_top w) ft -> vertical (w_bot w) fb -> lower (w_line_type w) = "bezier"%string -> w_tail w = "FLAP"%string ->
    w_tB1 w = None -> w_tB2 w = None -> wing_flat w = false ->
    vx (w_B0 w) <= vx (w_A1 w) <= vx (w_TT w) -> (forall t, 0 <= t <= 1 -> exists k, wing_width w t = Ok k) ->
    wing_width w 0 = Ok k0 -> small (half_h ft fb (vx (w_B0 w)) (vy (w_B0 w))) k0 ->
    (w_close w = true -> wing_width w 1 = Ok k1 /\ small (half_h ft fb (vx (w_TT w)) (vy (w_TT w))) k1) ->
    exists d, wing_patches bisect w = Ok d /\ (exists t1, wing_t_B1 bisect w = Ok t1) /\ dkeys d = wing_entries w /\
      (forall u, In u (dvals d) -> on_square u) /\
      exists u, In ("TE_top_patch"%string, u) d /\
        u 0 0 = Ok (tip (w_flap_length w) (w_flap_angle w) (lift (mid_h ft fb) (w_A0 w))) /\
        u 1 0 = Ok (tip (w_flap_length w) (w_flap_angle w) (lift (mid_h ft fb) (w_B0 w))).
  Proof using Hin Han.
    intros Hl G0 G1 Vt Vb Bz Fl N1 N2 FL A1 Hw W0 S0 Cl.
    assert (exists t1, wing_t_B1 bisect w = Ok t1) as [t1 T1].
    { unfold wing_t_B1. rewrite N1. numR.
      destruct (Han (fun t => let! p := p_call (w_line w) t in Ok (vx p - vx (w_A1 w))) (fun t => vx (g t) - vx (w_A1 w))) as [t Et].
      - intros t _. rewrite (Hl t). reflexivity.
      - rewrite G0, G1. lra.
      - rewrite Et. eexists; reflexivity. }
    assert (exists t2, wing_t_B2 w t1 = Some t2) as [t2 T2] by (unfold wing_t_B2; rewrite N2; eexists; reflexivity).
    destruct (wing_ok bisect w g ft fb Hl G0 G1 Vt Vb Bz Fl t1 t2 T1 T2) as [d Ed].
    { right. exists k0. auto. }
    { intros C. exists k1. auto. }
    exists d. split; [exact Ed|]. split; [eauto|].
    assert (B1 : forall t, w_tB1 w = Some t -> 0 <= t <= 1) by (rewrite N1; discriminate).
    destruct (wing_inv bisect w d Ed) as (t1' & t2' & B1' & f0 & f1 & p0 & p1 & tr & cl & E1 & E2 & _ & EB & (C0 & C1 & C2 & C3) & ET & EC & ED).
    pose proof (trailing_patches w ft fb Vt Vb tr ET) as (tet & teb & tele & west & north & Etr & _ & U0 & _).
    pose proof (leading_ell w FL t1' t2') as EL.
    split; [|split].
    - rewrite ED, Etr, EL. unfold wing_entries. destruct (w_close w); [|subst cl; reflexivity].
      rewrite (Hl t1') in EB. injection EB as <-.
      pose proof (sub_evaluates (w_line w) g 0 t1' Hl) as S01.
      destruct (closing_inv w ft fb Vt Vb _ _ cl EC) as (c0 & c1 & c2 & c3 & e & f & k & et & eb & _ & _ & _ & _ & _ & _ & _ & _ & _ & ->).
      + destruct (coons_surf_w _ _ _ _ _ _ _ _ f0 (sub_evaluates _ _ 1 0 S01) (line_evaluates (w_A0 w) (w_B0 w)) (line_evaluates (w_A1 w) (w_A0 w)) (line_evaluates (w_A1 w) (g t1')) C2) as (A & _).
        rewrite (offset_patch f0 _ ft 0 0 _ Vt (A 0)), lerp_0. reflexivity.
      + destruct (coons_surf_w _ _ _ _ _ _ _ _ p0 S01 (line_evaluates (w_A1 w) (g t1')) (line_evaluates (w_A0 w) (w_A1 w)) (line_evaluates (w_A0 w) (w_B0 w)) C0) as (_ & B & _).
        rewrite (offset_patch p0 _ fb 1 0 _ Vb (B 0)), lerp_0. reflexivity.
      + reflexivity.
    - apply (wing_square bisect Hin w g ft fb d Hl G0 G1 Vt Vb B1 Ed). left. exact Hw.
    - exists tet. split; [rewrite ED, Etr; apply in_or_app; right; apply in_or_app; right; left; reflexivity|].
      split; rewrite U0, ?lerp_0, ?lerp_1; reflexivity.
  Qed.
End Wing.

(** ** fins *)
Section Fin.
  Variable bisect : (R -> res R) -> R -> R -> res R.
  Hypothesis Hin : in_interval bisect.
  Hypothesis Han : answers bisect.

  Lemma fin_made f h k0 k1 o : f_thickness f = 2 * h -> vertical (f_top f) (fun _ _ => - h) -> vertical (f_bot f) (fun _ _ => h) ->
    f_p1 f <> f_p2 f -> f_p2 f <> f_p3 f -> vx (f_p1 f) <= vx (f_p2 f) <= vx (f_p3 f) -> vz (f_p1 f) = 0 -> f_rudder f = "sharp"%string ->
    (forall t, 0 <= t <= 1 -> exists k, fin_width f t = Ok k) -> fin_width f 0 = Ok k0 -> fin_width f 1 = Ok k1 -> small h k0 -> small h k1 ->
    f_offset f = Some (fun _ _ _ => Ok o) -> f_pivot_angle f = 0 ->
    exists d, fin_patches bisect f = Ok d /\ dkeys d = fin_keys f /\ (forall u, In u (dvals d) -> on_square u) /\
      exists u, In ("TE_top"%string, u) d /\
        u 0 0 = Ok (vadd (rodrigues (axis_vec "x") origin (f_angle f) (rudder_tip f (f_p0 f))) o) /\
        u 1 0 = Ok (vadd (rodrigues (axis_vec "x") origin (f_angle f) (rudder_tip f (f_p1 f))) o).
  Proof using Hin Han.
    intros Hk Vt Vb H12 H23 HX Z Sh Hw W0 W1 S0 S1 Ho Hp.
    destruct (fin_ok bisect f h Hk Vt Vb k0 k1 H12 H23 (fun _ => Z) W0 W1 S0 S1) as [d Ed].
    { intros q Vq. unfold fin_t_B1. numR. destruct (bent_ends _ _ _ H12 H23) as (E0 & _ & E1).
      destruct (Han (fun t => let! p := p_call q t in Ok (vx p - vx (f_p2 f))) (fun t => vx (bent (f_p1 f) (f_p2 f) (f_p3 f) t) - vx (f_p2 f))) as [t Et].
      - intros t _. rewrite (Vq t). reflexivity.
      - rewrite E0, E1. lra.
      - rewrite Et. eexists; reflexivity. }
    exists d. split; [exact Ed|].
    destruct (fin_square bisect Hin f _ _ d H12 H23 Vt Vb Hw) as [Kd Sq].
    { intros o' E x y z. rewrite Ho in E. injection E as <-. eexists; reflexivity. }
    { exact Ed. }
    split; [exact Kd|]. split; [exact Sq|].
    unfold fin_patches in Ed.
    destruct (fin_edge f) as [q|] eqn:E1; [|discriminate Ed]. cbn [bind] in Ed.
    destruct (fin_panels f) as [pa|] eqn:E2; [|discriminate Ed]. cbn [bind] in Ed.
    destruct (fin_t_B1 bisect f q) as [t1|] eqn:E3; [|discriminate Ed]. cbn [bind] in Ed.
    destruct (fin_bottom f) as [bo|] eqn:E4; [|discriminate Ed]. cbn [bind] in Ed.
    rewrite Sh in Ed. cbn [String.eqb Ascii.eqb Bool.eqb] in Ed.
    destruct (fin_sharp f) as [tr|] eqn:E5; [|discriminate Ed]. cbn [bind] in Ed.
    rewrite Ho, Hp in Ed. injection Ed as <-.
    assert (exists a rest, tr = ("TE_top"%string, a) :: rest /\ a 0 0 = Ok (rudder_tip f (f_p0 f)) /\ a 1 0 = Ok (rudder_tip f (f_p1 f))) as (a & rest & -> & Ea0 & Ea1).
    { unfold fin_sharp in E5.
      destruct (TrailingEdgePatch (f_p0 f) (f_p1 f) _ _ _ "top") as [a|] eqn:T1 in E5; [|discriminate E5]. cbn [bind] in E5.
      destruct (TrailingEdgePatch (f_p0 f) (f_p1 f) _ _ _ "bot") as [b|] eqn:T2 in E5; [|discriminate E5]. cbn [bind] in E5.
      rewrite Vt, Vb in E5. cbn [bind] in E5.
      destruct (fin_ellipses f (f_p1 f) n0) as [[et eb]|]; [|discriminate E5]. cbn [bind] in E5.
      destruct (CoonsPatch eb _ _ _) as [e|] in E5; [|discriminate E5]. cbn [bind] in E5.
      match type of E5 with (let! _ := ?c in _) = _ => destruct c as [tt'|]; [|discriminate E5] end. cbn [bind] in E5.
      injection E5 as <-. exists a. eexists. split; [reflexivity|].
      destruct (te_top _ _ _ _ _ _ _ (te_path _ _ _ _ Vt) T1) as (A & B & _).
      split; [generalize (A 0)|generalize (B 0)]; cbn [on_side fst snd]; intros ->; rewrite lerp_0; reflexivity. }
    assert (IM : forall (F : surf R -> surf R) k (v : surf R) l, In (k, v) l -> In (k, F v) (dmap F l)).
    { intros F k v l I. unfold dmap. apply in_map_iff. exists (k, v). auto. }
    exists (OffsetPatchFunction (RotatedPatch (RotatedPatch a 0 "y" (f_pivot_point f)) (f_angle f) "x" default_point) (fun _ _ _ => Ok o)). split.
    - apply (IM (fun u => OffsetPatchFunction u _)), (IM (fun u => RotatedPatch u (f_angle f) "x" default_point)), (IM (fun u => RotatedPatch u 0 "y" (f_pivot_point f))).
      apply in_or_app; right. do 4 right. apply in_or_app; right. left; reflexivity.
    - assert (X : forall r s p, a r s = Ok p ->
        OffsetPatchFunction (RotatedPatch (RotatedPatch a 0 "y" (f_pivot_point f)) (f_angle f) "x" default_point) (fun _ _ _ => Ok o) r s
        = Ok (vadd (rodrigues (axis_vec "x") origin (f_angle f) p) o)).
      { intros r s p E. unfold OffsetPatchFunction, RotatedPatch. rewrite E. cbn [bind].
        unfold rotate_vec, lower_axis. cbn [String.eqb Ascii.eqb Bool.eqb bind]. f_equal. f_equal.
        numR. rewrite cos_0, sin_0. unfold rodrigues, axis_vec, vadd, vsub, default_point, crossR, inner, translate, plus_scaled, scaled, diff, origin; numR.
        apply vec_ext; cbn; ring. }
      split; apply X; assumption.
  Qed.
End Fin.

(** ** parts on the heap *)
Definition fine_keys (ks : list string) : Prop := NoDup ks /\ forall k, In k ks -> ~ In (mirror_key k) ks.
Definition fineb (ks : list string) : bool :=
  (if list_eq_dec string_dec (nodup string_dec ks) ks then true else false) && forallb (fun k => negb (existsb (String.eqb (mirror_key k)) ks)) ks.
Lemma fineb_fine ks : fineb ks = true -> fine_keys ks.
Proof.
  unfold fineb. intros H. apply andb_true_iff in H as [A B]. destruct (list_eq_dec _ _ _) as [E|]; [|discriminate].
  split; [rewrite <- E; apply NoDup_nodup|]. intros k Hk I. rewrite forallb_forall in B. specialize (B k Hk).
  apply negb_true_iff in B. assert (X : existsb (String.eqb (mirror_key k)) ks = true) by (apply existsb_exists; exists (mirror_key k); split; [exact I|apply String.eqb_refl]).
  congruence.
Qed.
Lemma wing_fine w : fine_keys (wing_entries w).
Proof. apply fineb_fine. unfold wing_entries. destruct (w_close w); vm_compute; reflexivity. Qed.
Lemma fin_fine f : fine_keys (fin_keys f).
Proof. apply fineb_fine. unfold fin_keys. destruct (String.eqb (f_rudder f) "sharp"); vm_compute; reflexivity. Qed.
Lemma own_ready h ds cs k c b g p : nth_error cs k = Some c -> c_kind c = Own b (Ok (g, [], [])) -> fine_keys (dkeys g) ->
  (b = true \/ exists d, c_patches c = (length (dicts h) + d)%nat /\ nth_error ds d = Some []) -> plan_ok p -> planned c p ->
  ready (ext h ds cs) (length (comps h) + k) g p.
Proof.
  intros E K [ND PL] D O P.
  assert (E' : nth_error (comps (ext h ds cs)) (length (comps h) + k) = Some c) by (unfold ext; cbn [comps]; rewrite nth_ext; exact E).
  split; [|split; [exact (conj ND PL)|split; [exact O|exists c; auto]]].
  left. exists c, b. eexists _, _. split; [exact E'|]. split; [exact K|]. split; [exact ND|].
  destruct D as [D|(d & D1 & D2)]; [left; exact D|right]. unfold patches_at. rewrite E', D1. unfold ext. cbn [dicts]. rewrite nth_ext. exact D2.
Qed.
Definition fin_comp bisect (f : fin R) (r : resolution) (name : option string) (d : nat) : comp R :=
  mkComp "fin" (Own true (let! d := fin_patches bisect f in Ok (d, [], []))) d [] [] r None None None no_clustering [] None None true false name 1%Z.
Lemma new_fin_ext bisect h ds cs f r name : new_fin bisect f r name (ext h ds cs) =
  (ext h (ds ++ [[]]) (cs ++ [fin_comp bisect f r name (length (dicts h) + length ds)]), Ok (length (comps h) + length cs)%nat).
Proof. unfold new_fin. rewrite object_ext. reflexivity. Qed.

(** a corner of a patch is a vertex of the mesh *)
Lemma corner_vertex n (g : dict (surf R)) key u p : In (key, u) g -> u 0 0 = Ok p -> vertex_of (wing_grid n g) p.
Proof.
  intros I E. unfold wing_grid, values_of, dvals. 
  destruct (grid_corner n (fun r s => match u r s with Ok q => q | Raise _ => origin end)) as (t & Ht & Hp).
  exists t. split; [|rewrite E in Hp; exact Hp]. apply in_flat_map. eexists. split; [|exact Ht].
  rewrite map_map. exact (in_map (fun x => fun r s => match snd x r s with Ok q => q | Raise _ => origin end) _ _ I).
Qed.
Lemma corner1_vertex n (g : dict (surf R)) key u p : In (key, u) g -> u 1 0 = Ok p -> vertex_of (wing_grid n g) p.
Proof.
  intros I E. unfold wing_grid, values_of, dvals. 
  destruct (grid_corner1 n (fun r s => match u r s with Ok q => q | Raise _ => origin end)) as (t & Ht & Hp).
  exists t. split; [|rewrite E in Hp; exact Hp]. apply in_flat_map. eexists. split; [|exact Ht].
  rewrite map_map. exact (in_map (fun x => fun r s => match snd x r s with Ok q => q | Raise _ => origin end) _ _ I).
Qed.

(** ** vehicles of such parts, at no angle of attack, each plain or with its
    mirror image in y *)
Definition plan_y (m : bool) : plan := if m then mirror_plan "y" true else still.
Definition grid_y (m : bool) (t : list (tri R)) : list (tri R) := if m then t ++ map_mesh (reflect (axis_vec "y")) t else t.
(** the component k of cs, which generates g, has resolution S n, and is mirrored if m *)
Definition listed (h : heap R) (ds : list (dict (surf R))) (cs : list (comp R)) (k : nat) (g : dict (surf R)) (n : nat) (m : bool) : Prop :=
  exists c b, nth_error cs k = Some c /\ c_kind c = Own b (Ok (g, [], [])) /\ fine_keys (dkeys g) /\ g <> [] /\ (forall u, In u (dvals g) -> on_square u) /\
    (b = true \/ exists d, c_patches c = (length (dicts h) + d)%nat /\ nth_error ds d = Some []) /\ planned c (plan_y m) /\
    c_mesh c = None /\ c_surfaces c = None /\ c_resolution c = ResInt (S n) /\ c_clustering c = no_clustering.
Theorem parts_generate (v : vehicle R) h ds cs ks (part : nat -> dict (surf R)) (res : nat -> nat) (mir : nat -> bool) :
  separate (ext h ds cs) -> v_components v = map (fun k => length (comps h) + k)%nat ks -> NoDup ks -> v_transformations v = [] -> v_angle v = 0 ->
  (forall k, In k ks -> listed h ds cs k (part k) (res k) (mir k)) ->
  exists h2, generate v (ext h ds cs) = (h2, mark_generated v, Ok tt) /\ length (comps h2) = (length (comps h) + length cs)%nat /\
    (forall k c, nth_error cs k = Some c -> ghost_at h2 (length (comps h) + k) = c_ghost c /\ type_at h2 (length (comps h) + k) = c_type c /\ tag_at h2 (length (comps h) + k) = c_name c) /\
    forall k, In k ks -> mesh_of h2 (length (comps h) + k) = Ok (grid_y (mir k) (wing_grid (res k) (part k))).
Proof.
  intros SP VC NDk VT VA H. set (C := length (comps h)) in *. set (h1 := ext h ds cs) in *.
  assert (PS : forall m, plan_ok (plan_y m)).
  { intros [|]; [split; [intros x Hx; injection Hx as <-; right; left; reflexivity|constructor]|split; [discriminate|constructor]]. }
  assert (NE : forall k, nth_error (comps h1) (C + k) = nth_error cs k) by (intros k; unfold h1, ext, C; cbn [comps]; apply nth_ext).
  assert (RD : forall k, In k ks -> ready h1 (C + k) (part k) (plan_y (mir k))).
  { intros k Hk. destruct (H k Hk) as (c & b & E & K & F & _ & _ & D & P & _). unfold h1, C. eapply own_ready; eauto. }
  assert (UN : forall k, In k ks -> unmeshed h1 (C + k) (res k)).
  { intros k Hk. destruct (H k Hk) as (c & b & E & K & F & _ & _ & D & P & U). exists c. split; [rewrite NE; exact E|exact U]. }
  assert (ND : NoDup (flat_map (with_children h1) (v_components v))).
  { rewrite VC. clear - NDk H NE. induction NDk as [|k l N _ IH]; [constructor|]. cbn [map flat_map].
    destruct (H k (or_introl eq_refl)) as (c & b & E & K & _). unfold with_children at 1. rewrite NE, E, K. cbn [app]. constructor.
    - intros I. apply in_flat_map in I as (j & Hj & I). apply in_map_iff in Hj as (k' & <- & Hk').
      destruct (H k' (or_intror Hk')) as (c' & b' & E' & K' & _). unfold with_children in I. rewrite NE, E', K' in I. destruct I as [I|[]].
      assert (k' = k) by lia. subst. contradiction.
    - apply IH. intros k' Hk'. apply H. right. exact Hk'. }
  assert (RD' : forall i, In i (v_components v) -> exists g p, ready h1 i g p).
  { intros i Hi. rewrite VC in Hi. apply in_map_iff in Hi as (k & <- & Hk). eexists _, _. exact (RD k Hk). }
  destruct (generated_meshes v h1 [] SP ND RD' VT ltac:(constructor)) as (h2 & A & LN & SO & Q).
  pose proof (reflected_meshes v h1 [] SP ND RD' VT ltac:(constructor) h2 A) as RM.
  exists h2. split; [exact A|]. split; [rewrite LN; unfold h1, ext, C; cbn [comps]; apply app_length|]. split.
  - intros k c E. rewrite <- NE in E. destruct (SO _ _ E) as (c' & E' & S). destruct (so_inv _ _ S) as (O1 & _ & _ & _ & _ & _ & _ & _ & _ & O2 & O3).
    unfold ghost_at, type_at, tag_at. rewrite E', O1, O2, O3. auto.
  - intros k Hk. destruct (H k Hk) as (c & b & E & K & F & NG & Sq & _). pose proof (values_of_ok (dvals (part k)) Sq) as V.
    assert (I : In (C + k)%nat (v_components v)) by (rewrite VC; apply in_map_iff; eauto).
    assert (MID : flat_map (patch_grid (res k)) (map (fun u r s => (fun p => p) (u r s)) (values_of (dvals (part k)))) = wing_grid (res k) (part k)).
    { unfold wing_grid. f_equal. rewrite <- (map_id (values_of (dvals (part k)))) at 2. reflexivity. }
    pose proof (RD k Hk) as Rk. pose proof (UN k Hk) as Uk. destruct (mir k); cbn [plan_y grid_y] in *.
    + rewrite (RM _ _ _ _ (values_of (dvals (part k))) "y"%string (fun p => p) (reflect (axis_vec "y")) I Rk Uk NG V eq_refl).
      * cbn [p_append mirror_plan]. rewrite MID, wing_grid_affine by apply reflect_affine. reflexivity.
      * rewrite VA. exact (mirror_total "y" true).
      * rewrite VA. exact (mirror_total2 "y" true).
    + rewrite (Q _ _ _ _ (values_of (dvals (part k))) (fun p => p) I Rk Uk NG V eq_refl); [rewrite MID; reflexivity|].
      rewrite VA. exact still_total.
Qed.

(** what to_stl writes, when no two names are equal *)
Lemma filed (v : vehicle R) prefix (h : heap R) fs0 l (m : nat -> list (tri R)) :
  (forall i, In i (v_components v) -> (i < length (comps h))%nat /\ mesh_of h i = Ok (m i)) ->
  files v prefix h [] (v_components v) = l -> NoDup (map fst l) -> (forall s i, In (s, i) l -> In i (v_components v)) ->
  exists h' fs, to_stl v prefix h fs0 = (h', fs, Ok tt) /\ (forall s i, In (s, i) l -> dget fs s = Some (m i)) /\
    forall s, ~ In s (map fst l) -> dget fs s = dget fs0 s.
Proof.
  intros H E ND IL. destruct (to_stl_writes v prefix h fs0) as (h' & fs & W & F).
  { intros i Hi. apply H, Hi. } { intros i Hi _. rewrite (proj2 (H i Hi)). eexists; reflexivity. }
  exists h', fs. split; [exact W|]. rewrite E in F.
  assert (LN : forall s i, In (s, i) l -> last_named l s = Some i).
  { intros s i I. unfold last_named. assert (I' : In (s, i) (rev l)) by (rewrite <- in_rev; exact I).
    assert (ND' : NoDup (map fst (rev l))) by (rewrite map_rev; apply NoDup_rev, ND). clear - I' ND'. induction (rev l) as [|[s' i'] r IH]; [destruct I'|].
    cbn [filter fst]. destruct (String.eqb s s') eqn:Q.
    - apply String.eqb_eq in Q. subst s'. destruct I' as [I'|I']; [injection I' as <-; reflexivity|]. exfalso. inversion ND' as [|? ? N1 _]; subst. apply N1. apply (in_map fst) in I'. exact I'.
    - apply IH; [|inversion ND'; assumption]. destruct I' as [I'|I']; [injection I' as <- _; rewrite String.eqb_refl in Q; discriminate|exact I']. }
  split.
  - intros s i I. specialize (F s). rewrite (LN s i I) in F. destruct F as (m' & F1 & F2). rewrite (proj2 (H i (IL s i I))) in F1. apply ok_inj in F1. congruence.
  - intros s N. specialize (F s). assert (X : last_named l s = None).
    { unfold last_named. assert (Y : forall q, In q (rev l) -> String.eqb s (fst q) = false).
      { intros q Iq. apply String.eqb_neq. intros ->. apply N, in_map. apply in_rev. exact Iq. }
      clear - Y. induction (rev l) as [|q r IH]; [reflexivity|]. cbn [filter]. rewrite (Y q (or_introl eq_refl)). apply IH. intros; apply Y; right; assumption. }
    rewrite X in F. exact F.
Qed.

(** adding a part, with the vehicle that results written out *)
Lemma add_to (h : heap R) ds cs v k c a v' : nth_error cs k = Some c -> str_in (c_type c) allowable = true ->
  (let count := (or_else (dget (v_counts v) (c_type c)) 0 + 1)%nat in
   let name := match a_name a with
               | Some n => n
               | None => if truthy (c_name c) then or_else (c_name c) ""%string else enum_name (c_type c) count
               end in
   mkVehicle (v_components v ++ [(length (comps h) + k)%nat]) (v_name v) (v_angle v) (v_verbosity v) (v_generated v)
     (dset (v_counts v) (c_type c) count) (dset (v_enumerated v) (enum_name (c_type c) count) (length (comps h) + k)%nat)
     (dset (v_named v) name (length (comps h) + k)%nat) (v_transformations v)) = v' ->
  add v (length (comps h) + k) a (ext h ds cs) = (ext h ds (list_set cs k (with_options (v_verbosity v') a c)), Ok v').
Proof. intros E A <-. rewrite (add_ext h ds cs v k c a E A). reflexivity. Qed.

(** the root chord of a wing in the plane of symmetry gives edges in that plane *)
Lemma chord_edge bisect (w : wing R) d g ft n : wing_patches bisect w = Ok d -> evaluates (w_line w) g -> g 0 = w_B0 w ->
  vertical (w_top w) ft -> vy (w_A0 w) = 0 -> vy (w_A1 w) = 0 -> exists e, In e (mesh_edges (wing_grid n d)) /\ in_plane "y" e.
Proof.
  intros E V G0 VT Y0 Y1. set (lo := Rmin (vx (w_A0 w)) (vx (w_A1 w))). set (hi := Rmax (vx (w_A0 w)) (vx (w_A1 w))).
  destruct (root_chord bisect w d g lo hi ft E V G0) as (u & rest & -> & Hu).
  - intros x y z _. apply VT.
  - split; [apply Rmin_l|apply Rmax_l].
  - split; [apply Rmin_r|apply Rmax_r].
  - unfold wing_grid. cbn [dvals map snd values_of flat_map].
    set (v := fun r s => match u r s with Ok p => p | Raise _ => origin end).
    destruct (south_edge n v) as (e & Ie & He). exists e. split; [unfold mesh_edges; rewrite flat_map_app; apply in_or_app; left; exact Ie|].
    assert (X : forall i, (i <= S n)%nat -> on_plane "y" (grid_of n v i 0)).
    { intros i Hi. unfold grid_of, v. replace (INR 0 / INR (S n)) with 0 by (cbn [INR]; unfold Rdiv; ring).
      destruct (Hu (INR i / INR (S n))) as [z Ez]; [apply ratio01; lia|]. rewrite Ez.
      unfold on_plane, SpecSurf.coord, inner, lerp. cbn. rewrite Y0, Y1. ring. }
    unfold in_plane. destruct He as [[-> ->]|[-> ->]]; split; apply X; lia.
Qed.
