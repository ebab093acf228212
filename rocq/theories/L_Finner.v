(** The parametric finner. *)
From Coq Require Import String Reals Lra ZArith List Permutation Lia Bool FunctionalExtensionality.
From Verif Require Import Num NumR Py M_Vector SpecR3 M_Path M_Surface M_Geometry M_Mesh M_Component M_Vehicle M_VecHeap M_Sens M_Gen M_Hangar
  SpecPath SpecPoly SpecSurf SpecMesh SpecComp SpecVehicle SpecAdd SpecFiles SpecPrism SpecHangar SpecLathe L_Vector L_Edges L_Mesh L_Volume L_Component L_Coons
  L_SweptComp L_Heap L_Rigid L_Pipeline L_Generate L_Cache L_Files L_RevolvedComp L_Prism L_Hangar L_Block L_Wedge L_Lathe.
Import ListNotations.
Local Open Scope R_scope.

(** ** revolved components *)
Definition rev_comp (line : path R) (n d : nat) : comp R :=
  mkComp "revolved" (Own false (Ok (revolved_patches line, [], []))) d [] [] (ResInt n) None None None no_clustering [] None None true false None 1%Z.
Lemma new_rev h ds cs line n : new_revolved line (ResInt n) None (ext h ds cs) =
  (ext h (ds ++ [[]]) (cs ++ [rev_comp line n (length (dicts h) + length ds)]), Ok (length (comps h) + length cs)%nat).
Proof. unfold new_revolved. rewrite object_ext. reflexivity. Qed.

(** ** adding to a composite *)
Lemma composite_add_ext (h : heap R) ds cs j i p c chs : nth_error cs j = Some p -> nth_error cs i = Some c -> i <> j ->
  c_kind p = Composite chs -> str_in (c_type c) composite_allowable = true ->
  composite_add (length (comps h) + j) (length (comps h) + i) default_add (ext h ds cs) =
  (ext h ds (list_set (list_set cs i (with_options (c_verbosity p) (mkAdd None None true None None None None (c_ghost c)) c)) j
     (set_kind p (Composite (chs ++ [length (comps h) + i]%nat)))), Ok tt).
Proof.
  intros Ej Ei NE K A. unfold composite_add, bindM. rewrite (get_ext h _ _ j p Ej), (get_ext h _ _ i c Ei), K, A.
  cbn [a_clustering default_add a_axis a_append a_curvatures a_transformations]. rewrite put_ext.
  rewrite (get_ext h _ _ j p); [rewrite put_ext; reflexivity|].
  clear -Ej NE. revert cs i Ej NE. induction j as [|j IH]; intros [|x cs] [|i] Ej NE; cbn in *; try congruence. apply IH; [exact Ej|congruence].
Qed.
Lemma deepcopy_ext (h : heap R) ds cs k c d patches b gen : nth_error cs k = Some c -> c_kind c = Own b gen ->
  c_patches c = (length (dicts h) + d)%nat -> nth_error ds d = Some patches ->
  deepcopy_comp (length (comps h) + k) (ext h ds cs) =
  (ext h (ds ++ [patches]) (cs ++ [set_patches c (length (dicts h) + length ds)]), Ok (length (comps h) + length cs)%nat).
Proof.
  intros E K P D. unfold deepcopy_comp, bindM. rewrite (get_ext h _ _ k c E), K, P, (getd_ext h _ _ d patches D), newd_ext, newc_ext. reflexivity.
Qed.

(** ** the program *)
Definition leg_lines (ps : list pt) : list (path R) := map (fun l => Line (fst l) (snd l)) (legs ps).
Lemma finner_lines_legs d l n : finner_lines (T := R) d l n = leg_lines (finner_profile d l n).
Proof.
  unfold finner_lines, leg_lines, finner_profile, vec2, vadd, vsub. cbn [legs map fst snd vx vy vz].
  repeat (f_equal; try (cbn; lra)).
Qed.
(** the fin as it is drawn *)
Definition drawn_fin (fh fl t : R) (k e : nat) : pt :=
  let z := match k with O => 0 | _ => fh end in
  match e with O => V3 0 fl z | S O => V3 (t / 2) 0 z | S (S O) => V3 0 0 z | _ => V3 (- t / 2) 0 z end.
Lemma finner_block fh fl t : finner_sections (T := R) fh fl t = block (drawn_fin fh fl t).
Proof.
  unfold finner_sections, block, block_section, drawn_fin, vec2, Line_add, vadd. cbn [map].
  repeat (f_equal; try (unfold nhalf; cbn; lra)).
Qed.
Section Finner.
  Variables d l n fh fl t : R.
  Notation lines := (leg_lines (finner_profile d l n)).
  Notation line k := (nth k lines (Line origin origin)).
  Definition fin_moves (i : nat) : list motion :=
    [Turn 90 "z"; Slide (V3 l 0 (d / 2)); Turn (IZR (Z.of_nat i * 90)) "x"].
  Definition fin_name (i : nat) : string := ("fin_" ++ str_nat (i + 1))%string.
  Definition fin_comp (dd : nat) (i : nat) : comp R :=
    mkComp "swept" (Own false (block_result (drawn_fin fh fl t) 4)) dd [] [] (ResInt 4) None None None no_clustering
      (map written (fin_moves i)) None None true false (Some (fin_name i)) 1%Z.
  Definition fuselage_comp (c dd : nat) : comp R :=
    mkComp "composite" (Composite [c; c + 1; c + 2]%nat) dd [] [] (ResInt 8) None None None no_clustering [] None None true false
      (Some "fuselage"%string) 1%Z.
  Definition finner_comps (c dd : nat) : list (comp R) :=
    [rev_comp (line 0) 4 dd; rev_comp (line 1) 4 (dd + 1); rev_comp (line 2) 4 (dd + 2);
     fuselage_comp c (dd + 3); block_comp (drawn_fin fh fl t) 4 None (dd + 4);
     fin_comp (dd + 5) 0; fin_comp (dd + 6) 1; fin_comp (dd + 7) 2; fin_comp (dd + 8) 3]%nat.
  Definition finner_named (c : nat) : list (string * nat) :=
    [("fuselage", c + 3); ("fin_1", c + 5); ("fin_2", c + 6); ("fin_3", c + 7); ("fin_4", c + 8)]%string%nat.
  Definition finner_made (c : nat) : vehicle R :=
    mkVehicle (map snd (finner_named c)) "Finner" 0 1 false [("composite", 1); ("swept", 4)]%string%nat
      [("composite_1", c + 3); ("swept_1", c + 5); ("swept_2", c + 6); ("swept_3", c + 7); ("swept_4", c + 8)]%string%nat
      (finner_named c) [].
  Definition with_fin (v : vehicle R) (a i : nat) : vehicle R :=
    let count := (or_else (dget (v_counts v) "swept") 0 + 1)%nat in
    mkVehicle (v_components v ++ [a]) (v_name v) (v_angle v) (v_verbosity v) (v_generated v)
      (dset (v_counts v) "swept"%string count) (dset (v_enumerated v) (enum_name "swept" count) a) (dset (v_named v) (fin_name i) a)
      (v_transformations v).
  Lemma fin_pass h ds cs v i : nth_error cs 4 = Some (block_comp (drawn_fin fh fl t) 4 None (length (dicts h) + 4)) ->
    nth_error ds 4 = Some [] -> v_verbosity v = 1%Z ->
    finner_add_fin d l (length (comps h) + 4) v i (ext h ds cs) =
    (ext h (ds ++ [[]]) (cs ++ [fin_comp (length (dicts h) + length ds) i]), Ok (with_fin v (length (comps h) + length cs) i)).
  Proof using.
    intros E D V. unfold finner_add_fin, bindM.
    rewrite (deepcopy_ext h ds cs 4 _ 4 [] false (block_result (drawn_fin fh fl t) 4) E eq_refl eq_refl D).
    rewrite (add_ext h _ _ v (length cs) (set_patches (block_comp (drawn_fin fh fl t) 4 None (length (dicts h) + 4)) (length (dicts h) + length ds)));
      [|rewrite nth_error_app2, Nat.sub_diag by lia; reflexivity|reflexivity].
    unfold with_fin. rewrite V. refine (f_equal2 pair _ eq_refl). unfold ext. refine (f_equal2 (@mkHeap R) eq_refl _). refine (f_equal2 (@app _) eq_refl _).
    rewrite <- (Nat.add_0_r (length cs)), set_ext. reflexivity.
  Qed.
  Definition finner_start (c dd : nat) : list (comp R) :=
    [rev_comp (line 0) 4 dd; rev_comp (line 1) 4 (dd + 1); rev_comp (line 2) 4 (dd + 2);
     fuselage_comp c (dd + 3); block_comp (drawn_fin fh fl t) 4 None (dd + 4)]%nat.
  Definition finner_begun (c : nat) : vehicle R :=
    mkVehicle [c + 3]%nat "Finner" 0 1 false [("composite", 1)]%string%nat [("composite_1", c + 3)]%string%nat [("fuselage", c + 3)]%string%nat [].
  Lemma finner_body h :
    (bindM (new_revolved (line 0) (ResInt 4) None) (fun nose =>
     bindM (new_revolved (line 1) (ResInt 4) None) (fun outer =>
     bindM (new_revolved (line 2) (ResInt 4) None) (fun base =>
     bindM (new_composite (ResInt 8) (Some "fuselage"%string)) (fun fuselage =>
     bindM (composite_add fuselage nose default_add) (fun _ =>
     bindM (composite_add fuselage outer default_add) (fun _ =>
     bindM (composite_add fuselage base default_add) (fun _ =>
     bindM (new_swept (finner_sections fh fl t) (ResInt 4) None) (fun fin =>
     bindM (add (configured "Finner") fuselage default_add)
        (for_each (finner_add_fin d l fin) (seq 0 4))))))))))) h =
    for_each (finner_add_fin d l (length (comps h) + 4)) (seq 0 4) (finner_begun (length (comps h)))
      (ext h [[]; []; []; []; []] (finner_start (length (comps h)) (length (dicts h)))).
  Proof using.
    rewrite <- (ext_nil h) at 1. rewrite finner_block. unfold finner_start.
    generalize (line 0) (line 1) (line 2). intros l0 l1 l2.
    unfold bindM. rewrite new_rev. cbn [app length]. rewrite new_rev. cbn [app length]. rewrite new_rev. cbn [app length].
    unfold new_composite. rewrite object_ext. cbn [app length].
    erewrite (composite_add_ext h _ _ 3 0) by (reflexivity || discriminate). cbn [list_set].
    erewrite (composite_add_ext h _ _ 3 1) by (reflexivity || discriminate). cbn [list_set].
    erewrite (composite_add_ext h _ _ 3 2) by (reflexivity || discriminate). cbn [list_set].
    rewrite new_block. cbn [app length].
    erewrite (add_ext h _ _ (configured "Finner") 3) by reflexivity. cbn [list_set].
    rewrite !Nat.add_0_r. reflexivity.
  Qed.
  Lemma finner_run h : finner_vehicle d l n fh fl t h =
    (ext h [[]; []; []; []; []; []; []; []; []] (finner_comps (length (comps h)) (length (dicts h))), Ok (finner_made (length (comps h)))).
  Proof using.
    unfold finner_vehicle. rewrite finner_lines_legs. etransitivity; [exact (finner_body h)|].
    cbn [seq for_each]. unfold bindM, ret.
    do 4 (rewrite (fin_pass h) by reflexivity; cbn [app length finner_start]).
    reflexivity.
  Qed.
End Finner.

(** ** geometry *)
Lemma quarters_form i : exists a b, a * a + b * b = 1 /\ forall q, quarters i q = V3 (vx q) (a * vy q - b * vz q) (b * vy q + a * vz q).
Proof.
  induction i as [|i (a & b & N & H)].
  - exists 1, 0. split; [ring|]. intros [x y z]. apply vec_ext; cbn; ring.
  - exists (- b), a. split; [lra|]. intros q. cbn [quarters]. rewrite H. apply vec_ext; cbn; ring.
Qed.
Lemma quarters_affine i : affine (quarters i).
Proof.
  intros p. destruct (quarters_form i) as (a & b & _ & H). unfold delta, diff, translate, scaled, ex, ey, ez, origin. rewrite !H.
  apply vec_ext; cbn; ring.
Qed.
Lemma quarters_origin i : quarters i origin = origin.
Proof. induction i as [|i IH]; [reflexivity|]. cbn [quarters]. rewrite IH. apply vec_ext; cbn; ring. Qed.
Lemma quarters_det i : map_det (quarters i) = 1.
Proof.
  destruct (quarters_form i) as (a & b & N & H). unfold map_det, delta. rewrite !H.
  unfold det3, diff, ex, ey, ez, origin. transitivity (a * a + b * b); [cbn; ring|exact N].
Qed.
Lemma quarters_radius i p : radius_x (quarters i p) = radius_x p.
Proof.
  induction i as [|i IH]; [reflexivity|]. rewrite <- IH. cbn [quarters]. unfold radius_x. cbn. f_equal. ring.
Qed.
Lemma quarters_x i p : vx (quarters i p) = vx p.
Proof. induction i as [|i IH]; [reflexivity|]. cbn [quarters vx]. exact IH. Qed.

Lemma quarter_turn i p : (i < 4)%nat -> rodrigues (axis_vec "x") origin (IZR (Z.of_nat i * 90) * (PI / 180)) p = quarters i p.
Proof.
  intros Hi. unfold rodrigues, axis_vec. cbn [String.eqb Ascii.eqb Bool.eqb]. destruct p as [x y z].
  destruct i as [|[|[|[|i]]]]; [change (Z.of_nat 0 * 90)%Z with 0%Z|change (Z.of_nat 1 * 90)%Z with 90%Z|change (Z.of_nat 2 * 90)%Z with 180%Z|change (Z.of_nat 3 * 90)%Z with 270%Z|lia].
  - replace (0 * (PI / 180)) with 0 by field. rewrite cos_0, sin_0. apply vec_ext; cbn; unfold inner; cbn; ring.
  - replace (90 * (PI / 180)) with (PI / 2) by field. rewrite cos_PI2, sin_PI2. apply vec_ext; cbn; unfold inner; cbn; ring.
  - replace (180 * (PI / 180)) with PI by field. rewrite cos_PI, sin_PI. apply vec_ext; cbn; unfold inner; cbn; ring.
  - replace (270 * (PI / 180)) with (3 * (PI / 2)) by field. rewrite cos_3PI2, sin_3PI2. apply vec_ext; cbn; unfold inner; cbn; ring.
Qed.

Section Placed.
  Variables d l fh fl t : R.
  Definition fin_plan (i : nat) : plan := mkPlan None [] None true (fin_moves d l i).
  Definition place (i : nat) (p : pt) : pt := quarters i (V3 (l - vy p) (vx p) (vz p + d / 2)).
  Lemma place_total i : (i < 4)%nat -> motion_total (before_reflection (fin_plan i) 0 ++ after_reflection (fin_plan i) []) (place i).
  Proof using.
    intros Hi p. unfold before_reflection, after_reflection, fin_plan, fin_moves.
    cbn [p_modifier p_bends p_motions map app in_order fold_right motion_map].
    unfold and_then, turned. rewrite Rmult_0_l, rodrigues_0 by (right; left; reflexivity).
    rewrite quarter_turn by exact Hi. f_equal. unfold place. f_equal.
    unfold rodrigues, axis_vec. cbn [String.eqb Ascii.eqb Bool.eqb].
    replace (90 * (PI / 180)) with (PI / 2) by field. rewrite cos_PI2, sin_PI2. apply vec_ext; cbn; unfold inner; cbn; ring.
  Qed.
  Lemma place_affine i : affine (place i).
  Proof using.
    intros p. destruct (quarters_form i) as (a & b & _ & H). unfold place, delta, diff, translate, scaled, ex, ey, ez, origin. rewrite !H.
    apply vec_ext; cbn; ring.
  Qed.
  Definition fin_mesh (i : nat) : list (tri R) := map_mesh (quarters i) (block_mesh (fin_corner d l fh fl t) 3).
  Lemma fin_placed i : map_mesh (place i) (block_mesh (drawn_fin fh fl t) 3) = fin_mesh i.
  Proof using.
    unfold fin_mesh. rewrite <- !faces_affine by (apply place_affine || apply quarters_affine). f_equal.
    extensionality k. extensionality e. unfold place, drawn_fin, fin_corner. f_equal.
    destruct k, e as [|[|[|e]]]; apply vec_ext; cbn; field.
  Qed.
  Lemma fin_watertight i : watertight (fin_mesh i) /\ length (fin_mesh i) = 384%nat.
  Proof using.
    unfold fin_mesh. rewrite <- faces_affine by apply quarters_affine.
    destruct (block_watertight (fun k e => quarters i (fin_corner d l fh fl t k e)) 3) as [W L]. split; [exact W|]. rewrite L. reflexivity.
  Qed.
  Lemma fin_volume i : signed_volume (fin_mesh i) = fh * fl * t / 2.
  Proof using.
    unfold fin_mesh. rewrite volume_fix0 by (apply quarters_affine || apply quarters_origin). rewrite quarters_det.
    rewrite (block_volume (fin_corner d l fh fl t) 3 (V3 0 0 fh)).
    - unfold vector_area, quad, fin_corner, inner, scaled. cbn. field.
    - intros e He. unfold fin_corner, translate. destruct e as [|[|[|e]]]; apply vec_ext; cbn; ring.
  Qed.
  Lemma fin_vertices i p : vertex_of (fin_mesh i) p -> exists q, vertex_of (fin_mesh 0) q /\ p = quarters i q.
  Proof using.
    unfold fin_mesh, vertex_of. intros (s & Hs & Hp). unfold map_mesh in *. apply in_map_iff in Hs. destruct Hs as (u & <- & Hu).
    destruct Hp as [->|[->| ->]]; [exists (t0 u)|exists (t1 u)|exists (t2 u)]; (split; [|reflexivity]); exists (map_tri (quarters 0) u);
      (split; [apply in_map; exact Hu|]); unfold map_tri; cbn [t0 t1 t2 quarters]; auto.
  Qed.
  Lemma fin_inside p : 0 <= fh -> 0 <= fl -> 0 <= t -> vertex_of (fin_mesh 0) p ->
    l - fl <= vx p <= l /\ d / 2 <= vz p <= d / 2 + fh /\ Rabs (2 * vy p) <= t.
  Proof using.
    intros Hh Hl Ht Hp. unfold fin_mesh in Hp.
    assert (V : vertex_of (block_mesh (fin_corner d l fh fl t) 3) p).
    { destruct Hp as (s & Hs & Hp). unfold map_mesh in Hs. apply in_map_iff in Hs. destruct Hs as (u & <- & Hu). exists u. split; [exact Hu|].
      destruct u. exact Hp. }
    clear Hp.
    assert (H : forall a b, (forall k e, (k < 2)%nat -> (e < 4)%nat -> in_half a b (fin_corner d l fh fl t k e)) -> in_half a b p).
    { intros a b H. exact (block_hull _ 3 a b H p V). }
    assert (C : forall a b, (forall z, z = d / 2 + 0 \/ z = d / 2 + fh -> inner a (V3 (l - fl) 0 z) <= b /\ inner a (V3 l (t / 2) z) <= b /\
                inner a (V3 l 0 z) <= b /\ inner a (V3 l (- t / 2) z) <= b) -> inner a p <= b).
    { intros a b K. apply H. intros k e Hk He. unfold in_half, fin_corner.
      destruct (K (d / 2 + match k with O => 0 | _ => fh end)) as (K1 & K2 & K3 & K4); [destruct k; auto|].
      destruct e as [|[|[|e]]]; assumption. }
    clear H V. unfold inner in C.
    pose proof (C (V3 1 0 0) l) as C1. pose proof (C (V3 (-1) 0 0) (fl - l)) as C2.
    pose proof (C (V3 0 0 1) (d / 2 + fh)) as C3. pose proof (C (V3 0 0 (-1)) (- (d / 2))) as C4.
    pose proof (C (V3 0 2 0) t) as C5. pose proof (C (V3 0 (-2) 0) t) as C6. clear C.
    destruct p as [x y z]. cbn [vx vy vz] in *.
    assert (1 * x + 0 * y + 0 * z <= l) by (apply C1; intros u [->| ->]; repeat split; lra).
    assert (-1 * x + 0 * y + 0 * z <= fl - l) by (apply C2; intros u [->| ->]; repeat split; lra).
    assert (0 * x + 0 * y + 1 * z <= d / 2 + fh) by (apply C3; intros u [->| ->]; repeat split; lra).
    assert (0 * x + 0 * y + -1 * z <= - (d / 2)) by (apply C4; intros u [->| ->]; repeat split; lra).
    assert (0 * x + 2 * y + 0 * z <= t) by (apply C5; intros u [->| ->]; repeat split; lra).
    assert (0 * x + -2 * y + 0 * z <= t) by (apply C6; intros u [->| ->]; repeat split; lra).
    repeat split; try lra. unfold Rabs. destruct (Rcase_abs (2 * y)); lra.
  Qed.
End Placed.

(** ** generation *)
Lemma leg_evaluates p q : evaluates01 (Line p q) (straight p q).
Proof. intros t _. rewrite L_Line.line_lerp. reflexivity. Qed.
Definition profile_curves (ps : list pt) : list (R -> pt) := map (fun l => straight (fst l) (snd l)) (legs ps).

Lemma joined_values k gs vss : Forall2 (fun g vs => values01 (dvals g) vs) gs vss -> values01 (dvals (joined k gs)) (concat vss).
Proof.
  intros H. revert k. induction H as [|g vs gs vss V _ IH]; intros k; [constructor|]. cbn [joined concat]. unfold dvals, values01 in *. rewrite map_app.
  apply Forall2_app; [|apply IH]. rewrite map_map. cbn [snd]. exact V.
Qed.
Lemma leg_values ps : Forall2 (fun g vs => values01 (dvals g) vs) (map revolved_patches (leg_lines ps)) (map four (profile_curves ps)).
Proof.
  unfold leg_lines, profile_curves. rewrite !map_map. induction (legs ps) as [|[p q] l IH]; cbn [map]; constructor; [|exact IH].
  apply four_values, leg_evaluates.
Qed.

Section Flight.
  Variables d l n fh fl t : R.
  Notation lines := (leg_lines (finner_profile d l n)).
  Definition fuselage_patches : dict (surf R) := joined 0 (map revolved_patches lines).
  Definition fuselage_mesh : list (tri R) := lathe_mesh 7 (profile_curves (finner_profile d l n)).
  Lemma fuselage_keys : plain_keys fuselage_patches.
  Proof using.
    unfold fuselage_patches, lines, finner_profile. cbn [leg_lines legs map fst snd joined].
    unfold plain_keys, dkeys. cbn [revolved_patches map seq app fst snd].
    set (K := _ :: _). vm_compute in K. subst K. split.
    - repeat constructor; cbn; intuition discriminate.
    - intros k Hk. unfold mirror_key.
      repeat (destruct Hk as [<-|Hk]; [cbn; intuition discriminate|]). destruct Hk.
  Qed.
  Notation finner_heap h := (ext h [[]; []; []; []; []; []; []; []; []] (finner_comps d l n fh fl t (length (comps h)) (length (dicts h)))).
  Lemma fuselage_ready h : ready (finner_heap h) (length (comps h) + 3) fuselage_patches still.
  Proof using.
    split; [|split; [exact fuselage_keys|split]].
    - right. eexists _, _, _. split; [unfold ext; cbn [comps]; rewrite nth_ext; reflexivity|]. split; [reflexivity|]. split; [|reflexivity].
      assert (O : forall k line, nth_error (finner_comps d l n fh fl t (length (comps h)) (length (dicts h))) k = Some (rev_comp line 4 (length (dicts h) + k)) -> (k < 3)%nat ->
        builds_own (finner_heap h) (length (comps h) + k) (revolved_patches line)).
      { intros k line E Hk. exists (rev_comp line 4 (length (dicts h) + k)), false, [], [].
        assert (E' : nth_error (comps (finner_heap h)) (length (comps h) + k) = Some (rev_comp line 4 (length (dicts h) + k))) by (unfold ext; cbn [comps]; rewrite nth_ext; exact E).
        split; [exact E'|]. split; [reflexivity|]. split.
        - unfold dkeys, revolved_patches. cbn. repeat constructor; cbn; intuition discriminate.
        - right. unfold patches_at. rewrite E'. unfold ext. cbn [dicts rev_comp c_patches]. rewrite nth_ext. destruct k as [|[|[|k]]]; [reflexivity..|lia]. }
      unfold leg_lines, finner_profile. cbn [legs map fst snd]. constructor; [|constructor; [|constructor; [|constructor]]].
      + pose proof (O 0%nat (Line (V3 0 0 0) (V3 n (d / 2) 0))) as O0. rewrite !Nat.add_0_r in O0. apply O0; [reflexivity|lia].
      + apply O; [reflexivity|lia].
      + apply O; [reflexivity|lia].
    - split; [discriminate|constructor].
    - eexists. split; [unfold ext; cbn [comps]; rewrite nth_ext; reflexivity|]. repeat split. right. auto.
  Qed.
  Lemma fin_ready h i : (i < 4)%nat -> exists g rr rs, block_result (drawn_fin fh fl t) 4 = Ok (g, rr, rs) /\ g <> [] /\
    values01 (dvals g) (faces (drawn_fin fh fl t)) /\ ready (finner_heap h) (length (comps h) + (5 + i)) g (fin_plan d l i).
  Proof using.
    intros Hi. destruct (block_result_ok (drawn_fin fh fl t) 4) as (g & rr & rs & G & NE & V). exists g, rr, rs. split; [exact G|]. split; [exact NE|].
    split; [exact V|]. eapply (block_ready h _ _ (5 + i) (fin_comp d l fh fl t (length (dicts h) + (5 + i)) i)); [|reflexivity|exact G| | |].
    - destruct i as [|[|[|[|i]]]]; [reflexivity..|lia].
    - exists (5 + i)%nat. split; [reflexivity|]. destruct i as [|[|[|[|i]]]]; [reflexivity..|lia].
    - split; [discriminate|]. unfold fin_plan, fin_moves. cbn [p_motions]. constructor; [right; right; reflexivity|]. constructor; [exact I|]. constructor; [left; reflexivity|constructor].
    - repeat split. right. auto.
  Qed.
  Lemma finner_generates h : separate h ->
    exists h2, generate (finner_made (length (comps h))) (finner_heap h) = (h2, mark_generated (finner_made (length (comps h))), Ok tt) /\
      length (comps h2) = (length (comps h) + 9)%nat /\
      (forall k c, nth_error (finner_comps d l n fh fl t (length (comps h)) (length (dicts h))) k = Some c ->
         exists c', nth_error (comps h2) (length (comps h) + k) = Some c' /\ same_options c c') /\
      mesh_of h2 (length (comps h) + 3) = Ok fuselage_mesh /\
      forall i, (i < 4)%nat -> mesh_of h2 (length (comps h) + (5 + i)) = Ok (fin_mesh d l fh fl t i).
  Proof using.
    intros SP. set (c0 := length (comps h)). set (h1 := finner_heap h).
    assert (N1 : forall k, nth_error (comps h1) (c0 + k) = nth_error (finner_comps d l n fh fl t c0 (length (dicts h))) k).
    { intros k. unfold h1, ext. cbn [comps]. apply nth_ext. }
    destruct (generated_meshes (finner_made c0) h1 []) as (h2 & A & L & S & Q).
    - unfold h1. refine (ext_separate h _ _ [0; 1; 2; 3; 4; 5; 6; 7; 8]%nat SP _ _ _).
      + cbn. rewrite Nat.add_0_r. reflexivity.
      + repeat constructor; cbn; lia.
      + repeat constructor; cbn; lia.
    - unfold finner_made, finner_named. cbn [v_components map snd flat_map]. unfold with_children. rewrite !N1.
      cbn [finner_comps nth_error c_kind fuselage_comp fin_comp app]. repeat constructor; cbn; lia.
    - intros i Hi. cbn [finner_made finner_named v_components map snd] in Hi.
      assert (C : i = (c0 + 3)%nat \/ exists j, (j < 4)%nat /\ i = (c0 + (5 + j))%nat).
      { destruct Hi as [<-|[<-|[<-|[<-|[<-|[]]]]]]; [left; reflexivity|right; exists 0%nat|right; exists 1%nat|right; exists 2%nat|right; exists 3%nat]; (split; [lia|reflexivity]). }
      destruct C as [->|(j & Hj & ->)].
      + exists fuselage_patches, still. apply fuselage_ready.
      + destruct (fin_ready h j Hj) as (g & _ & _ & _ & _ & _ & R). eauto.
    - reflexivity.
    - constructor.
    - exists h2. split; [exact A|]. split.
      { rewrite L. unfold h1, ext. cbn [comps]. rewrite app_length. reflexivity. }
      split; [intros k c E; apply S; rewrite N1; exact E|]. split.
      + rewrite (Q (c0 + 3)%nat fuselage_patches still 7%nat (flat_map four (profile_curves (finner_profile d l n))) (fun p => p)).
        * reflexivity.
        * left. reflexivity.
        * apply fuselage_ready.
        * eexists. split; [rewrite N1; reflexivity|]. repeat split.
        * intros E. apply (f_equal (@List.length _)) in E. discriminate.
        * unfold fuselage_patches. rewrite flat_map_concat_map. apply joined_values, leg_values.
        * reflexivity.
        * apply still_total.
      + intros i Hi. destruct (fin_ready h i Hi) as (g & rr & rs & G & NE & V & R).
        rewrite (Q (c0 + (5 + i))%nat g (fin_plan d l i) 3%nat (faces (drawn_fin fh fl t)) (place d l i)).
        * rewrite grids_affine by apply place_affine. rewrite <- (fin_placed d l fh fl t i). reflexivity.
        * right. destruct i as [|[|[|[|i]]]]; [cbn; tauto..|lia].
        * exact R.
        * exists (fin_comp d l fh fl t (length (dicts h) + (5 + i)) i). split; [rewrite N1; destruct i as [|[|[|[|i]]]]; [reflexivity..|lia]|]. repeat split.
        * exact NE.
        * exact V.
        * reflexivity.
        * apply place_total, Hi.
  Qed.

  (** ** the fuselage *)
  Lemma finner_closed_profile : closed_profile (profile_curves (finner_profile d l n)).
  Proof using.
    unfold closed_profile, profile_curves, finner_profile. cbn [legs map fst snd]. unfold straight, on_axis. cbn [joined_from vx vy vz].
    split; [split; ring|]. split; [reflexivity|]. split; [apply vec_ext; cbn; ring|]. split; [apply vec_ext; cbn; ring|]. split; cbn; ring.
  Qed.
  Lemma finner_planar : Forall planar (profile_curves (finner_profile d l n)).
  Proof using.
    unfold profile_curves, finner_profile. cbn [legs map fst snd]. repeat constructor; intros u _; unfold straight; cbn; ring.
  Qed.
  Lemma fuselage_watertight : watertight fuselage_mesh.
  Proof using. apply lathe_watertight, finner_closed_profile. Qed.
  Lemma fuselage_volume : signed_volume fuselage_mesh = ngon 32 * ((d / 2) ^ 2 * (n / 3 + (l - n))).
  Proof using.
    unfold fuselage_mesh. rewrite lathe_volume by (apply finner_closed_profile || apply finner_planar).
    unfold profile_curves, finner_profile. cbn [legs map fst snd fold_right]. rewrite !straight_frusta.
    change (4 * 8)%nat with 32%nat. unfold frustum. cbn [vx vy]. field.
  Qed.
End Flight.
