(** C92: the Cart3D frame (transformations.py). *)
From Coq Require Import String Reals Lra ZArith List Lia Bool FunctionalExtensionality.
From Verif Require Import Num NumR Py M_Vector SpecR3 M_Path M_Surface M_Geometry M_Mesh M_Component M_Vehicle M_Transform
  SpecSurf SpecComp SpecVehicle SpecFiles L_Vector L_Rigid L_Heap L_Pipeline L_Generate L_Cache L_Hangar P_Vehicle.
Import ListNotations.
Local Open Scope R_scope.

(** x is reversed, y and z are reversed and exchanged *)
Definition to_cart3d (p : pt) : pt := V3 (- vx p) (- vz p) (- vy p).

Definition cart : list motion := [Turn 180 "z"; Turn 90 "x"].
Lemma cart_written : map written cart = CART3D.
Proof. reflexivity. Qed.
Lemma cart_ok : Forall motion_ok cart.
Proof. constructor; [right; right; reflexivity|]. constructor; [left; reflexivity|constructor]. Qed.
Lemma cart_map p : in_order (map motion_map cart) p = Ok (to_cart3d p).
Proof.
  cbn [cart map motion_map in_order fold_right]. unfold and_then, turned, rodrigues, axis_vec, to_cart3d. cbn [String.eqb Ascii.eqb Bool.eqb].
  replace (180 * (PI / 180)) with PI by field. replace (90 * (PI / 180)) with (PI / 2) by field.
  rewrite cos_PI, sin_PI, cos_PI2, sin_PI2. f_equal. destruct p as [x y z]. apply vec_ext; unfold diff, scaled, crossR, inner, ex, ey, ez, origin; cbn; ring.
Qed.

(** C92: the frame is reached by a rotation, which is its own inverse *)
Theorem C92_rotation : isometry to_cart3d /\ map_det to_cart3d = 1 /\ (forall p, to_cart3d (to_cart3d p) = p) /\
  (forall p, to_cart3d p = p <-> vx p = 0 /\ vz p = - vy p).
Proof.
  split; [|split; [|split]].
  - intros a b. unfold dist, to_cart3d. cbn [vx vy vz]. f_equal. ring.
  - unfold map_det, delta, to_cart3d, det3, ex, ey, ez, origin. cbn. ring.
  - intros [x y z]. unfold to_cart3d. apply vec_ext; cbn; ring.
  - intros [x y z]. unfold to_cart3d. cbn [vx vy vz]. split.
    + intros H. injection H as H1 H2 H3. lra.
    + intros [H1 H2]. apply vec_ext; cbn; lra.
Qed.

Lemma relates_same F d d' : relates same_key F d d' -> (forall p, F p = Ok p) -> d' = d.
Proof.
  intros H E. induction H as [|[k u] [k' u'] d d' [K M] _ IH]; [reflexivity|]. cbn in K, M. unfold same_key in K. subst. f_equal. f_equal.
  extensionality r. extensionality s. rewrite M. destruct (u r s) as [p|e]; [apply E|reflexivity].
Qed.
Lemma relates_ext key F G d d' : (forall p, F p = G p) -> relates key F d d' -> relates key G d d'.
Proof.
  intros E H. induction H as [|a b d d' [K M] _ IH]; constructor; [|exact IH]. split; [exact K|]. intros r s. rewrite M.
  destruct (snd a r s); [apply E|reflexivity].
Qed.
Lemma cart_moves d : relates same_key (fun p => Ok (to_cart3d p)) d (fold_left (fun d m => apply_motion m d) cart d).
Proof. apply (relates_ext _ (in_order (map motion_map cart))); [exact cart_map|]. apply motions_relates, cart_ok. Qed.
Lemma cart_twice d : fold_left (fun d m => apply_motion m d) cart (fold_left (fun d m => apply_motion m d) cart d) = d.
Proof.
  apply (relates_same (in_order (map motion_map (cart ++ cart)))).
  - rewrite <- fold_left_app. apply motions_relates. apply Forall_app. split; apply cart_ok.
  - intros p. rewrite map_app. cbn [cart map motion_map app in_order fold_right]. pose proof (cart_map p) as Q. pose proof (cart_map (to_cart3d p)) as Q2.
    cbn [cart map motion_map in_order fold_right] in Q, Q2. unfold and_then in *. destruct (turned 180 "z" p) as [q|]; [|discriminate].
    destruct (turned 90 "x" q) as [q'|]; [|discriminate]. injection Q as ->. rewrite Q2. f_equal. apply C92_rotation.
Qed.

(** the conditions of C51 *)
Definition airworthy (v : vehicle R) (h : heap R) (more : list motion) : Prop := separate h /\
  NoDup (flat_map (with_children h) (v_components v)) /\
  (forall i, In i (v_components v) -> exists g p, ready h i g p) /\
  v_transformations v = map written more /\ Forall motion_ok more.

(** C92: with CART3D among its transformations, a vehicle is generated as
    without, and then turned *)
Theorem C92_frame (v : vehicle R) h more : airworthy v h more ->
  exists h1 h2, generate v h = (h1, mark_generated v, Ok tt) /\
    generate (add_vehicle_transformations v CART3D) h = (h2, mark_generated (add_vehicle_transformations v CART3D), Ok tt) /\
    forall i, In i (v_components v) -> exists d1 d2, patches_at h1 i = Some d1 /\ patches_at h2 i = Some d2 /\
      relates same_key (fun p => Ok (to_cart3d p)) d1 d2.
Proof.
  intros (SP & ND & RD & ET & OM). apply separate_ns in SP.
  assert (SU : forall i, In i (v_components v) -> exists g c ms, set_up h i g c ms).
  { intros i Hi. destruct (RD i Hi) as (g & p & Ri). destruct (ready_set_up h i g p SP Ri) as (c & U & _). eauto. }
  destruct (generate_run v h more SP ND SU ET) as (h1 & A1 & _ & Q1 & _).
  destruct (generate_run (add_vehicle_transformations v CART3D) h (more ++ cart) SP ND SU) as (h2 & A2 & _ & Q2 & _).
  { cbn [add_vehicle_transformations v_transformations]. rewrite ET, map_app. reflexivity. }
  exists h1, h2. split; [exact A1|]. split; [exact A2|]. intros i Hi. destruct (SU i Hi) as (g & c & ms & U).
  destruct (Q1 i g c ms Hi U) as (c1 & V1 & _). destruct (Q2 i g c ms Hi U) as (c2 & V2 & _).
  eexists _, _. split; [eapply patches_view, V1|]. split; [eapply patches_view, V2|].
  rewrite fold_left_app. apply cart_moves.
Qed.

(** C92: turned again after generation, as the script of refex.py does, it is
    back where it would have been without CART3D: the patches are the same,
    and the meshes too *)
Theorem C92_twice (v : vehicle R) h more : airworthy v h more -> let v' := add_vehicle_transformations v CART3D in
  exists h1 h2 h3, generate v h = (h1, mark_generated v, Ok tt) /\ generate v' h = (h2, mark_generated v', Ok tt) /\
    transform_vehicle (mark_generated v') CART3D h2 = (h3, Ok tt) /\
    (forall i, In i (v_components v) -> patches_at h3 i = patches_at h1 i) /\
    (forall i n, In i (v_components v) -> unmeshed h i n -> mesh_of h3 i = mesh_of h1 i).
Proof.
  intros (SP & ND & RD & ET & OM) v'. apply separate_ns in SP.
  assert (SU : forall i, In i (v_components v) -> exists g c ms, set_up h i g c ms).
  { intros i Hi. destruct (RD i Hi) as (g & p & Ri). destruct (ready_set_up h i g p SP Ri) as (c & U & _). eauto. }
  destruct (generate_run v h more SP ND SU ET) as (h1 & A1 & _ & Q1 & _).
  destruct (generate_run v' h (more ++ cart) SP ND SU) as (h2 & A2 & S2 & Q2 & _).
  { unfold v'. cbn [add_vehicle_transformations v_transformations]. rewrite ET, map_app. reflexivity. }
  assert (NDl : NoDup (v_components v)).
  { clear - ND. induction (v_components v) as [|i l IH]; [constructor|]. cbn [flat_map] in ND. constructor.
    - intros I. cbn in ND. inversion ND as [|? ? NI _]; subst. apply NI. apply in_or_app. right. apply in_flat_map.
      exists i. split; [exact I|left; reflexivity].
    - apply IH. eapply NoDup_app_r', ND. }
  destruct (all_transformed cart (v_components v) NDl h2 (proj1 S2)) as (h3 & A3 & _ & Q3).
  { intros i Hi. destruct (SU i Hi) as (g & c & ms & U). destruct (Q2 i g c ms Hi U) as (c2 & V2 & _). eauto. }
  rewrite cart_written in A3. exists h1, h2, h3. split; [exact A1|]. split; [exact A2|]. split; [exact A3|].
  assert (K : forall i, In i (v_components v) -> exists c c1 c3 d, nth_error (comps h) i = Some c /\ view h1 i = Some (c1, d) /\ view h3 i = Some (c3, d) /\
    same_options c c1 /\ same_options c c3).
  { intros i Hi. destruct (SU i Hi) as (g & c & ms & U). destruct (Q1 i g c ms Hi U) as (c1 & V1 & O1).
    destruct (Q2 i g c ms Hi U) as (c2 & V2 & O2). destruct (Q3 i c2 _ Hi V2) as (c3 & V3 & O3).
    rewrite fold_left_app, cart_twice in V3. exists c, c1, c3. eexists. split; [apply U|]. split; [exact V1|]. split; [exact V3|]. split; [exact O1|].
    eapply so_trans; eassumption. }
  split.
  - intros i Hi. destruct (K i Hi) as (c & c1 & c3 & d & _ & V1 & V3 & _). rewrite (patches_view _ _ _ _ V1), (patches_view _ _ _ _ V3). reflexivity.
  - intros i n Hi (c0 & E0 & C1 & C2 & C3 & C4). destruct (K i Hi) as (c & c1 & c3 & d & E & V1 & V3 & O1 & O3).
    assert (c0 = c) as -> by congruence.
    destruct (generated_caches v _ h h1 i A1) as (x & Ex & M1 & M2); [exists c; auto|].
    destruct (transformed_empty CART3D (v_components v) h2 h3 A3) as [_ TE]. destruct (TE i Hi) as (y & Ey & M3 & M4).
    destruct (view_inv _ _ _ _ V1) as [E1 _]. assert (x = c1) as -> by congruence.
    destruct (view_inv _ _ _ _ V3) as [E3 _]. assert (y = c3) as -> by congruence.
    refine (eq_trans (fresh_comp_mesh i h3 c3 _ V3 M3 M4) (eq_trans _ (eq_sym (fresh_comp_mesh i h1 c1 _ V1 M1 M2)))).
    destruct (so_inv c c1 O1) as (_ & _ & R1 & _ & R2 & _). destruct (so_inv c c3 O3) as (_ & _ & R3 & _ & R4 & _).
    rewrite R1, R2, R3, R4, C3. unfold fresh_mesh, component_surface. destruct d; reflexivity.
Qed.

(** the vehicle of C51, with a reflected wing and a composite *)
Example C92_meets : exists v : vehicle R, v_components v = [0; 5]%nat /\ airworthy v garage [] /\
  to_cart3d (V3 1 2 3) = V3 (-1) (-3) (-2).
Proof.
  destruct C51_meets as (v & E & SP & ND & RD). exists (mkVehicle (v_components v) "v" 3 1 false [] [] [] []).
  split; [exact E|]. split; [|unfold to_cart3d; cbn; f_equal; ring].
  split; [exact SP|]. split; [exact ND|]. split; [exact RD|]. split; [reflexivity|constructor].
Qed.

Print Assumptions C92_rotation.
Print Assumptions C92_frame.
Print Assumptions C92_twice.
