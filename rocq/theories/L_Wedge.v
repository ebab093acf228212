(** The parametric wedge. *)
From Coq Require Import String Reals Lra ZArith List Permutation Lia Bool FunctionalExtensionality.
From Verif Require Import Num NumR Py M_Vector SpecR3 M_Path M_Surface M_Geometry M_Mesh M_Component M_Vehicle M_VecHeap M_Sens M_Gen M_Hangar
  SpecPath SpecPoly SpecSurf SpecMesh SpecComp SpecVehicle SpecAdd SpecFiles SpecPrism SpecHangar L_Vector L_Edges L_Mesh L_Volume L_Component L_Coons
  L_SweptComp L_Heap L_Rigid L_Pipeline L_Generate L_Cache L_Files L_Prism L_Hangar L_Block.
Import ListNotations.
Local Open Scope R_scope.

(** ** new swept components with straight edges *)
Definition block_result (q : nat -> nat -> pt) (n : nat) : res (dict (surf R) * dict nat * dict nat) :=
  let! l := swept_patches (block q) 4 true (ResInt n) in Ok (sized_patches l, sized_res_r l, sized_res_s l).
Definition block_comp (q : nat -> nat -> pt) (n : nat) (name : option string) (d : nat) : comp R :=
  mkComp "swept" (Own false (block_result q n)) d [] [] (ResInt n) None None None no_clustering [] None None true false name 1%Z.
Lemma new_block h ds cs q n name : new_swept (block q) (ResInt n) name (ext h ds cs) =
  (ext h (ds ++ [[]]) (cs ++ [block_comp q n name (length (dicts h) + length ds)]), Ok (length (comps h) + length cs)%nat).
Proof.
  unfold new_swept, bindM, lift. rewrite block_init. rewrite object_ext. reflexivity.
Qed.

(** what makes a component of an extended heap ready *)
Lemma block_ready h ds cs k c q n p g rr rs : nth_error cs k = Some c -> c_kind c = Own false (block_result q n) ->
  block_result q n = Ok (g, rr, rs) ->
  (exists d, c_patches c = (length (dicts h) + d)%nat /\ nth_error ds d = Some []) -> plan_ok p -> planned c p ->
  ready (ext h ds cs) (length (comps h) + k) g p.
Proof.
  intros E K G (d & D1 & D2) O P.
  destruct (block_patches q n) as (l & El & Kl & Vl). unfold block_result in G. rewrite El in G. cbn [bind] in G. injection G as <- <- <-.
  assert (E' : nth_error (comps (ext h ds cs)) (length (comps h) + k) = Some c) by (unfold ext; cbn [comps]; rewrite nth_ext; exact E).
  assert (ND : NoDup (dkeys (sized_patches l))) by (rewrite Kl; repeat constructor; cbn; intuition discriminate).
  split; [|split; [|split; [exact O|exists c; auto]]].
  - left. exists c, false. eexists _, _. split; [exact E'|]. split; [rewrite K; unfold block_result; rewrite El; reflexivity|].
    split; [exact ND|]. right. unfold patches_at. rewrite E', D1. unfold ext. cbn [dicts]. rewrite nth_ext. exact D2.
  - split; [exact ND|]. rewrite Kl. intros k0 [<-|[<-|[<-|[<-|[<-|[<-|[]]]]]]]; cbn; intuition discriminate.
Qed.
Lemma block_result_ok q n : exists g rr rs, block_result q n = Ok (g, rr, rs) /\ g <> [] /\ values01 (dvals g) (faces q).
Proof.
  destruct (block_patches q n) as (l & El & Kl & Vl). unfold block_result. rewrite El. cbn [bind].
  eexists _, _, _. split; [reflexivity|]. split; [|exact Vl]. intros E. rewrite E in Kl. discriminate.
Qed.

(** ** the wedge *)
Lemma wedge_block w c t : wedge_sections (T := R) w c t = block (wedge_corner w c t).
Proof.
  unfold wedge_sections, wedge_section, block, block_section, wedge_corner, vec2, vadd. cbn [map].
  repeat (f_equal; try (unfold nhalf; cbn; lra)).
Qed.

Definition wedge_comp w c t d : comp R := with_options 1 default_add (block_comp (wedge_corner w c t) 10 None d).
Definition wedge_made i : vehicle R :=
  mkVehicle [i] "Wedge" 0 1 false [("swept"%string, 1%nat)] [("swept_1"%string, i)] [("swept_1"%string, i)] [].
Lemma wedge_run h w c t : wedge_vehicle w c t h =
  (ext h [[]] [wedge_comp w c t (length (dicts h) + 0)], Ok (wedge_made (length (comps h) + 0)%nat)).
Proof.
  unfold wedge_vehicle. rewrite wedge_block. rewrite <- (ext_nil h) at 1. unfold bindM. rewrite new_block. cbn [app length].
  rewrite (add_ext h _ _ (configured "Wedge") 0 (block_comp (wedge_corner w c t) 10 None (length (dicts h) + 0))) by reflexivity. reflexivity.
Qed.

Definition still : plan := mkPlan None [] None true [].
Lemma still_total : motion_total (before_reflection still 0 ++ after_reflection still []) (fun p => p).
Proof.
  intros p. unfold before_reflection, after_reflection, still. cbn [p_modifier p_bends p_motions map app in_order fold_right].
  unfold and_then, turned. rewrite Rmult_0_l, rodrigues_0 by (right; left; reflexivity). reflexivity.
Qed.

Definition wedge_mesh w c t : list (tri R) := block_mesh (wedge_corner w c t) 9.
Lemma wedge_generates h w c t : separate h -> let i := (length (comps h) + 0)%nat in
  exists h2, generate (wedge_made i) (ext h [[]] [wedge_comp w c t (length (dicts h) + 0)]) = (h2, mark_generated (wedge_made i), Ok tt) /\
    length (comps h2) = S (length (comps h)) /\ ghost_at h2 i = false /\ type_at h2 i = "swept"%string /\ tag_at h2 i = None /\
    mesh_of h2 i = Ok (wedge_mesh w c t).
Proof.
  intros SP i. set (q := wedge_corner w c t). set (h1 := ext h [[]] _).
  destruct (block_result_ok q 10) as (g & rr & rs & G & NE & V).
  assert (RD : ready h1 i g still).
  { unfold h1, i. eapply block_ready; [reflexivity|reflexivity|exact G| | |].
    - exists 0%nat. auto.
    - split; [discriminate|constructor].
    - repeat split. right. auto. }
  assert (N1 : nth_error (comps h1) i = Some (wedge_comp w c t (length (dicts h) + 0))) by (unfold h1, ext, i; cbn [comps]; rewrite nth_ext; reflexivity).
  destruct (generated_meshes (wedge_made i) h1 []) as (h2 & A & L & S & Q).
  - unfold h1. eapply (ext_separate h _ _ [0%nat] SP); [reflexivity| |]; repeat constructor; cbn; lia || tauto.
  - cbn [wedge_made v_components flat_map]. unfold with_children. rewrite N1. cbn. repeat constructor. tauto.
  - intros j [<-|[]]. eauto.
  - reflexivity.
  - constructor.
  - exists h2. split; [exact A|].
    destruct (S i _ N1) as (c' & E' & SO). destruct (so_inv _ _ SO) as (O1 & _ & _ & _ & _ & _ & _ & _ & _ & O2 & O3).
    split; [rewrite L; unfold h1, ext; cbn [comps]; rewrite app_length; cbn; lia|].
    unfold ghost_at, type_at, tag_at. rewrite E'. split; [rewrite O2; reflexivity|]. split; [rewrite O1; reflexivity|]. split; [rewrite O3; reflexivity|].
    rewrite (Q i g still 9%nat (faces q) (fun p => p)).
    + reflexivity.
    + left. reflexivity.
    + exact RD.
    + eexists. split; [exact N1|]. repeat split.
    + exact NE.
    + exact V.
    + reflexivity.
    + apply still_total.
Qed.

Lemma wedge_closed w c t : watertight (wedge_mesh w c t) /\ length (wedge_mesh w c t) = 2400%nat.
Proof.
  destruct (block_watertight (wedge_corner w c t) 9) as [W L]. split; [exact W|]. unfold wedge_mesh. rewrite L. reflexivity.
Qed.
Lemma wedge_volume w c t : signed_volume (wedge_mesh w c t) = - (w * c * t / 2).
Proof.
  unfold wedge_mesh. rewrite (block_volume (wedge_corner w c t) 9 (V3 0 0 w)).
  - unfold vector_area, quad, wedge_corner, inner, scaled. cbn. field.
  - intros e He. unfold wedge_corner, translate. destruct e as [|[|[|e]]]; apply vec_ext; cbn; field.
Qed.
Lemma wedge_scales w c t : wedge_mesh w c t = map_mesh (stretch c t w) (wedge_mesh 1 1 1).
Proof.
  unfold wedge_mesh. rewrite <- faces_affine.
  - f_equal. extensionality k. extensionality e. unfold wedge_corner, stretch.
    destruct k, e as [|[|[|e]]]; apply vec_ext; cbn; field.
  - intros p. unfold stretch, translate, scaled, delta, diff, ex, ey, ez, origin. apply vec_ext; cbn; ring.
Qed.
Lemma wedge_inside w c t : 0 <= w -> 0 <= c -> 0 <= t -> forall p, vertex_of (wedge_mesh w c t) p -> in_wedge w c t p.
Proof.
  intros Hw Hc Ht p Hp.
  assert (H : forall a b, (forall k e, (k < 2)%nat -> (e < 4)%nat -> in_half a b (wedge_corner w c t k e)) -> in_half a b p).
  { intros a b H. exact (block_hull _ 9 a b H p Hp). }
  assert (C : forall a b, (forall z, z = - w / 2 \/ z = w / 2 -> inner a (V3 0 (t / 2) z) <= b /\ inner a (V3 (- c / 2) 0 z) <= b /\
                inner a (V3 0 (- t / 2) z) <= b /\ inner a (V3 (c / 2) 0 z) <= b) -> inner a p <= b).
  { intros a b K. apply H. intros k e Hk He. unfold in_half, wedge_corner.
    destruct (K (match k with O => - w / 2 | _ => w / 2 end)) as (K1 & K2 & K3 & K4); [destruct k; auto|].
    destruct e as [|[|[|e]]]; assumption. }
  assert (Hct : 0 <= c * t) by (apply Rmult_le_pos; assumption).
  pose proof (C (V3 (2 * t) (2 * c) 0) (c * t)) as C1. pose proof (C (V3 (- (2 * t)) (2 * c) 0) (c * t)) as C2.
  pose proof (C (V3 (2 * t) (- (2 * c)) 0) (c * t)) as C3. pose proof (C (V3 (- (2 * t)) (- (2 * c)) 0) (c * t)) as C4.
  pose proof (C (V3 0 0 2) w) as C5. pose proof (C (V3 0 0 (-2)) w) as C6.
  unfold inner in C1, C2, C3, C4, C5, C6. cbn [vx vy vz] in C1, C2, C3, C4, C5, C6.
  clear C H. destruct p as [x y z]. unfold in_wedge. cbn [vx vy vz] in *.
  assert (2 * t * x + 2 * c * y + 0 * z <= c * t) by (apply C1; intros u [->| ->]; repeat split; lra).
  assert (- (2 * t) * x + 2 * c * y + 0 * z <= c * t) by (apply C2; intros u [->| ->]; repeat split; lra).
  assert (2 * t * x + - (2 * c) * y + 0 * z <= c * t) by (apply C3; intros u [->| ->]; repeat split; lra).
  assert (- (2 * t) * x + - (2 * c) * y + 0 * z <= c * t) by (apply C4; intros u [->| ->]; repeat split; lra).
  assert (0 * x + 0 * y + 2 * z <= w) by (apply C5; intros u [->| ->]; repeat split; lra).
  assert (0 * x + 0 * y + -2 * z <= w) by (apply C6; intros u [->| ->]; repeat split; lra).
  split.
  - unfold Rabs. destruct (Rcase_abs (2 * x)), (Rcase_abs (2 * y)); lra.
  - unfold Rabs. destruct (Rcase_abs (2 * z)); lra.
Qed.
Lemma wedge_reaches w c t k e : (k < 2)%nat -> (e < 4)%nat -> vertex_of (wedge_mesh w c t) (wedge_corner w c t k e).
Proof. apply block_corner. Qed.
