(** SweptComponents with two sections of four straight edges. *)
From Coq Require Import String Reals Lra ZArith List Permutation Lia Bool.
From Verif Require Import Num NumR Py M_Vector SpecR3 M_Path M_Surface M_Geometry M_Mesh M_Component M_Vehicle
  SpecPath SpecPoly SpecSurf SpecMesh SpecComp SpecVehicle SpecFiles SpecPrism SpecHangar L_Vector L_Edges L_Mesh L_Volume L_Component L_Coons
  L_SweptComp L_Heap L_Pipeline L_Generate L_Cache L_Prism L_Hangar.
Import ListNotations.
Local Open Scope R_scope.

Lemma ok_inj {A} (a b : A) : Ok a = Ok b -> a = b.
Proof. intros E. congruence. Qed.

(** corner e of section k *)
Section Block.
  Variable q : nat -> nat -> pt.
  Definition block_edge (k e : nat) (t : R) : pt := lerp t (q k e) (q k (next_edge 4 e)).
  Definition block_section (k : nat) : list (path R) :=
    [Line (q k 0%nat) (q k 1%nat); Line (q k 1%nat) (q k 2%nat); Line (q k 2%nat) (q k 3%nat); Line (q k 3%nat) (q k 0%nat)].
  Definition block : list (list (path R)) := [block_section 0; block_section 1].
  Definition faces : list (R -> R -> pt) :=
    [side_val 0 block_edge 0; side_val 0 block_edge 1; side_val 0 block_edge 2; side_val 0 block_edge 3;
     cap0 block_edge; cap1 0 block_edge]%nat.

  Lemma block_are : sections_are 4 block block_edge.
  Proof.
    intros k cs H. destruct k as [|[|k]]; cbn [block nth_error] in H; [| |destruct k; discriminate]; injection H as <-;
    (split; [reflexivity|]; intros e p He; do 4 (destruct e as [|e]; [cbn in He; injection He as <-; intros t _; apply line_evaluates|]);
     destruct e; discriminate).
  Qed.
  Lemma block_close m : loops_close 4 m block_edge.
  Proof.
    intros k e _ _. unfold block_edge. unfold lerp. apply vec_ext; cbn [vx vy vz]; ring.
  Qed.
  Lemma block_init n : Swept_init block true (ResInt n) = Ok 4%nat.
  Proof.
    assert (is_ok (Swept_init block true (ResInt n))) as [x E].
    { apply (swept_init_iff block true (ResInt n) block_edge).
      { intros k cs H e p He. exact (proj2 (block_are k cs H) e p He). }
      exists 4%nat. split; [discriminate|]. split.
      + intros k cs H. split; [exact (proj1 (block_are k cs H))|]. intros e He.
        rewrite <- (block_close (S k) k e) by lia. unfold within. rewrite !Rminus_eq_0, Rabs_R0. unfold small12.
        assert (0 < 1 / 1000000000000) by lra. split; [|split]; apply Rlt_le; assumption.
      + intros _. split; [reflexivity|]. discriminate. }
    rewrite E. f_equal. revert E. unfold Swept_init. change (py_nth block 0) with (Ok (block_section 0)). cbn [bind].
    destruct (mapM _ _); cbn [bind]; [|discriminate]. destruct (check_ends _ _ _); cbn [bind]; [|discriminate].
    intros Q. injection Q as <-. reflexivity.
  Qed.
  Lemma block_patches n : exists l, swept_patches block 4 true (ResInt n) = Ok l /\
    dkeys (sized_patches l) = ["swept_patch_0"; "swept_patch_1"; "swept_patch_2"; "swept_patch_3";
       "swept_patch_end_0"; "swept_patch_end_1"]%string /\
    values01 (dvals (sized_patches l)) faces.
  Proof.
    destruct (closed_patches 0 block block_edge (ResInt n)) as (l & El & u0 & u1 & u2 & u3 & v0 & v1 & Ed & V).
    { reflexivity. } { exact block_are. } { apply block_close. }
    { intros; eexists; reflexivity. } { eexists; reflexivity. }
    exists l. split; [exact El|]. rewrite Ed. split; [reflexivity|]. exact V.
  Qed.

  Definition block_mesh (n : nat) : list (tri R) := flat_map (patch_grid n) faces.
  Lemma block_watertight n : watertight (block_mesh n) /\ length (block_mesh n) = (24 * S n * S n)%nat.
  Proof.
    destruct (swept_watertight 0 block block_edge n) as (l & mesh & E1 & E2 & W).
    { reflexivity. } { exact block_are. } { apply block_close. }
    destruct (swept_mesh 0 block block_edge n) as (l' & F1 & _ & F2).
    { reflexivity. } { exact block_are. } { apply block_close. }
    assert (l' = l) as -> by congruence. unfold block_mesh, faces. rewrite F2 in E2. apply ok_inj in E2. rewrite E2. exact W.
  Qed.
  Lemma block_volume n w : (forall e, (e < 4)%nat -> q 1 e = translate (q 0 e) w) ->
    signed_volume (block_mesh n) = - inner w (vector_area (quad (q 0 0) (q 0 1) (q 0 2) (q 0 3)))%nat.
  Proof.
    intros H. destruct (swept_prism 0 block block_edge (fun k => match k with O => origin | S _ => w end) n) as (l & mesh & E1 & E2 & W).
    { reflexivity. } { exact block_are. } { apply block_close. }
    { intros [|[|k]] e t Hk He Ht; [| |lia]; unfold block_edge.
      - unfold translate, origin. apply vec_ext; cbn; ring.
      - rewrite !H by (unfold next_edge; destruct e as [|[|[|[|e]]]]; cbn; lia). unfold translate, lerp. apply vec_ext; cbn [vx vy vz]; ring. }
    destruct (swept_mesh 0 block block_edge n) as (l' & F1 & _ & F2).
    { reflexivity. } { exact block_are. } { apply block_close. }
    assert (l' = l) as -> by congruence. unfold block_mesh, faces. rewrite F2 in E2. apply ok_inj in E2. rewrite E2.
    rewrite W. f_equal. f_equal. 
    assert (K : vector_area (loop4 (S n) (block_edge 0)) = vector_area (loop4 (S n) (fun e => nth e [fun t => lerp t (q 0 0) (q 0 1); fun t => lerp t (q 0 1) (q 0 2); fun t => lerp t (q 0 2) (q 0 3); fun t => lerp t (q 0 3) (q 0 0)]%nat (fun _ => origin)))) by reflexivity.
    rewrite K. apply quad_area. intros e. reflexivity.
  Qed.

  (** all vertices are in every half-space that contains the corners *)
  Definition in_half (a : pt) (b : R) (p : pt) : Prop := inner a p <= b.
  Lemma half_mix a b r p p' : 0 <= r <= 1 -> in_half a b p -> in_half a b p' -> in_half a b (lerp r p p').
  Proof using.
    clear. unfold in_half. intros Hr H H'. replace (inner a (lerp r p p')) with ((1 - r) * inner a p + r * inner a p').
    - assert ((1 - r) * inner a p <= (1 - r) * b) by (apply Rmult_le_compat_l; lra).
      assert (r * inner a p' <= r * b) by (apply Rmult_le_compat_l; lra). lra.
    - unfold inner, lerp. cbn. ring.
  Qed.
  Lemma half_mean a b p0 p1 p2 p3 : in_half a b p0 -> in_half a b p1 -> in_half a b p2 -> in_half a b p3 -> in_half a b (mean4 p0 p1 p2 p3).
  Proof using.
    clear. unfold in_half. intros. replace (inner a (mean4 p0 p1 p2 p3)) with ((inner a p0 + inner a p1 + inner a p2 + inner a p3) / 4).
    - lra.
    - unfold inner, mean4. cbn. field.
  Qed.
  Lemma side_flat e r s : 0 <= r <= 1 -> side_val 0 block_edge e r s = lerp r (block_edge 0 e s) (block_edge 1 e s).
  Proof using. clear. intros Hr. unfold side_val, blend. replace (seg 0 r) with 0%nat by (unfold seg; destruct (Z.to_nat _); reflexivity).
    cbn [INR]. f_equal. ring. Qed.
  Lemma cap0_flat r s : cap0 block_edge r s = lerp s (lerp r (q 0 0) (q 0 1)) (lerp r (q 0 3) (q 0 2))%nat.
  Proof using. clear. unfold cap0, coons_val, block_edge, lerp, origin, next_edge. cbn [Nat.eqb]. apply vec_ext; cbn [vx vy vz]; ring. Qed.
  Lemma cap1_flat r s : cap1 0 block_edge r s = lerp s (lerp r (q 1 1) (q 1 0)) (lerp r (q 1 2) (q 1 3))%nat.
  Proof using. clear. unfold cap1, coons_val, block_edge, lerp, origin, next_edge. cbn [Nat.eqb]. apply vec_ext; cbn [vx vy vz]; ring. Qed.

  Lemma faces_in a b : (forall k e, (k < 2)%nat -> (e < 4)%nat -> in_half a b (q k e)) ->
    forall v, In v faces -> forall r s, 0 <= r <= 1 -> 0 <= s <= 1 -> in_half a b (v r s).
  Proof.
    intros H v Hv r s Hr Hs.
    assert (Q : forall k e t, (k < 2)%nat -> (e < 4)%nat -> 0 <= t <= 1 -> in_half a b (block_edge k e t)).
    { intros k e t Hk He Ht. apply half_mix; [exact Ht|apply H; assumption|apply H; [exact Hk|]].
      unfold next_edge. destruct e as [|[|[|[|e]]]]; cbn; lia. }
    destruct Hv as [<-|[<-|[<-|[<-|[<-|[<-|[]]]]]]].
    1-4: rewrite side_flat by exact Hr; apply half_mix; [exact Hr|apply Q; auto; lia|apply Q; auto; lia].
    - rewrite cap0_flat. repeat apply half_mix; try assumption; apply H; lia.
    - rewrite cap1_flat. repeat apply half_mix; try assumption; apply H; lia.
  Qed.
  Lemma grid_vertex n v p : vertex_of (patch_grid n v) p ->
    (exists i j, (i <= S n)%nat /\ (j <= S n)%nat /\ p = grid_of n v i j) \/
    (exists i j, (i < S n)%nat /\ (j < S n)%nat /\ p = centred (grid_of n v) i j).
  Proof using.
    clear. intros (t & Ht & Hp). unfold patch_grid, grid_mesh in Ht. apply in_flat_map in Ht. destruct Ht as (i & Hi & Ht).
    apply in_flat_map in Ht. destruct Ht as (j & Hj & Ht). apply in_map_iff in Ht. destruct Ht as (k & <- & Hk).
    apply in_seq in Hi, Hj, Hk. unfold cell_tri, at_corner in Hp. cbn [t0 t1 t2] in Hp.
    destruct Hp as [P|[P|P]]; subst p; [left|left|right; exists i, j; repeat split; lia].
    - eexists _, _. split; [|split; [|reflexivity]]; unfold corner; destruct k as [|[|[|[|k]]]]; cbn; lia.
    - eexists _, _. split; [|split; [|reflexivity]]; unfold corner; destruct k as [|[|[|[|k]]]]; cbn; lia.
  Qed.
  Lemma vertex_in n a b vs : (forall v, In v vs -> forall r s, 0 <= r <= 1 -> 0 <= s <= 1 -> in_half a b (v r s)) ->
    forall p, vertex_of (flat_map (patch_grid n) vs) p -> in_half a b p.
  Proof using.
    clear. intros H p (t & Ht & Hp). apply in_flat_map in Ht. destruct Ht as (v & Hv & Ht).
    assert (Q : forall i j, (i <= S n)%nat -> (j <= S n)%nat -> in_half a b (grid_of n v i j)).
    { intros i j Hi Hj. apply (H v Hv); apply ratio01; lia. }
    destruct (grid_vertex n v p) as [(i & j & Hi & Hj & ->)|(i & j & Hi & Hj & ->)]; [exists t; auto|apply Q; assumption|].
    unfold centred. apply half_mean; apply Q; lia.
  Qed.
  Lemma block_hull n a b : (forall k e, (k < 2)%nat -> (e < 4)%nat -> in_half a b (q k e)) ->
    forall p, vertex_of (block_mesh n) p -> in_half a b p.
  Proof. intros H. exact (vertex_in n a b faces (faces_in a b H)). Qed.
  Lemma grid_corner n v : vertex_of (patch_grid n v) (v 0 0).
  Proof using.
    clear. exists (cell_tri (grid_of n v) (centred (grid_of n v)) 0 0 0). split.
    - unfold patch_grid, grid_mesh. apply in_flat_map. exists 0%nat. split; [apply in_seq; lia|].
      apply in_flat_map. exists 0%nat. split; [apply in_seq; lia|]. apply in_map, in_seq. lia.
    - left. cbn. unfold at_corner, grid_of. cbn. f_equal; field; change (INR (S n) <> 0); apply not_0_INR; lia.
  Qed.
  Lemma grid_corner1 n v : vertex_of (patch_grid n v) (v 1 0).
  Proof using.
    clear. exists (cell_tri (grid_of n v) (centred (grid_of n v)) n 0 0). split.
    - unfold patch_grid, grid_mesh. apply in_flat_map. exists n. split; [apply in_seq; lia|].
      apply in_flat_map. exists 0%nat. split; [apply in_seq; lia|]. apply in_map, in_seq. lia.
    - right. left. unfold cell_tri, t1, at_corner, grid_of, corner, fst, snd. change (INR 0) with 0. f_equal; [|unfold Rdiv; ring]. field; apply not_0_INR; lia.
  Qed.
  Lemma block_corner n k e : (k < 2)%nat -> (e < 4)%nat -> vertex_of (block_mesh n) (q k e).
  Proof.
    intros Hk He.
    assert (I : In (side_val 0 block_edge e) faces) by (destruct e as [|[|[|[|e]]]]; [cbn; tauto..|lia]).
    assert (V : vertex_of (patch_grid n (side_val 0 block_edge e)) (q k e)).
    { destruct k as [|[|k]]; [| |lia].
      - replace (q 0 e) with (side_val 0 block_edge e 0 0); [apply grid_corner|].
        rewrite side_flat by lra. unfold block_edge, lerp. apply vec_ext; cbn [vx vy vz]; ring.
      - replace (q 1 e) with (side_val 0 block_edge e 1 0); [apply grid_corner1|].
        rewrite side_flat by lra. unfold block_edge, lerp. apply vec_ext; cbn [vx vy vz]; ring. }
    destruct V as (t & Ht & Hp). exists t. split; [|exact Hp]. apply in_flat_map. eauto.
  Qed.
End Block.

(** images of blocks under affine maps *)
Lemma affine_lerp f t a b : affine f -> f (lerp t a b) = lerp t (f a) (f b).
Proof. intros A. rewrite (A (lerp t a b)), (A a), (A b). unfold lerp. apply vec_ext; cbn; ring. Qed.
Lemma faces_affine f q n : affine f -> block_mesh (fun k e => f (q k e)) n = map_mesh f (block_mesh q n).
Proof.
  intros A. unfold block_mesh. rewrite <- grids_affine by exact A. cbn [faces map].
  assert (E : forall k e t, block_edge (fun k e => f (q k e)) k e t = f (block_edge q k e t)).
  { intros. unfold block_edge. rewrite affine_lerp by exact A. reflexivity. }
  assert (X : forall u v, (forall r s, 0 <= r <= 1 -> 0 <= s <= 1 -> u r s = v r s) -> patch_grid n u = patch_grid n v).
  { intros u v H. unfold patch_grid.
    assert (Q : forall i j, (i <= S n)%nat -> (j <= S n)%nat -> grid_of n u i j = grid_of n v i j).
    { intros i j Hi Hj. apply H; apply ratio01; lia. }
    apply grid_mesh_ext; [exact Q|]. intros i j Hi Hj. unfold centred. rewrite !Q by lia. reflexivity. }
  unfold faces. cbn [flat_map]. repeat (refine (f_equal2 (@app _) _ _); [apply X; intros r s Hr Hs|]); [..|reflexivity].
  1-4: rewrite !side_flat by exact Hr; rewrite affine_lerp, !E by exact A; reflexivity.
  - rewrite !cap0_flat, !(fun t a b => affine_lerp f t a b A). reflexivity.
  - rewrite !cap1_flat, !(fun t a b => affine_lerp f t a b A). reflexivity.
Qed.

