(** C61-C65, C81-C83: the sensitivity study. *)
From Coq Require Import String Reals Lra List Lia Bool Arith ZArith Sorted Ranalysis.
From Verif Require Import Num NumR Py M_Vector SpecR3 M_Path M_Surface M_Mesh M_VecHeap M_Sens SpecSens L_Vector L_Sens.
Import ListNotations.
Local Open Scope R_scope.

(** ** C62: finite differences *)
(** meshes can be compared exactly when they have the same number of triangles
    or the perturbed one consists of a single triangle *)
Theorem C62_comparable (m1 m2 : list (tri R)) dp :
  (length m1 = length m2 \/ length m2 = 1%nat -> is_ok (compare_meshes m1 m2 dp)) /\
  (length m1 <> length m2 -> length m2 <> 1%nat -> compare_meshes m1 m2 dp = Raise ValueError).
Proof.
  unfold compare_meshes, mesh_diff. split.
  - intros H. destruct (Nat.eqb_spec (length m1) (length m2)) as [E|E]; [eexists; reflexivity|].
    destruct H as [H|H]; [contradiction|]. destruct m2 as [|t [|u m2]]; try discriminate. eexists; reflexivity.
  - intros H1 H2. destruct (Nat.eqb_spec (length m1) (length m2)) as [E|E]; [contradiction|].
    destruct m2 as [|t [|u m2]]; try reflexivity. cbn in H2. lia.
Qed.

(** the rows of a comparison: nominal corners in their order, each with its
    displacement and the quotient; a corner is left out exactly when an earlier
    one has the same position before and after *)
Theorem C62_rows (m1 m2 : list (tri R)) dp : length m1 = length m2 ->
  exists rows, compare_meshes m1 m2 dp = Ok rows /\
  StronglySorted lt (map r_index rows) /\
  (forall i, In i (map r_index rows) <-> (i < 3 * length m1)%nat /\ ~ repeats m1 m2 i) /\
  (forall r, In r rows -> r_loc r = corner_of m1 (r_index r) /\
     r_delta r = diff (corner_of m2 (r_index r)) (corner_of m1 (r_index r)) /\
     r_mag r = dist (corner_of m2 (r_index r)) (corner_of m1 (r_index r)) /\
     forall a, along a (r_sens r) = (along a (corner_of m2 (r_index r)) - along a (corner_of m1 (r_index r))) / dp) /\
  (forall i, (i < 3 * length m1)%nat -> exists r, In r rows /\ (r_index r <= i)%nat /\
     corner_of m1 (r_index r) = corner_of m1 i /\ corner_of m2 (r_index r) = corner_of m2 i).
Proof.
  intros L. eexists. split; [apply compare_ok, L|]. split; [|split; [|split]].
  - apply dedup_sorted. rewrite map_map. cbn [row_at r_index]. rewrite map_id. apply seq_sorted.
  - intros i. rewrite in_map_iff. split.
    + intros (r & <- & Hr). apply (kept _ _ _ _ L) in Hr. destruct Hr as (j & Hj & -> & K). auto.
    + intros [Hi K]. exists (row_at m1 m2 dp i). split; [reflexivity|]. apply (kept _ _ _ _ L). eauto.
  - intros r Hr. apply (kept _ _ _ _ L) in Hr. destruct Hr as (j & Hj & -> & K). cbn [row_at r_loc r_delta r_mag r_sens r_index].
    split; [reflexivity|]. split; [reflexivity|]. split; [reflexivity|].
    intros [| |]; unfold diff_at, diff, scaled; cbn; unfold Rdiv; ring.
  - intros i Hi. destruct (first_repeat m1 m2 i) as (j & Hj & A & B & K).
    exists (row_at m1 m2 dp j). split; [apply (kept _ _ _ _ L); exists j; split; [lia|auto]|].
    cbn [row_at r_index]. auto.
Qed.

(** exact for affine dependence: if corner i of the mesh at parameter value x is
    a_i + x b_i, every row reports b_i, for every non-zero perturbation *)
Theorem C62_affine (F : R -> list (tri R)) (a b : nat -> pt) p dp n :
  dp <> 0 -> (forall x, length (F x) = n) ->
  (forall x i, (i < 3 * n)%nat -> corner_of (F x) i = plus_scaled (a i) x (b i)) ->
  exists rows, compare_meshes (F p) (F (p + dp)) dp = Ok rows /\
    (forall r, In r rows -> (r_index r < 3 * n)%nat /\ r_loc r = plus_scaled (a (r_index r)) p (b (r_index r)) /\ r_sens r = b (r_index r)) /\
    (forall i, (i < 3 * n)%nat -> exists r, In r rows /\ r_loc r = plus_scaled (a i) p (b i) /\ r_sens r = b i).
Proof.
  intros D L A. destruct (C62_rows (F p) (F (p + dp)) dp) as (rows & E & _ & I & V & C); [rewrite !L; reflexivity|].
  exists rows. rewrite L in *.
  assert (K : forall r, In r rows -> (r_index r < 3 * n)%nat /\ r_loc r = plus_scaled (a (r_index r)) p (b (r_index r)) /\ r_sens r = b (r_index r)).
  { intros r Hr. assert (Hi : (r_index r < 3 * n)%nat) by (apply I, in_map, Hr).
    destruct (V r Hr) as (V1 & _ & _ & V4). split; [exact Hi|]. rewrite V1, A by exact Hi. split; [reflexivity|].
    rewrite !A in V4 by exact Hi.
    apply vec_ext; [specialize (V4 AX)|specialize (V4 AY)|specialize (V4 AZ)]; cbn in V4; rewrite V4; field; exact D. }
  split; [exact E|]. split; [exact K|]. intros i Hi. destruct (C i Hi) as (r & Hr & _ & C1 & C2).
  exists r. split; [exact Hr|]. destruct (K r Hr) as (K1 & K2 & K3).
  rewrite !A in C1, C2 by assumption.
  assert (B1 : plus_scaled (a i) p (b i) = r_loc r) by congruence.
  split; [congruence|]. rewrite K3. unfold plus_scaled in C1, C2. injection C1 as X1 Y1 Z1. injection C2 as X2 Y2 Z2.
  assert (Q : forall u v, (u - v) * dp = 0 -> u = v).
  { intros u v H. apply Rmult_integral in H. destruct H as [H|H]; [lra|contradiction]. }
  apply vec_ext; apply Q; lra.
Qed.

(** for differentiable dependence every reported component is the exact
    derivative at some parameter value between the two that were used *)
Theorem C62_mean_value (F : R -> list (tri R)) (dF : R -> nat -> pt) p dp n :
  dp <> 0 -> (forall x, length (F x) = n) ->
  (forall x i a, (i < 3 * n)%nat -> derivable_pt_lim (fun x => along a (corner_of (F x) i)) x (along a (dF x i))) ->
  exists rows, compare_meshes (F p) (F (p + dp)) dp = Ok rows /\
    forall r a, In r rows -> exists x, Rmin p (p + dp) < x < Rmax p (p + dp) /\
      along a (r_sens r) = along a (dF x (r_index r)).
Proof.
  intros D L A. destruct (C62_rows (F p) (F (p + dp)) dp) as (rows & E & _ & I & V & _); [rewrite !L; reflexivity|].
  exists rows. rewrite L in *. split; [exact E|]. intros r c Hr.
  assert (Hi : (r_index r < 3 * n)%nat) by (apply I, in_map, Hr).
  destruct (V r Hr) as (_ & _ & _ & V4). rewrite V4. set (i := r_index r) in *. clearbody i.
  set (f := fun x => along c (corner_of (F x) i)). change (along c (corner_of (F (p + dp)) i)) with (f (p + dp)).
  change (along c (corner_of (F p) i)) with (f p).
  assert (DF : forall x, derivable_pt_lim f x (along c (dF x i))) by (intros x; apply A, Hi).
  destruct (Rlt_or_le 0 dp) as [P|P].
  - destruct (MVT_cor2 f (fun x => along c (dF x i)) p (p + dp)) as (x & Hx & B); [lra|intros; apply DF|].
    exists x. rewrite Rmin_left, Rmax_right by lra. split; [exact B|]. rewrite Hx. field. exact D.
  - destruct (MVT_cor2 f (fun x => along c (dF x i)) (p + dp) p) as (x & Hx & B); [lra|intros; apply DF|].
    exists x. rewrite Rmin_right, Rmax_left by lra. split; [exact B|].
    replace (f (p + dp) - f p) with (- (f p - f (p + dp))) by ring. rewrite Hx. field. exact D.
Qed.

(** and the reported values tend to the derivative with the perturbation *)
Theorem C62_converges (F : R -> list (tri R)) (d : nat -> pt) p n :
  (forall x, length (F x) = n) ->
  (forall i a, (i < 3 * n)%nat -> derivable_pt_lim (fun x => along a (corner_of (F x) i)) p (along a (d i))) ->
  forall eps, 0 < eps -> exists del, 0 < del /\ forall dp, dp <> 0 -> Rabs dp < del ->
  exists rows, compare_meshes (F p) (F (p + dp)) dp = Ok rows /\
    forall r a, In r rows -> Rabs (along a (r_sens r) - along a (d (r_index r))) < eps.
Proof.
  intros L A eps He.
  assert (U : exists del, 0 < del /\ forall i a dp, (i < 3 * n)%nat -> dp <> 0 -> Rabs dp < del ->
    Rabs ((along a (corner_of (F (p + dp)) i) - along a (corner_of (F p) i)) / dp - along a (d i)) < eps).
  { revert A. generalize (3 * n)%nat. clear L. intros m. induction m as [|m IH]; intros A.
    - exists 1. split; [lra|]. intros; lia.
    - destruct IH as (d1 & P1 & B1); [intros; apply A; lia|].
      destruct (A m AX (Nat.lt_succ_diag_r m) eps He) as [d2 B2].
      destruct (A m AY (Nat.lt_succ_diag_r m) eps He) as [d3 B3].
      destruct (A m AZ (Nat.lt_succ_diag_r m) eps He) as [d4 B4].
      exists (Rmin d1 (Rmin d2 (Rmin d3 d4))). destruct d2 as [d2 P2], d3 as [d3 P3], d4 as [d4 P4]. cbn in *.
      split; [repeat apply Rmin_pos; assumption|]. intros i a dp Hi Hd Hl.
      assert (Rabs dp < d1 /\ Rabs dp < d2 /\ Rabs dp < d3 /\ Rabs dp < d4) as (? & ? & ? & ?).
      { pose proof (Rmin_l d1 (Rmin d2 (Rmin d3 d4))). pose proof (Rmin_r d1 (Rmin d2 (Rmin d3 d4))).
        pose proof (Rmin_l d2 (Rmin d3 d4)). pose proof (Rmin_r d2 (Rmin d3 d4)).
        pose proof (Rmin_l d3 d4). pose proof (Rmin_r d3 d4). lra. }
      destruct (Nat.eq_dec i m) as [->|Hn]; [|apply B1; auto; lia].
      destruct a; [apply B2|apply B3|apply B4]; assumption. }
  destruct U as (del & P & B). exists del. split; [exact P|]. intros dp Hd Hl.
  destruct (C62_rows (F p) (F (p + dp)) dp) as (rows & E & _ & I & V & _); [rewrite !L; reflexivity|].
  exists rows. rewrite L in *. split; [exact E|]. intros r c Hr.
  destruct (V r Hr) as (_ & _ & _ & V4). rewrite V4. apply B; auto. apply I, in_map, Hr.
Qed.

(** every nominal position is listed once exactly when corners that coincide
    move alike *)
Theorem C62_distinct_positions (m1 m2 : list (tri R)) dp rows : length m1 = length m2 -> compare_meshes m1 m2 dp = Ok rows ->
  (NoDup (map r_loc rows) <->
   forall i j, (i < 3 * length m1)%nat -> (j < 3 * length m1)%nat -> corner_of m1 i = corner_of m1 j -> corner_of m2 i = corner_of m2 j).
Proof.
  intros L E. destruct (C62_rows m1 m2 dp L) as (rows' & E' & S & I & V & C).
  rewrite E in E'. injection E' as <-.
  assert (ND : NoDup (map r_index rows)).
  { clear -S. induction (map r_index rows) as [|x l IH]; [constructor|]. inversion S; subst. constructor; [|auto].
    intros Hx. rewrite Forall_forall in H2. specialize (H2 x Hx). lia. }
  assert (M : map r_loc rows = map (corner_of m1) (map r_index rows)).
  { rewrite map_map. apply map_ext_in. intros r Hr. apply V, Hr. }
  rewrite M. split.
  - intros N i j Hi Hj Eq. destruct (C i Hi) as (r & Hr & _ & A1 & A2). destruct (C j Hj) as (s & Hs & _ & B1 & B2).
    assert (r_index r = r_index s).
    { assert (G : forall l : list nat, NoDup (map (corner_of m1) l) -> forall x y, In x l -> In y l -> corner_of m1 x = corner_of m1 y -> x = y).
      { induction l as [|z l IH]; intros Nl x y Hx Hy Q; [destruct Hx|]. cbn in Nl. inversion Nl; subst.
        destruct Hx as [->|Hx], Hy as [->|Hy]; auto.
        - exfalso. apply H1. rewrite Q. apply in_map, Hy.
        - exfalso. apply H1. rewrite <- Q. apply in_map, Hx. }
      apply (G _ N); [apply in_map, Hr|apply in_map, Hs|congruence]. }
    congruence.
  - intros H.
    assert (G : forall l : list nat, NoDup l -> (forall x y, In x l -> In y l -> corner_of m1 x = corner_of m1 y -> x = y) -> NoDup (map (corner_of m1) l)).
    { induction l as [|z l IH]; intros Nl Q; [constructor|]. inversion Nl; subst. cbn. constructor.
      - intros Hz. apply in_map_iff in Hz. destruct Hz as (y & Ey & Hy). assert (y = z) by (apply Q; cbn; auto). subst. contradiction.
      - apply IH; [assumption|]. intros; apply Q; cbn; auto. }
    apply G; [exact ND|]. intros x y Hx Hy Q. apply I in Hx, Hy. destruct Hx as [Hx1 Hx2], Hy as [Hy1 Hy2].
    destruct (Nat.lt_trichotomy x y) as [K|[K|K]]; [|exact K|]; exfalso.
    + apply Hy2. exists x. split; [exact K|]. split; [exact Q|]. apply H; auto.
    + apply Hx2. exists y. split; [exact K|]. split; [congruence|]. apply H; auto.
Qed.

Example C62_meets :
  let F x := [Tri (V3 0 0 0) (V3 x 0 0) (V3 0 (2 * x) 1)] : list (tri R) in
  exists rows, compare_meshes (F 3) (F (3 + 1 / 10)) (1 / 10) = Ok rows /\ length rows = 3%nat /\
    (forall i, (i < 3)%nat -> exists r, In r rows /\ r_loc r = corner_of (F 3) i /\
       r_sens r = nth i [V3 0 0 0; V3 1 0 0; V3 0 2 0] origin).
Proof.
  cbv zeta. set (F := fun x => [Tri (V3 0 0 0) (V3 x 0 0) (V3 0 (2 * x) 1)] : list (tri R)).
  set (a := fun i => nth i [V3 0 0 0; V3 0 0 0; V3 0 0 1] origin : pt).
  set (b := fun i => nth i [V3 0 0 0; V3 1 0 0; V3 0 2 0] origin : pt).
  assert (A : forall x i, (i < 3 * 1)%nat -> corner_of (F x) i = plus_scaled (a i) x (b i)).
  { intros x i Hi. do 3 (destruct i as [|i]; [unfold corner_of, plus_scaled, F, a, b; apply vec_ext; cbn; ring|]). lia. }
  destruct (C62_affine F a b 3 (1 / 10) 1 ltac:(lra) (fun _ => eq_refl) A) as (rows & E & K & C).
  exists rows. split; [exact E|]. split.
  - destruct (C62_rows (F 3) (F (3 + 1 / 10)) (1 / 10) eq_refl) as (rows' & E' & S & I & _).
    rewrite E in E'. injection E' as <-.
    assert (Q : forall i, In i (map r_index rows) <-> In i [0; 1; 2]%nat).
    { intros i. rewrite I. split.
      - intros [Hi _]. cbn in Hi |- *. lia.
      - intros Hi. split; [cbn in Hi |- *; lia|]. intros (j & Hj & Hc & _).
        rewrite !A in Hc by (cbn in Hi; lia). unfold plus_scaled, a, b in Hc. injection Hc as X Y Z.
        destruct Hi as [<- |[<- |[<- |[]]]]; [lia| |]; destruct j as [|[|j]]; try lia; cbn in X, Y, Z; lra. }
    rewrite <- (map_length r_index).
    assert (ND : NoDup (map r_index rows)).
    { clear -S. induction (map r_index rows) as [|x l IH]; [constructor|]. inversion S; subst. constructor; [|auto].
      intros Hx. rewrite Forall_forall in H2. specialize (H2 x Hx). lia. }
    assert (ND3 : NoDup [0; 1; 2]%nat) by (repeat constructor; cbn; lia).
    pose proof (NoDup_incl_length ND (fun i Hi => proj1 (Q i) Hi)) as A1.
    pose proof (NoDup_incl_length ND3 (fun i Hi => proj2 (Q i) Hi)) as A2.
    cbn [length] in A1, A2. lia.
  - intros i Hi. destruct (C i Hi) as (r & Hr & R1 & R2). exists r. split; [exact Hr|]. rewrite A by lia. auto.
Qed.

(** ** C63: combining the tables of several parameters *)
(** the combined table has one row for every index of any table; coordinates
    come from the first table alone, the values of parameter k from its table *)
Theorem C63_joined {T} {N : Num T} (first : list (row T)) ps :
  NoDup (map r_index first) -> Forall (fun p => NoDup (map r_index p)) ps ->
  let t := combine_tables first ps in
  NoDup (map c_index t) /\
  (forall i, In i (map c_index t) <-> In i (map r_index first) \/ exists p, In p ps /\ In i (map r_index p)) /\
  forall r, In r t ->
    (forall v, c_loc r = Some v <-> exists s, In s first /\ r_index s = c_index r /\ r_loc s = v) /\
    length (c_sens r) = length ps /\
    (forall k p v, nth_error ps k = Some p ->
      (nth_error (c_sens r) k = Some (Some v) <-> exists s, In s p /\ r_index s = c_index r /\ r_sens s = v)).
Proof.
  intros Nf F t. destruct (combine_joined first ps Nf F) as (A & B & C). split; [exact A|]. split; [exact B|].
  intros r Hr. destruct (C r Hr) as [C1 C2]. rewrite C1, C2. clear C1 C2 C.
  assert (G : forall l (f : row T -> vec T) v, NoDup (map r_index l) ->
    (option_map f (find_row l (c_index r)) = Some v <-> exists s, In s l /\ r_index s = c_index r /\ f s = v)).
  { intros l f v Nl. split.
    - destruct (find_row l (c_index r)) as [s|] eqn:E; [|discriminate]. cbn. intros [= <-].
      apply find_row_some in E. exists s. tauto.
    - intros (s & Hs & E & <-). rewrite <- E, (find_row_in _ _ Nl Hs). reflexivity. }
  split; [intros v; apply G, Nf|]. split; [apply map_length|]. intros k p v Hk.
  rewrite nth_error_map, Hk. cbn [option_map]. rewrite <- (G p r_sens v).
  - split; [intros [= ->]; reflexivity|intros ->; reflexivity].
  - rewrite Forall_forall in F. apply F. eapply nth_error_In, Hk.
Qed.

(** the combined table of a component in a study of several parameters: one
    sensitivity per parameter, in the order of the parameters, each from the
    table of that parameter; coordinates from the first parameter *)
Theorem C63_component {T} {N : Num T} (sens : dict (dict (list (row T)))) c tables : sens <> [] ->
  Forall2 (fun ks p => dget (snd ks) c = Some p) sens tables ->
  Forall (fun p => NoDup (map r_index p)) tables ->
  exists t, combine_component sens c = Ok t /\
    (forall i, In i (map c_index t) <-> exists p, In p tables /\ In i (map r_index p)) /\
    forall r, In r t -> length (c_sens r) = length sens /\
      (forall p v, nth_error tables 0 = Some p ->
        (c_loc r = Some v <-> exists s, In s p /\ r_index s = c_index r /\ r_loc s = v)) /\
      (forall k p v, nth_error tables k = Some p ->
        (nth_error (c_sens r) k = Some (Some v) <-> exists s, In s p /\ r_index s = c_index r /\ r_sens s = v)).
Proof.
  intros Ne F ND. destruct F as [|[k0 s0] p0 sens tables H0 F]; [congruence|]. cbn [snd] in H0.
  assert (E : mapM (fun ks => dlookup (snd ks) c) ((k0, s0) :: sens) = Ok (p0 :: tables)).
  { cbn [mapM snd]. unfold dlookup at 1. rewrite H0. cbn [bind].
    assert (E : mapM (fun ks => dlookup (snd ks) c) sens = Ok tables).
    { clear -F. induction F as [|[k s] p sens tables H F IH]; [reflexivity|]. cbn [mapM snd] in *. unfold dlookup at 1. rewrite H. cbn [bind]. rewrite IH. reflexivity. }
    rewrite E. reflexivity. }
  exists (combine_tables p0 (p0 :: tables)). split.
  - unfold combine_component. unfold dlookup at 1. rewrite H0. cbn [bind]. rewrite E. reflexivity.
  - destruct (C63_joined p0 (p0 :: tables) (Forall_inv ND) ND) as (_ & I & C). split.
    + intros i. rewrite (I i). split; [|intros H; right; exact H]. intros [H|H]; [|exact H]. exists p0. cbn. auto.
    + intros r Hr. destruct (C r Hr) as (C1 & C2 & C3). split.
      * rewrite C2. cbn [length]. f_equal. symmetry. clear -F. induction F; cbn; congruence.
      * split; [|exact C3]. intros p v Hp. injection Hp as <-. apply C1.
Qed.
Example C63_component_meets :
  let a := [mkRow 0 (V3 0 0 0) (V3 1 0 0) 1 (V3 1 0 0)] : list (row R) in let b := [mkRow 0 (V3 0 0 0) (V3 0 1 0) 1 (V3 0 1 0); mkRow 1 (V3 2 0 0) (V3 0 0 0) 0 (V3 0 0 0)] in
  let sens := [("p", [("wing", a)]); ("q", [("body", b); ("wing", b)])]%string in
  Forall2 (fun ks p => dget (snd ks) "wing"%string = Some p) sens [a; b] /\ Forall (fun p => NoDup (map r_index p)) [a; b].
Proof.
  cbv zeta. split; [repeat constructor|]. repeat constructor; cbn; intuition discriminate.
Qed.

(** tables with the same rows are aligned row by row *)
Theorem C63_aligned {T} {N : Num T} (first : list (row T)) ps :
  NoDup (map r_index first) -> (forall p, In p ps -> map r_index p = map r_index first) ->
  map c_index (combine_tables first ps) = map r_index first /\
  (forall j r s, nth_error (combine_tables first ps) j = Some r -> nth_error first j = Some s ->
    c_loc r = Some (r_loc s) /\
    forall k p q, nth_error ps k = Some p -> nth_error p j = Some q -> nth_error (c_sens r) k = Some (Some (r_sens q))).
Proof.
  intros Nf E. pose proof (combine_order first ps E) as O. split; [exact O|].
  assert (F : Forall (fun p => NoDup (map r_index p)) ps) by (apply Forall_forall; intros p Hp; rewrite (E p Hp); exact Nf).
  destruct (C63_joined first ps Nf F) as (_ & _ & C). intros j r s Hr Hs.
  assert (I : c_index r = r_index s).
  { pose proof (map_nth_error c_index j _ Hr) as Q1. rewrite O in Q1. rewrite (map_nth_error r_index j _ Hs) in Q1. congruence. }
  destruct (C r (nth_error_In _ _ Hr)) as (C1 & _ & C3). split; [apply C1; exists s; eauto using nth_error_In|].
  intros k p q Hp Hq. apply (C3 k p _ Hp). exists q. split; [eapply nth_error_In, Hq|]. split; [|reflexivity].
  rewrite I. pose proof (map_nth_error r_index j _ Hq) as Q1. rewrite (E p (nth_error_In _ _ Hp)) in Q1.
  rewrite (map_nth_error r_index j _ Hs) in Q1. congruence.
Qed.

(** comparing a nominal mesh with one mesh per parameter: every row of the
    combined table has coordinates exactly when a corner left out for the first
    parameter is left out for all of them *)
Theorem C63_missing_coordinates (m : list (tri R)) (ms : list (list (tri R) * R)) m1 dp1 first ps :
  (forall x, In x ms -> length (fst x) = length m) -> length m1 = length m ->
  compare_meshes m m1 dp1 = Ok first -> Forall2 (fun x p => compare_meshes m (fst x) (snd x) = Ok p) ms ps ->
  ((forall r, In r (combine_tables first ps) -> c_loc r <> None) <->
   (forall i x, (i < 3 * length m)%nat -> In x ms -> repeats m m1 i -> repeats m (fst x) i)).
Proof.
  intros Lm L1 E1 E2.
  assert (K : forall m' dp p, length m = length m' -> compare_meshes m m' dp = Ok p -> NoDup (map r_index p) /\
    forall i, In i (map r_index p) <-> (i < 3 * length m)%nat /\ ~ repeats m m' i).
  { intros m' dp p L E. destruct (C62_rows m m' dp L) as (p' & E' & S & I & _). rewrite E in E'. injection E' as <-.
    split; [|exact I]. clear -S. induction (map r_index p) as [|x l IH]; [constructor|]. inversion S; subst.
    constructor; [|auto]. intros Hx. rewrite Forall_forall in H2. specialize (H2 x Hx). lia. }
  destruct (K _ _ _ (eq_sym L1) E1) as [Nf If].
  assert (Kp : forall p, In p ps -> exists x, In x ms /\ NoDup (map r_index p) /\
    forall i, In i (map r_index p) <-> (i < 3 * length m)%nat /\ ~ repeats m (fst x) i).
  { clear -Lm E2 K. induction E2 as [|x q ms ps H _ IH]; intros p Hp; [destruct Hp|]. destruct Hp as [<- |Hp].
    - exists x. split; [cbn; auto|]. apply (K _ _ _ (eq_sym (Lm x (or_introl eq_refl))) H).
    - destruct (IH (fun y Hy => Lm y (or_intror Hy)) p Hp) as (y & Hy & Q). exists y. split; [cbn; auto|exact Q]. }
  assert (Km : forall x, In x ms -> exists p, In p ps /\
    forall i, In i (map r_index p) <-> (i < 3 * length m)%nat /\ ~ repeats m (fst x) i).
  { clear -Lm E2 K. induction E2 as [|y q ms ps H _ IH]; intros x Hx; [destruct Hx|]. destruct Hx as [<- |Hx].
    - exists q. split; [cbn; auto|]. apply (K _ _ _ (eq_sym (Lm y (or_introl eq_refl))) H).
    - destruct (IH (fun z Hz => Lm z (or_intror Hz)) x Hx) as (p & Hp & Q). exists p. split; [cbn; auto|exact Q]. }
  assert (F : Forall (fun p => NoDup (map r_index p)) ps).
  { apply Forall_forall. intros p Hp. destruct (Kp p Hp) as (x & _ & Q & _). exact Q. }
  destruct (C63_joined first ps Nf F) as (_ & I & C). split.
  - intros H i x Hi Hx R1. apply Classical_Prop.NNPP. intros R2. destruct (Km x Hx) as (p & Hp & Ip).
    assert (Hin : In i (map c_index (combine_tables first ps))) by (apply I; right; exists p; split; [exact Hp|]; apply Ip; auto).
    apply in_map_iff in Hin. destruct Hin as (r & Er & Hr). specialize (H r Hr).
    destruct (c_loc r) as [v|] eqn:Ev; [|contradiction]. destruct (C r Hr) as (C1 & _). rewrite Ev in C1.
    destruct (proj1 (C1 v) eq_refl) as (s & Hs & Es & _).
    assert (Q : In i (map r_index first)) by (rewrite <- Er, <- Es; apply in_map, Hs). apply If in Q. tauto.
  - intros H r Hr Q. assert (Hi : In (c_index r) (map c_index (combine_tables first ps))) by (apply in_map, Hr).
    assert (Hf : In (c_index r) (map r_index first)).
    { apply I in Hi. destruct Hi as [Hi|(p & Hp & Hi)]; [exact Hi|]. destruct (Kp p Hp) as (x & Hx & _ & Ip).
      apply Ip in Hi. destruct Hi as [Hi R2]. apply If. split; [exact Hi|]. intros R1. apply R2. apply H; auto. }
    apply in_map_iff in Hf. destruct Hf as (s & Es & Hs). destruct (C r Hr) as (C1 & _). rewrite Q in C1.
    destruct (C1 (r_loc s)) as [_ C2]. assert (None = Some (r_loc s)) by (apply C2; eauto). discriminate.
Qed.

(** two triangles that share a corner, which the second parameter tears apart:
    the combined table has a row without coordinates *)
Example C63_meets :
  let m := [Tri (V3 0 0 0) (V3 1 0 0) (V3 0 1 0); Tri (V3 0 0 0) (V3 1 0 0) (V3 0 0 1)] : list (tri R) in
  let m1 := m in
  let m2 := [Tri (V3 0 0 0) (V3 1 0 0) (V3 0 1 0); Tri (V3 0 0 0) (V3 2 0 0) (V3 0 0 1)] : list (tri R) in
  exists first p2, compare_meshes m m1 1 = Ok first /\ compare_meshes m m2 1 = Ok p2 /\
    ~ (forall r, In r (combine_tables first [first; p2]) -> c_loc r <> None) /\
    (forall r, In r (combine_tables p2 [p2; first]) -> c_loc r <> None).
Proof.
  cbv zeta. set (m := [Tri (V3 0 0 0) (V3 1 0 0) (V3 0 1 0); Tri (V3 0 0 0) (V3 1 0 0) (V3 0 0 1)] : list (tri R)).
  set (m2 := [Tri (V3 0 0 0) (V3 1 0 0) (V3 0 1 0); Tri (V3 0 0 0) (V3 2 0 0) (V3 0 0 1)] : list (tri R)).
  destruct (C62_rows m m 1 eq_refl) as (first & E1 & _). destruct (C62_rows m m2 1 eq_refl) as (p2 & E2 & _).
  exists first, p2. split; [exact E1|]. split; [exact E2|].
  assert (R1 : repeats m m 4) by (exists 1%nat; split; [lia|split; reflexivity]).
  assert (R2 : ~ repeats m m2 4).
  { intros (j & Hj & A & B). destruct j as [|[|[|[|j]]]]; [| | | |lia]; cbn in A, B;
      solve [injection A; intros; lra|injection B; intros; lra]. }
  split.
  - intros H. apply R2.
    apply (proj1 (C63_missing_coordinates m [(m, 1); (m2, 1)] m 1 first [first; p2]
      ltac:(intros x [<- |[<- |[]]]; reflexivity) eq_refl E1 ltac:(repeat constructor; assumption)) H 4%nat (m2, 1));
      [cbn; lia|cbn; auto|exact R1].
  - apply (proj2 (C63_missing_coordinates m [(m2, 1); (m, 1)] m2 1 p2 [p2; first]
      ltac:(intros x [<- |[<- |[]]]; reflexivity) eq_refl E2 ltac:(repeat constructor; assumption))).
    intros i x Hi [<- |[<- |[]]]; [auto|]. intros (j & Hj & A & B). exists j. auto.
Qed.

Print Assumptions C62_comparable.
Print Assumptions C62_rows.
Print Assumptions C62_affine.
Print Assumptions C62_mean_value.
Print Assumptions C62_converges.
Print Assumptions C62_distinct_positions.
Print Assumptions C63_joined.
Print Assumptions C63_component.
Print Assumptions C63_aligned.
Print Assumptions C63_missing_coordinates.
