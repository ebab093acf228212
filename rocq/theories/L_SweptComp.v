(** SweptComponent: validation and watertightness. *)
From Coq Require Import Reals Lra ZArith String List Permutation Lia Bool.
From Verif Require Import Num NumR Py M_Vector SpecR3 M_Path M_Surface M_Geometry M_Mesh M_Component
  SpecPath SpecPoly SpecSurf SpecMesh SpecComp L_Vector L_Curves L_Coons L_Roberts L_Swept L_Edges L_Mesh
  L_Volume L_Component.
Import ListNotations.
Local Open Scope R_scope.

Lemma mapM_is_ok {A B} (f : A -> res B) l : is_ok (mapM f l) <-> Forall (fun a => is_ok (f a)) l.
Proof.
  split.
  - intros [r H]. apply mapM_inv in H. induction H; constructor; auto. eexists; eauto.
  - intros H. induction H as [|a l [b E] _ [r IH]]; [eexists; reflexivity|].
    exists (b :: r). cbn [mapM]. rewrite E. cbn [bind]. rewrite IH. reflexivity.
Qed.

Definition small12 : R := 1 / 1000000000000.

Section Check.
  Variables (n : nat) (sections : list (list (path R))) (g : nat -> nat -> R -> pt).
  Hypothesis G : forall k cs, nth_error sections k = Some cs ->
    forall e p, nth_error cs e = Some p -> evaluates01 p (g k e).

  Lemma edges_meet_ok k cs i : nth_error sections k = Some cs -> (i < length cs)%nat ->
    (is_ok (edges_meet cs i) <-> within small12 (g k (next_edge (length cs) i) 0) (g k i 1)) /\
    (~ is_ok (edges_meet cs i) -> edges_meet cs i = Raise GenericError).
  Proof.
    intros Hk Hi. unfold edges_meet.
    assert (EN : (if Nat.ltb i (length cs - 1) then i + 1 else 0)%nat = next_edge (length cs) i).
    { unfold next_edge. destruct (Nat.ltb_spec i (length cs - 1)), (Nat.eqb_spec (S i) (length cs)); lia. }
    rewrite EN. assert (Hn : (next_edge (length cs) i < length cs)%nat).
    { unfold next_edge. destruct (Nat.eqb_spec (S i) (length cs)); lia. }
    set (ip := next_edge (length cs) i) in *.
    destruct (nth_error cs i) as [a|] eqn:Ea; [|apply nth_error_None in Ea; lia].
    destruct (nth_error cs ip) as [b|] eqn:Eb; [|apply nth_error_None in Eb; lia].
    unfold py_nth. rewrite Ea, Eb. cbn [bind]. change (n1 : R) with 1. change (n0 : R) with 0.
    rewrite (G k cs Hk i a Ea) by lra. cbn [bind]. rewrite (G k cs Hk ip b Eb) by lra. cbn [bind].
    unfold ngtb. cbn [nlit nabs nsub NumR nltb]. change (IZR 1 / IZR 1000000000000) with small12.
    unfold within.
    destruct (Rltb_spec small12 (Rabs (vx (g k ip 0) - vx (g k i 1)))),
      (Rltb_spec small12 (Rabs (vy (g k ip 0) - vy (g k i 1)))),
      (Rltb_spec small12 (Rabs (vz (g k ip 0) - vz (g k i 1)))); cbn [orb];
    (split; [split; [try (intros [? HH]; discriminate HH); intros _; lra|intros ?; try (exfalso; lra); eexists; reflexivity]|
             intros K; try reflexivity; exfalso; apply K; eexists; reflexivity]).
  Qed.

  Lemma section_ok k cs : nth_error sections k = Some cs ->
    (is_ok (check_section n cs) <-> length cs = n /\
       forall e, (e < n)%nat -> within small12 (g k (next_edge n e) 0) (g k e 1)).
  Proof.
    intros Hk. unfold check_section. destruct (Nat.eqb_spec (length cs) n) as [E|E]; cbn [negb].
    - assert (M : is_ok (mapM (edges_meet cs) (seq 0 (length cs))) <->
        (forall e, (e < n)%nat -> within small12 (g k (next_edge n e) 0) (g k e 1))).
      { rewrite mapM_is_ok, Forall_forall. split.
        - intros H e He. rewrite <- E. apply (edges_meet_ok k cs e Hk); [lia|]. apply H, in_seq. lia.
        - intros H e He. apply in_seq in He. apply (edges_meet_ok k cs e Hk); [lia|]. rewrite E. apply H. lia. }
      destruct (mapM (edges_meet cs) (seq 0 (length cs))) as [us|ex]; cbn [bind].
      + split; [intros _; split; [auto|]; apply M; eexists; reflexivity|intros _; eexists; reflexivity].
      + split; [intros [? HH]; discriminate|]. intros [_ H]. apply M in H. destruct H; discriminate.
    - split; [intros [? HH]; discriminate|]. intros [H _]. contradiction.
  Qed.
End Check.

Lemma ends_ok close n r : is_ok (check_ends close n r) <->
  (close = true -> n = 4%nat /\ forall d, r = ResDict d -> exists a b,
     dget d "e0" = Some a /\ dget d "e2" = Some a /\ dget d "e1" = Some b /\ dget d "e3" = Some b).
Proof.
  unfold check_ends, dlookup. destruct close; cbn [andb].
  - destruct (Nat.eqb_spec n 4) as [E|E]; cbn [negb].
    + destruct r as [k|d].
      * split; [intros _ _; split; [auto|]; intros d H; discriminate|intros _; eexists; reflexivity].
      * split.
        -- intros [u H] _. split; [auto|]. intros d' [= <-].
           destruct (dget d "e0") as [a|]; cbn [bind] in H; [|discriminate].
           destruct (dget d "e2") as [a'|]; cbn [bind] in H; [|discriminate].
           destruct (dget d "e1") as [b|]; cbn [bind] in H; [|discriminate].
           destruct (dget d "e3") as [b'|]; cbn [bind] in H; [|discriminate].
           destruct (Nat.eqb_spec a a'), (Nat.eqb_spec b b'); cbn in H; try discriminate. subst. eauto 10.
        -- intros H. destruct (H eq_refl) as [_ K]. destruct (K d eq_refl) as (a & b & -> & -> & -> & ->). cbn [bind].
           rewrite !Nat.eqb_refl. cbn. eexists; reflexivity.
    + split; [intros [? HH]; discriminate|]. intros H. destruct (H eq_refl). contradiction.
  - split; [intros _ HH; discriminate|intros _; eexists; reflexivity].
Qed.

(** C43: what construction accepts *)
Lemma swept_init_iff sections close r g :
  (forall k cs, nth_error sections k = Some cs -> forall e p, nth_error cs e = Some p -> evaluates01 p (g k e)) ->
  (is_ok (Swept_init sections close r) <->
   exists n, sections <> [] /\
     (forall k cs, nth_error sections k = Some cs -> length cs = n /\
        forall e, (e < n)%nat -> within small12 (g k (next_edge n e) 0) (g k e 1)) /\
     (close = true -> n = 4%nat /\ forall d, r = ResDict d -> exists a b,
        dget d "e0" = Some a /\ dget d "e2" = Some a /\ dget d "e1" = Some b /\ dget d "e3" = Some b)).
Proof.
  intros G. unfold Swept_init, py_nth. destruct sections as [|first rest].
  { cbn. split; [intros [? HH]; discriminate|]. intros (n & H & _). contradiction. }
  set (ss := first :: rest) in *. cbn [nth_error bind].
  
  assert (M : forall n, is_ok (mapM (check_section n) ss) <-> forall k cs, nth_error ss k = Some cs -> length cs = n /\
        forall e, (e < n)%nat -> within small12 (g k (next_edge n e) 0) (g k e 1)).
  { intros n. rewrite mapM_is_ok, Forall_forall. split.
    - intros H k cs Hk. apply (section_ok n ss g G k cs Hk), H. eapply nth_error_In, Hk.
    - intros H cs Hc. apply In_nth_error in Hc as [k Hk]. apply (section_ok n ss g G k cs Hk), H, Hk. }
  cbn [nth_error ss bind].
  split.
  - intros [u H]. exists (length first). split; [discriminate|].
    destruct (mapM (check_section (length first)) ss) as [us|ex] eqn:E1; cbn [bind] in H; [|discriminate].
    destruct (check_ends close (length first) r) as [w|ex] eqn:E2; cbn [bind] in H; [|discriminate].
    split; [apply M; eexists; eauto|]. apply ends_ok. eexists; eauto.
  - intros (n & _ & H1 & H2).
    assert (n = length first) as -> by (symmetry; apply (H1 0%nat first); reflexivity).
    apply M in H1 as [us E1]. apply ends_ok in H2 as [w E2]. rewrite E1. cbn [bind]. rewrite E2. eexists; reflexivity.
Qed.

(** ** generated patches *)
Section Closed.
  Variables (m : nat) (sections : list (list (path R))) (g : nat -> nat -> R -> pt) (n : nat) (r : resolution).
  Hypothesis L : length sections = S (S m).
  Hypothesis G : sections_are 4 sections g.
  Hypothesis J : loops_close 4 (S (S m)) g.

  Lemma sec k : (k <= S m)%nat -> exists a b c d, nth_error sections k = Some [a; b; c; d] /\
    evaluates01 a (g k 0%nat) /\ evaluates01 b (g k 1%nat) /\ evaluates01 c (g k 2%nat) /\ evaluates01 d (g k 3%nat).
  Proof.
    intros Hk. destruct (nth_error sections k) as [cs|] eqn:E; [|apply nth_error_None in E; lia].
    destruct (G k cs E) as [Lc H]. destruct cs as [|a [|b [|c [|d [|? ?]]]]]; cbn in Lc; try lia.
    exists a, b, c, d. split; [reflexivity|].
    split; [apply (H 0%nat); reflexivity|]. split; [apply (H 1%nat); reflexivity|].
    split; [apply (H 2%nat); reflexivity|apply (H 3%nat); reflexivity].
  Qed.

  (** the e-th edges of all sections *)
  Lemma columns e : (e < 4)%nat -> exists edges, mapM (fun cs => py_nth cs e) sections = Ok edges /\
    length edges = S (S m) /\ forall k d, (k <= S m)%nat -> evaluates01 (nth k edges d) (g k e).
  Proof.
    intros He.
    assert (OK : is_ok (mapM (fun cs => py_nth cs e) sections)).
    { apply mapM_is_ok, Forall_forall. intros cs Hc. apply In_nth_error in Hc as [k Hk].
      destruct (G k cs Hk) as [Lc _]. unfold py_nth. destruct (nth_error cs e) eqn:E; [eexists; reflexivity|].
      apply nth_error_None in E. lia. }
    destruct OK as [edges E]. exists edges. split; [exact E|]. apply mapM_inv in E.
    pose proof (F2_len _ _ _ E) as Le. split; [congruence|]. intros k d Hk.
    assert (Hk' : (k < length sections)%nat) by lia.
    destruct (nth_error sections k) as [cs|] eqn:Es; [|apply nth_error_None in Es; lia].
    assert (Ek : py_nth cs e = Ok (nth k edges d)).
    { clear -E Es. revert k Es. induction E as [|x y l l' Hxy _ IH]; intros k Es; [destruct k; discriminate|].
      destruct k as [|k]; cbn in *; [injection Es as <-; exact Hxy|apply IH, Es]. }
    unfold py_nth in Ek. destruct (nth_error cs e) as [p|] eqn:Ep; [|discriminate]. injection Ek as <-.
    destruct (G k cs Es) as [_ H]. apply H, Ep.
  Qed.

  Definition side_val (e : nat) (rr s : R) : pt := blend m (fun k => g k e s) rr.

  Lemma side_patch e rs : (e < 4)%nat -> swept_res r "sweep" ("e" ++ str_nat e) = Ok rs ->
    exists u, swept_side sections r e = Ok ("swept_patch_" ++ str_nat e, u, fst rs, snd rs)%string /\
      forall rr s, 0 <= rr <= 1 -> 0 <= s <= 1 -> u rr s = Ok (side_val e rr s).
  Proof.
    intros He Hr. destruct (columns e He) as (edges & E & Le & Ev). unfold swept_side. rewrite E. cbn [bind].
    rewrite Hr. cbn [bind]. eexists. split; [reflexivity|]. intros rr s H1 H2.
    apply (swept_blend edges m (fun k => g k e) (Line origin origin)); auto.
  Qed.

  (** end caps *)
  Definition cap0 : R -> R -> pt := coons_val (fun t => g 0%nat 2%nat (1 - t)) (g 0%nat 1%nat) (g 0%nat 0%nat) (fun t => g 0%nat 3%nat (1 - t)) origin.
  Definition cap1 : R -> R -> pt := coons_val (g (S m) 2%nat) (fun t => g (S m) 3%nat (1 - t)) (fun t => g (S m) 0%nat (1 - t)) (g (S m) 1%nat) origin.

  Lemma j0 k : (k <= S m)%nat -> g k 0%nat 1 = g k 1%nat 0 /\ g k 1%nat 1 = g k 2%nat 0 /\ g k 2%nat 1 = g k 3%nat 0 /\ g k 3%nat 1 = g k 0%nat 0.
  Proof using J. clear L. intros Hk. split; [|split; [|split]]; apply (J k); lia. Qed.

  Lemma cap0_patch rs : swept_res r "e0" "e1" = Ok rs -> exists u, swept_end_0 sections r = Ok ("swept_patch_end_0", u, fst rs, snd rs)%string /\
    forall rr s, 0 <= rr <= 1 -> 0 <= s <= 1 -> u rr s = Ok (cap0 rr s).
  Proof.
    intros Hr. destruct (sec 0) as (a & b & c & d & E & A & B & C & D); [lia|]. destruct (j0 0%nat) as (J1 & J2 & J3 & J4); [lia|].
    unfold swept_end_0, py_nth. rewrite E. cbn [bind nth_error].
    destruct (coons01 (ReversedPath c) b a (ReversedPath d) _ _ _ _ (reversed01 _ _ C) B A (reversed01 _ _ D)) as (u & Eu & Hu).
    - unfold corners_near. replace (1 - 0) with 1 by ring. replace (1 - 1) with 0 by ring.
      rewrite J1, J2, J3, J4. repeat split; apply near_refl.
    - rewrite Eu. cbn [bind]. rewrite Hr. cbn [bind]. exists u. split; [reflexivity|]. exact Hu.
  Qed.
  Lemma cap1_patch rs : swept_res r "e0" "e1" = Ok rs -> exists u, swept_end_1 sections r = Ok ("swept_patch_end_1", u, fst rs, snd rs)%string /\
    forall rr s, 0 <= rr <= 1 -> 0 <= s <= 1 -> u rr s = Ok (cap1 rr s).
  Proof.
    intros Hr. destruct (sec (S m)) as (a & b & c & d & E & A & B & C & D); [lia|]. destruct (j0 (S m)) as (J1 & J2 & J3 & J4); [lia|].
    unfold swept_end_1, py_last. destruct sections as [|s0 ss]; [discriminate|]. rewrite L. cbn [Nat.sub].
    unfold py_nth. rewrite E. cbn [bind nth_error].
    destruct (coons01 c (ReversedPath d) (ReversedPath a) b _ _ _ _ C (reversed01 _ _ D) (reversed01 _ _ A) B) as (u & Eu & Hu).
    - unfold corners_near. replace (1 - 0) with 1 by ring. replace (1 - 1) with 0 by ring.
      rewrite J1, <- J2, J3, <- J4. repeat split; apply near_refl.
    - rewrite Eu. cbn [bind]. rewrite Hr. cbn [bind]. exists u. split; [reflexivity|]. exact Hu.
  Qed.

  (** sides *)
  Lemma side_s1 e : (e < 4)%nat -> forall rr, side_val e rr 1 = side_val (next_edge 4 e) rr 0.
  Proof using J. clear L. intros He rr. apply blend_ext. intros k Hk. apply J; lia. Qed.

  Notation X e := (along n (fun rr => side_val e rr 0)).
  Notation F e := (along n (g 0%nat e)).
  Notation B e := (along n (g (S m) e)).

  Lemma side_outline e : (e < 4)%nat -> outline (grid_of n (side_val e)) (S n) (S n)
    = X e ++ B e ++ flips (X (next_edge 4 e)) ++ flips (F e).
  Proof using J. clear L.
    intros He. rewrite outline_along. apply f_equal2; [reflexivity|]. apply f_equal2.
    - apply along_ext. intros t _. apply blend_1.
    - apply f_equal2; f_equal; apply along_ext; intros t _; [apply side_s1; auto|apply blend_0].
  Qed.
  Lemma cap0_outline : reduces (outline (grid_of n cap0) (S n) (S n)) (F 0 ++ F 1 ++ F 2 ++ F 3)%nat.
  Proof using J. clear L.
    destruct (j0 0%nat) as (J1 & J2 & J3 & J4); [lia|].
    destruct (coons_val_sides (fun t => g 0%nat 2%nat (1 - t)) (g 0%nat 1%nat) (g 0%nat 0%nat) (fun t => g 0%nat 3%nat (1 - t)))
      as (V0 & V1 & V2 & V3);
      try (replace (1 - 0) with 1 by ring); try (replace (1 - 1) with 0 by ring); try congruence.
    rewrite outline_along. apply reduces_perm.
    rewrite (along_ext n (fun t => cap0 t 0) _ (fun t _ => V2 t)), (along_ext n (fun t => cap0 1 t) _ (fun t _ => V1 t)),
      (along_ext n (fun t => cap0 t 1) _ (fun t _ => V3 t)), (along_ext n (fun t => cap0 0 t) _ (fun t _ => V0 t)).
    apply Permutation_app_head, Permutation_app_head, Permutation_app.
    - rewrite (flips_perm _ _ (along_rev n (g 0%nat 2%nat))), flips_flips. reflexivity.
    - rewrite (flips_perm _ _ (along_rev n (g 0%nat 3%nat))), flips_flips. reflexivity.
  Qed.
  Lemma cap1_outline : reduces (outline (grid_of n cap1) (S n) (S n)) (flips (B 0) ++ flips (B 3) ++ flips (B 2) ++ flips (B 1))%nat.
  Proof using J. clear L.
    destruct (j0 (S m)) as (J1 & J2 & J3 & J4); [lia|].
    destruct (coons_val_sides (g (S m) 2%nat) (fun t => g (S m) 3%nat (1 - t)) (fun t => g (S m) 0%nat (1 - t)) (g (S m) 1%nat))
      as (V0 & V1 & V2 & V3);
      try (replace (1 - 0) with 1 by ring); try (replace (1 - 1) with 0 by ring); try congruence.
    rewrite outline_along. apply reduces_perm.
    rewrite (along_ext n (fun t => cap1 t 0) _ (fun t _ => V2 t)), (along_ext n (fun t => cap1 1 t) _ (fun t _ => V1 t)),
      (along_ext n (fun t => cap1 t 1) _ (fun t _ => V3 t)), (along_ext n (fun t => cap1 0 t) _ (fun t _ => V0 t)).
    apply Permutation_app; [apply along_rev|]. apply Permutation_app; [apply along_rev|]. reflexivity.
  Qed.

  Lemma closed_patches : (forall e, (e < 4)%nat -> is_ok (swept_res r "sweep" ("e" ++ str_nat e))) ->
    is_ok (swept_res r "e0" "e1") ->
    exists l, swept_patches sections 4 true r = Ok l /\
    exists u0 u1 u2 u3 v0 v1, sized_patches l =
      [("swept_patch_0", u0); ("swept_patch_1", u1); ("swept_patch_2", u2); ("swept_patch_3", u3);
       ("swept_patch_end_0", v0); ("swept_patch_end_1", v1)]%string /\
      Forall2 (fun u v => forall rr s, 0 <= rr <= 1 -> 0 <= s <= 1 -> u rr s = Ok (v rr s))
        [u0; u1; u2; u3; v0; v1] [side_val 0; side_val 1; side_val 2; side_val 3; cap0; cap1]%nat.
  Proof.
    intros HR [re He]. destruct (HR 0%nat) as [r0 H0]; [lia|]. destruct (HR 1%nat) as [r1 H1]; [lia|].
    destruct (HR 2%nat) as [r2 H2]; [lia|]. destruct (HR 3%nat) as [r3 H3]; [lia|].
    destruct (side_patch 0 r0) as (u0 & E0 & V0); [lia|auto|]. destruct (side_patch 1 r1) as (u1 & E1 & V1); [lia|auto|].
    destruct (side_patch 2 r2) as (u2 & E2 & V2); [lia|auto|]. destruct (side_patch 3 r3) as (u3 & E3 & V3); [lia|auto|].
    destruct (cap0_patch re He) as (v0 & E4 & V4). destruct (cap1_patch re He) as (v1 & E5 & V5).
    unfold swept_patches. cbn [seq mapM]. rewrite E0, E1, E2, E3. cbn [bind]. rewrite E4, E5. cbn [bind].
    eexists. split; [reflexivity|]. exists u0, u1, u2, u3, v0, v1. split; [reflexivity|].
    repeat (constructor; [assumption|]). constructor.
  Qed.
End Closed.

Lemma perm_concat {A} (l k : list (list A)) : Permutation l k -> Permutation (concat l) (concat k).
Proof.
  induction 1; cbn [concat]; auto.
  - apply Permutation_app_head; auto.
  - rewrite !app_assoc. apply Permutation_app_tail, Permutation_app_comm.
  - eapply Permutation_trans; eauto.
Qed.
Lemma balanced_atoms {A} (l : list (list (edge A))) k : Permutation l (k ++ map flips k) -> balanced (concat l).
Proof.
  intros H. apply paired_balanced. exists (concat k).
  assert (E : flips (concat k) = concat (map flips k)) by (unfold flips; rewrite concat_map; reflexivity).
  rewrite E, <- concat_app. apply perm_concat. exact H.
Qed.

Lemma swept_watertight m sections g n : length sections = S (S m) -> sections_are 4 sections g ->
  loops_close 4 (S (S m)) g ->
  exists l mesh, swept_patches sections 4 true (ResInt (S n)) = Ok l /\
    fresh_mesh (sized_patches l) (ResInt (S n)) (sized_res_r l) (sized_res_s l) no_clustering = Ok mesh /\
    watertight mesh /\ length mesh = (24 * S n * S n)%nat.
Proof.
  intros L G J.
  destruct (closed_patches m sections g (ResInt (S n)) L G J) as (l & El & u0 & u1 & u2 & u3 & v0 & v1 & Ed & V).
  { intros; eexists; reflexivity. } { eexists; reflexivity. }
  exists l.
  assert (MM : exists ms, Forall2 (fun u mm => mesh_patch no_clustering u (S n) (S n) = Ok mm) [u0; u1; u2; u3; v0; v1] ms /\
    Forall2 (fun mm o => reduces (mesh_edges mm) o /\ length mm = (4 * S n * S n)%nat) ms
      (map (fun v => outline (grid_of n v) (S n) (S n))
           [side_val m g 0; side_val m g 1; side_val m g 2; side_val m g 3; cap0 g; cap1 m g])%nat).
  { revert V. generalize [u0; u1; u2; u3; v0; v1].
    generalize [side_val m g 0; side_val m g 1; side_val m g 2; side_val m g 3; cap0 g; cap1 m g]%nat.
    intros vs us V. induction V as [|u v us vs H _ (ms & I1 & I2)].
    - exists []. split; constructor.
    - eexists (_ :: ms). split.
      + constructor; [|exact I1]. apply (mesh_patch_default u n n (grid_of n v)). intros i j Hi Hj. apply H; apply ratio01; lia.
      + constructor; [|exact I2]. split; [apply grid_reduces|apply grid_mesh_length]. }
  destruct MM as (ms & M1 & M2). exists (concat ms). split; [exact El|]. split.
  { apply fresh_mesh_int.
    - rewrite Ed. discriminate.
    - rewrite Ed. cbn. repeat constructor; cbn; intuition discriminate.
    - rewrite Ed. exact M1. }
  split.
  - unfold watertight.
    assert (R1 : Forall2 (fun mm o => reduces (mesh_edges mm) o) ms
      [(along n (fun rr => side_val m g 0 rr 0) ++ along n (g (S m) 0%nat) ++ flips (along n (fun rr => side_val m g 1 rr 0)) ++ flips (along n (g 0%nat 0%nat)));
       (along n (fun rr => side_val m g 1 rr 0) ++ along n (g (S m) 1%nat) ++ flips (along n (fun rr => side_val m g 2 rr 0)) ++ flips (along n (g 0%nat 1%nat)));
       (along n (fun rr => side_val m g 2 rr 0) ++ along n (g (S m) 2%nat) ++ flips (along n (fun rr => side_val m g 3 rr 0)) ++ flips (along n (g 0%nat 2%nat)));
       (along n (fun rr => side_val m g 3 rr 0) ++ along n (g (S m) 3%nat) ++ flips (along n (fun rr => side_val m g 0 rr 0)) ++ flips (along n (g 0%nat 3%nat)));
       (along n (g 0%nat 0%nat) ++ along n (g 0%nat 1%nat) ++ along n (g 0%nat 2%nat) ++ along n (g 0%nat 3%nat));
       (flips (along n (g (S m) 0%nat)) ++ flips (along n (g (S m) 3%nat)) ++ flips (along n (g (S m) 2%nat)) ++ flips (along n (g (S m) 1%nat)))]).
    { clear M1 Ed V. cbn [map] in M2.
      rewrite !(side_outline m g n J) in M2 by lia. cbn [next_edge Nat.eqb] in M2.
      repeat match goal with H : Forall2 _ _ (_ :: _) |- _ => inversion H; clear H; subst end.
      match goal with H : Forall2 _ _ [] |- _ => inversion H; clear H; subst end.
      repeat match goal with H : _ /\ _ |- _ => destruct H end.
      repeat (constructor; [match goal with H : reduces (mesh_edges ?x) _ |- reduces (mesh_edges ?x) _ =>
        first [exact H | exact (reduces_trans _ _ _ H (cap0_outline m g n J))
              | exact (reduces_trans _ _ _ H (cap1_outline m g n J))] end|]).
      constructor. }
    apply (reduces_balanced _ _ (reduces_concat _ _ R1)).
    generalize (along n (fun rr => side_val m g 0 rr 0)), (along n (fun rr => side_val m g 1 rr 0)),
      (along n (fun rr => side_val m g 2 rr 0)), (along n (fun rr => side_val m g 3 rr 0)).
    generalize (along n (g (S m) 0%nat)), (along n (g (S m) 1%nat)), (along n (g (S m) 2%nat)), (along n (g (S m) 3%nat)).
    generalize (along n (g 0%nat 0%nat)), (along n (g 0%nat 1%nat)), (along n (g 0%nat 2%nat)), (along n (g 0%nat 3%nat)).
    intros f0 f1 f2 f3 b0 b1 b2 b3 x0 x1 x2 x3. clear.
    cbn [concat]. rewrite app_nil_r, <- !app_assoc.
    match goal with |- balanced ?t =>
      let rec atoms t := match t with ?a ++ ?b => let l := atoms b in constr:(a :: l) | ?a => constr:([a]) end in
      let l := atoms t in replace t with (concat l) by (cbn [concat]; rewrite app_nil_r; reflexivity) end.
    apply (balanced_atoms _ [x0; x1; x2; x3; b0; b1; b2; b3; f0; f1; f2; f3]). cbn [map app].
    perm_solve.
  - clear -M2. cbn [map] in M2.
    repeat match goal with H : Forall2 _ _ (_ :: _) |- _ => inversion H; clear H; subst end.
    match goal with H : Forall2 _ _ [] |- _ => inversion H; clear H; subst end.
    repeat match goal with H : _ /\ _ |- _ => destruct H end.
    cbn [concat]. rewrite !app_length. cbn [length]. lia.
Qed.
