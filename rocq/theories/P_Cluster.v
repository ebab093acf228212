(** C108: clustering functions and closed meshes. *)
From Coq Require Import String Reals Lra ZArith List Permutation Lia Bool.
From Verif Require Import Num NumR Py M_Vector SpecR3 M_Path M_Surface M_Geometry M_Mesh M_Component
  SpecPath SpecPoly SpecSurf SpecMesh SpecComp SpecCluster L_Vector L_Line L_Roberts L_Swept L_Edges L_Mesh L_Component L_SweptComp P_Roberts P_Component L_Cluster.
Import ListNotations.
Local Open Scope R_scope.

(** C108: a body of revolution closes under any clustering that keeps the ends *)
Theorem C108_revolved line g n ci cj gi gj : evaluates01 line g -> places ci gi -> places cj gj -> keeps_ends gi -> keeps_ends gj ->
  vy (g 0) = 0 -> vz (g 0) = 0 -> vy (g 1) = 0 -> vz (g 1) = 0 ->
  exists m, fresh_mesh (revolved_patches line) (ResInt (S n)) [] [] (mkClustering ci cj) = Ok m /\ watertight m.
Proof. exact (revolved_clustered line g n ci cj gi gj). Qed.

(** C108: a closed sweep closes under one symmetric clustering used in both directions *)
Theorem C108_swept m sections g n ci cj gi gj : length sections = S (S m) -> sections_are 4 sections g -> loops_close 4 (S (S m)) g ->
  places ci gi -> places cj gj -> keeps_ends gi -> keeps_ends gj -> alike n gi gj -> even_handed n gj ->
  exists l mesh, swept_patches sections 4 true (ResInt (S n)) = Ok l /\
    fresh_mesh (sized_patches l) (ResInt (S n)) (sized_res_r l) (sized_res_s l) (mkClustering ci cj) = Ok mesh /\ watertight mesh.
Proof. intros L G J Pi Pj Ki Kj. exact (sweep_closed m sections g n ci cj gi gj L G J Pi Pj Ki Kj). Qed.

Lemma node_lt n k l : (k < l)%nat -> node n k < node n l.
Proof. intros H. unfold node, Rdiv. apply Rmult_lt_compat_r; [apply Rinv_0_lt_compat, lt_0_INR; lia|apply lt_INR; exact H]. Qed.
Lemma node_01 n k : (k <= S n)%nat -> 0 <= node n k <= 1.
Proof. apply ratio01. Qed.
Lemma node_0 n : node n 0 = 0.
Proof. unfold node. cbn [INR]. unfold Rdiv. ring. Qed.
Lemma node_1 n : node n (S n) = 1.
Proof. unfold node. apply Rinv_r. apply not_0_INR. discriminate. Qed.
Lemma rising_node g n k l : rising g -> (k < l)%nat -> (l <= S n)%nat -> g (node n k) < g (node n l).
Proof. intros H K L. apply H; [apply node_01; lia|apply node_lt, K|apply node_01, L]. Qed.
Lemma rising_inj g n k l : rising g -> (k <= S n)%nat -> (l <= S n)%nat -> g (node n k) = g (node n l) -> k = l.
Proof.
  intros H K L E. destruct (Nat.lt_trichotomy k l) as [D|[D|D]]; [|exact D|].
  - pose proof (rising_node g n k l H D L). lra.
  - pose proof (rising_node g n l k H D K). lra.
Qed.
Lemma in_along n f e : In e (along n f) <-> exists k, (k <= n)%nat /\ e = (f (node n k), f (node n (S k))).
Proof.
  unfold along, chain. rewrite in_map_iff. split.
  - intros (k & E & I). apply in_seq in I. exists k. split; [lia|]. symmetry. exact E.
  - intros (k & H & ->). exists k. split; [reflexivity|]. apply in_seq. lia.
Qed.
Lemma in_flips n f e : In e (flips (along n f)) <-> exists k, (k <= n)%nat /\ e = (f (node n (S k)), f (node n k)).
Proof.
  unfold flips. rewrite in_map_iff. split.
  - intros (a & <- & I). apply in_along in I as (k & Hk & ->). exists k. split; [exact Hk|reflexivity].
  - intros (k & Hk & ->). exists (f (node n k), f (node n (S k))). split; [reflexivity|]. apply in_along. exists k. auto.
Qed.
Lemma balanced_in {A} (l : list (edge A)) a b : balanced l -> In (a, b) l -> In (b, a) l.
Proof. intros B I. apply (Permutation_in (b, a) (Permutation_sym B)). change (b, a) with (flip (a, b)). apply in_map. exact I. Qed.
Lemma side_box e r : (e < 4)%nat -> side_val 0 box_edge e r 0 = lerp r (box_corner 0 e) (box_corner 1 e).
Proof.
  intros He. unfold side_val, blend, box_edge. change (seg 0 r) with 0%nat. rewrite !lerp_0. cbn [INR]. replace (r * 1 - 0) with r by ring. reflexivity.
Qed.

Section Box.
  Variables (n : nat) (gi gj : R -> R).
  Hypotheses (Ki : keeps_ends gi) (Kj : keeps_ends gj) (Ri : rising gi) (Rj : rising gj).
  Definition box_rim : list (edge pt) :=
    (let X e := along n (fun rr => side_val 0 box_edge e (gi rr) 0) in
     let F e := along n (fun t => box_edge 0 e (gj t)) in
     let B e := along n (fun t => box_edge 1 e (gj t)) in
      (X 0 ++ B 0 ++ flips (X 1) ++ flips (F 0)) ++ (X 1 ++ B 1 ++ flips (X 2) ++ flips (F 1)) ++
       (X 2 ++ B 2 ++ flips (X 3) ++ flips (F 2)) ++ (X 3 ++ B 3 ++ flips (X 0) ++ flips (F 3)) ++
       (along n (fun t => box_edge 0 0 (gi t)) ++ F 1 ++ flips (along n (fun t => box_edge 0 2 (1 - gi t))) ++ flips (along n (fun t => box_edge 0 3 (1 - gj t)))) ++
       (along n (fun t => box_edge 1 0 (1 - gi t)) ++ along n (fun t => box_edge 1 3 (1 - gj t)) ++ flips (along n (fun t => box_edge 1 2 (gi t))) ++ flips (B 1)))%nat.

  Lemma gi_at k : (k <= n)%nat -> 0 <= gi (node n k) /\ gi (node n k) < gi (node n (S k)) /\ gi (node n (S k)) <= 1.
  Proof using Ki Ri. intros H. split; [apply Ki, node_01; lia|]. split; [apply rising_node; [exact Ri|lia|lia]|apply Ki, node_01; lia]. Qed.
  Lemma gj_at k : (k <= n)%nat -> 0 <= gj (node n k) /\ gj (node n k) < gj (node n (S k)) /\ gj (node n (S k)) <= 1.
  Proof using Kj Rj. intros H. split; [apply Kj, node_01; lia|]. split; [apply rising_node; [exact Rj|lia|lia]|apply Kj, node_01; lia]. Qed.

  Ltac sift H := unfold box_rim in H; rewrite !in_app_iff, ?in_along, ?in_flips in H;
    repeat match type of H with _ \/ _ => destruct H as [H|H] end;
    destruct H as (k' & Hk' & E); rewrite ?side_box in E by lia; unfold box_edge, lerp in E; cbn [next_edge Nat.eqb box_corner INR] in E;
    injection E; clear E; intros; pose proof (gi_at k' Hk'); pose proof (gj_at k' Hk').

  Lemma rim_south k : (k <= n)%nat -> balanced box_rim -> exists k', (k' <= n)%nat /\ gi (node n k) = gj (node n k') /\ gi (node n (S k)) = gj (node n (S k')).
  Proof using Ki Kj Ri Rj.
    intros Hk B. assert (I : In (box_edge 0 0 (gi (node n k)), box_edge 0 0 (gi (node n (S k)))) box_rim).
    { unfold box_rim. rewrite !in_app_iff. do 4 right. left. left. apply in_along. exists k. split; [exact Hk|reflexivity]. }
    apply (balanced_in _ _ _ B) in I. unfold box_edge, lerp in I. cbn [next_edge Nat.eqb box_corner INR] in I. pose proof (gi_at k Hk) as GK.
    sift I; cbn [vx vy vz] in *; try lra. all: exists k'; split; [exact Hk'|]; split; lra.
  Qed.
  Lemma rim_west k : (k <= n)%nat -> balanced box_rim -> exists k', (k' <= n)%nat /\ 1 - gj (node n k) = gj (node n (S k')) /\ 1 - gj (node n (S k)) = gj (node n k').
  Proof using Ki Kj Ri Rj.
    intros Hk B. assert (I : In (box_edge 0 3 (1 - gj (node n (S k))), box_edge 0 3 (1 - gj (node n k))) box_rim).
    { unfold box_rim. rewrite !in_app_iff. do 4 right. left. do 3 right. apply in_flips. exists k. split; [exact Hk|reflexivity]. }
    apply (balanced_in _ _ _ B) in I. unfold box_edge, lerp in I. cbn [next_edge Nat.eqb box_corner INR] in I. pose proof (gj_at k Hk) as GK.
    sift I; cbn [vx vy vz] in *; try lra. all: exists k'; split; [exact Hk'|]; split; lra.
  Qed.
  Lemma rim_alike : balanced box_rim -> alike n gi gj.
  Proof using Ki Kj Ri Rj.
    intros B k. induction k as [|k IH]; intros Hk.
    - rewrite node_0, (proj1 Ki), (proj1 Kj). reflexivity.
    - destruct (rim_south k ltac:(lia) B) as (k' & Hk' & E1 & E2). rewrite IH in E1 by lia. apply (rising_inj gj n k k' Rj) in E1; [|lia|lia]. subst k'. exact E2.
  Qed.
  Lemma rim_even : balanced box_rim -> even_handed n gj.
  Proof using Ki Kj Ri Rj.
    intros B k. induction k as [|k IH]; intros Hk.
    - rewrite Nat.sub_0_r, node_0, node_1, (proj1 Kj), (proj1 (proj2 Kj)). ring.
    - destruct (rim_west k ltac:(lia) B) as (k' & Hk' & E1 & E2). rewrite <- IH in E1 by lia. apply (rising_inj gj n _ _ Rj) in E1; [|lia|lia].
      replace (S n - S k)%nat with k' by lia. symmetry. exact E2.
  Qed.
End Box.

(** C108: and a box closes under no other clustering *)
Theorem C108_box_iff n ci cj gi gj : places ci gi -> places cj gj -> keeps_ends gi -> keeps_ends gj -> rising gi -> rising gj ->
  exists l mesh, swept_patches box 4 true (ResInt (S n)) = Ok l /\
    fresh_mesh (sized_patches l) (ResInt (S n)) (sized_res_r l) (sized_res_s l) (mkClustering ci cj) = Ok mesh /\
    (watertight mesh <-> alike n gi gj /\ even_handed n gj).
Proof.
  intros Pi Pj Ki Kj Ri Rj. destruct (sweep_edges 0 box box_edge n ci cj gi gj eq_refl box_sections box_loops Pi Pj Ki Kj) as (l & mesh & E1 & E2 & RE).
  exists l, mesh. split; [exact E1|]. split; [exact E2|]. split.
  - intros W. apply (reduces_balanced _ _ RE) in W. split; [exact (rim_alike n gi gj Ki Kj Ri Rj W)|exact (rim_even n gi gj Ki Kj Ri Rj W)].
  - intros (A & EV). destruct (sweep_closed 0 box box_edge n ci cj gi gj eq_refl box_sections box_loops Pi Pj Ki Kj A EV) as (l' & mesh' & F1 & F2 & W).
    rewrite E1 in F1. injection F1 as <-. rewrite E2 in F2. injection F2 as <-. exact W.
Qed.

(** ** RobertsFunction *)
Definition clustered (a b : bool) (beta : R) : option (R -> res R) := if a || b then Some (RobertsFunction a b beta) else None.

Section Roberts.
  Variable beta : R.
  Hypothesis Hb : 1 < beta.
  Lemma clustered_places a b : exists g, places (clustered a b beta) g /\ keeps_ends g /\ rising g /\
    (forall x, 0 <= x <= 1 -> clustered_roberts x a b beta = Ok (g x)).
  Proof using Hb.
    unfold clustered. destruct (a || b) eqn:E.
    - destruct (C19_bijection a b beta Hb E) as (f & F & F0 & F1 & M & I & _). exists f.
      split; [intros t _; apply F|]. split; [split; [exact F0|split; [exact F1|exact I]]|]. split; [intros s t _ Hst _; apply M, Hst|intros x _; apply F].
    - exists (fun t => t). split; [intros t _; reflexivity|]. split; [split; [reflexivity|split; [reflexivity|auto]]|]. split; [intros s t _ H _; exact H|].
      intros x _. apply C19_identity. left. destruct a, b; try discriminate. auto.
  Qed.
  Lemma ok_same (x y : R) (r : res R) : r = Ok x -> r = Ok y -> x = y.
  Proof using. intros -> H. injection H. auto. Qed.
  Lemma mirror_node n k : (k <= S n)%nat -> node n (S n - k) = 1 - node n k.
  Proof using. intros H. unfold node. rewrite minus_INR by exact H. field. apply not_0_INR. discriminate. Qed.
  Lemma node_S n k : node n (S k) = node n k + / INR (S n).
  Proof using. unfold node. rewrite (S_INR k). field. apply not_0_INR. discriminate. Qed.

  Variable g : R -> R.
  Hypothesis G : forall x, 0 <= x <= 1 -> clustered_roberts x false true beta = Ok (g x).
  Lemma gaps_shrink n k : (S k <= n)%nat -> g (node n (S (S k))) - g (node n (S k)) < g (node n (S k)) - g (node n k).
  Proof using Hb G.
    intros H. assert (P : 0 < / INR (S n)) by (apply Rinv_0_lt_compat, lt_0_INR; lia).
    pose proof (node_01 n k ltac:(lia)). pose proof (node_01 n (S (S k)) ltac:(lia)). pose proof (node_S n k). pose proof (node_S n (S k)).
    destruct (C19_clusters beta (node n (S k)) (/ INR (S n)) Hb P) as (a & b & c & A & B & C & I); [lra|lra|].
    replace (node n (S k) - / INR (S n)) with (node n k) in A by lra. replace (node n (S k) + / INR (S n)) with (node n (S (S k))) in C by lra.
    rewrite G in A, B, C by lra. injection A as <-. injection B as <-. injection C as <-. lra.
  Qed.
  Lemma gap_first n k : (k <= n)%nat -> g (node n (S k)) - g (node n k) <= g (node n 1) - g (node n 0).
  Proof using Hb G. induction k as [|k IH]; intros H; [lra|]. pose proof (gaps_shrink n k ltac:(lia)). pose proof (IH ltac:(lia)). lra. Qed.
  Lemma one_ended_odd n : (1 <= n)%nat -> ~ even_handed n g.
  Proof using Hb G.
    intros H E. destruct n as [|n]; [lia|]. pose proof (gap_first (S n) n ltac:(lia)) as G1. pose proof (gaps_shrink (S n) n ltac:(lia)) as G2.
    pose proof (E 0%nat ltac:(lia)) as E0. pose proof (E 1%nat ltac:(lia)) as E1. replace (S (S n) - 0)%nat with (S (S n)) in E0 by lia. replace (S (S n) - 1)%nat with (S n) in E1 by lia. lra.
  Qed.
  Lemma slope n k : (k <= n)%nat -> INR k * (g (node n (S k)) - g (node n k)) <= g (node n k) - g 0 /\
    ((1 <= k)%nat -> INR k * (g (node n (S k)) - g (node n k)) < g (node n k) - g 0).
  Proof using Hb G.
    induction k as [|k IH]; intros H.
    - rewrite node_0. cbn [INR]. split; [lra|lia].
    - destruct (IH ltac:(lia)) as (I & _). pose proof (gaps_shrink n k ltac:(lia)). rewrite S_INR. pose proof (pos_INR k). split; [|intros _]; nra.
  Qed.
  Lemma above n k : (1 <= k <= n)%nat -> g 0 = 0 -> g 1 = 1 -> node n k < g (node n k).
  Proof using Hb G.
    intros (K1 & K2) G0 G1.
    assert (D : forall d, (1 <= d)%nat -> (k + d <= S n)%nat -> INR k * g (node n (k + d)) < INR (k + d) * g (node n k)).
    { intros d. induction d as [|d IH]; intros D1 D2; [lia|]. destruct (slope n (k + d) ltac:(lia)) as (_ & S). specialize (S ltac:(lia)). rewrite G0 in S.
      replace (k + Datatypes.S d)%nat with (Datatypes.S (k + d)) by lia. rewrite S_INR.
      assert (P : 0 < INR (k + d)) by (apply lt_0_INR; lia). assert (P' : 0 < INR k) by (apply lt_0_INR; lia).
      destruct d as [|d].
      - rewrite Nat.add_0_r in *. nra.
      - specialize (IH ltac:(lia) ltac:(lia)). nra. }
    specialize (D (S n - k)%nat ltac:(lia) ltac:(lia)). replace (k + (S n - k))%nat with (S n) in D by lia. rewrite node_1, G1 in D.
    assert (P : 0 < INR (S n)) by (apply lt_0_INR; lia). unfold node at 1. apply (Rmult_lt_reg_r (INR (S n))); [exact P|].
    replace (INR k / INR (S n) * INR (S n)) with (INR k) by (field; lra). lra.
  Qed.
End Roberts.

Section Flags.
  Variable beta : R.
  Hypothesis Hb : 1 < beta.
  Definition given a b (g : R -> R) : Prop := forall x, 0 <= x <= 1 -> clustered_roberts x a b beta = Ok (g x).

  Lemma given_even a g n : given a a g -> even_handed n g.
  Proof using Hb.
    intros H k Hk. pose proof (node_01 n k Hk). rewrite mirror_node by exact Hk. destruct a.
    - destruct (C19_mirror beta (node n k) Hb) as (y & z & w & _ & _ & Z & Z' & _). rewrite H in Z, Z' by lra. injection Z as <-. injection Z' as ->. reflexivity.
    - pose proof (H (node n k) ltac:(lra)) as E. pose proof (H (1 - node n k) ltac:(lra)) as E'. rewrite C19_identity in E, E' by auto. injection E as <-. injection E' as <-. reflexivity.
  Qed.
  Lemma given_odd a b g n : given a b g -> a <> b -> (1 <= n)%nat -> ~ even_handed n g.
  Proof using Hb.
    intros H D Hn. destruct a, b; try congruence.
    - intros E. apply (one_ended_odd beta Hb (fun x => 1 - g (1 - x))) with (n := n); [|exact Hn|].
      + intros x Hx. destruct (C19_mirror beta (1 - x) Hb) as (y & z & w & Y & Y' & _). rewrite H in Y by lra. injection Y as <-. replace (1 - (1 - x)) with x in Y' by ring. exact Y'.
      + intros k Hk. cbv beta. rewrite <- !mirror_node by lia. replace (S n - (S n - k))%nat with k by lia. rewrite (E k Hk). ring.
    - apply (one_ended_odd beta Hb g H n Hn).
  Qed.
  Lemma given_two g n : given true true g -> (2 <= n)%nat -> g (node n n) <> node n n.
  Proof using Hb.
    intros H Hn E. destruct (C19_bijection false true beta Hb eq_refl) as (f & F & F0 & F1 & _).
    destruct (C19_mirror beta (node n n) Hb) as (y & z & w & _ & _ & Z & _ & W & Q). pose proof (node_01 n n ltac:(lia)). rewrite H in Z by lra. injection Z as <-.
    replace (2 * node n n - 1) with (node n (n - 1)) in W.
    - rewrite F in W. injection W as <-. pose proof (above beta Hb f (fun x _ => F x) n (n - 1) ltac:(lia) F0 F1).
      assert (node n (n - 1) = 2 * node n n - 1); [|lra]. unfold node. rewrite minus_INR by lia. rewrite (S_INR n). change (INR 1) with 1. pose proof (pos_INR n). field. lra.
    - unfold node. rewrite minus_INR by lia. rewrite (S_INR n). change (INR 1) with 1. pose proof (pos_INR n). field. lra.
  Qed.
  Lemma given_none g x : given false false g -> 0 <= x <= 1 -> g x = x.
  Proof using. intros H Hx. pose proof (H x Hx) as E. rewrite C19_identity in E by auto. injection E. auto. Qed.
  Lemma half_node : node 1 1 = 1 / 2.
  Proof using. unfold node. cbn [INR]. lra. Qed.
End Flags.

(** C108: which of RobertsFunction's flags keep a box closed *)
Theorem C108_roberts n a b c d beta : 1 < beta ->
  exists l mesh, swept_patches box 4 true (ResInt (S n)) = Ok l /\
    fresh_mesh (sized_patches l) (ResInt (S n)) (sized_res_r l) (sized_res_s l) (mkClustering (clustered a b beta) (clustered c d beta)) = Ok mesh /\
    (watertight mesh <-> n = 0%nat \/ (a = b /\ c = d /\ (n = 1%nat \/ a = c))).
Proof.
  intros Hb. destruct (clustered_places beta Hb a b) as (gi & Pi & Ki & Ri & Gi). destruct (clustered_places beta Hb c d) as (gj & Pj & Kj & Rj & Gj).
  destruct (C108_box_iff n _ _ gi gj Pi Pj Ki Kj Ri Rj) as (l & mesh & E1 & E2 & W). exists l, mesh. split; [exact E1|]. split; [exact E2|]. rewrite W. clear W E1 E2. split.
  - intros (A & EV). destruct n as [|n]; [left; reflexivity|]. right.
    assert (Ed : c = d). { destruct (bool_dec c d) as [|N]; [assumption|]. destruct (given_odd beta Hb c d gj (S n) Gj N ltac:(lia) EV). }
    assert (EI : even_handed (S n) gi). { intros k Hk. rewrite (A (S (S n) - k)%nat ltac:(lia)), (A k Hk). apply EV, Hk. }
    assert (Eb : a = b). { destruct (bool_dec a b) as [|N]; [assumption|]. destruct (given_odd beta Hb a b gi (S n) Gi N ltac:(lia) EI). }
    split; [exact Eb|]. split; [exact Ed|]. subst b d. destruct n as [|n]; [left; reflexivity|]. right.
    pose proof (A (S (S n)) ltac:(lia)) as AN. pose proof (node_01 (S (S n)) (S (S n)) ltac:(lia)) as N1. destruct a, c; try reflexivity; exfalso.
    + apply (given_two beta Hb gi (S (S n)) Gi ltac:(lia)). rewrite AN. apply (given_none beta gj _ Gj N1).
    + apply (given_two beta Hb gj (S (S n)) Gj ltac:(lia)). rewrite <- AN. apply (given_none beta gi _ Gi N1).
  - destruct Ki as (I0 & I1 & _). destruct Kj as (J0 & J1 & _). intros [->|(<- & <- & H)].
    + split; intros k Hk; destruct k as [|[|k]]; try lia.
      * rewrite node_0. congruence.
      * rewrite node_1. congruence.
      * cbn [Nat.sub]. rewrite node_0, node_1, J0, J1. ring.
      * cbn [Nat.sub]. rewrite node_0, node_1, J0, J1. ring.
    + split; [|exact (given_even beta Hb c gj n Gj)]. destruct H as [->|<-].
      * intros k Hk. destruct k as [|[|[|k]]]; try lia.
        -- rewrite node_0. congruence.
        -- pose proof (given_even beta Hb a gi 1%nat Gi 1%nat ltac:(lia)) as Q1. pose proof (given_even beta Hb c gj 1%nat Gj 1%nat ltac:(lia)) as Q2. cbn [Nat.sub] in Q1, Q2. lra.
        -- rewrite node_1. congruence.
      * intros k Hk. pose proof (node_01 n k Hk) as N. pose proof (Gi _ N) as X1. pose proof (Gj _ N) as X2. rewrite X1 in X2. injection X2. auto.
Qed.

(** a spindle clustered at one end, and the box with Waverider's clustering of one direction: resolution 3 opens it *)
Example C108_meets :
  (exists m, fresh_mesh (revolved_patches spindle) (ResInt 3) [] [] (mkClustering (clustered true false (3 / 2)) None) = Ok m /\ watertight m) /\
  exists l mesh, swept_patches box 4 true (ResInt 3) = Ok l /\
    fresh_mesh (sized_patches l) (ResInt 3) (sized_res_r l) (sized_res_s l) (mkClustering (Some (RobertsFunction true true (41 / 40))) None) = Ok mesh /\ ~ watertight mesh.
Proof.
  split.
  - destruct (clustered_places (3 / 2) ltac:(lra) true false) as (g & P & K & _). destruct C44_meets as (E & A & B & C & D & _).
    apply (C108_revolved spindle spindle_at 2 _ None g (fun t => t) E P); try assumption.
    + intros t _. reflexivity.
    + split; [reflexivity|]. split; [reflexivity|auto].
  - destruct (C108_roberts 2 true true false false (41 / 40) ltac:(lra)) as (l & mesh & E1 & E2 & W). exists l, mesh. split; [exact E1|]. split; [exact E2|].
    rewrite W. intros [H|(_ & _ & [H|H])]; discriminate.
Qed.
Print Assumptions C108_revolved.
Print Assumptions C108_swept.
Print Assumptions C108_box_iff.
Print Assumptions C108_roberts.
