(** Binary64 lemmas for P_Float.v: lines, sampling parameters, the mesh of a box. *)
From Coq Require Import Reals Lra ZArith String List Permutation Lia Bool.
From Flocq Require Import Core BinarySingleNaN.
From Verif Require Import Num NumF Py M_Vector M_Path M_Surface M_Geometry M_Mesh M_Component SpecMesh SpecFloats L_Float.
Import ListNotations.
Local Open Scope R_scope.

Lemma eqb_real (x y : b64) : is_finite x = true -> is_finite y = true -> (Beqb x y = true <-> B2R x = B2R y).
Proof.
  intros Hx Hy. rewrite (Beqb_correct _ _ x y Hx Hy). case Req_bool_spec; intros H; split; intros E; try congruence; try discriminate.
Qed.
Lemma eqb_finite (x y : b64) : Beqb x y = true -> is_finite y = true -> is_finite x = true.
Proof. destruct x as [|[|]| |[|] ? ? ?], y as [|[|]| |[|] ? ? ?]; cbn; intros; congruence || reflexivity. Qed.

Lemma line_ends_float L (p0 p1 : vec b64) :
  exists a b, p_call (Line (N := NumF L) p0 p1) (of_Z 0) = Ok a /\
    p_call (Line (N := NumF L) p0 p1) (of_Z 1) = Ok b /\
    forall f, In f [vx; vy; vz] ->
      (Beqb (f a) (f p0) = true <-> is_nan (f p0) = false /\ is_finite (f p1) = true) /\
      (Beqb (f b) (f p1) = true <-> is_nan (f p1) = false /\ is_finite (f p0) = true).
Proof.
  eexists. eexists. split; [reflexivity|]. split; [reflexivity|].
  assert (K : forall x y, (Beqb (fadd (fmul x (fsub (of_Z 1) (of_Z 0))) (fmul y (of_Z 0))) x = true
      <-> is_nan x = false /\ is_finite y = true) /\
     (Beqb (fadd (fmul x (fsub (of_Z 1) (of_Z 1))) (fmul y (of_Z 1))) y = true
      <-> is_nan y = false /\ is_finite x = true)).
  { intros x y. rewrite lerp_at_0, lerp_at_1, !andb_true_iff, !negb_true_iff. tauto. }
  intros f [<-|[<-|[<-|[]]]]; apply K.
Qed.
Lemma line_ends_real L (p0 p1 : vec b64) : finite_vec p0 -> finite_vec p1 ->
  exists a b, p_call (Line (N := NumF L) p0 p1) (of_Z 0) = Ok a /\
    p_call (Line (N := NumF L) p0 p1) (of_Z 1) = Ok b /\
    finite_vec a /\ finite_vec b /\ real_vec a = real_vec p0 /\ real_vec b = real_vec p1.
Proof.
  intros (X0 & Y0 & Z0) (X1 & Y1 & Z1). destruct (line_ends_float L p0 p1) as (a & b & Ea & Eb & H).
  exists a, b. split; [exact Ea|]. split; [exact Eb|].
  assert (K : forall f, In f [vx; vy; vz] -> is_finite (f p0) = true -> is_finite (f p1) = true ->
    is_finite (f a) = true /\ is_finite (f b) = true /\ B2R (f a) = B2R (f p0) /\ B2R (f b) = B2R (f p1)).
  { intros f Hf F0 F1. destruct (H f Hf) as (A & B). pose proof (nan_finite _ F0) as G0. pose proof (nan_finite _ F1) as G1.
    pose proof (proj2 A (conj G0 F1)) as A'. pose proof (proj2 B (conj G1 F0)) as B'.
    pose proof (eqb_finite _ _ A' F0) as Fa. pose proof (eqb_finite _ _ B' F1) as Fb.
    repeat split; try assumption; apply eqb_real; assumption. }
  destruct (K vx ltac:(cbn; tauto) X0 X1) as (? & ? & ? & ?). destruct (K vy ltac:(cbn; tauto) Y0 Y1) as (? & ? & ? & ?).
  destruct (K vz ltac:(cbn; tauto) Z0 Z1) as (? & ? & ? & ?).
  unfold finite_vec, real_vec. repeat split; try assumption; f_equal; assumption.
Qed.

(** sampling parameters *)
Lemma pos_plus_zero (x : b64) : is_finite x = true -> Bsign x = false -> fadd (of_Z 0) x = x.
Proof.
  intros F S. rewrite zero_is. destruct x as [s| | |s m e H]; try discriminate; cbn in S; subst; reflexivity.
Qed.
Definition nodes (n : nat) : list b64 := map (fun i => node (Z.of_nat n) (Z.of_nat i)) (seq 0 (S n)).
Lemma vertex_func L n : exact_pow_one L -> (0 < n)%nat -> (Z.of_nat n <= 2 ^ 51)%Z ->
  default_vertex_func (N := NumF L) (of_Z 0) (of_Z 1) (S n) (of_Z 1) = Ok (nodes n).
Proof.
  intros E Hn Hm. unfold default_vertex_func. destruct n as [|n]; [lia|]. cbn [Nat.eqb].
  f_equal. unfold nodes. apply map_ext_in. intros i Hi. apply in_seq in Hi.
  cbn [nadd nsub nmul ndiv npow nZ NumF n1 nnat]. unfold n1, nnat. cbn [nZ NumF]. rewrite E.
  replace (Z.of_nat (S (S n)) - 1)%Z with (Z.of_nat (S n)) by lia.
  fold (step (Z.of_nat (S n))). fold (node (Z.of_nat (S n)) (Z.of_nat i)).
  assert (R : (0 <= Z.of_nat i <= Z.of_nat (S n))%Z) by lia.
  destruct (node_value (Z.of_nat (S n)) ltac:(lia) Hm _ R) as (_ & F & S).
  rewrite sub_one_zero, mul_one by (apply nan_finite; exact F). apply pos_plus_zero; assumption.
Qed.
Lemma nodes_nth n i : (i <= n)%nat -> nth i (nodes n) B754_nan = node (Z.of_nat n) (Z.of_nat i).
Proof.
  intros H. unfold nodes. rewrite nth_indep with (d' := node (Z.of_nat n) (Z.of_nat 0)) by (rewrite map_length, seq_length; lia).
  rewrite (map_nth (fun i => node (Z.of_nat n) (Z.of_nat i)) (seq 0 (S n)) 0%nat i). rewrite seq_nth by lia. reflexivity.
Qed.
Lemma nodes_length n : length (nodes n) = S n.
Proof. unfold nodes. rewrite map_length, seq_length. reflexivity. Qed.
Lemma pow53 : (2 ^ 53 = 9007199254740992)%R.
Proof. cbn. lra. Qed.

Lemma grid_float L n : exact_pow_one L -> (0 < n)%nat -> (Z.of_nat n <= 2 ^ 51)%Z ->
  exists g, default_vertex_func (N := NumF L) (of_Z 0) (of_Z 1) (S n) (of_Z 1) = Ok g /\ length g = S n /\
    (forall i, (i <= n)%nat -> is_finite (nth i g B754_nan) = true /\
       0 <= B2R (nth i g B754_nan) <= 1 /\
       Rabs (B2R (nth i g B754_nan) - INR i / INR n) <= 3 / 2 ^ 53) /\
    B2R (nth 0 g B754_nan) = 0 /\
    (B2R (nth n g B754_nan) = 1 \/ B2R (nth n g B754_nan) = 1 - 1 / 2 ^ 53) /\
    (forall i j, (i < j <= n)%nat -> B2R (nth i g B754_nan) < B2R (nth j g B754_nan)).
Proof.
  intros E Hn Hm. exists (nodes n). split; [apply vertex_func; assumption|]. split; [apply nodes_length|].
  assert (Hz : (1 <= Z.of_nat n)%Z) by lia.
  rewrite pow53. pose proof ui_val as U.
  split; [|split; [|split]].
  - intros i Hi. rewrite nodes_nth by lia. assert (R : (0 <= Z.of_nat i <= Z.of_nat n)%Z) by lia.
    destruct (node_value _ Hz Hm _ R) as (V & F & S). split; [exact F|]. split.
    + rewrite V. apply node_range; assumption.
    + pose proof (node_error _ Hz Hm _ R) as B. rewrite <- !INR_IZR_INZ in B. rewrite U in B. lra.
  - rewrite nodes_nth by lia. destruct (node_value _ Hz Hm 0%Z ltac:(lia)) as (V & _). cbn [Z.of_nat]. rewrite V.
    rewrite Rmult_0_l. apply rnd_0.
  - rewrite nodes_nth by lia. pose proof (node_last _ Hz Hm) as [H|H]; [left; exact H|right]. rewrite H, U. lra.
  - intros i j H. rewrite !nodes_nth by lia.
    assert (G : forall d i, (i + S d <= n)%nat ->
      B2R (node (Z.of_nat n) (Z.of_nat i)) < B2R (node (Z.of_nat n) (Z.of_nat (i + S d)))).
    { induction d as [|d IH]; intros a Ha.
      - replace (Z.of_nat (a + 1)) with (Z.of_nat a + 1)%Z by lia. apply node_increasing; lia.
      - eapply Rlt_trans; [apply IH; lia|].
        replace (Z.of_nat (a + S (S d))) with (Z.of_nat (a + S d) + 1)%Z by lia. apply node_increasing; lia. }
    specialize (G (j - i - 1)%nat i ltac:(lia)). replace (i + S (j - i - 1))%nat with j in G by lia. exact G.
Qed.
Lemma grid_float_exact L k : exact_pow_one L -> (k <= 51)%nat ->
  exists g, default_vertex_func (N := NumF L) (of_Z 0) (of_Z 1) (S (2 ^ k)) (of_Z 1) = Ok g /\
    forall i, (i <= 2 ^ k)%nat -> B2R (nth i g B754_nan) = INR i / INR (2 ^ k).
Proof.
  intros E Hk.
  assert (P : (Z.of_nat (2 ^ k) = 2 ^ Z.of_nat k)%Z) by (rewrite Nat2Z.inj_pow; reflexivity).
  assert (B : (1 <= Z.of_nat (2 ^ k) <= 2 ^ 51)%Z).
  { rewrite P. split.
    - change 1%Z with (2 ^ 0)%Z. apply Z.pow_le_mono_r; lia.
    - apply Z.pow_le_mono_r; lia. }
  exists (nodes (2 ^ k)). split; [apply vertex_func; [assumption|lia|lia]|].
  intros i Hi. rewrite nodes_nth by lia. rewrite (node_power _ (proj1 B) (proj2 B) (Z.of_nat k)); [|exact P|lia|lia].
  rewrite <- !INR_IZR_INZ. reflexivity.
Qed.
Lemma grid_float_short L : exact_pow_one L ->
  exists g, default_vertex_func (N := NumF L) (of_Z 0) (of_Z 1) 50 (of_Z 1) = Ok g /\
    B2R (nth 49 g B754_nan) = 1 - 1 / 2 ^ 53 /\ Beqb (nth 49 g B754_nan) (of_Z 1) = false.
Proof.
  intros E. exists (nodes 49). split; [apply vertex_func; [assumption|lia|lia]|].
  assert (F : Beqb (nth 49 (nodes 49) B754_nan) (of_Z 1) = false) by (vm_compute; reflexivity).
  split; [|exact F]. rewrite nodes_nth in F |- * by lia.
  rewrite pow53. pose proof ui_val as U.
  destruct (node_last (Z.of_nat 49) ltac:(lia) ltac:(lia)) as [H|H]; [|rewrite H, U; lra].
  exfalso. destruct (node_value (Z.of_nat 49) ltac:(lia) ltac:(lia) (Z.of_nat 49) ltac:(lia)) as (_ & G & _).
  destruct one_value as (O & OF). rewrite <- O in H. apply eqb_real in H; [|exact G|exact OF]. exact (eq_true_false_abs _ H F).
Qed.

(** the mesh of a box *)
Lemma surface_float L u n : exact_pow_one L -> (0 < n)%nat -> (Z.of_nat n <= 2 ^ 51)%Z ->
  mesh_patch (N := NumF L) no_clustering u n n = mesh_cells (N := NumF L) u false (nodes n) (nodes n) n n.
Proof.
  intros E Hn Hm. unfold mesh_patch, surfce_to_stl, vertex_list. cbn [cl_i cl_j no_clustering].
  rewrite Nat.add_1_r. unfold n0, n1. cbn [nZ NumF]. rewrite (vertex_func L n E Hn Hm). reflexivity.
Qed.
Lemma mapM_ext_all {A B} (f g : A -> res B) l : (forall x, f x = g x) -> mapM f l = mapM g l.
Proof. intros H. induction l as [|a l IH]; [reflexivity|]. cbn. rewrite H, IH. reflexivity. Qed.
Lemma mapM_map {A B C} (f : B -> res C) (g : A -> B) l : mapM f (map g l) = mapM (fun x => f (g x)) l.
Proof. induction l as [|a l IH]; [reflexivity|]. cbn. rewrite IH. reflexivity. Qed.
Definition fmesh (L : libm) (d : dict (surf b64)) (n : nat) : res (list (tri b64)) :=
  let! r := mapM (fun kp => let! m := mesh_cells (N := NumF L) (snd kp) false (nodes n) (nodes n) n n in Ok (fst kp, m)) d in
  Ok (concat (dvals (dupdate [] r))).
Lemma fresh_float L d n rr rs : exact_pow_one L -> (0 < n)%nat -> (Z.of_nat n <= 2 ^ 51)%Z -> d <> [] ->
  fresh_mesh (N := NumF L) d (ResInt n) rr rs no_clustering = fmesh L d n.
Proof.
  intros E Hn Hm Hd. unfold fresh_mesh, component_surface. destruct d as [|x d]; [congruence|]. clear Hd.
  cbn [case_list bind]. rewrite mapM_map. cbv beta iota. unfold fmesh.
  rewrite (mapM_ext_all _ (fun kp => let! m := mesh_cells (N := NumF L) (snd kp) false (nodes n) (nodes n) n n in Ok (fst kp, m))).
  - destruct (mapM _ (x :: d)); reflexivity.
  - intros kp. rewrite surface_float by assumption. reflexivity.
Qed.

Definition feqb3 (a b : vec b64) : bool := Beqb (vx a) (vx b) && Beqb (vy a) (vy b) && Beqb (vz a) (vz b).
Definition fin3 (a : vec b64) : bool := is_finite (vx a) && is_finite (vy a) && is_finite (vz a).
Definition fintri (t : tri b64) : bool := fin3 (t0 t) && fin3 (t1 t) && fin3 (t2 t).
Lemma fin3_ok a : fin3 a = true -> finite_vec a.
Proof. unfold fin3. rewrite !andb_true_iff. intros ((A & B) & C). repeat split; assumption. Qed.
Lemma fintri_ok t : fintri t = true -> finite_tri t.
Proof. unfold fintri. rewrite !andb_true_iff. intros ((A & B) & C). repeat split; apply fin3_ok; assumption. Qed.
Lemma feqb3_ok a b : finite_vec a -> finite_vec b -> real_vec a = real_vec b -> feqb3 a b = true.
Proof.
  intros (X & Y & Z) (X' & Y' & Z') H. injection H as Hx Hy Hz. unfold feqb3.
  rewrite !andb_true_iff. repeat split; apply eqb_real; assumption.
Qed.
(* position of a directed edge of the mesh whose reverse is missing *)
Definition lonely (m : list (tri b64)) (k : nat) : bool :=
  match nth_error (mesh_edges m) k with
  | Some e => forallb (fun f => negb (feqb3 (fst f) (snd e) && feqb3 (snd f) (fst e))) (mesh_edges m)
  | None => false
  end.
Lemma edges_finite m e : Forall finite_tri m -> In e (mesh_edges m) -> finite_vec (fst e) /\ finite_vec (snd e).
Proof.
  intros F H. unfold mesh_edges in H. apply in_flat_map in H. destruct H as (t & Ht & He).
  rewrite Forall_forall in F. destruct (F t Ht) as (A & B & C).
  cbn in He. destruct He as [<-|[<-|[<-|[]]]]; cbn; split; assumption.
Qed.
Lemma edges_map (m : list (tri b64)) :
  mesh_edges (map_mesh real_vec m) = map (fun e => (real_vec (fst e), real_vec (snd e))) (mesh_edges m).
Proof.
  unfold mesh_edges, map_mesh. induction m as [|t m IH]; [reflexivity|].
  cbn [map flat_map]. rewrite IH, map_app. reflexivity.
Qed.
Lemma lonely_ok m k : Forall finite_tri m -> lonely m k = true -> ~ watertight (map_mesh real_vec m).
Proof.
  intros F H W. unfold lonely in H. destruct (nth_error (mesh_edges m) k) as [e|] eqn:E; [|discriminate].
  apply nth_error_In in E. rewrite forallb_forall in H.
  unfold watertight, balanced in W. rewrite edges_map in W.
  pose proof (in_map (fun e => (real_vec (fst e), real_vec (snd e))) _ _ E) as I.
  apply (Permutation_in _ W) in I. unfold flips in I. apply in_map_iff in I. destruct I as (f' & Ef & If).
  apply in_map_iff in If. destruct If as (f & <- & If).
  unfold flip in Ef. cbn in Ef. injection Ef as E1 E2 E3 E4 E5 E6.
  destruct (edges_finite m e F E) as (A & B). destruct (edges_finite m f F If) as (C & D).
  specialize (H f If). apply negb_true_iff in H.
  rewrite (feqb3_ok (fst f) (snd e) C B) in H; [|unfold real_vec; congruence].
  rewrite (feqb3_ok (snd f) (fst e) D A) in H; [|unfold real_vec; congruence]. discriminate.
Qed.
Lemma forallb_fin m : forallb fintri m = true -> Forall finite_tri m.
Proof. intros H. apply Forall_forall. intros t Ht. apply fintri_ok. rewrite forallb_forall in H. apply H, Ht. Qed.

Definition bad_mesh (L : libm) (r : res (list sized)) (n c k : nat) : bool :=
  match r with
  | Ok l => match fmesh L (sized_patches l) n with
            | Ok m => Nat.eqb (length m) c && forallb fintri m && lonely m k && negb (Nat.eqb (length l) 0)
            | _ => false end
  | _ => false end.
Lemma from_bad L r n c k : exact_pow_one L -> (0 < n)%nat -> (Z.of_nat n <= 2 ^ 51)%Z -> bad_mesh L r n c k = true ->
  exists l m, r = Ok l /\
    fresh_mesh (N := NumF L) (sized_patches l) (ResInt n) (sized_res_r l) (sized_res_s l) no_clustering = Ok m /\
    length m = c /\ Forall finite_tri m /\ ~ watertight (map_mesh real_vec m).
Proof.
  intros E Hn Hm B. unfold bad_mesh in B. destruct r as [l|]; [|discriminate].
  destruct (fmesh L (sized_patches l) n) as [m|] eqn:Em; [|discriminate].
  rewrite !andb_true_iff in B. destruct B as (((B1 & B2) & B3) & B4).
  apply Nat.eqb_eq in B1. apply forallb_fin in B2.
  exists l, m. split; [reflexivity|]. split.
  - rewrite fresh_float; [exact Em|exact E|assumption|assumption|]. intros H. destruct l; [discriminate|]. destruct s as (((? & ?) & ?) & ?). discriminate.
  - split; [exact B1|]. split; [exact B2|]. apply (lonely_ok m k B2 B3).
Qed.
Lemma float_box_bad L : bad_mesh L (swept_patches (N := NumF L) (float_box L) 4 true (ResInt 3)) 3 216 498 = true.
Proof. vm_compute. reflexivity. Qed.
Lemma float_box_mesh L : exact_pow_one L ->
  exists l m, swept_patches (N := NumF L) (float_box L) 4 true (ResInt 3) = Ok l /\
    fresh_mesh (N := NumF L) (sized_patches l) (ResInt 3) (sized_res_r l) (sized_res_s l) no_clustering = Ok m /\
    length m = 216%nat /\ Forall finite_tri m /\ ~ watertight (map_mesh real_vec m).
Proof. intros E. apply (from_bad L _ 3 216 498 E); [lia|lia|apply float_box_bad]. Qed.
Lemma corner_finite k e : (k < 2)%nat -> finite_vec (box64_corner k e).
Proof. intros H. destruct k as [|[|k]]; [| |lia]; do 4 (destruct e as [|e]; [repeat split; reflexivity|]); repeat split; reflexivity. Qed.
Lemma float_box_closed L k e : (k < 2)%nat -> (e < 4)%nat ->
  exists a b, p_call (nth e (nth k (float_box L) []) (Line (N := NumF L) origin64 origin64)) (of_Z 1) = Ok a /\
    p_call (nth (Nat.modulo (S e) 4) (nth k (float_box L) []) (Line (N := NumF L) origin64 origin64)) (of_Z 0) = Ok b /\
    real_vec a = real_vec b.
Proof.
  intros Hk He.
  assert (S1 : forall e, (e < 4)%nat -> nth e (nth k (float_box L) []) (Line (N := NumF L) origin64 origin64)
     = Line (N := NumF L) (box64_corner k e) (box64_corner k (Nat.modulo (S e) 4))).
  { intros e' He'. destruct k as [|[|k]]; [| |lia]; do 4 (destruct e' as [|e']; [reflexivity|]); lia. }
  rewrite (S1 e He), (S1 (Nat.modulo (S e) 4)) by (apply Nat.mod_upper_bound; discriminate).
  destruct (line_ends_real L (box64_corner k e) (box64_corner k (Nat.modulo (S e) 4)) (corner_finite _ _ Hk) (corner_finite _ _ Hk))
    as (_ & b & _ & Eb & _ & _ & _ & Vb).
  set (e' := Nat.modulo (S e) 4) in *.
  destruct (line_ends_real L (box64_corner k e') (box64_corner k (Nat.modulo (S e') 4)) (corner_finite _ _ Hk) (corner_finite _ _ Hk))
    as (a & _ & Ea & _ & _ & _ & Va & _).
  exists b, a. split; [exact Eb|]. split; [exact Ea|]. congruence.
Qed.
