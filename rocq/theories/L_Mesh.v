(** surfce_to_stl and default_vertex_func. *)
From Coq Require Import Reals Lra ZArith String List Permutation Lia.
From Verif Require Import Num NumR Py M_Vector SpecR3 M_Path M_Surface M_Geometry M_Mesh
  SpecPath SpecPoly SpecSurf SpecMesh L_Vector L_Line L_Roberts L_Swept L_Edges.
Import ListNotations.

(** ** indexing a grid mesh *)
Section GridIndex.
  Context {T : Type} (Q C : nat -> nat -> vec T).
  Lemma flat_map_length_const {A B} (f : A -> list B) l n : (forall a, In a l -> length (f a) = n) ->
    length (flat_map f l) = n * length l.
  Proof.
    induction l as [|a l IH]; intros H; cbn [flat_map length]; [lia|].
    rewrite app_length, H, IH by (auto with datatypes). lia.
  Qed.
  Lemma flat_map_seq_nth {B} (f : nat -> list B) n d : (forall a, length (f a) = n) ->
    forall m i k, i < m -> k < n -> nth (n * i + k) (flat_map f (seq 0 m)) d = nth k (f i) d.
  Proof.
    intros H m i k Hi Hk.
    rewrite <- (firstn_skipn i (seq 0 m)), flat_map_app.
    assert (L : length (flat_map f (firstn i (seq 0 m))) = n * i).
    { rewrite (flat_map_length_const f _ n) by auto. rewrite firstn_length, seq_length. lia. }
    rewrite app_nth2 by lia. rewrite L. replace (n * i + k - n * i) with k by lia.
    assert (S' : skipn i (seq 0 m) = i :: seq (S i) (m - S i)).
    { replace m with (i + (m - i)) at 1 by lia. rewrite seq_app.
      rewrite skipn_app, skipn_all2 by (rewrite seq_length; lia).
      rewrite seq_length, Nat.sub_diag. cbn [skipn app Nat.add].
      replace (m - i) with (S (m - S i)) by lia. reflexivity. }
    rewrite S'. cbn [flat_map]. rewrite app_nth1 by (rewrite H; lia). reflexivity.
  Qed.

  Lemma grid_mesh_length ni nj : length (grid_mesh Q C ni nj) = 4 * ni * nj.
  Proof.
    unfold grid_mesh. rewrite (flat_map_length_const _ _ (4 * nj)).
    - rewrite seq_length. lia.
    - intros i _. rewrite (flat_map_length_const _ _ 4).
      + rewrite seq_length. lia.
      + intros j _. reflexivity.
  Qed.
  Lemma grid_mesh_nth ni nj i j k d : i < ni -> j < nj -> k < 4 ->
    nth (4 * (i * nj + j) + k) (grid_mesh Q C ni nj) d = cell_tri Q C i j k.
  Proof.
    intros Hi Hj Hk. unfold grid_mesh.
    assert (L : forall i, length (flat_map (fun j => map (cell_tri Q C i j) (seq 0 4)) (seq 0 nj)) = 4 * nj).
    { intros i'. rewrite (flat_map_length_const _ _ 4); [rewrite seq_length; lia|reflexivity]. }
    replace (4 * (i * nj + j) + k) with ((4 * nj) * i + (4 * j + k)) by lia.
    rewrite (flat_map_seq_nth _ (4 * nj) d L) by lia.
    rewrite (flat_map_seq_nth (fun j => map (cell_tri Q C i j) (seq 0 4)) 4 d) by (auto; lia).
    do 4 (destruct k as [|k]; [reflexivity|]). lia.
  Qed.
End GridIndex.

Lemma mapM_inv {A B} (f : A -> res B) l r : mapM f l = Ok r -> Forall2 (fun a b => f a = Ok b) l r.
Proof.
  revert r. induction l as [|a l IH]; intros r H; cbn [mapM] in H.
  - injection H as <-. constructor.
  - destruct (f a) as [b|e] eqn:E; [|discriminate]. cbn [bind] in H.
    destruct (mapM f l) as [bs|e] eqn:E'; [|discriminate]. cbn [bind] in H. injection H as <-.
    constructor; auto.
Qed.
Lemma mapM_first_raise {A B} (f : A -> res B) e l1 a l2 :
  (forall x, In x l1 -> is_ok (f x)) -> f a = Raise e -> mapM f (l1 ++ a :: l2) = Raise e.
Proof.
  induction l1 as [|x l1 IH]; intros H Ha; cbn [app mapM].
  - rewrite Ha. reflexivity.
  - destruct (H x) as [b Eb]; [left; auto|]. rewrite Eb. cbn [bind]. rewrite IH by auto with datatypes.
    reflexivity.
Qed.
Lemma mapM_ext {A B} (f g : A -> res B) l : (forall a, In a l -> f a = g a) -> mapM f l = mapM g l.
Proof.
  induction l as [|a l IH]; intros H; cbn [mapM]; [reflexivity|].
  rewrite H by (left; auto). rewrite IH by auto with datatypes. reflexivity.
Qed.

Section AnyArithmetic.
  Context {T : Type} {N : Num T}.
  Variables (u : surf T) (mir : bool).
  Notation st := (store_vertex mir).
  Definition centres (P : nat -> nat -> vec T) (i j : nat) : vec T :=
    st (cell_centre (P i j) (P (S i) j) (P i (S j)) (P (S i) (S j))).

  Lemma cell_ok rs ss P i j r r' s s' :
    nth_error rs i = Some r -> nth_error rs (S i) = Some r' ->
    nth_error ss j = Some s -> nth_error ss (S j) = Some s' ->
    u r s = Ok (P i j) -> u r' s = Ok (P (S i) j) -> u r s' = Ok (P i (S j)) -> u r' s' = Ok (P (S i) (S j)) ->
    cell_triangles u mir rs ss i j
    = Ok (map (cell_tri (fun i j => st (P i j)) (centres P) i j) (seq 0 4)).
  Proof.
    intros A B A' B' E1 E2 E3 E4. unfold cell_triangles, py_nth. rewrite !Nat.add_1_r.
    rewrite A, A'. cbn [bind]. rewrite E1. cbn [bind]. rewrite B. cbn [bind]. rewrite E2. cbn [bind].
    rewrite B'. cbn [bind]. rewrite E3. cbn [bind]. rewrite E4. reflexivity.
  Qed.

  Lemma mesh_cells_grid rs ss ni nj P :
    (forall i j, i <= ni -> j <= nj -> exists r s, nth_error rs i = Some r /\ nth_error ss j = Some s /\
        u r s = Ok (P i j)) ->
    mesh_cells u mir rs ss ni nj = Ok (grid_mesh (fun i j => st (P i j)) (centres P) ni nj).
  Proof.
    intros H. unfold mesh_cells.
    rewrite (mapM_ok _ (fun i => flat_map (fun j =>
       map (cell_tri (fun i j => st (P i j)) (centres P) i j) (seq 0 4)) (seq 0 nj))).
    - cbn [bind]. f_equal. unfold grid_mesh. symmetry. apply flat_map_concat_map.
    - intros i Hi. apply in_seq in Hi.
      rewrite (mapM_ok _ (fun j => map (cell_tri (fun i j => st (P i j)) (centres P) i j) (seq 0 4))).
      + cbn [bind]. f_equal. symmetry. apply flat_map_concat_map.
      + intros j Hj. apply in_seq in Hj.
        destruct (H i j) as (r & s & A & B & E1); [lia..|].
        destruct (H (S i) j) as (r' & s1 & A' & B1 & E2); [lia..|].
        destruct (H i (S j)) as (r1 & s' & A1 & B' & E3); [lia..|].
        destruct (H (S i) (S j)) as (r2 & s2 & A2 & B2 & E4); [lia..|].
        assert (s1 = s) by congruence. assert (r1 = r) by congruence.
        assert (r2 = r') by congruence. assert (s2 = s') by congruence. subst.
        eapply cell_ok; eauto.
  Qed.

  (** success visits every grid point *)
  Lemma cell_inv rs ss i j l : cell_triangles u mir rs ss i j = Ok l ->
    forall a b, (a = i \/ a = S i) -> (b = j \/ b = S j) ->
    exists r s p, nth_error rs a = Some r /\ nth_error ss b = Some s /\ u r s = Ok p.
  Proof.
    unfold cell_triangles, py_nth. rewrite !Nat.add_1_r. intros H.
    destruct (nth_error rs i) as [r|] eqn:A; cbn [bind] in H; [|discriminate].
    destruct (nth_error ss j) as [s|] eqn:B; cbn [bind] in H; [|discriminate].
    destruct (u r s) as [p|] eqn:E1; cbn [bind] in H; [|discriminate].
    destruct (nth_error rs (S i)) as [r'|] eqn:A'; cbn [bind] in H; [|discriminate].
    destruct (u r' s) as [p2|] eqn:E2; cbn [bind] in H; [|discriminate].
    destruct (nth_error ss (S j)) as [s'|] eqn:B'; cbn [bind] in H; [|discriminate].
    destruct (u r s') as [p3|] eqn:E3; cbn [bind] in H; [|discriminate].
    destruct (u r' s') as [p4|] eqn:E4; cbn [bind] in H; [|discriminate].
    intros a b [-> | ->] [-> | ->]; do 3 eexists; eauto.
  Qed.

  Lemma mesh_cells_inv rs ss ni nj m : mesh_cells u mir rs ss (S ni) (S nj) = Ok m ->
    forall a b, a <= S ni -> b <= S nj ->
    exists r s p, nth_error rs a = Some r /\ nth_error ss b = Some s /\ u r s = Ok p.
  Proof.
    unfold mesh_cells. intros H a b Ha Hb.
    destruct (mapM _ (seq 0 (S ni))) as [rows|] eqn:E; [|discriminate]. clear H.
    apply mapM_inv in E.
    assert (I : In (min a ni) (seq 0 (S ni))) by (apply in_seq; lia).
    assert (I' : In (min b nj) (seq 0 (S nj))) by (apply in_seq; lia).
    assert (F : forall {A B} (R : A -> B -> Prop) l l' x, Forall2 R l l' -> In x l -> exists y, R x y).
    { intros A0 B0 R l l' x F. induction F as [|? y ? ? ? _ IH]; intros []; subst; eauto. }
    destruct (F _ _ _ _ _ _ E I) as [row Er].
    destruct (mapM _ (seq 0 (S nj))) as [cells|] eqn:E'; [|discriminate].
    apply mapM_inv in E'. destruct (F _ _ _ _ _ _ E' I') as [c Ec].
    eapply cell_inv; [exact Ec|lia|lia].
  Qed.

  (** the mesh is a grid mesh of stored surface points whenever it exists *)
  Lemma surfce_grid ni nj si sj ci cj m :
    surfce_to_stl u (S ni) (S nj) si sj mir ci cj = Ok m ->
    exists rs ss P,
      vertex_list ci (S ni + 1) (S ni + 1) si = Ok rs /\ vertex_list cj (S ni + 1) (S nj + 1) sj = Ok ss /\
      (forall i j, i <= S ni -> j <= S nj -> exists r s, nth_error rs i = Some r /\ nth_error ss j = Some s /\
          u r s = Ok (P i j)) /\
      m = grid_mesh (fun i j => st (P i j)) (centres P) (S ni) (S nj).
  Proof.
    unfold surfce_to_stl. intros H.
    destruct (vertex_list ci _ _ si) as [rs|] eqn:Er; cbn [bind] in H; [|discriminate].
    destruct (vertex_list cj _ _ sj) as [ss|] eqn:Es; cbn [bind] in H; [|discriminate].
    pose proof (mesh_cells_inv _ _ _ _ _ H) as I.
    set (P := fun i j => match nth_error rs i, nth_error ss j with
                         | Some r, Some s => match u r s with Ok p => p | _ => V3 n0 n0 n0 end
                         | _, _ => V3 n0 n0 n0 end).
    assert (G : forall i j, i <= S ni -> j <= S nj -> exists r s, nth_error rs i = Some r /\ nth_error ss j = Some s /\
          u r s = Ok (P i j)).
    { intros i j Hi Hj. destruct (I i j Hi Hj) as (r & s & p & A & B & E). exists r, s.
      split; [auto|]. split; [auto|]. unfold P. rewrite A, B, E. reflexivity. }
    exists rs, ss, P. repeat (split; [auto|]). rewrite (mesh_cells_grid _ _ _ _ P G) in H. congruence.
  Qed.

  Lemma surfce_zero_i nj si sj cj : surfce_to_stl u 0 nj si sj mir None cj = Raise ZeroDivisionError.
  Proof. reflexivity. Qed.
  Lemma surfce_zero_j ni si sj ci rs : vertex_list ci (ni + 1) (ni + 1) si = Ok rs ->
    surfce_to_stl u ni 0 si sj mir ci None = Raise ZeroDivisionError.
  Proof. intros H. unfold surfce_to_stl. rewrite H. reflexivity. Qed.
End AnyArithmetic.

(** ** real arithmetic *)
Local Open Scope R_scope.

Lemma Rpow_0 s : 0 < s -> Rpow 0 s = 0.
Proof. intros H. unfold Rpow. destruct (Req_EM_T 0 0); [|lra]. destruct (Req_EM_T s 0); lra. Qed.
Lemma Rpow_1l s : Rpow 1 s = 1.
Proof.
  unfold Rpow. destruct (Req_EM_T 1 0); [lra|]. unfold Rpower. rewrite ln_1, Rmult_0_r. apply exp_0.
Qed.
Lemma Rpow_1r x : 0 <= x -> Rpow x 1 = x.
Proof.
  intros H. unfold Rpow. destruct (Req_EM_T x 0) as [E|E].
  - destruct (Req_EM_T 1 0); lra.
  - apply Rpower_1. lra.
Qed.
Lemma Rpow_lt s x y : 0 < s -> 0 <= x -> x < y -> Rpow x s < Rpow y s.
Proof.
  intros Hs Hx Hy. unfold Rpow at 2. destruct (Req_EM_T y 0); [lra|].
  unfold Rpow. destruct (Req_EM_T x 0) as [E|E].
  - destruct (Req_EM_T s 0); [lra|]. apply exp_pos.
  - unfold Rpower. apply exp_increasing. apply Rmult_lt_compat_l; [auto|]. apply ln_increasing; lra.
Qed.

Definition vertex (n : nat) (sp : R) (k : nat) : R := Rpow (INR k / INR n) sp.

Lemma default_vertex_value lb ub n sp :
  default_vertex_func lb ub (S (S n)) sp
  = Ok (map (fun k => lb + vertex (S n) sp k * (ub - lb)) (seq 0 (S (S n)))).
Proof.
  unfold default_vertex_func. cbn [Nat.eqb]. f_equal. apply map_ext. intros k. numR.
  unfold vertex. rewrite <- INR_IZR_INZ.
  replace (IZR (Z.of_nat (S (S n)) - 1)) with (INR (S n)).
  2:{ rewrite INR_IZR_INZ. f_equal. lia. }
  replace (INR k * (1 / INR (S n))) with (INR k / INR (S n)); [reflexivity|].
  field. apply not_0_INR; lia.
Qed.

Lemma ratio_0 n : INR 0 / INR (S n) = 0.
Proof. cbn [INR]. field. apply (not_0_INR (S n)). lia. Qed.
Lemma ratio_1 n : INR (S n) / INR (S n) = 1.
Proof. field. apply not_0_INR. lia. Qed.
Lemma ratio_pos n k : 0 <= INR k / INR (S n).
Proof. apply Rmult_le_pos; [apply pos_INR|apply Rlt_le, Rinv_0_lt_compat, lt_0_INR; lia]. Qed.
Lemma vertex_first n sp : 0 < sp -> vertex (S n) sp 0 = 0.
Proof. intros H. unfold vertex. rewrite ratio_0. apply Rpow_0, H. Qed.
Lemma vertex_last n sp : vertex (S n) sp (S n) = 1.
Proof. unfold vertex. rewrite ratio_1. apply Rpow_1l. Qed.
Lemma vertex_lt n sp i j : 0 < sp -> (i < j)%nat -> vertex (S n) sp i < vertex (S n) sp j.
Proof. intros H K. apply Rpow_lt; auto using ratio_pos, INR_ratio_lt. Qed.
Lemma vertex_default n k : vertex (S n) 1 k = INR k / INR (S n).
Proof. apply Rpow_1r, ratio_pos. Qed.

Lemma default_vertex_spec lb ub n sp : 0 < sp -> lb < ub ->
  exists l, default_vertex_func lb ub (S (S n)) sp = Ok l /\ length l = S (S n) /\
    nth 0 l 0 = lb /\ nth (S n) l 0 = ub /\
    (forall i j, (i < j)%nat -> (j <= S n)%nat -> nth i l 0 < nth j l 0).
Proof.
  intros Hs Hl. eexists. split; [apply default_vertex_value|].
  set (f := fun k => lb + vertex (S n) sp k * (ub - lb)).
  assert (NT : forall k, (k <= S n)%nat -> nth k (map f (seq 0 (S (S n)))) 0 = f k).
  { intros k Hk. rewrite (nth_indep _ 0 (f 0%nat)) by (rewrite map_length, seq_length; lia).
    rewrite map_nth, seq_nth by lia. reflexivity. }
  split; [rewrite map_length, seq_length; reflexivity|].
  split; [rewrite NT by lia; unfold f; rewrite vertex_first by auto; ring|].
  split; [rewrite NT by lia; unfold f; rewrite vertex_last; ring|].
  intros i j Hij Hj. rewrite !NT by lia. unfold f.
  pose proof (vertex_lt n sp i j Hs Hij). nra.
Qed.

Lemma default_vertex_raise (lb ub sp : R) : default_vertex_func lb ub 1 sp = Raise ZeroDivisionError.
Proof. reflexivity. Qed.

(** parameters actually used *)
Definition grid_param (c : option (R -> res R)) (m : nat) (sp : R) (n : nat) (k : nat) (x : R) : Prop :=
  match c with
  | None => x = vertex n sp k
  | Some f => f (INR k / INR m) = Ok x
  end.

Lemma vertex_list_none n sp k : (k <= S n)%nat -> 
  exists l, vertex_list None 0 (S n + 1) sp = Ok l /\ nth_error l k = Some (vertex (S n) sp k).
Proof.
  intros H. unfold vertex_list. rewrite Nat.add_1_r. change (n0 : R) with 0. change (n1 : R) with 1.
  rewrite default_vertex_value. eexists. split; [reflexivity|].
  rewrite nth_error_map, (nth_error_nth' _ 0%nat) by (rewrite seq_length; lia).
  rewrite seq_nth by lia. cbn. f_equal. ring.
Qed.

Definition mirY (mir : bool) (p : pt) : pt := if mir then V3 (vx p) (- vy p) (vz p) else p.
Lemma store_R mir (p : pt) : store_vertex mir p = mirY mir p.
Proof. unfold store_vertex, mirY. destruct mir; numR; apply vec_ext; cbn; ring. Qed.

Definition mean4 (a b c d : pt) : pt :=
  V3 ((vx a + vx b + vx c + vx d) / 4) ((vy a + vy b + vy c + vy d) / 4) ((vz a + vz b + vz c + vz d) / 4).
Lemma centre_R mir (a b c d : pt) :
  store_vertex mir (cell_centre a b c d) = mean4 (mirY mir a) (mirY mir b) (mirY mir c) (mirY mir d).
Proof. rewrite store_R. unfold mirY, cell_centre, mean4. destruct mir; numR; apply vec_ext; cbn; field. Qed.

Lemma grid_mesh_ext {T} (Q Q' C C' : nat -> nat -> vec T) ni nj :
  (forall i j, (i <= ni)%nat -> (j <= nj)%nat -> Q i j = Q' i j) ->
  (forall i j, (i < ni)%nat -> (j < nj)%nat -> C i j = C' i j) ->
  grid_mesh Q C ni nj = grid_mesh Q' C' ni nj.
Proof.
  intros H K. unfold grid_mesh. rewrite !flat_map_concat_map. f_equal. apply map_ext_in. intros i Hi. apply in_seq in Hi.
  rewrite !flat_map_concat_map. f_equal. apply map_ext_in. intros j Hj. apply in_seq in Hj.
  apply map_ext_in. intros k Hk. apply in_seq in Hk. unfold cell_tri, at_corner.
  rewrite K by lia.
  do 4 (destruct k as [|k]; [cbn [corner fst snd]; rewrite !H by lia; reflexivity|]). lia.
Qed.

(** default grid, any surface defined at the grid points *)
Lemma surfce_default u mir ni nj si sj P :
  (forall i j, (i <= S ni)%nat -> (j <= S nj)%nat -> u (vertex (S ni) si i) (vertex (S nj) sj j) = Ok (P i j)) ->
  surfce_to_stl u (S ni) (S nj) si sj mir None None
  = Ok (grid_mesh (fun i j => mirY mir (P i j))
         (fun i j => mean4 (mirY mir (P i j)) (mirY mir (P (S i) j)) (mirY mir (P i (S j))) (mirY mir (P (S i) (S j))))
         (S ni) (S nj)).
Proof.
  intros H. unfold surfce_to_stl.
  destruct (vertex_list_none ni si 0) as (rs & Er & _); [lia|].
  destruct (vertex_list_none nj sj 0) as (ss & Es & _); [lia|].
  unfold vertex_list in *. rewrite Er, Es. cbn [bind].
  rewrite (mesh_cells_grid u mir rs ss (S ni) (S nj) P).
  - f_equal. apply grid_mesh_ext; intros i j Hi Hj; [apply store_R|apply centre_R].
  - intros i j Hi Hj.
    destruct (vertex_list_none ni si i Hi) as (rs' & Er' & A).
    destruct (vertex_list_none nj sj j Hj) as (ss' & Es' & B).
    unfold vertex_list in *. rewrite Er in Er'. rewrite Es in Es'. injection Er' as <-. injection Es' as <-.
    do 2 eexists. split; [exact A|]. split; [exact B|]. apply H; auto.
Qed.

(** the mesh of component patches: unit spacing, no clustering *)
Lemma mesh_patch_default u ni nj P :
  (forall i j, (i <= S ni)%nat -> (j <= S nj)%nat -> u (INR i / INR (S ni)) (INR j / INR (S nj)) = Ok (P i j)) ->
  mesh_patch no_clustering u (S ni) (S nj)
  = Ok (grid_mesh P (fun i j => mean4 (P i j) (P (S i) j) (P i (S j)) (P (S i) (S j))) (S ni) (S nj)).
Proof.
  intros H. unfold mesh_patch, no_clustering, cl_i, cl_j. change (n1 : R) with 1.
  rewrite (surfce_default u false ni nj 1 1 P); [reflexivity|].
  intros i j Hi Hj. rewrite !vertex_default. apply H; auto.
Qed.

(** a grid point that raises *)
Lemma surfce_raise u mir ni nj si sj i j e :
  (i <= S ni)%nat -> (j <= S nj)%nat -> u (vertex (S ni) si i) (vertex (S nj) sj j) = Raise e ->
  ~ is_ok (surfce_to_stl u (S ni) (S nj) si sj mir None None).
Proof.
  intros Hi Hj H [m E]. apply surfce_grid in E as (rs & ss & P & Er & Es & G & _).
  destruct (G i j Hi Hj) as (r & s & A & B & Ev).
  destruct (vertex_list_none ni si i Hi) as (rs' & Er' & A').
  destruct (vertex_list_none nj sj j Hj) as (ss' & Es' & B').
  unfold vertex_list in *. assert (rs' = rs) by congruence. assert (ss' = ss) by congruence. subst.
  congruence.
Qed.

(** ** j clustering *)
Lemma clustered_list (f : R -> res R) (g : R -> R) n k steps sp : (forall x, f x = Ok (g x)) ->
  exists l, vertex_list (Some f) (S n + 1) steps sp = Ok l /\ length l = S (S n) /\
    ((k <= S n)%nat -> nth_error l k = Some (g (INR k / INR (S n)))).
Proof.
  intros H. unfold vertex_list. rewrite Nat.add_1_r.
  rewrite (mapM_ok f g) by auto. eexists. split; [reflexivity|].
  assert (L : length (map g (np_linspace (T := R) n0 n1 (S (S n)))) = S (S n)) by (rewrite map_length, linspace_length; reflexivity).
  split; [exact L|]. intros Hk.
  rewrite nth_error_map, (nth_error_nth' _ 0) by (rewrite linspace_length; lia).
  rewrite slice_nth by lia. reflexivity.
Qed.

Lemma surfce_clustered u mir ni nj si sj (f : R -> res R) g P : (forall x, f x = Ok (g x)) -> (S nj <= S ni)%nat ->
  (forall i j, (i <= S ni)%nat -> (j <= S nj)%nat -> u (vertex (S ni) si i) (g (INR j / INR (S ni))) = Ok (P i j)) ->
  surfce_to_stl u (S ni) (S nj) si sj mir None (Some f)
  = Ok (grid_mesh (fun i j => mirY mir (P i j))
         (fun i j => mean4 (mirY mir (P i j)) (mirY mir (P (S i) j)) (mirY mir (P i (S j))) (mirY mir (P (S i) (S j))))
         (S ni) (S nj)).
Proof.
  intros Hf Hn H. unfold surfce_to_stl.
  destruct (vertex_list_none ni si 0) as (rs & Er & _); [lia|].
  destruct (clustered_list f g ni 0 (S nj + 1) sj Hf) as (ss & Es & _ & _).
  unfold vertex_list in *. rewrite Er, Es. cbn [bind].
  rewrite (mesh_cells_grid u mir rs ss (S ni) (S nj) P).
  - f_equal. apply grid_mesh_ext; intros i j Hi Hj; [apply store_R|apply centre_R].
  - intros i j Hi Hj.
    destruct (vertex_list_none ni si i Hi) as (rs' & Er' & A).
    destruct (clustered_list f g ni j (S nj + 1) sj Hf) as (ss' & Es' & _ & B).
    unfold vertex_list in *. rewrite Er in Er'. rewrite Es in Es'. injection Er' as <-. injection Es' as <-.
    do 2 eexists. split; [exact A|]. split; [apply B; lia|]. apply H; auto.
Qed.

Lemma surfce_clustered_short (u : surf R) mir ni nj si sj (f : R -> res R) g : (forall x, f x = Ok (g x)) ->
  (forall r s, is_ok (u r s)) -> (ni < nj)%nat ->
  surfce_to_stl u (S ni) (S nj) si sj mir None (Some f) = Raise IndexError.
Proof.
  intros Hf Hu Hn. unfold surfce_to_stl.
  destruct (vertex_list_none ni si 0) as (rs & Er & _); [lia|].
  destruct (clustered_list f g ni 0 (S nj + 1) sj Hf) as (ss & Es & Ls & _).
  assert (LR : forall k, (k <= S ni)%nat -> exists r, nth_error rs k = Some r).
  { intros k Hk. destruct (vertex_list_none ni si k Hk) as (rs' & Er' & A).
    unfold vertex_list in *. rewrite Er in Er'. injection Er' as <-. eauto. }
  unfold vertex_list in *. rewrite Er, Es. cbn [bind]. unfold mesh_cells.
  assert (LS : forall k, (k <= S ni)%nat -> exists s, nth_error ss k = Some s).
  { intros k Hk. destruct (nth_error ss k) eqn:E; [eauto|]. apply nth_error_None in E. lia. }
  change (seq 0 (S ni)) with ([] ++ 0%nat :: seq 1 ni).
  rewrite (mapM_first_raise _ IndexError); [reflexivity|intros x []|].
  replace (seq 0 (S nj)) with (seq 0 (S ni) ++ S ni :: seq (S (S ni)) (nj - S ni)).
  2:{ replace (S nj) with (S ni + (S (nj - S ni)))%nat by lia. rewrite (seq_app (S ni)). reflexivity. }
  rewrite (mapM_first_raise _ IndexError); [reflexivity| |].
  - intros j Hj. apply in_seq in Hj.
    destruct (LR 0%nat) as [r A]; [lia|]. destruct (LR 1%nat) as [r' A']; [lia|].
    destruct (LS j) as [s B]; [lia|]. destruct (LS (S j)) as [s' B']; [lia|].
    destruct (Hu r s) as [p1 E1], (Hu r' s) as [p2 E2], (Hu r s') as [p3 E3], (Hu r' s') as [p4 E4].
    unfold cell_triangles, py_nth. rewrite !Nat.add_1_r, A, B. cbn [bind]. rewrite E1. cbn [bind].
    rewrite A'. cbn [bind]. rewrite E2. cbn [bind]. rewrite B'. cbn [bind]. rewrite E3. cbn [bind]. rewrite E4.
    eexists; reflexivity.
  - destruct (LR 0%nat) as [r A]; [lia|]. destruct (LR 1%nat) as [r' A']; [lia|].
    destruct (LS (S ni)) as [s B]; [lia|].
    assert (B' : nth_error ss (S (S ni)) = None) by (apply nth_error_None; lia).
    destruct (Hu r s) as [p1 E1], (Hu r' s) as [p2 E2].
    unfold cell_triangles, py_nth. rewrite !Nat.add_1_r, A, B. cbn [bind]. rewrite E1. cbn [bind].
    rewrite A'. cbn [bind]. rewrite E2. cbn [bind]. rewrite B'. reflexivity.
Qed.
