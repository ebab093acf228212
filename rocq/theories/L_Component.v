(** Component meshes. *)
From Coq Require Import Reals Lra ZArith String List Permutation Lia.
From Verif Require Import Num NumR Py M_Vector SpecR3 M_Path M_Surface M_Geometry M_Mesh M_Component
  SpecPath SpecPoly SpecSurf SpecMesh L_Vector L_Curves L_Coons L_Roberts L_Swept L_Edges L_Mesh L_Volume.
Import ListNotations.

(** ** dictionaries *)
Lemma dget_app_none {A} (d e : dict A) k : dget d k = None -> dget (d ++ e) k = dget e k.
Proof.
  induction d as [|[k' v] d IH]; cbn; [auto|]. destruct (String.eqb k k'); [discriminate|auto].
Qed.
Lemma dget_none {A} (d : dict A) k : dget d k = None <-> ~ In k (dkeys d).
Proof.
  induction d as [|[k' v] d IH]; cbn; [tauto|].
  destruct (String.eqb_spec k k') as [->|Ne]; split; intros H; try discriminate.
  - exfalso. apply H. left; reflexivity.
  - intros [E|I]; [congruence|]. apply IH in H. contradiction.
  - apply IH. intros I. apply H. right; exact I.
Qed.
Lemma dset_new {A} (d : dict A) k v : ~ In k (dkeys d) -> dset d k v = d ++ [(k, v)].
Proof.
  induction d as [|[k' v'] d IH]; cbn; intros H; [reflexivity|].
  destruct (String.eqb_spec k k') as [->|Ne]; [exfalso; apply H; left; reflexivity|].
  rewrite IH; [reflexivity|]. intros I. apply H. right; exact I.
Qed.
Lemma dkeys_app {A} (d e : dict A) : dkeys (d ++ e) = dkeys d ++ dkeys e.
Proof. apply map_app. Qed.
Lemma dupdate_nodup {A} (e d : dict A) : NoDup (dkeys d ++ dkeys e) -> dupdate d e = d ++ e.
Proof.
  revert d. induction e as [|[k v] e IH]; intros d H; cbn [dupdate fold_left].
  - symmetry; apply app_nil_r.
  - cbn [fst snd]. rewrite dset_new.
    + change (fold_left _ e (d ++ [(k, v)])) with (dupdate (d ++ [(k, v)]) e). rewrite IH.
      * rewrite <- app_assoc. reflexivity.
      * rewrite dkeys_app. cbn. rewrite <- app_assoc. exact H.
    + apply NoDup_remove_2 in H. intros I. apply H. apply in_or_app. left; exact I.
Qed.
Lemma dupdate_nil {A} (e : dict A) : NoDup (dkeys e) -> dupdate [] e = e.
Proof. intros H. rewrite dupdate_nodup; [reflexivity|exact H]. Qed.
Lemma dget_dset {A} (d : dict A) k v k' : dget (dset d k v) k' = if String.eqb k' k then Some v else dget d k'.
Proof.
  induction d as [|[k0 v0] d IH]; cbn.
  - reflexivity.
  - destruct (String.eqb_spec k k0) as [->|Ne]; cbn.
    + destruct (String.eqb k' k0); reflexivity.
    + destruct (String.eqb_spec k' k0) as [->|Ne'].
      * destruct (String.eqb_spec k0 k); [congruence|reflexivity].
      * apply IH.
Qed.
Lemma dkeys_dset {A} (d : dict A) k v : dkeys (dset d k v) = if in_dec string_dec k (dkeys d) then dkeys d else dkeys d ++ [k].
Proof.
  induction d as [|[k0 v0] d IH]; [reflexivity|].
  cbn [dset]. change (dkeys ((k0, v0) :: d)) with (k0 :: dkeys d).
  destruct (String.eqb_spec k k0) as [->|Ne].
  - destruct (in_dec string_dec k0 (k0 :: dkeys d)) as [I|I]; [reflexivity|].
    exfalso. apply I. left; reflexivity.
  - change (dkeys ((k0, v0) :: dset d k v)) with (k0 :: dkeys (dset d k v)). rewrite IH.
    destruct (in_dec string_dec k (dkeys d)) as [I|I], (in_dec string_dec k (k0 :: dkeys d)) as [J|J].
    + reflexivity.
    + exfalso. apply J. right; exact I.
    + exfalso. destruct J as [E|J]; [congruence|contradiction].
    + reflexivity.
Qed.
Lemma dmap_keys {A B} (f : A -> B) d : dkeys (dmap f d) = dkeys d.
Proof. unfold dkeys, dmap. rewrite map_map. reflexivity. Qed.

(** ** meshes of patch dictionaries *)
Section FreshMesh.
  Context {T : Type} {N : Num T}.
  Lemma mapM_map {A B C} (f : B -> res C) (g : A -> B) l : mapM f (map g l) = mapM (fun a => f (g a)) l.
  Proof. induction l; cbn [mapM map]; [reflexivity|]. rewrite IHl. reflexivity. Qed.

  Lemma surface_cases (c : clustering T) (cases : list (string * surf T * nat * nat)) results :
    mapM (fun cs => let '(k, u, a, b) := cs in let! m := mesh_patch c u a b in Ok (k, m)) cases = Ok results ->
    map (fun cs => let '(k, _, _, _) := cs in k) cases = dkeys results.
  Proof.
    revert results. induction cases as [|[[[k u] a] b] cases IH]; intros results H; cbn [mapM] in H.
    - injection H as <-. reflexivity.
    - destruct (mesh_patch c u a b) as [m|]; cbn [bind] in H; [|discriminate].
      destruct (mapM _ cases) as [r|]; cbn [bind] in H; [|discriminate].
      injection H as <-. cbn. f_equal. apply IH. reflexivity.
  Qed.

  Lemma cases_ok (c : clustering T) cases ms :
    Forall2 (fun cs m => let '(k, u, a, b) := cs in mesh_patch c u a b = Ok m) cases ms ->
    exists results, mapM (fun cs => let '(k, u, a, b) := cs in let! m := mesh_patch c u a b in Ok (k, m)) cases = Ok results
      /\ dvals results = ms.
  Proof.
    intros H. induction H as [|[[[k u] a] b] m cases ms E _ (r & Er & Ev)].
    - exists []. split; reflexivity.
    - exists ((k, m) :: r). cbn [mapM]. rewrite E. cbn [bind]. rewrite Er. cbn [bind]. split; [reflexivity|].
      cbn. f_equal. exact Ev.
  Qed.

  (** integer resolution: the concatenation of the patch meshes *)
  Lemma fresh_mesh_int (d : dict (surf T)) n rr rs c ms : d <> [] -> NoDup (dkeys d) ->
    Forall2 (fun u m => mesh_patch c u n n = Ok m) (dvals d) ms ->
    fresh_mesh d (ResInt n) rr rs c = Ok (concat ms).
  Proof.
    intros Hd Hk H. unfold fresh_mesh, component_surface. destruct d as [|kp d]; [contradiction|].
    set (dd := kp :: d) in *. cbn [case_list bind].
    destruct (cases_ok c (map (fun kp => (fst kp, snd kp, n, n)) dd) ms) as (r & Er & Ev).
    { clear Hk Hd. unfold dvals in H. revert ms H. generalize dd. clear dd. intros dd.
      induction dd as [|[k u] dd IH]; intros ms H; inversion H; subst; cbn; constructor; auto. }
    rewrite Er. cbn [bind]. pose proof (surface_cases _ _ _ Er) as K. rewrite map_map in K.
    rewrite dupdate_nil.
    - unfold concat_surfaces. rewrite Ev. reflexivity.
    - rewrite <- K. exact Hk.
  Qed.

  Lemma fresh_mesh_int_raise (d : dict (surf T)) n rr rs c k u e : In (k, u) d -> mesh_patch c u n n = Raise e ->
    ~ is_ok (fresh_mesh d (ResInt n) rr rs c).
  Proof.
    intros I E [m H]. unfold fresh_mesh, component_surface in H. destruct d as [|kp d]; [destruct I|].
    set (dd := kp :: d) in *. cbn [case_list bind] in H.
    destruct (mapM _ (map _ dd)) as [r|] eqn:Er; [|discriminate]. rewrite mapM_map in Er. apply mapM_inv in Er.
    clear H. revert I. induction Er as [|[k' u'] b l l' E' _ IH]; intros [].
    - injection H as -> ->. cbn in E'. rewrite E in E'. discriminate.
    - apply IH; exact H.
  Qed.
End FreshMesh.

Local Open Scope R_scope.

(** ** Coons patches whose edges are only defined on [0,1] *)
Lemma coons01 n e s w gn ge gs gw : evaluates01 n gn -> evaluates01 e ge -> evaluates01 s gs -> evaluates01 w gw ->
  corners_near gn ge gs gw ->
  exists u, CoonsPatch n e s w = Ok u /\
    forall r t, 0 <= r <= 1 -> 0 <= t <= 1 -> u r t = Ok (coons_val gn ge gs gw origin r t).
Proof.
  intros Hn He Hs Hw (A & B & C & D). unfold CoonsPatch, Coons_edges. unfold n0, n1. cbn [nZ NumR].
  rewrite !Hs, !Hn, !Hw, !He by lra. cbn [bind]. apply approx_near in A, B, C, D. rewrite A, B, C, D. cbn [negb bind].
  eexists. split; [reflexivity|]. intros r t Hr Ht. unfold Coons_call.
  cbn [c_north c_east c_south c_west c_p00 c_p10 c_p11 c_p01 c_offset].
  rewrite Hs, Hn, Hw, He by lra. cbn [bind]. f_equal. unfold coons_val, zero_offset, origin. vunf.
  apply vec_ext; cbn; ring.
Qed.
Lemma near_refl p : near p p.
Proof.
  unfold near, near1. repeat split;
  (match goal with |- Rabs (?x - ?x) <= _ => replace (x - x) with 0 by ring; rewrite Rabs_R0; pose proof (Rabs_pos x); lra end).
Qed.
Lemma coons_val_sides gn ge gs gw : gs 0 = gw 0 -> gs 1 = ge 0 -> gn 0 = gw 1 -> gn 1 = ge 1 ->
  (forall t, coons_val gn ge gs gw origin 0 t = gw t) /\ (forall t, coons_val gn ge gs gw origin 1 t = ge t) /\
  (forall r, coons_val gn ge gs gw origin r 0 = gs r) /\ (forall r, coons_val gn ge gs gw origin r 1 = gn r).
Proof.
  intros E1 E2 E3 E4. unfold coons_val, origin.
  split; [|split; [|split]]; intros t.
  - apply vec_ext; cbn; ring.
  - apply vec_ext; cbn; ring.
  - rewrite <- E1, <- E2; apply vec_ext; cbn; ring.
  - rewrite <- E3, <- E4; apply vec_ext; cbn; ring.
Qed.
Lemma reversed01 p g : evaluates01 p g -> evaluates01 (ReversedPath p) (fun t => g (1 - t)).
Proof. intros H t Ht. rewrite rev_call. apply H. lra. Qed.

Lemma ratio01 n k : (k <= S n)%nat -> 0 <= INR k / INR (S n) <= 1.
Proof.
  intros H. split; [apply ratio_pos|]. pose proof (INR_ratio_le n k (S n) H). rewrite ratio_1 in H0. exact H0.
Qed.
Lemma ratio_rev n k : (k <= S n)%nat -> 1 - INR k / INR (S n) = INR (S n - k) / INR (S n).
Proof. intros H. rewrite minus_INR by lia. field. apply not_0_INR. lia. Qed.

(** mesh of one patch given on [0,1]^2 *)
Definition grid_of (n : nat) (g : R -> R -> pt) (i j : nat) : pt := g (INR i / INR (S n)) (INR j / INR (S n)).
Lemma mesh_patch01 u g n : (forall r s, 0 <= r <= 1 -> 0 <= s <= 1 -> u r s = Ok (g r s)) ->
  exists m, mesh_patch no_clustering u (S n) (S n) = Ok m /\
    reduces (mesh_edges m) (outline (grid_of n g) (S n) (S n)).
Proof.
  intros H. eexists. split.
  - apply (mesh_patch_default u n n (grid_of n g)). intros i j Hi Hj. apply H; apply ratio01; lia.
  - apply grid_reduces.
Qed.

(** a chain along a path and its reverse *)
Definition along (n : nat) (g : R -> pt) : list (edge pt) := chain (fun k => g (INR k / INR (S n))) (S n).
Lemma along_rev n g : Permutation (along n (fun t => g (1 - t))) (flips (along n g)).
Proof.
  unfold along.
  rewrite (chain_ext (fun k => g (1 - INR k / INR (S n))) (fun k => g (INR (S n - k) / INR (S n))) (S n)).
  - apply (chain_rev (fun k => g (INR k / INR (S n)))).
  - intros k Hk. rewrite ratio_rev by lia. reflexivity.
Qed.
Lemma along_ext n g h : (forall t, 0 <= t <= 1 -> g t = h t) -> along n g = along n h.
Proof. intros H. apply chain_ext. intros k Hk. apply H, ratio01, Hk. Qed.
Lemma outline_along n g : outline (grid_of n g) (S n) (S n)
  = along n (fun r => g r 0) ++ along n (fun s => g 1 s)
    ++ flips (along n (fun r => g r 1)) ++ flips (along n (fun s => g 0 s)).
Proof.
  unfold outline, south_side, east_side, north_side, west_side, along, grid_of. rewrite ratio_0, ratio_1.
  reflexivity.
Qed.

(** the union of patches: edges reduce to the outlines *)
Lemma reduces_concat (ms : list (list (tri R))) outs :
  Forall2 (fun m o => reduces (mesh_edges m) o) ms outs -> reduces (mesh_edges (concat ms)) (concat outs).
Proof.
  induction 1 as [|m o ms outs H _ IH]; cbn [concat]; [apply reduces_refl|].
  rewrite mesh_edges_app. apply reduces_app; auto.
Qed.

(** ** sides of a swept component *)
Definition seg (m : nat) (r : R) : nat := Nat.min m (Z.to_nat (Int_part (r * INR (S m)))).
Lemma seg_spec m r : 0 <= r <= 1 -> (seg m r <= m)%nat /\ INR (seg m r) / INR (S m) <= r <= INR (S (seg m r)) / INR (S m).
Proof.
  intros Hr. unfold seg. split; [apply Nat.le_min_l|].
  assert (P : 0 < INR (S m)) by (apply lt_0_INR; lia).
  set (x := r * INR (S m)). assert (Hx : 0 <= x <= INR (S m)) by (unfold x; nra).
  destruct (base_Int_part x) as [B1 B2].
  assert (Z0 : (0 <= Int_part x)%Z).
  { apply le_IZR. apply Rnot_lt_le. intros Hn. assert (IZR (Int_part x) <= -1).
    { apply IZR_le. apply lt_IZR in Hn. lia. } lra. }
  assert (E : INR (Z.to_nat (Int_part x)) = IZR (Int_part x)) by (rewrite INR_IZR_INZ, Z2Nat.id by auto; reflexivity).
  set (k := Z.to_nat (Int_part x)) in *.
  replace r with (x / INR (S m)) by (unfold x; field; lra).
  assert (DIV : forall a b, a <= b -> a / INR (S m) <= b / INR (S m)).
  { intros a b H. unfold Rdiv. apply Rmult_le_compat_r; [apply Rlt_le, Rinv_0_lt_compat; auto|auto]. }
  destruct (Nat.le_gt_cases k m) as [Hk|Hk].
  - rewrite Nat.min_r by lia. split; apply DIV; [lra|]. rewrite S_INR. lra.
  - rewrite Nat.min_l by lia. split; apply DIV; [|lra].
    assert (INR (S m) <= INR k) by (apply le_INR; lia). rewrite S_INR in *. lra.
Qed.
Definition blend (m : nat) (p : nat -> pt) (r : R) : pt :=
  let k := seg m r in lerp (r * INR (S m) - INR k) (p k) (p (S k)).
Lemma blend_ext m p q r : (forall k, (k <= S m)%nat -> p k = q k) -> blend m p r = blend m q r.
Proof. intros H. unfold blend. assert (seg m r <= m)%nat by apply Nat.le_min_l. rewrite !H by lia. reflexivity. Qed.
Lemma blend_0 m p : blend m p 0 = p 0%nat.
Proof.
  unfold blend. replace (seg m 0) with 0%nat.
  - unfold lerp. cbn [INR]. apply vec_ext; cbn; ring.
  - unfold seg. rewrite Rmult_0_l. change 0 with (INR 0). rewrite Int_part_INR. destruct m; reflexivity.
Qed.
Lemma blend_1 m p : blend m p 1 = p (S m).
Proof.
  unfold blend. replace (seg m 1) with m.
  - rewrite S_INR. unfold lerp. apply vec_ext; cbn; ring.
  - unfold seg. rewrite Rmult_1_l, Int_part_INR, Nat2Z.id. lia.
Qed.
Lemma swept_blend edges m (g : nat -> R -> pt) d r s : length edges = S (S m) ->
  (forall k, (k <= S m)%nat -> evaluates01 (nth k edges d) (g k)) -> 0 <= r <= 1 -> 0 <= s <= 1 ->
  SweptPatchfromEdges edges r s = Ok (blend m (fun k => g k s) r).
Proof.
  intros L H Hr Hs. destruct (seg_spec m r Hr) as [B1 B2].
  unfold blend. apply (swept_segment edges m L (seg m r) r s d); auto; apply H; auto; lia.
Qed.
