(** stl_check. *)
From Coq Require Import Reals Lra ZArith String List Permutation Lia Bool.
From Verif Require Import Num NumR Py M_Vector SpecR3 M_Path M_Surface M_Mesh M_Stl
  SpecMesh SpecStl L_Vector L_Edges L_Volume.
Import ListNotations.

(** ** sets as lists without repetitions *)
Section Dedup.
  Context {A : Type} (eqb : A -> A -> bool).

  Lemma filter_comm (p q : A -> bool) l : filter p (filter q l) = filter q (filter p l).
  Proof.
    induction l as [|a l IH]; cbn; [reflexivity|].
    destruct (q a) eqn:Q, (p a) eqn:P; cbn; rewrite ?Q, ?P, IH; reflexivity.
  Qed.
  Lemma filter_id (p : A -> bool) l : (forall a, In a l -> p a = true) -> filter p l = l.
  Proof.
    induction l as [|a l IH]; cbn; intros H; [reflexivity|]. rewrite (H a) by auto. f_equal. apply IH. auto.
  Qed.
  Lemma filter_dedup p l : (forall x y, eqb x y = true -> p x = p y) ->
    filter p (dedup eqb l) = dedup eqb (filter p l).
  Proof.
    intros C. induction l as [|x l IH]; cbn; [reflexivity|].
    destruct (p x) eqn:P.
    - cbn. f_equal. rewrite filter_comm, IH. reflexivity.
    - rewrite filter_comm, filter_id; auto. intros a Ha. apply filter_In in Ha as [_ Ha].
      destruct (eqb x a) eqn:E; [|reflexivity]. rewrite <- (C x a E) in Ha. congruence.
  Qed.
  Lemma dedup_incl l a : In a (dedup eqb l) -> In a l.
  Proof.
    revert a. induction l as [|x l IH]; cbn; intros a H; [exact H|].
    destruct H as [->|H]; auto. apply filter_In in H as [H _]. auto.
  Qed.
  Lemma filter_len (p : A -> bool) l : length (filter p l) <= length l.
  Proof. induction l; cbn; [lia|]. destruct (p a); cbn; lia. Qed.
  Lemma filter_split (p : A -> bool) l : length l = length (filter p l) + length (filter (fun b => negb (p b)) l).
  Proof. induction l; cbn; [lia|]. destruct (p a); cbn; lia. Qed.

  Hypothesis eqb_spec : forall a b, eqb a b = true <-> a = b.
  Lemma dedup_NoDup l : NoDup (dedup eqb l).
  Proof.
    induction l as [|x l IH]; cbn; constructor.
    - intros H. apply filter_In in H as [_ H]. rewrite (proj2 (eqb_spec x x) eq_refl) in H. discriminate.
    - apply NoDup_filter, IH.
  Qed.
  Lemma dedup_In l a : In a (dedup eqb l) <-> In a l.
  Proof.
    split; [apply dedup_incl|]. induction l as [|x l IH]; cbn; intros []; [auto|].
    destruct (eqb x a) eqn:E; [left; apply eqb_spec, E|right]. apply filter_In. rewrite E. auto.
  Qed.
  Lemma dedup_id l : NoDup l -> dedup eqb l = l.
  Proof.
    induction 1 as [|x l H _ IH]; cbn; [reflexivity|]. rewrite IH, filter_id; [reflexivity|].
    intros a Ha. destruct (eqb x a) eqn:E; [|reflexivity]. apply eqb_spec in E. congruence.
  Qed.
  Lemma dedup_length l : length (dedup eqb l) = length l <-> NoDup l.
  Proof.
    split; [|intros H; rewrite dedup_id; auto].
    intros H. apply (NoDup_incl_NoDup (dedup_NoDup l)); [lia|].
    intros a. apply dedup_incl.
  Qed.
End Dedup.

(** ** undirected edges *)
Section Undirected.
  Context {A : Type} (R : edge A -> edge A -> bool).
  Hypothesis R_spec : forall e f, R e f = true <-> f = e \/ f = flip e.

  Lemma flip2 (e : edge A) : flip (flip e) = e. Proof. destruct e; reflexivity. Qed.
  Lemma R_compat a x y : R x y = true -> negb (R a x) = negb (R a y).
  Proof.
    intros H. apply R_spec in H. f_equal. apply eq_true_iff_eq. rewrite !R_spec.
    destruct H as [-> | ->]; [tauto|]. split; intros [E|E].
    - right. rewrite E. reflexivity.
    - left. rewrite E. apply flip2.
    - right. rewrite <- E, flip2. reflexivity.
    - left. rewrite <- (flip2 x), E. apply flip2.
  Qed.

  Definition all_matched (D : list (edge A)) : Prop :=
    forall e, In e D -> fst e <> snd e /\ In (flip e) D.

  Lemma flip_neq (e : edge A) : fst e <> snd e <-> flip e <> e.
  Proof.
    destruct e as [a b]; cbn. split; intros H K; apply H; [injection K; auto|subst; reflexivity].
  Qed.

  Lemma class_size e D : NoDup D -> ~ In e D ->
    (In (flip e) D /\ length (filter (R e) D) = 1) \/ (~ In (flip e) D /\ length (filter (R e) D) = 0).
  Proof.
    induction 1 as [|f D Hf ND IH]; cbn; intros He; [right; auto|].
    destruct IH as [[I L]|[I L]]; [tauto| |].
    - left. split; [auto|]. destruct (R e f) eqn:E; [|exact L]. apply R_spec in E as [-> | ->]; tauto.
    - destruct (R e f) eqn:E.
      + apply R_spec in E as [-> | ->]; [tauto|]. left. cbn. rewrite L. auto.
      + right. split; [|exact L]. intros [->|K]; [|tauto].
        rewrite (proj2 (R_spec e (flip e))) in E by auto. discriminate.
  Qed.

  Lemma undirected_size : forall n D, length D <= n -> NoDup D ->
    length D <= 2 * length (dedup R D) /\ (length D = 2 * length (dedup R D) <-> all_matched D).
  Proof.
    induction n as [|n IH]; intros [|e D] L ND; try (cbn in L; lia).
    - cbn. split; [lia|]. split; [intros _ x []|reflexivity].
    - cbn. split; [lia|]. split; [intros _ x []|reflexivity].
    - inversion ND; subst. cbn [length] in L. cbn [dedup length].
      rewrite (filter_dedup R) by (intros; apply R_compat; auto).
      set (F := filter (fun b => negb (R e b)) D).
      pose proof (filter_split (R e) D) as SP. fold F in SP.
      destruct (IH F) as [I1 I2]; [lia|apply NoDup_filter; auto|].
      destruct (class_size e D) as [[C1 C2]|[C1 C2]]; auto.
      + split; [lia|].
        assert (EQ : S (length D) = 2 * S (length (dedup R F)) <-> length F = 2 * length (dedup R F)) by lia.
        cbn [length]. rewrite EQ, I2. split.
        * intros M f [<-|Hf].
          { split; [|right; exact C1]. apply flip_neq. congruence. }
          destruct (R e f) eqn:E.
          { apply R_spec in E as [-> | ->]; [contradiction|]. rewrite flip2. split; [|left; reflexivity].
            apply flip_neq. rewrite flip2. congruence. }
          destruct (M f) as [M1 M2]; [apply filter_In; rewrite E; auto|]. split; [exact M1|].
          right. apply filter_In in M2 as [M2 _]. exact M2.
        * intros M f Hf. apply filter_In in Hf as [Hf E]. destruct (M f (or_intror Hf)) as [M1 M2]. split; [exact M1|].
          apply filter_In. rewrite (R_compat e (flip f) f); [|apply R_spec; rewrite flip2; auto]. split; [|exact E].
          destruct M2 as [M2|M2]; [|exact M2]. subst e.
          rewrite (proj2 (R_spec (flip f) f)) in E; [discriminate|]. rewrite flip2. auto.
      + split; [lia|]. split; [lia|]. intros M. exfalso. destruct (M e (or_introl eq_refl)) as [M1 [M2|M2]]; [|tauto].
        apply flip_neq in M1. congruence.
  Qed.
End Undirected.

Local Open Scope R_scope.
Lemma vec_eqb_R (a b : pt) : vec_eqb a b = true <-> a = b.
Proof.
  unfold vec_eqb. cbn [neqb NumR]. rewrite !andb_true_iff, !Reqb_true. destruct a, b; cbn. split.
  - intros [[-> ->] ->]. reflexivity.
  - intros E. injection E as -> -> ->. auto.
Qed.
Lemma edge_eqb_R (e f : edge pt) : edge_eqb e f = true <-> e = f.
Proof.
  unfold edge_eqb. rewrite andb_true_iff, !vec_eqb_R. destruct e, f; cbn. split.
  - intros [-> ->]. reflexivity.
  - intros E. injection E as -> ->. auto.
Qed.
Lemma uedge_eqb_R (e f : edge pt) : uedge_eqb e f = true <-> f = e \/ f = flip e.
Proof.
  unfold uedge_eqb. rewrite orb_true_iff, !edge_eqb_R. split; intros [E|E]; auto.
  - right. rewrite E. destruct f; reflexivity.
  - right. rewrite E. destruct e; reflexivity.
Qed.

Lemma tri_cross_R (t : tri R) : tri_cross t = area_vec t.
Proof. unfold tri_cross, area_vec, crossR, diff. numR. apply vec_ext; cbn; ring. Qed.

(** the edges are those of the mesh turned to face its normals *)
Lemma faces_length m ns m' : faces m ns m' -> length m = length m'.
Proof. induction 1; cbn; congruence. Qed.
Lemma faces_fresh (m : list (tri R)) : faces m (mesh_normals m) m.
Proof.
  unfold mesh_normals. induction m as [|t m IH]; cbn [map]; constructor; [|exact IH].
  replace (tri_cross t) with (area_vec t) by (symmetry; apply tri_cross_R). unfold inner. set (c := area_vec t).
  pose proof (Rle_0_sqr (vx c)). pose proof (Rle_0_sqr (vy c)). pose proof (Rle_0_sqr (vz c)). unfold Rsqr in *. lra.
Qed.
Lemma three_lists {A} (a b c : A) la lb lc l k : Permutation k [a; b; c] -> Permutation (la ++ lb ++ lc) l ->
  Permutation ((a :: la) ++ (b :: lb) ++ (c :: lc)) (k ++ l).
Proof.
  intros -> <-. cbn [app]. constructor.
  transitivity (b :: c :: la ++ lb ++ lc); [|reflexivity].
  rewrite <- Permutation_middle. constructor.
  rewrite !app_assoc, <- Permutation_middle. constructor. rewrite <- !app_assoc. reflexivity.
Qed.
Lemma all_edges_faces m ns m' : faces m ns m' -> Permutation (all_edges m ns) (mesh_edges m').
Proof.
  unfold all_edges, reversed_flags, mesh_edges. cbn [map concat]. rewrite app_nil_r.
  induction 1 as [|t n m ns m' K F IH|t n m ns m' K F IH]; [reflexivity| |];
    cbn [map combine flat_map fst snd]; replace (tri_cross t) with (area_vec t) by (symmetry; apply tri_cross_R); unfold nsum; cbn [fold_left];
    cbn [nltb nadd nmul NumR]; change (n0 : R) with 0; unfold inner in K.
  - rewrite (proj2 (Rltb_false _ _)) by lra. cbn [orient fst snd].
    apply three_lists; [reflexivity|exact IH].
  - rewrite (proj2 (Rltb_true _ _)) by lra. cbn [orient fst snd].
    apply three_lists; [|exact IH]. cbn [tri_edges t0 t1 t2].
    transitivity [(t0 t, t2 t); (t1 t, t0 t); (t2 t, t1 t)]; [constructor; apply perm_swap|].
    transitivity [(t1 t, t0 t); (t0 t, t2 t); (t2 t, t1 t)]; [apply perm_swap|constructor; apply perm_swap].
Qed.
Lemma mesh_edges_length {T} (m : list (tri T)) : length (mesh_edges m) = (3 * length m)%nat.
Proof. unfold mesh_edges. induction m; cbn [flat_map length app tri_edges]; [reflexivity|]. rewrite IHm. lia. Qed.

Lemma all_matched_perm {A} (l k : list (edge A)) : Permutation l k -> all_matched l -> all_matched k.
Proof.
  intros P H e He. destruct (H e) as [H1 H2]; [eapply Permutation_in; [symmetry; exact P|exact He]|].
  split; [exact H1|]. eapply Permutation_in; eauto.
Qed.

(** C45 *)
Lemma stl_check_faces (m : list (tri R)) ns m' : faces m ns m' ->
  exists b, stl_check m ns false true = Ok b /\
    (b = true <-> NoDup (mesh_edges m') /\ all_matched (mesh_edges m')).
Proof.
  intros F. eexists. split; [reflexivity|].
  set (l := all_edges m ns). pose proof (all_edges_faces m ns m' F) as P. fold l in P.
  rewrite !andb_true_iff, !Nat.eqb_eq.
  assert (L : length l = (3 * length m)%nat)
    by (rewrite (Permutation_length P), (faces_length m ns m' F); apply mesh_edges_length).
  rewrite <- L, (dedup_length edge_eqb edge_eqb_R). split.
  - intros [[_ N] H]. rewrite (dedup_id edge_eqb edge_eqb_R l N) in H.
    split; [eapply Permutation_NoDup; eauto|]. apply (all_matched_perm _ _ P).
    apply (undirected_size uedge_eqb uedge_eqb_R (length l) l); auto.
  - intros [N M]. assert (N' : NoDup l) by (eapply Permutation_NoDup; [symmetry; exact P|exact N]).
    split; [auto|]. rewrite (dedup_id edge_eqb edge_eqb_R l N').
    apply (undirected_size uedge_eqb uedge_eqb_R (length l) l); auto.
    apply (all_matched_perm _ _ (Permutation_sym P)), M.
Qed.
Lemma stl_check_iff (m : list (tri R)) :
  exists b, stl_check m (mesh_normals m) false true = Ok b /\
    (b = true <-> NoDup (mesh_edges m) /\ all_matched (mesh_edges m)).
Proof. apply stl_check_faces, faces_fresh. Qed.
(** with the area test the stored normals themselves must balance as well *)
Lemma stl_check_project (m : list (tri R)) ns b : stl_check m ns false true = Ok b ->
  stl_check m ns true true = Ok (project_check ns && b).
Proof.
  unfold stl_check. cbn [negb]. intros H. injection H as <-. cbn [andb]. rewrite andb_assoc. reflexivity.
Qed.
Lemma stl_check_unbound {T} {N : Num T} (m : list (tri T)) normals pa :
  stl_check m normals pa false = Raise UnboundLocalError.
Proof. reflexivity. Qed.

Lemma matched_balanced {A} (l : list (edge A)) : NoDup l -> all_matched l -> balanced l.
Proof.
  intros N M. apply NoDup_Permutation; [exact N| |].
  - apply FinFun.Injective_map_NoDup; [|exact N]. intros e f H. rewrite <- (flip2 e), H. apply flip2.
  - intros e. split; intros H.
    + unfold flips. apply in_map_iff. exists (flip e). split; [apply flip2|]. apply M, H.
    + unfold flips in H. apply in_map_iff in H as (f & <- & Hf). apply M, Hf.
Qed.
Lemma stl_check_sound (m : list (tri R)) :
  stl_check m (mesh_normals m) false true = Ok true -> watertight m.
Proof.
  intros H. destruct (stl_check_iff m) as (b & E & I). rewrite H in E. injection E as <-.
  destruct I as [I _]. destruct (I eq_refl). apply matched_balanced; auto.
Qed.
(** degenerate edges make the check fail on watertight meshes *)
Lemma stl_check_degenerate (m : list (tri R)) e : In e (mesh_edges m) -> fst e = snd e ->
  stl_check m (mesh_normals m) false true = Ok false.
Proof.
  intros H E. destruct (stl_check_iff m) as (b & Eb & I). rewrite Eb. destruct b; [|reflexivity].
  destruct I as [I _]. destruct (I eq_refl) as [_ M]. destruct (M e H). contradiction.
Qed.

(** in exact arithmetic the area check never overrules the edge check *)
Lemma nsum_R l : nsum (T := R) l = fold_right Rplus 0 l.
Proof.
  unfold nsum. change (n0 : R) with 0. assert (G : forall l a, fold_left (@nadd R NumR) l a = a + fold_right Rplus 0 l).
  { clear l. induction l as [|x l IH]; intros a; cbn [fold_left fold_right]; [ring|]. rewrite IH. cbn [nadd NumR]. ring. }
  rewrite G. ring.
Qed.
Lemma sum_abs_nonneg l : 0 <= fold_right Rplus 0 (map Rabs l).
Proof. induction l; cbn; [lra|]. pose proof (Rabs_pos a). lra. Qed.
Lemma project_watertight (m : list (tri R)) : watertight m -> project_check (mesh_normals m) = true.
Proof.
  intros W. apply watertight_net_area in W. rewrite net_coord in W.
  unfold project_check. cbn [forallb].
  assert (C : forall f : pt -> R, asum m (fun t => f (area_vec t)) = 0 ->
    nleb (nabs (nsum (column f (mesh_normals m)))) (nmul (nsum (map nabs (column f (mesh_normals m)))) eps32) = true).
  { intros f H. rewrite !nsum_R. unfold column, mesh_normals. rewrite map_map.
    replace (fold_right Rplus 0 (map (fun t => f (tri_cross t)) m)) with (asum m (fun t => f (area_vec t))).
    2:{ reflexivity. }
    rewrite H. cbn [nleb nabs nmul NumR]. apply Rleb_true. rewrite Rabs_R0.
    apply Rmult_le_pos; [|unfold eps32; cbn [nlit NumR]; lra].
    apply sum_abs_nonneg. }
  injection W as W1 W2 W3.
  rewrite (C vx W1), (C vy W2), (C vz W3). reflexivity.
Qed.
Lemma stl_check_area (m : list (tri R)) :
  stl_check m (mesh_normals m) true true = stl_check m (mesh_normals m) false true.
Proof.
  pose proof (stl_check_sound m) as S. unfold stl_check in *. cbn [negb] in *.
  set (a := Nat.eqb _ (3 * _)) in *. set (b := Nat.eqb _ (2 * _)) in *. clearbody a b.
  destruct a, b; cbn [andb] in *; rewrite ?andb_false_r, ?andb_true_r; auto.
  rewrite project_watertight; auto.
Qed.

Lemma project_check_iff (ns : list pt) : project_check ns = true <-> cancels vx ns /\ cancels vy ns /\ cancels vz ns.
Proof.
  assert (H : forall f : pt -> R, nleb (nabs (nsum (column f ns))) (nmul (nsum (map nabs (column f ns))) eps32) = true <-> cancels f ns).
  { intros f. rewrite !nsum_R. unfold column, cancels, eps32. rewrite map_map. cbn [nleb nabs nmul nlit NumR].
    rewrite Rleb_true. replace (1 / 8388608) with (/ 8388608) by field. reflexivity. }
  unfold project_check. cbn [forallb]. rewrite !andb_true_iff, !H. tauto.
Qed.
