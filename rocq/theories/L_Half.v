(** Edges of a mesh and its mirror image. *)
From Coq Require Import Reals Lra String List Permutation Lia Arith.
From Verif Require Import M_Vector M_Mesh SpecR3 SpecSurf SpecMesh SpecHalf L_Edges L_Volume L_Reflect.
Import ListNotations.
Local Open Scope R_scope.

Definition pt_dec (p q : pt) : {p = q} + {p <> q}.
Proof.
  destruct p as [a b c], q as [a' b' c'].
  destruct (Req_EM_T a a') as [->|N]; [|right; intros E; injection E; intros; contradiction].
  destruct (Req_EM_T b b') as [->|N]; [|right; intros E; injection E; intros; contradiction].
  destruct (Req_EM_T c c') as [->|N]; [left; reflexivity|right; intros E; injection E; intros; contradiction].
Defined.
Definition edge_dec (e f : edge pt) : {e = f} + {e <> f}.
Proof.
  destruct e as [a b], f as [a' b']. destruct (pt_dec a a') as [->|N]; [|right; intros E; injection E; intros; contradiction].
  destruct (pt_dec b b') as [->|N]; [left; reflexivity|right; intros E; injection E; intros; contradiction].
Defined.

Lemma perm6 {A} (a b c d e f : list A) : Permutation ((a ++ b ++ c) ++ d ++ e ++ f) ((a ++ d ++ c) ++ b ++ e ++ f).
Proof.
  rewrite <- !app_assoc. apply Permutation_app_head. rewrite (Permutation_app_swap_app d c (b ++ e ++ f)), (Permutation_app_swap_app b c (d ++ e ++ f)).
  apply Permutation_app_head, Permutation_app_swap_app.
Qed.
Lemma flips3 (u v w : list (edge pt)) : flips (u ++ v ++ w) = flips u ++ flips v ++ flips w.
Proof. rewrite !flips_app. reflexivity. Qed.
Section Mirror.
  Variable h : pt -> R.
  Variable s : pt -> pt.
  Hypothesis s_inv : forall p, s (s p) = p.
  Hypothesis s_h : forall p, h (s p) = - h p.
  Hypothesis s_fix : forall p, h p = 0 -> s p = p.
  Notation image := (fun e : edge pt => (s (fst e), s (snd e))).
  Notation count := (count_occ edge_dec).

  Lemma count_image (E : list (edge pt)) a b : count (map image E) (a, b) = count E (s a, s b).
  Proof using s_inv.
    clear s_h s_fix. induction E as [|[x y] E IH]; [reflexivity|]. cbn [map count_occ fst snd].
    destruct (edge_dec (s x, s y) (a, b)) as [Q|Q], (edge_dec (x, y) (s a, s b)) as [K|K]; rewrite IH; try reflexivity; exfalso.
    - apply K. injection Q as <- <-. rewrite !s_inv. reflexivity.
    - apply Q. injection K as -> ->. rewrite !s_inv. reflexivity.
  Qed.
  Lemma count_none (E : list (edge pt)) a b : (forall e, In e E -> 0 <= h (fst e) /\ 0 <= h (snd e)) -> h a < 0 \/ h b < 0 -> count E (a, b) = 0%nat.
  Proof using.
    intros H N. apply count_occ_not_In. intros I. destruct (H _ I) as [A B]. cbn in A, B. lra.
  Qed.
  Lemma mirror_balanced (E : list (edge pt)) : (forall e, In e E -> 0 <= h (fst e) /\ 0 <= h (snd e)) ->
    (balanced (E ++ map image E) <-> balanced E).
  Proof using s_inv s_h s_fix.
    intros H. rewrite !(balanced_count edge_dec). split; intros B a b.
    - specialize (B a b). rewrite !count_occ_app, !count_image in B.
      destruct (Rlt_le_dec (h a) 0) as [A|A]; [rewrite !(count_none E) by auto; reflexivity|].
      destruct (Rlt_le_dec (h b) 0) as [C|C]; [rewrite !(count_none E) by auto; reflexivity|].
      destruct (Rle_lt_or_eq_dec 0 (h a) A) as [A'|A']; [rewrite (count_none E (s a) (s b) H), (count_none E (s b) (s a) H) in B by (rewrite !s_h; (left; lra) || (right; lra)); lia|].
      destruct (Rle_lt_or_eq_dec 0 (h b) C) as [C'|C']; [rewrite (count_none E (s a) (s b) H), (count_none E (s b) (s a) H) in B by (rewrite !s_h; (left; lra) || (right; lra)); lia|].
      rewrite (s_fix a), (s_fix b) in B by auto. lia.
    - rewrite !count_occ_app, !count_image, (B a b), (B (s a) (s b)). reflexivity.
  Qed.
  Lemma mirror_turned_balanced (E es loose : list (edge pt)) : Permutation E (es ++ flips es ++ loose) ->
    Forall (fun e => h (fst e) = 0 /\ h (snd e) = 0) loose -> balanced (E ++ flips (map image E)).
  Proof using s_fix.
    intros P F. rewrite (balanced_count edge_dec). intros a b.
    assert (L : map image loose = loose).
    { clear -F s_fix. induction F as [|[x y] l [A B] F IH]; [reflexivity|]. cbn in *. rewrite IH, !s_fix by assumption. reflexivity. }
    assert (FI : map image (flips es) = flips (map image es)) by (unfold flips; rewrite !map_map; reflexivity).
    assert (Q : Permutation (E ++ flips (map image E)) ((es ++ flips (map image es) ++ loose) ++ flips (es ++ flips (map image es) ++ loose))).
    { eapply Permutation_trans; [apply Permutation_app; [exact P|apply flips_perm, Permutation_map, P]|].
      rewrite !map_app, L, FI. generalize (map image es : list (edge pt)). intros js.
      eapply Permutation_trans; [exact (Permutation_app_head _ (Permutation_refl' (flips3 js (flips js) loose)))|].
      eapply Permutation_trans; [|exact (Permutation_app_head _ (Permutation_refl' (eq_sym (flips3 es (flips js) loose))))].
      rewrite !flips_flips. apply perm6. }
    assert (BQ : balanced ((es ++ flips (map image es) ++ loose) ++ flips (es ++ flips (map image es) ++ loose)))
      by apply paired_balanced, paired_pair.
    apply (balanced_count edge_dec). eapply balanced_perm; [symmetry; exact Q|exact BQ].
  Qed.
End Mirror.

Lemma reflect_twice axis p : is_axis axis -> reflect (axis_vec axis) (reflect (axis_vec axis) p) = p.
Proof. intros A. destruct (axis_cases axis A) as [-> | [-> | ->]]; destruct p as [x y z]; unfold reflect, plus_scaled, inner, ex, ey, ez; cbn; f_equal; ring. Qed.
Lemma reflect_coord axis p : is_axis axis -> coord axis (reflect (axis_vec axis) p) = - coord axis p.
Proof. unfold coord. intros A. destruct (axis_cases axis A) as [-> | [-> | ->]]; destruct p as [x y z]; unfold reflect, plus_scaled, inner, ex, ey, ez; cbn; ring. Qed.
Lemma reflect_fix axis p : is_axis axis -> coord axis p = 0 -> reflect (axis_vec axis) p = p.
Proof.
  unfold coord. intros A. destruct (axis_cases axis A) as [-> | [-> | ->]]; destruct p as [x y z]; unfold reflect, plus_scaled, inner, ex, ey, ez; cbn; intros H;
    [assert (x = 0) by lra|assert (y = 0) by lra|assert (z = 0) by lra]; subst; f_equal; ring.
Qed.
Lemma edges_turned (m : list (tri R)) : Permutation (mesh_edges (map turn_over m)) (flips (mesh_edges m)).
Proof.
  induction m as [|t m IH]; [reflexivity|]. change (mesh_edges (map turn_over (t :: m))) with (tri_edges (turn_over t) ++ mesh_edges (map turn_over m)).
  change (mesh_edges (t :: m)) with (tri_edges t ++ mesh_edges m). unfold flips. rewrite map_app. apply Permutation_app; [|exact IH].
  unfold tri_edges, turn_over, flip. cbn. apply (Permutation_cons_app [_; _]). cbn. apply perm_swap.
Qed.
Lemma edges_app (a b : list (tri R)) : mesh_edges (a ++ b) = mesh_edges a ++ mesh_edges b.
Proof. unfold mesh_edges. apply flat_map_app. Qed.
