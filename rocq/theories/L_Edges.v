(** Directed-edge bookkeeping. *)
From Coq Require Import List Permutation Arith Lia.
From Verif Require Import M_Vector M_Mesh SpecMesh.
Import ListNotations.

Section Algebra.
  Context {A : Type}.
  Notation E := (list (edge A)).

  Lemma flips_app (a b : E) : flips (a ++ b) = flips a ++ flips b.
  Proof. apply map_app. Qed.
  Lemma flips_flips (a : E) : flips (flips a) = a.
  Proof.
    unfold flips. rewrite map_map. rewrite <- (map_id a) at 2. apply map_ext.
    intros [x y]; reflexivity.
  Qed.
  Lemma flips_perm (a b : E) : Permutation a b -> Permutation (flips a) (flips b).
  Proof. apply Permutation_map. Qed.
  Lemma flips_length (a : E) : length (flips a) = length a.
  Proof. apply map_length. Qed.
  Lemma flips_flat_map {B} (f : B -> E) l : flips (flat_map f l) = flat_map (fun x => flips (f x)) l.
  Proof. induction l; cbn [flat_map]; [reflexivity|]. rewrite flips_app, IHl. reflexivity. Qed.

  Lemma paired_balanced (a : E) : paired a -> balanced a.
  Proof.
    intros [es H]. unfold balanced. rewrite H at 1. rewrite Permutation_app_comm.
    rewrite (flips_perm _ _ H), flips_app, flips_flips. reflexivity.
  Qed.
  Lemma paired_perm (a b : E) : Permutation a b -> paired a -> paired b.
  Proof. intros H [es K]. exists es. rewrite <- H. exact K. Qed.
  Lemma paired_nil : paired (@nil (edge A)).
  Proof. exists []. reflexivity. Qed.
  Lemma paired_pair (a : E) : paired (a ++ flips a).
  Proof. exists a. reflexivity. Qed.
  Lemma perm4 {B} (a b c d : list B) : Permutation ((a ++ b) ++ c ++ d) ((a ++ c) ++ b ++ d).
  Proof.
    rewrite <- !app_assoc. apply Permutation_app_head.
    rewrite !app_assoc. apply Permutation_app_tail, Permutation_app_comm.
  Qed.
  Lemma paired_app (a b : E) : paired a -> paired b -> paired (a ++ b).
  Proof.
    intros [x H] [y K]. exists (x ++ y). rewrite H, K, flips_app. apply perm4.
  Qed.
  Lemma paired_flat_map {B} (f : B -> E) l : (forall x, In x l -> paired (f x)) -> paired (flat_map f l).
  Proof.
    induction l as [|x l IH]; intros H; cbn [flat_map]; [apply paired_nil|].
    apply paired_app; [apply H; left; auto|apply IH; intros; apply H; right; auto].
  Qed.

  Lemma balanced_perm (a b : E) : Permutation a b -> balanced a -> balanced b.
  Proof.
    unfold balanced. intros H K. apply Permutation_trans with a; [symmetry; exact H|].
    apply Permutation_trans with (flips a); [exact K|apply flips_perm, H].
  Qed.
  Lemma balanced_app (a b : E) : balanced a -> balanced b -> balanced (a ++ b).
  Proof. unfold balanced. intros H K. rewrite flips_app. apply Permutation_app; auto. Qed.
  Lemma balanced_cancel (a b : E) : balanced b -> balanced (a ++ b) -> balanced a.
  Proof.
    unfold balanced. intros H K. rewrite flips_app in K.
    apply (Permutation_app_inv_r b). rewrite K. apply Permutation_app_head. symmetry; exact H.
  Qed.
  Lemma balanced_loops (a : E) : (forall e, In e a -> fst e = snd e) -> balanced a.
  Proof.
    intros H. unfold balanced. replace (flips a) with a; [reflexivity|].
    unfold flips. rewrite <- map_id at 1. apply map_ext_in. intros [x y] I.
    specialize (H _ I). cbn in H. subst. reflexivity.
  Qed.

  (** E is F together with opposite pairs *)
  Definition reduces (e f : E) : Prop := exists p, paired p /\ Permutation e (f ++ p).
  Lemma reduces_refl e : reduces e e.
  Proof. exists []. split; [apply paired_nil|rewrite app_nil_r; reflexivity]. Qed.
  Lemma reduces_perm e f : Permutation e f -> reduces e f.
  Proof. intros H. exists []. split; [apply paired_nil|rewrite app_nil_r; exact H]. Qed.
  Lemma reduces_trans e f g : reduces e f -> reduces f g -> reduces e g.
  Proof.
    intros (p & P & H) (q & Q & K). exists (q ++ p). split; [apply paired_app; auto|].
    rewrite H, K. rewrite app_assoc. reflexivity.
  Qed.
  Lemma reduces_app e f e' f' : reduces e f -> reduces e' f' -> reduces (e ++ e') (f ++ f').
  Proof.
    intros (p & P & H) (q & Q & K). exists (p ++ q). split; [apply paired_app; auto|].
    rewrite H, K. apply perm4.
  Qed.
  Lemma reduces_flat_map {B} (f g : B -> E) l : (forall x, In x l -> reduces (f x) (g x)) ->
    reduces (flat_map f l) (flat_map g l).
  Proof.
    induction l as [|x l IH]; intros H; cbn [flat_map]; [apply reduces_refl|].
    apply reduces_app; [apply H; left; auto|apply IH; intros; apply H; right; auto].
  Qed.
  Lemma reduces_pair e f g : reduces e (f ++ g ++ flips g) -> reduces e f.
  Proof.
    intros H. eapply reduces_trans; [exact H|]. exists (g ++ flips g). split; [apply paired_pair|reflexivity].
  Qed.
  Lemma reduces_paired e f : reduces e f -> paired f -> paired e.
  Proof. intros (p & P & H) Q. symmetry in H. eapply paired_perm; [exact H|]. apply paired_app; auto. Qed.
  Lemma reduces_balanced e f : reduces e f -> (balanced e <-> balanced f).
  Proof.
    intros (p & P & H). apply paired_balanced in P. split; intros B.
    - apply (balanced_cancel f p P). eapply balanced_perm; [exact H|exact B].
    - symmetry in H. eapply balanced_perm; [exact H|]. apply balanced_app; auto.
  Qed.

  Lemma reduces_flips (e f : E) : reduces e f -> reduces (flips e) (flips f).
  Proof.
    intros (p & [es P] & H). exists (flips p). split.
    - exists (flips es). rewrite <- flips_app. apply flips_perm, P.
    - rewrite <- flips_app. apply flips_perm, H.
  Qed.
  Lemma flat_map_single {B} (f : B -> edge A) l : flat_map (fun x => [f x]) l = map f l.
  Proof. induction l; cbn; congruence. Qed.
  Lemma flat_map_split {B} (f g : B -> E) l :
    Permutation (flat_map (fun x => f x ++ g x) l) (flat_map f l ++ flat_map g l).
  Proof.
    induction l as [|x l IH]; cbn [flat_map]; [reflexivity|]. rewrite IH. apply perm4.
  Qed.
  Lemma flat_map_ext_in {B} (f g : B -> E) l : (forall x, In x l -> f x = g x) -> flat_map f l = flat_map g l.
  Proof.
    induction l as [|x l IH]; intros H; cbn [flat_map]; [reflexivity|].
    rewrite (H x) by (left; auto). rewrite IH by (intros; apply H; right; auto). reflexivity.
  Qed.

  (** telescoping; for an empty range the two sides would differ by a pair *)
  Lemma telescope (V : nat -> E) n :
    reduces (flat_map (fun i => V i ++ flips (V (S i))) (seq 0 (S n))) (V 0 ++ flips (V (S n))).
  Proof.
    induction n as [|n IH].
    - cbn [seq flat_map]. rewrite app_nil_r. apply reduces_refl.
    - rewrite seq_S, flat_map_app. cbn [flat_map Nat.add]. rewrite app_nil_r.
      eapply reduces_trans; [apply reduces_app; [exact IH|apply reduces_refl]|].
      apply reduces_pair with (g := V (S n)).
      apply reduces_perm.
      rewrite (Permutation_app_comm (V (S n)) (flips (V (S (S n))))), perm4.
      apply Permutation_app_head, Permutation_app_comm.
  Qed.
End Algebra.

(** counting occurrences, when equality is decidable *)
Lemma balanced_count {A} (dec : forall x y : edge A, {x = y} + {x <> y}) (l : list (edge A)) :
  balanced l <-> forall a b, count_occ dec l (a, b) = count_occ dec l (b, a).
Proof.
  assert (F : forall e, count_occ dec (flips l) (flip e) = count_occ dec l e).
  { intros e. induction l as [|x l IH]; [reflexivity|].
    change (flips (x :: l)) with (flip x :: flips l). cbn [count_occ].
    destruct (dec (flip x) (flip e)) as [H|H], (dec x e) as [K|K]; rewrite ?IH; try reflexivity.
    - exfalso. apply K. destruct x, e; cbv in H; congruence.
    - exfalso. apply H. subst. reflexivity. }
  unfold balanced. split; intros H.
  - intros a b. transitivity (count_occ dec (flips l) (b, a)).
    + symmetry. exact (F (a, b)).
    + symmetry. exact (proj1 (Permutation_count_occ dec _ _) H (b, a)).
  - apply (Permutation_count_occ dec). intros [a b].
    transitivity (count_occ dec l (b, a)); [apply H|symmetry; exact (F (b, a))].
Qed.

Section Chains.
  Context {A : Type}.
  Lemma chain_ext (f g : nat -> A) n : (forall k, k <= n -> f k = g k) -> chain f n = chain g n.
  Proof.
    intros H. unfold chain. apply map_ext_in. intros k K. apply in_seq in K. rewrite !H by lia. reflexivity.
  Qed.
  (** running a chain backwards *)
  Lemma chain_rev (f : nat -> A) n : Permutation (chain (fun k => f (n - k)) n) (flips (chain f n)).
  Proof.
    unfold chain, flips. rewrite map_map. cbn [fst snd].
    rewrite (Permutation_rev (map _ (seq 0 n))) at 1. rewrite <- map_rev.
    assert (R : rev (seq 0 n) = map (fun k => n - 1 - k) (seq 0 n)).
    { apply (nth_ext _ _ 0 0).
      - rewrite rev_length, map_length. reflexivity.
      - intros k Hk. rewrite rev_length, seq_length in Hk. rewrite rev_nth by (rewrite seq_length; lia).
        rewrite (nth_indep (map _ _) 0 (n - 1 - 0)) by (rewrite map_length, seq_length; lia).
        rewrite (map_nth (fun k => n - 1 - k)), seq_length, !seq_nth by lia. lia. }
    rewrite R, map_map. apply Permutation_refl'. apply map_ext_in. intros k K. apply in_seq in K.
    unfold flip. cbn [fst snd]. f_equal; f_equal; lia.
  Qed.
  Lemma chain_const (f : nat -> A) n c : (forall k, k <= n -> f k = c) -> forall e, In e (chain f n) -> fst e = snd e.
  Proof.
    intros H e I. unfold chain in I. apply in_map_iff in I. destruct I as (k & <- & K). apply in_seq in K.
    cbn. rewrite !H by lia. reflexivity.
  Qed.
End Chains.

(** ** the edges of a grid mesh *)
Ltac perm_find x r :=
  match r with
  | x :: ?t => let A := type of x in constr:((@nil A, t))
  | ?y :: ?t => match perm_find x t with (?a, ?b) => constr:((y :: a, b)) end
  end.
Ltac perm_solve :=
  repeat match goal with
  | |- Permutation nil nil => apply perm_nil
  | |- Permutation (?x :: ?l) ?r =>
      match perm_find x r with (?a, ?b) =>
        apply (Permutation_cons_app a b x); cbn [app] end
  end.

Section Grid.
  Context {T : Type} (Q C : nat -> nat -> vec T).

  Lemma mesh_edges_app (a b : list (tri T)) : mesh_edges (a ++ b) = mesh_edges a ++ mesh_edges b.
  Proof. apply flat_map_app. Qed.
  Lemma mesh_edges_flat_map {B} (f : B -> list (tri T)) l :
    mesh_edges (flat_map f l) = flat_map (fun x => mesh_edges (f x)) l.
  Proof. induction l; cbn [flat_map]; [reflexivity|]. rewrite mesh_edges_app, IHl. reflexivity. Qed.
  Lemma mesh_edges_concat (l : list (list (tri T))) : mesh_edges (concat l) = flat_map mesh_edges l.
  Proof. induction l; cbn [concat flat_map]; [reflexivity|]. rewrite mesh_edges_app, IHl. reflexivity. Qed.
  Lemma mesh_edges_perm (a b : list (tri T)) : Permutation a b -> Permutation (mesh_edges a) (mesh_edges b).
  Proof. intros H. unfold mesh_edges. apply Permutation_flat_map, H. Qed.

  Definition hedge i j : list (edge (vec T)) := [(Q i j, Q (S i) j)].
  Definition vedge i j : list (edge (vec T)) := [(Q i j, Q i (S j))].

  Lemma cell_reduces i j :
    reduces (mesh_edges (map (cell_tri Q C i j) (seq 0 4)))
            ((hedge i j ++ flips (hedge i (S j))) ++ (vedge (S i) j ++ flips (vedge i j))).
  Proof.
    exists ([(Q i j, C i j); (Q (S i) j, C i j); (Q (S i) (S j), C i j); (Q i (S j), C i j)]
      ++ flips [(Q i j, C i j); (Q (S i) j, C i j); (Q (S i) (S j), C i j); (Q i (S j), C i j)]).
    split; [apply paired_pair|].
    cbv [map seq mesh_edges flat_map tri_edges cell_tri at_corner corner fst snd t0 t1 t2 app
         hedge vedge flips flip].
    perm_solve.
  Qed.

  Lemma grid_reduces ni nj :
    reduces (mesh_edges (grid_mesh Q C (S ni) (S nj))) (outline Q (S ni) (S nj)).
  Proof.
    unfold grid_mesh. rewrite mesh_edges_flat_map.
    eapply reduces_trans.
    { apply reduces_flat_map. intros i _. rewrite mesh_edges_flat_map.
      eapply reduces_trans; [apply reduces_flat_map; intros j _; apply cell_reduces|].
      eapply reduces_trans; [apply reduces_perm, flat_map_split|].
      apply reduces_app; [apply (telescope (hedge i))|apply reduces_perm, flat_map_split]. }
    eapply reduces_trans; [apply reduces_perm, flat_map_split|].
    eapply reduces_trans.
    { apply reduces_app; [apply reduces_perm, flat_map_split|].
      set (V := fun i => flat_map (vedge i) (seq 0 (S nj))).
      rewrite (flat_map_ext_in _ (fun i => flips (flips (V (S i)) ++ V i))).
      2:{ intros i _. rewrite flips_app, flips_flips. unfold V. rewrite flips_flat_map. reflexivity. }
      rewrite <- flips_flat_map.
      eapply reduces_trans; [apply reduces_flips|].
      { eapply reduces_trans; [|apply (telescope V)]. apply reduces_flat_map. intros i _.
        apply reduces_perm, Permutation_app_comm. }
      rewrite flips_app, flips_flips. apply reduces_perm, Permutation_app_comm. }
    apply reduces_perm. unfold outline, south_side, east_side, north_side, west_side, chain.
    rewrite <- !flips_flat_map.
    assert (H1 : forall j l, flat_map (fun x => hedge x j) l = map (fun x => (Q x j, Q (S x) j)) l)
      by (intros; apply flat_map_single).
    assert (V1 : forall i l, flat_map (vedge i) l = map (fun x => (Q i x, Q i (S x))) l)
      by (intros i l; apply (flat_map_single (fun x => (Q i x, Q i (S x))))).
    rewrite !H1, !V1. rewrite <- !app_assoc. apply Permutation_app_head.
    rewrite !app_assoc. apply Permutation_app_tail, Permutation_app_comm.
  Qed.
End Grid.
