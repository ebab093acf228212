(** C72: structured grids (geometry/surface.py 143-202). *)
From Coq Require Import String List ZArith Reals Lra Lia Bool.
From Verif Require Import Num NumR Py M_Vector M_Grid.
Import ListNotations.
Local Open Scope R_scope.

(** an n by m table whose (i, j) entry is [f i j] *)
Definition table (n m : nat) (f : nat -> nat -> R) : list (list R) :=
  map (fun i => map (fun j => f i j) (seq 0 m)) (seq 0 n).
Definition share (n i : nat) : R := INR i / INR (n - 1).

Section Generic.
  Context {T : Type} {N : Num T}.
  Definition is_array (d : dyn T) : Prop := exists a, d = Array a.
  Lemma zip_row_err {A} (f : A -> A -> res A) : (forall x y, (exists z, f x y = Ok z) \/ f x y = Raise ValueError) ->
    forall a b, (exists c, zip_row f a b = Ok c) \/ zip_row f a b = Raise ValueError.
  Proof.
    intros Hf. induction a as [|x a IH]; intros [|y b]; cbn; eauto.
    destruct (Hf x y) as [[z ->] | ->]; cbn; [|auto]. destruct (IH b) as [[c ->] | ->]; cbn; eauto.
  Qed.
  (** an operation with an array gives an array, or ValueError *)
  Lemma dbin_array f a b : is_array a \/ is_array b ->
    (exists c, dbin f a b = Ok (Array c)) \/ dbin f a b = Raise ValueError.
  Proof.
    intros H. destruct a as [x|a], b as [y|b]; cbn; eauto.
    - destruct H as [[? H]|[? H]]; discriminate.
    - destruct (zip_row_err (zip_row (fun x y => Ok (f x y))) (fun x y => zip_row_err _ (fun u v => or_introl (ex_intro _ _ eq_refl)) x y) a b) as [[c ->] | ->]; cbn; eauto.
  Qed.
  Lemma dbin_err f (a b : dyn T) : (exists c, dbin f a b = Ok c) \/ dbin f a b = Raise ValueError.
  Proof.
    destruct a as [x|a], b as [y|b]; try (left; cbn; eauto; fail).
    destruct (dbin_array f (Array a) (Array b)) as [[c Hc]|Hc]; [left; eexists; reflexivity|left; eauto|right; exact Hc].
  Qed.
  Lemma dvscale_array v k : is_array k -> dvscale v k = Raise ValueError.
  Proof.
    intros Hk. unfold dvscale, dmul. destruct (dbin_array nmul (vx v) k (or_intror Hk)) as [[c ->] | ->]; cbn; [|reflexivity].
    destruct (dbin_err nmul (vy v) k) as [[y ->] | ->]; cbn; [|reflexivity].
    destruct (dbin_err nmul (vz v) k) as [[z ->] | ->]; reflexivity.
  Qed.
  Lemma one_minus k : is_array k -> exists c, dsub (Scalar n1) k = Ok (Array c).
  Proof. intros [a ->]. cbn. eauto. Qed.

  (** any edges whatever: the first product with an array is rejected *)
  Lemma coons_raises no ea so we p00 p10 p01 p11 off r s : is_array r -> is_array s ->
    exists e, dCoons no ea so we p00 p10 p01 p11 off r s = Raise e /\
      ((forall t, is_ok (no t) /\ is_ok (ea t) /\ is_ok (so t) /\ is_ok (we t)) -> e = ValueError).
  Proof.
    intros Hr Hs. unfold dCoons.
    destruct (so r) as [a|e] eqn:E1; cbn [bind]; [|exists e; split; [reflexivity|intros H; destruct (H r) as (_ & _ & [x Hx] & _); congruence]].
    destruct (no r) as [b|e] eqn:E2; cbn [bind]; [|exists e; split; [reflexivity|intros H; destruct (H r) as ([x Hx] & _); congruence]].
    destruct (we s) as [c|e] eqn:E3; cbn [bind]; [|exists e; split; [reflexivity|intros H; destruct (H s) as (_ & _ & _ & [x Hx]); congruence]].
    destruct (ea s) as [d|e] eqn:E4; cbn [bind]; [|exists e; split; [reflexivity|intros H; destruct (H s) as (_ & [x Hx] & _); congruence]].
    destruct (one_minus s Hs) as [s' ->]. cbn [bind]. rewrite (dvscale_array a (Array s')) by (eexists; reflexivity).
    exists ValueError. split; reflexivity.
  Qed.
  Lemma cone_raises x0 x1 r0 r1 a0 a1 r s : is_array r -> dCone x0 x1 r0 r1 a0 a1 r s = Raise ValueError.
  Proof.
    intros Hr. unfold dCone, dadd, dmul, dsub.
    repeat lazymatch goal with |- bind (dbin ?f (Scalar n1) r) _ = _ =>
        let q := fresh in let Hq := fresh in destruct (one_minus r Hr) as [q Hq]; unfold dsub in Hq; rewrite Hq; cbn [bind]; clear Hq
      | |- bind (dbin ?f (Scalar x0) ?b) _ = _ =>
        let q := fresh "xa" in destruct (dbin_array f (Scalar x0) b) as [[q ->] | ->]; [right; eexists; reflexivity|cbn [bind]|reflexivity]
      | |- bind (dbin ?f (Array ?a) ?b) _ = _ =>
        let q := fresh "x" in destruct (dbin_array f (Array a) b) as [[q ->] | ->]; [left; eexists; reflexivity|cbn [bind]|reflexivity]
      | |- bind (dbin ?f ?a ?b) _ = _ =>
        let q := fresh in destruct (dbin_err f a b) as [[q ->] | ->]; [cbn [bind]|reflexivity] end.
    reflexivity.
  Qed.

  Lemma generate_arrays {V} (call : dyn T -> dyn T -> res V) (niv njv : Z) (cf : list (cluster (T := T))) :
    (2 <= niv)%Z -> (2 <= njv)%Z -> (4 <= length cf)%nat ->
    (exists r s, is_array r /\ is_array s /\ generate (ASurface call) niv njv cf = call r s) \/
    generate (ASurface call) niv njv cf = Raise ValueError.
  Proof.
    intros H1 H2 H4. destruct cf as [|c0 [|c1 [|c2 [|c3 cf]]]]; cbn in H4; try lia. unfold generate.
    destruct (Z.ltb_spec niv 2); [lia|]. destruct (Z.ltb_spec njv 2); [lia|].
    unfold index_i, index_j, ddiv. cbn [dbin bind]. unfold py_nth. cbn [nth_error bind].
    set (r := Array (map _ (map _ (seq 0 (Z.to_nat niv))))). set (s := Array (map _ (map (fun _ => map nnat _) _))).
    assert (Hcl : forall c a, is_array a -> is_array (cl_call c a)) by (intros [f|] a [l ->]; cbn; eexists; reflexivity).
    assert (Hr : is_array r) by (eexists; reflexivity). assert (Hs : is_array s) by (eexists; reflexivity).
    clearbody r s. destruct (one_minus r Hr) as [r' ->], (one_minus s Hs) as [s' ->]. cbn [bind].
    unfold dmul, dadd.
    destruct (dbin_array nmul (Array r') (cl_call c3 s)) as [[a ->] | ->]; [left; eexists; reflexivity|cbn [bind]|right; reflexivity].
    destruct (dbin_array nmul r (cl_call c1 s)) as [[b ->] | ->]; [left; exact Hr|cbn [bind]|right; reflexivity].
    destruct (dbin_array nadd (Array a) (Array b)) as [[sd ->] | ->]; [left; eexists; reflexivity|cbn [bind]|right; reflexivity].
    destruct (dbin_array nmul (Array s') (cl_call c2 r)) as [[c ->] | ->]; [left; eexists; reflexivity|cbn [bind]|right; reflexivity].
    destruct (dbin_array nmul s (cl_call c0 r)) as [[d ->] | ->]; [left; exact Hs|cbn [bind]|right; reflexivity].
    destruct (dbin_array nadd (Array c) (Array d)) as [[rd ->] | ->]; [left; eexists; reflexivity|cbn [bind]|right; reflexivity].
    left. exists (Array rd), (Array sd). repeat split; eexists; reflexivity.
  Qed.

  (** *** C72: no grid of a Coons patch, whatever its edges, corners and offset,
      and whatever the arithmetic; when the edges can be evaluated the exception
      is the ValueError of the vector constructor *)
  Theorem C72_coons no ea so we p00 p10 p01 p11 off niv njv cf :
    exists e, StructuredGrid (ASurface (dCoons no ea so we p00 p10 p01 p11 off)) niv njv cf = Raise e /\
      ((2 <= niv)%Z -> (2 <= njv)%Z -> cf = None \/ (exists l, cf = Some l /\ (4 <= length l)%nat) ->
       (forall t, is_ok (no t) /\ is_ok (ea t) /\ is_ok (so t) /\ is_ok (we t)) -> e = ValueError).
  Proof.
    unfold StructuredGrid. cbn [bind]. set (l := match cf with Some l => l | None => _ end).
    replace (bind_keywords _ _ _) with (Ok tt) by reflexivity. cbn [bind].
    destruct (Z_lt_le_dec niv 2) as [A|A].
    { unfold generate. rewrite (proj2 (Z.ltb_lt _ _) A). eexists; split; [reflexivity|lia]. }
    destruct (Z_lt_le_dec njv 2) as [B|B].
    { unfold generate. rewrite (proj2 (Z.ltb_lt _ _) B). destruct (niv <? 2)%Z; eexists; (split; [reflexivity|lia]). }
    destruct (le_lt_dec 4 (length l)) as [C|C].
    - destruct (generate_arrays (dCoons no ea so we p00 p10 p01 p11 off) niv njv l A B C) as [(r & s & Hr & Hs & ->) | ->].
      + destruct (coons_raises no ea so we p00 p10 p01 p11 off r s Hr Hs) as (e & -> & He). exists e. split; [reflexivity|]. intros _ _ _ H. exact (He H).
      + exists ValueError. split; reflexivity.
    - assert (G : generate (ASurface (dCoons no ea so we p00 p10 p01 p11 off)) niv njv l = Raise IndexError).
      { unfold generate. destruct (Z.ltb_spec niv 2); [lia|]. destruct (Z.ltb_spec njv 2); [lia|].
        unfold index_i, index_j, ddiv. cbn [dbin bind]. unfold py_nth.
        destruct l as [|c0 [|c1 [|c2 [|c3 ?]]]]; cbn in C; try lia; reflexivity. }
      rewrite G. exists IndexError. split; [reflexivity|]. intros _ _ [-> |(l' & -> & Hl)]; cbn in l; unfold l in C; cbn in C; lia.
  Qed.

  (** *** C72: nor of a cone *)
  Theorem C72_cone x0 x1 r0 r1 a0 a1 (niv njv : Z) :
    StructuredGrid (ASurface (dCone x0 x1 r0 r1 a0 a1)) niv njv None =
    Raise (if ((niv <? 2) || (njv <? 2))%Z then GenericError else ValueError).
  Proof.
    unfold StructuredGrid. replace (bind_keywords _ _ _) with (Ok tt) by reflexivity. cbn [bind].
    destruct (Z.ltb_spec niv 2) as [A|A]; [unfold generate; rewrite (proj2 (Z.ltb_lt _ _) A); reflexivity|].
    destruct (Z.ltb_spec njv 2) as [B|B]; [unfold generate; rewrite (proj2 (Z.ltb_lt _ _) B), (proj2 (Z.ltb_ge _ _) A); reflexivity|].
    cbn [orb]. destruct (generate_arrays (dCone x0 x1 r0 r1 a0 a1) niv njv [None; None; None; None] A B) as [(r & s & Hr & Hs & ->) | ->]; [cbn; lia| |reflexivity].
    apply cone_raises, Hr.
  Qed.

  (** *** C72: the paths themselves reject arrays, except a Bezier curve with a
      single control point, which ignores its parameter *)
  Theorem C72_paths (p0 p1 : vec T) B t : is_array t ->
    dLine p0 p1 t = Raise ValueError /\
    dBezier B t = match B with [] => Raise IndexError | [b] => Ok (dvec b) | _ => Raise ValueError end.
  Proof.
    intros Ht. destruct (one_minus t Ht) as [t' E]. split.
    - unfold dLine. rewrite E. cbn [bind]. rewrite dvscale_array by (eexists; reflexivity). reflexivity.
    - destruct B as [|a [|b B]]; [reflexivity|reflexivity|]. unfold dBezier.
      change (List.length (a :: b :: B) - 1)%nat with (S (List.length B)). cbn [dbez_loop map dbez_pass].
      rewrite E. cbn [bind]. rewrite dvscale_array by (eexists; reflexivity). reflexivity.
  Qed.

  (** *** C72: sizes below two are rejected before anything is evaluated, so is
      an object that is no surface, and no subgrid can be taken *)
  Theorem C72_rejected {V} (call : dyn T -> dyn T -> res V) niv njv cf rest : (niv < 2 \/ njv < 2)%Z ->
    StructuredGrid (ASurface call) niv njv cf = Raise GenericError /\
    StructuredGrid (NotASurface (V := V)) niv njv cf = Raise GenericError /\
    subgrid rest = Raise (A := V) TypeError.
  Proof.
    intros H. unfold StructuredGrid, subgrid. cbn -[generate]. repeat split. unfold generate.
    destruct (Z.ltb_spec niv 2); [reflexivity|]. destruct (Z.ltb_spec njv 2); [reflexivity|lia].
  Qed.
End Generic.

(** *** C72: what a surface that does accept arrays is given (exact arithmetic):
    the edge distributions blended linearly across the unit square *)
Definition edge (c : option (R -> R)) (x : R) : R := match c with Some f => f x | None => x end.

Lemma zip_row_map {A} (f : A -> A -> res A) (g : A -> A -> A) {I} (l : list I) (a b : I -> A) :
  (forall i, In i l -> f (a i) (b i) = Ok (g (a i) (b i))) ->
  zip_row f (map a l) (map b l) = Ok (map (fun i => g (a i) (b i)) l).
Proof.
  induction l as [|i l IH]; intros H; cbn; [reflexivity|].
  rewrite H by (left; reflexivity). cbn. rewrite IH by (intros; apply H; right; assumption). reflexivity.
Qed.
Lemma table_zip n m (op : R -> R -> R) f g :
  dbin op (Array (table n m f)) (Array (table n m g)) = Ok (Array (table n m (fun i j => op (f i j) (g i j)))).
Proof.
  cbn [dbin]. unfold table.
  rewrite (zip_row_map _ (fun u v => map (fun uv => op (fst uv) (snd uv)) (combine u v))).
  - cbn [bind]. do 2 f_equal. apply map_ext. intros i. generalize (seq 0 m). induction l as [|j l IH]; cbn; [reflexivity|f_equal; exact IH].
  - intros i _. rewrite (zip_row_map _ op) by reflexivity. f_equal.
    generalize (seq 0 m). induction l as [|j l IH]; cbn; [reflexivity|f_equal; exact IH].
Qed.
Lemma table_map n m (h : R -> R) f : map (map h) (table n m f) = table n m (fun i j => h (f i j)).
Proof. unfold table. rewrite map_map. apply map_ext. intros i. apply map_map. Qed.
Lemma table_ext n m f g : (forall i j, (i < n)%nat -> (j < m)%nat -> f i j = g i j) -> table n m f = table n m g.
Proof.
  intros H. unfold table. apply map_ext_in. intros i Hi. apply in_seq in Hi. apply map_ext_in. intros j Hj. apply in_seq in Hj. apply H; lia.
Qed.

Theorem C72_parameters {V} (call : dyn R -> dyn R -> res V) (n m : nat) (cN cE cS cW : option (R -> R)) :
  (2 <= n)%nat -> (2 <= m)%nat ->
  StructuredGrid (ASurface call) (Z.of_nat n) (Z.of_nat m) (Some [cN; cE; cS; cW]) =
  call (Array (table n m (fun i j => (1 - share m j) * edge cS (share n i) + share m j * edge cN (share n i))))
       (Array (table n m (fun i j => (1 - share n i) * edge cW (share m j) + share n i * edge cE (share m j)))).
Proof.
  intros Hn Hm. unfold StructuredGrid. replace (bind_keywords _ _ _) with (Ok tt) by reflexivity. cbn [bind]. unfold generate.
  destruct (Z.ltb_spec (Z.of_nat n) 2); [lia|]. destruct (Z.ltb_spec (Z.of_nat m) 2); [lia|].
  assert (Sh : forall k i, (2 <= k)%nat -> ndiv (nnat i) (nZ (Z.of_nat k - 1)) = share k i).
  { intros k i Hk. unfold share. change (IZR (Z.of_nat i) / IZR (Z.of_nat k - 1) = INR i / INR (k - 1)).
    rewrite !INR_IZR_INZ. f_equal. f_equal. f_equal. lia. }
  assert (Ei : ddiv (index_i (Z.to_nat (Z.of_nat n)) (Z.to_nat (Z.of_nat m))) (Scalar (nZ (Z.of_nat n - 1))) = Ok (Array (table n m (fun i j => share n i)))).
  { rewrite !Nat2Z.id. unfold ddiv, index_i. cbn [dbin]. do 2 f_equal.
    change (map (fun i => map (fun _ => nnat i) (seq 0 m)) (seq 0 n)) with (table n m (fun i _ => nnat i)). rewrite table_map. apply table_ext. intros. apply Sh, Hn. }
  assert (Ej : ddiv (index_j (Z.to_nat (Z.of_nat n)) (Z.to_nat (Z.of_nat m))) (Scalar (nZ (Z.of_nat m - 1))) = Ok (Array (table n m (fun i j => share m j)))).
  { rewrite !Nat2Z.id. unfold ddiv, index_j. cbn [dbin]. do 2 f_equal.
    change (map (fun _ => map nnat (seq 0 m)) (seq 0 n)) with (table n m (fun _ j => nnat j)). rewrite table_map. apply table_ext. intros. apply Sh, Hm. }
  rewrite Ei, Ej. cbn [bind py_nth nth_error]. unfold py_nth. cbn [nth_error bind].
  assert (Cl : forall c f, cl_call c (Array (table n m f)) = Array (table n m (fun i j => edge c (f i j)))).
  { intros [c|] f; cbn [cl_call dun edge]; [rewrite table_map; reflexivity|reflexivity]. }
  rewrite !Cl.
  assert (Om : forall f, dsub (Scalar n1) (Array (table n m f)) = Ok (Array (table n m (fun i j => 1 - f i j)))).
  { intros f. unfold dsub. cbn [dbin]. rewrite table_map. reflexivity. }
  rewrite !Om. cbn [bind]. unfold dmul, dadd. repeat (rewrite table_zip; cbn [bind]).
  reflexivity.
Qed.

(** three by two grid, south edge clustered with x^2 *)
Example C72_meets :
  StructuredGrid (ASurface (fun r s => Ok (r, s))) 3 2 (Some [None; None; Some (fun x => x * x); None]) =
  Ok (Array [[0; 0]; [1 / 4; 1 / 2]; [1; 1]], Array [[0; 1]; [0; 1]; [0; 1]]).
Proof.
  pose proof (C72_parameters (fun r s => Ok (r, s)) 3 2 None None (Some (fun x => x * x)) None ltac:(lia) ltac:(lia)) as H.
  change (Z.of_nat 3) with 3%Z in H. change (Z.of_nat 2) with 2%Z in H. rewrite H. unfold table, share, edge. cbn.
  repeat (f_equal; try lra).
Qed.

Print Assumptions C72_coons.
Print Assumptions C72_cone.
Print Assumptions C72_paths.
Print Assumptions C72_rejected.
Print Assumptions C72_parameters.
