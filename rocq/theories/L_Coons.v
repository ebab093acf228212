From Coq Require Import Reals Lra Psatz ZArith List Lia Bool String.
From Verif Require Import Num NumR Py M_Vector SpecR3 M_Path M_Surface
  SpecPath SpecPoly SpecSurf L_Vector L_Line.
Import ListNotations.
Local Open Scope R_scope.

Lemma isclose_near a b : np_isclose a b (1 / 100) (1 / 100000) = true <-> near1 a b.
Proof. unfold np_isclose, near1. numR. apply Rleb_true. Qed.

Lemma approx_near (a b : pt) : approximately_equal_vectors a b = true <-> near a b.
Proof.
  unfold approximately_equal_vectors, near. rewrite !andb_true_iff.
  change (nlit 1 100 : R) with (1 / 100). change (nlit 1 100000 : R) with (1 / 100000).
  rewrite !isclose_near. reflexivity.
Qed.
Lemma approx_dec (a b : pt) : near a b \/ ~ near a b.
Proof.
  destruct (approximately_equal_vectors a b) eqn:E.
  - left; apply approx_near, E.
  - right. intros H. apply approx_near in H. congruence.
Qed.

Section Edges.
  Variables n e s w : path R.
  Variables gn ge gs gw : R -> pt.
  Hypothesis Hn : evaluates n gn.
  Hypothesis He : evaluates e ge.
  Hypothesis Hs : evaluates s gs.
  Hypothesis Hw : evaluates w gw.

  Notation corners_ok := (corners_near gn ge gs gw).

  Lemma coons_edges_ok o : corners_ok ->
    Coons_edges n e s w o = Ok (mkCoons n e s w (gs 0) (gs 1) (gn 1) (gn 0) o).
  Proof.
    intros (A & B & C & D). unfold Coons_edges. unfold n0, n1. cbn [nZ NumR].
    rewrite !(Hs _), !(Hn _), !(Hw _), !(He _). cbn [bind].
    apply approx_near in A, B, C, D. rewrite A, B, C, D. reflexivity.
  Qed.

  Lemma coons_edges_fail o : ~ corners_ok -> Coons_edges n e s w o = Raise GenericError.
  Proof.
    intros H. unfold Coons_edges. unfold n0, n1. cbn [nZ NumR].
    rewrite !(Hs _), !(Hn _), !(Hw _), !(He _). cbn [bind].
    destruct (approximately_equal_vectors (gs 0) (gw 0)) eqn:A; [|reflexivity].
    destruct (approximately_equal_vectors (gs 1) (ge 0)) eqn:B; [|reflexivity].
    destruct (approximately_equal_vectors (gn 0) (gw 1)) eqn:C; [|reflexivity].
    destruct (approximately_equal_vectors (gn 1) (ge 1)) eqn:D; [|reflexivity].
    exfalso. apply H. split; [|split; [|split]]; apply approx_near; assumption.
  Qed.

  Lemma corners_dec : corners_ok \/ ~ corners_ok.
  Proof.
    unfold corners_near.
    destruct (approx_dec (gs 0) (gw 0)), (approx_dec (gs 1) (ge 0)),
      (approx_dec (gn 0) (gw 1)), (approx_dec (gn 1) (ge 1)); tauto.
  Qed.

  Lemma coons_edges_iff o : is_ok (Coons_edges n e s w o) <-> corners_ok.
  Proof.
    split.
    - intros [c Hc]. destruct corners_dec as [K|K]; [exact K|].
      rewrite coons_edges_fail in Hc by exact K. discriminate.
    - intros K. rewrite coons_edges_ok by exact K. eexists; reflexivity.
  Qed.

  (** value at any parameters *)
  Definition coons_val (o : pt) (r t : R) : pt :=
    V3 ((1 - t) * vx (gs r) + t * vx (gn r) + (1 - r) * vx (gw t) + r * vx (ge t)
        - ((1 - r) * (1 - t) * vx (gs 0) + (1 - r) * t * vx (gn 0)
           + r * (1 - t) * vx (gs 1) + r * t * vx (gn 1)) + vx o)
       ((1 - t) * vy (gs r) + t * vy (gn r) + (1 - r) * vy (gw t) + r * vy (ge t)
        - ((1 - r) * (1 - t) * vy (gs 0) + (1 - r) * t * vy (gn 0)
           + r * (1 - t) * vy (gs 1) + r * t * vy (gn 1)) + vy o)
       ((1 - t) * vz (gs r) + t * vz (gn r) + (1 - r) * vz (gw t) + r * vz (ge t)
        - ((1 - r) * (1 - t) * vz (gs 0) + (1 - r) * t * vz (gn 0)
           + r * (1 - t) * vz (gs 1) + r * t * vz (gn 1)) + vz o).

  Lemma coons_value o c r t : Coons_edges n e s w o = Ok c ->
    Coons_call c r t = Ok (coons_val o r t).
  Proof.
    intros Hc. assert (K : corners_ok) by (apply (coons_edges_iff o); eexists; exact Hc).
    rewrite (coons_edges_ok o K) in Hc. injection Hc as <-.
    unfold Coons_call. cbn [c_north c_east c_south c_west c_p00 c_p10 c_p11 c_p01 c_offset].
    rewrite (Hs r), (Hn r), (Hw t), (He t). cbn [bind]. f_equal.
    unfold coons_val. vunf. apply vec_ext; cbn; ring.
  Qed.

  Lemma coons_boundary o c : Coons_edges n e s w o = Ok c ->
    (forall t, Coons_call c 0 t = Ok (translate (gw t) o)) /\
    (forall t, Coons_call c 1 t = Ok (translate (ge t) o)) /\
    (forall r, Coons_call c r 0 =
       Ok (translate (translate (gs r) (blend_err r (gw 0) (gs 0) (ge 0) (gs 1))) o)) /\
    (forall r, Coons_call c r 1 =
       Ok (translate (translate (gn r) (blend_err r (gw 1) (gn 0) (ge 1) (gn 1))) o)).
  Proof.
    intros Hc. repeat split; intros; rewrite (coons_value o c) by exact Hc; f_equal;
      unfold coons_val, translate, blend_err; apply vec_ext; cbn; ring.
  Qed.

  Lemma coons_exact o : gs 0 = gw 0 -> gs 1 = ge 0 -> gn 0 = gw 1 -> gn 1 = ge 1 ->
    exists c, Coons_edges n e s w o = Ok c /\
      (forall t, Coons_call c 0 t = Ok (translate (gw t) o)) /\
      (forall t, Coons_call c 1 t = Ok (translate (ge t) o)) /\
      (forall r, Coons_call c r 0 = Ok (translate (gs r) o)) /\
      (forall r, Coons_call c r 1 = Ok (translate (gn r) o)).
  Proof.
    intros E1 E2 E3 E4.
    assert (N : forall p, near p p).
    { intros p. unfold near, near1. repeat split;
      (match goal with |- Rabs (?x - ?x) <= _ => replace (x - x) with 0 by ring;
        rewrite Rabs_R0; pose proof (Rabs_pos x); lra end). }
    assert (K : corners_ok)
      by (split; [rewrite E1|split; [rewrite E2|split; [rewrite E3|rewrite E4]]]; apply N).
    eexists. split; [apply coons_edges_ok, K|].
    destruct (coons_boundary o _ (coons_edges_ok o K)) as (B1 & B2 & B3 & B4).
    split; [exact B1|]. split; [exact B2|]. split; intros r.
    - rewrite B3, E1, E2. f_equal. unfold translate, blend_err; apply vec_ext; cbn; ring.
    - rewrite B4, E3, E4. f_equal. unfold translate, blend_err; apply vec_ext; cbn; ring.
  Qed.

  Lemma coons_total o c r t : Coons_edges n e s w o = Ok c -> is_ok (Coons_call c r t).
  Proof. intros H. eexists. apply coons_value, H. Qed.
End Edges.

Lemma blend_small k x y d e : 0 <= k <= 1 -> Rabs x <= d -> Rabs y <= e ->
  Rabs ((1 - k) * x + k * y) <= (1 - k) * d + k * e.
Proof.
  intros Hk Hx Hy. eapply Rle_trans; [apply Rabs_triang|].
  rewrite !Rabs_mult, (Rabs_right (1 - k)), (Rabs_right k) by lra. nra.
Qed.

(** ** construction from corners *)
Lemma coons_corners_value p00 p10 p11 p01 o r t :
  Coons_call (Coons_corners p00 p10 p11 p01 o) r t
  = Ok (translate (bilinear p00 p10 p11 p01 r t) o).
Proof.
  unfold Coons_call, Coons_corners.
  cbn [c_north c_east c_south c_west c_p00 c_p10 c_p11 c_p01 c_offset].
  rewrite !line_lerp. cbn [bind]. f_equal. unfold bilinear, lerp, translate. vunf.
  apply vec_ext; cbn; ring.
Qed.

Lemma coons_init_cases (n e s w : option (path R)) (p00 p10 p11 p01 : option pt) o :
  (forall n' e' s' w', n = Some n' -> e = Some e' -> s = Some s' -> w = Some w' ->
     CoonsPatch_init n e s w p00 p10 p11 p01 o = Coons_edges n' e' s' w' o) /\
  ((n = None \/ e = None \/ s = None \/ w = None) ->
     (forall a b c d, p00 = Some a -> p10 = Some b -> p11 = Some c -> p01 = Some d ->
        CoonsPatch_init n e s w p00 p10 p11 p01 o = Ok (Coons_corners a b c d o)) /\
     ((p00 = None \/ p10 = None \/ p11 = None \/ p01 = None) ->
        CoonsPatch_init n e s w p00 p10 p11 p01 o = Raise GenericError)).
Proof.
  split.
  - intros; subst; reflexivity.
  - intros H. split.
    + intros; subst. destruct n, e, s, w; try reflexivity;
        destruct H as [H|[H|[H|H]]]; discriminate.
    + intros K. destruct n, e, s, w, p00, p10, p11, p01; try reflexivity;
        try (destruct H as [H|[H|[H|H]]]; discriminate);
        try (destruct K as [K|[K|[K|K]]]; discriminate).
Qed.

(** ** displaced copies *)
Lemma coons_add_value (c : coons R) v r t p : Coons_call c r t = Ok p ->
  Coons_call (Coons_add c v) r t = Ok (translate p v) /\
  Coons_call (Coons_sub c v) r t = Ok (diff p v) /\
  Coons_call (Coons_sub (Coons_add c v) v) r t = Ok p.
Proof.
  unfold Coons_call, Coons_add, Coons_sub.
  cbn [c_north c_east c_south c_west c_p00 c_p10 c_p11 c_p01 c_offset].
  destruct (p_call (c_south c) r); [|discriminate]. cbn [bind].
  destruct (p_call (c_north c) r); [|discriminate]. cbn [bind].
  destruct (p_call (c_west c) t); [|discriminate]. cbn [bind].
  destruct (p_call (c_east c) t); [|discriminate]. cbn [bind].
  intros H. injection H as <-. unfold diff. repeat split; f_equal; vunf; apply vec_ext; cbn; ring.
Qed.

Lemma coons_add_raise (c : coons R) v r t e : Coons_call c r t = Raise e ->
  Coons_call (Coons_add c v) r t = Raise e.
Proof.
  unfold Coons_call, Coons_add.
  cbn [c_north c_east c_south c_west c_p00 c_p10 c_p11 c_p01 c_offset].
  destruct (p_call (c_south c) r); [|auto]. cbn [bind].
  destruct (p_call (c_north c) r); [|auto]. cbn [bind].
  destruct (p_call (c_west c) t); [|auto]. cbn [bind].
  destruct (p_call (c_east c) t); [|auto]. cbn [bind]. discriminate.
Qed.

Lemma line_evaluates (a b : pt) : evaluates (Line a b) (fun t => lerp t a b).
Proof. intros t. apply line_lerp. Qed.
