From Coq Require Import Reals Lra Psatz ZArith String List Lia Bool.
From Verif Require Import Num NumR Py M_Vector SpecR3 M_Path M_Surface M_Geometry
  SpecPath SpecPoly SpecSurf L_Vector L_Line.
Import ListNotations.
Local Open Scope R_scope.

Ltac face_cases H := unfold cube_faces in H; cbn [In] in H;
  repeat (destruct H as [<-|H]); [..|destruct H].

Definition unit_face (face : string) (r s : R) (p : pt) : Prop := cube_face face r s = Ok p.

Lemma face_coords face r s : In face cube_faces -> 0 <= r <= 1 -> 0 <= s <= 1 ->
  exists p, cube_face face r s = Ok p /\
    -1 <= vx p <= 1 /\ -1 <= vy p <= 1 /\ -1 <= vz p <= 1 /\
    (1 - vx p * vx p) * (1 - vy p * vy p) * (1 - vz p * vz p) = 0.
Proof.
  intros H Hr Hs. face_cases H; eexists; (split; [reflexivity|]); numR; cbn [vx vy vz];
    (split; [lra|split; [lra|split; [lra|ring]]]).
Qed.

Lemma face_bad face (r s : R) : ~ In face cube_faces -> cube_face face r s = Raise ValueError.
Proof.
  intros H. unfold cube_face.
  destruct (String.eqb_spec face "east") as [->|]; [exfalso; apply H; cbn; auto 10|].
  destruct (String.eqb_spec face "west") as [->|]; [exfalso; apply H; cbn; auto 10|].
  destruct (String.eqb_spec face "south") as [->|]; [exfalso; apply H; cbn; auto 10|].
  destruct (String.eqb_spec face "north") as [->|]; [exfalso; apply H; cbn; auto 10|].
  destruct (String.eqb_spec face "bottom") as [->|]; [exfalso; apply H; cbn; auto 10|].
  destruct (String.eqb_spec face "top") as [->|]; [exfalso; apply H; cbn; auto 10|].
  reflexivity.
Qed.

(** ** sphere *)
Lemma sphere_rad u v : -1 <= u <= 1 -> -1 <= v <= 1 ->
  0 <= 1 - u * u / 2 - v * v / 2 + u * u * (v * v) / 3.
Proof.
  intros Hu Hv. assert (0 <= u * u <= 1) by nra. assert (0 <= v * v <= 1) by nra.
  set (a := u * u) in *. set (b := v * v) in *. nra.
Qed.
Lemma sphere_factor_sq (u v : R) : -1 <= u <= 1 -> -1 <= v <= 1 ->
  sphere_factor u v * sphere_factor u v = 1 - u * u / 2 - v * v / 2 + u * u * (v * v) / 3.
Proof.
  intros Hu Hv. unfold sphere_factor. numR.
  replace (1 - 1 / 2 * u * u - 1 / 2 * v * v + v * v * u * u / 3)
    with (1 - u * u / 2 - v * v / 2 + u * u * (v * v) / 3) by field.
  apply sqrt_sqrt. apply sphere_rad; auto.
Qed.

Lemma sphere_dist rad c face r s : In face cube_faces -> 0 <= r <= 1 -> 0 <= s <= 1 ->
  exists q, SpherePatch rad c face r s = Ok q /\ dist q c = Rabs rad.
Proof.
  intros H Hr Hs. destruct (face_coords face r s H Hr Hs) as (p & E & X & Y & Z & K).
  unfold SpherePatch. rewrite E. cbn [bind]. eexists. split; [reflexivity|].
  unfold dist. cbn [vx vy vz]. rewrite <- sqrt_Rsqr_abs. f_equal. unfold Rsqr. numR.
  pose proof (sphere_factor_sq (vz p) (vy p) Z Y) as F1.
  pose proof (sphere_factor_sq (vz p) (vx p) Z X) as F2.
  pose proof (sphere_factor_sq (vy p) (vx p) Y X) as F3.
  set (f1 := sphere_factor (vz p) (vy p)) in *. set (f2 := sphere_factor (vz p) (vx p)) in *.
  set (f3 := sphere_factor (vy p) (vx p)) in *. clearbody f1 f2 f3.
  transitivity (rad * rad * (vx p * vx p * (f1 * f1) + vy p * vy p * (f2 * f2) + vz p * vz p * (f3 * f3)));
    [ring|].
  rewrite F1, F2, F3.
  transitivity (rad * rad * (1 - (1 - vx p * vx p) * (1 - vy p * vy p) * (1 - vz p * vz p)));
    [field|rewrite K; ring].
Qed.

(** ** seams *)
Lemma face_seam f e g e' t : In ((f, e), (g, e')) cube_seams ->
  cube_face f (fst (on_side e t)) (snd (on_side e t))
  = (cube_face g (fst (on_side e' t)) (snd (on_side e' t)) : res pt).
Proof.
  intros H. unfold cube_seams in H. cbn [In] in H.
  repeat destruct H as [H|H]; try injection H as <- <- <- <-; try contradiction;
    cbn [on_side fst snd]; unfold cube_face; cbn [String.eqb Ascii.eqb Bool.eqb];
    numR; f_equal; apply vec_ext; cbn [vx vy vz]; ring.
Qed.

Lemma sphere_seam rad c f e g e' t : In ((f, e), (g, e')) cube_seams ->
  SpherePatch rad c f (fst (on_side e t)) (snd (on_side e t))
  = SpherePatch rad c g (fst (on_side e' t)) (snd (on_side e' t)).
Proof. intros H. unfold SpherePatch. rewrite (face_seam f e g e' t H). reflexivity. Qed.
Lemma cube_seam (a : R) c f e g e' t : In ((f, e), (g, e')) cube_seams ->
  CubePatch a c f (fst (on_side e t)) (snd (on_side e t))
  = CubePatch a c g (fst (on_side e' t)) (snd (on_side e' t)).
Proof. intros H. unfold CubePatch. rewrite (face_seam f e g e' t H). reflexivity. Qed.

(** every side of every face occurs in exactly one seam *)
Definition seam_sides : list (string * side) :=
  map fst cube_seams ++ map snd cube_seams.
Lemma seams_complete f e : In f cube_faces -> In (f, e) seam_sides.
Proof.
  intros H. face_cases H; destruct e; cbn [seam_sides cube_seams map fst snd app In]; auto 30.
Qed.
Lemma seams_distinct : NoDup seam_sides.
Proof.
  unfold seam_sides, cube_seams. cbn [map fst snd app].
  repeat constructor; cbn [In]; intuition discriminate.
Qed.

(** ** cube *)
Lemma Rabs_scale_le x a : -1 <= x <= 1 -> Rabs (x * a) <= Rabs a.
Proof.
  intros H. rewrite Rabs_mult. assert (Rabs x <= 1) by (apply Rabs_le; lra).
  pose proof (Rabs_pos a). nra.
Qed.
Lemma cube_maxnorm a c face r s : In face cube_faces -> 0 <= r <= 1 -> 0 <= s <= 1 ->
  exists q, CubePatch a c face r s = Ok q /\ maxnorm (diff q c) = Rabs a.
Proof.
  intros H Hr Hs. destruct (face_coords face r s H Hr Hs) as (p & E & X & Y & Z & K).
  unfold CubePatch. rewrite E. cbn [bind]. eexists. split; [reflexivity|].
  unfold maxnorm, diff. cbn [vx vy vz]. numR.
  replace (vx p * a + vx c - vx c) with (vx p * a) by ring.
  replace (vy p * a + vy c - vy c) with (vy p * a) by ring.
  replace (vz p * a + vz c - vz c) with (vz p * a) by ring.
  pose proof (Rabs_scale_le _ a X) as BX. pose proof (Rabs_scale_le _ a Y) as BY.
  pose proof (Rabs_scale_le _ a Z) as BZ.
  assert (U : forall x, 1 - x * x = 0 -> Rabs (x * a) = Rabs a).
  { intros x Hx. rewrite Rabs_mult. replace (Rabs x) with 1; [ring|].
    assert (Hq : Rabs x * Rabs x = 1) by (rewrite <- Rabs_mult, Rabs_right; lra).
    pose proof (Rabs_pos x). nra. }
  apply Rle_antisym.
  - apply Rmax_lub; [auto|apply Rmax_lub; auto].
  - apply Rmult_integral in K. destruct K as [K|K]; [apply Rmult_integral in K; destruct K as [K|K]|];
      rewrite <- (U _ K).
    + apply Rmax_l.
    + eapply Rle_trans; [apply Rmax_l|apply Rmax_r].
    + eapply Rle_trans; [apply Rmax_r|apply Rmax_r].
Qed.

(** every point of the cube's surface is on some face *)
Lemma cube_cover a c q : 0 < a -> maxnorm (diff q c) = a ->
  exists face r s, In face cube_faces /\ 0 <= r <= 1 /\ 0 <= s <= 1 /\ CubePatch a c face r s = Ok q.
Proof.
  intros Ha M. unfold maxnorm, diff in M. cbn [vx vy vz] in M.
  set (x := vx q - vx c) in *. set (y := vy q - vy c) in *. set (z := vz q - vz c) in *.
  assert (BX : Rabs x <= a) by (rewrite <- M; apply Rmax_l).
  assert (BY : Rabs y <= a) by (rewrite <- M; eapply Rle_trans; [apply Rmax_l|apply Rmax_r]).
  assert (BZ : Rabs z <= a) by (rewrite <- M; eapply Rle_trans; [apply Rmax_r|apply Rmax_r]).
  assert (IN : forall w, Rabs w <= a -> 0 <= (w / a + 1) / 2 <= 1).
  { intros w Hw. assert (-1 <= w / a <= 1); [|lra].
    assert (- a <= w <= a) by (unfold Rabs in Hw; destruct (Rcase_abs w); lra).
    split; apply Rmult_le_reg_r with a; auto; unfold Rdiv; rewrite ?Rmult_assoc, ?Rinv_l by lra; lra. }
  assert (OR : forall w, Rabs w = a -> w = a \/ w = - a).
  { intros w Hw. unfold Rabs in Hw. destruct (Rcase_abs w); lra. }
  assert (C : Rabs x = a \/ Rabs y = a \/ Rabs z = a).
  { unfold Rmax in M. destruct (Rle_dec (Rabs y) (Rabs z)), (Rle_dec (Rabs x) _); auto. }
  assert (EQ : forall w p, vx p = vx q -> vy p = vy q -> vz p = vz q -> w = Ok p -> w = Ok q).
  { intros w p E1 E2 E3 ->. f_equal. apply vec_ext; auto. }
  destruct C as [C|[C|C]]; destruct (OR _ C) as [E|E].
  - exists "east"%string, ((y / a + 1) / 2), ((z / a + 1) / 2).
    split; [cbn; auto 10|]. split; [auto|]. split; [auto|].
    eapply EQ; [..|reflexivity]; cbn [vx vy vz]; numR; [unfold x in E; lra| |]; unfold y, z; field; lra.
  - exists "west"%string, ((y / a + 1) / 2), ((z / a + 1) / 2).
    split; [cbn; auto 10|]. split; [auto|]. split; [auto|].
    eapply EQ; [..|reflexivity]; cbn [vx vy vz]; numR; [unfold x in E; lra| |]; unfold y, z; field; lra.
  - exists "north"%string, ((x / a + 1) / 2), ((z / a + 1) / 2).
    split; [cbn; auto 10|]. split; [auto|]. split; [auto|].
    eapply EQ; [..|reflexivity]; cbn [vx vy vz]; numR; [|unfold y in E; lra|]; unfold x, z; field; lra.
  - exists "south"%string, ((x / a + 1) / 2), ((z / a + 1) / 2).
    split; [cbn; auto 10|]. split; [auto|]. split; [auto|].
    eapply EQ; [..|reflexivity]; cbn [vx vy vz]; numR; [|unfold y in E; lra|]; unfold x, z; field; lra.
  - exists "top"%string, ((x / a + 1) / 2), ((y / a + 1) / 2).
    split; [cbn; auto 10|]. split; [auto|]. split; [auto|].
    eapply EQ; [..|reflexivity]; cbn [vx vy vz]; numR; [| |unfold z in E; lra]; unfold x, y; field; lra.
  - exists "bottom"%string, ((x / a + 1) / 2), ((y / a + 1) / 2).
    split; [cbn; auto 10|]. split; [auto|]. split; [auto|].
    eapply EQ; [..|reflexivity]; cbn [vx vy vz]; numR; [| |unfold z in E; lra]; unfold x, y; field; lra.
Qed.

Lemma bad_face (a : R) c face r s : ~ In face cube_faces ->
  CubePatch a c face r s = Raise ValueError /\ SpherePatch a c face r s = Raise ValueError.
Proof. intros H. unfold CubePatch, SpherePatch. rewrite face_bad by auto. split; reflexivity. Qed.

(** opposite faces have the same orientation: they are translates of each other *)
Lemma opposite_faces (a : R) c r s :
  exists e w n so t b, CubePatch a c "east" r s = Ok e /\ CubePatch a c "west" r s = Ok w /\
    CubePatch a c "north" r s = Ok n /\ CubePatch a c "south" r s = Ok so /\
    CubePatch a c "top" r s = Ok t /\ CubePatch a c "bottom" r s = Ok b /\
    e = translate w (V3 (2 * a) 0 0) /\ n = translate so (V3 0 (2 * a) 0) /\
    t = translate b (V3 0 0 (2 * a)).
Proof.
  do 6 eexists. repeat (split; [reflexivity|]). unfold translate. numR.
  split; [|split]; apply vec_ext; cbn; ring.
Qed.
