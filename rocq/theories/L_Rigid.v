From Coq Require Import Reals Lra Psatz ZArith List Lia Bool String Nsatz.
From Verif Require Import Num NumR Py M_Vector SpecR3 M_Path M_Surface M_Geometry
  SpecPath SpecPoly SpecSurf L_Vector L_Line.
Import ListNotations.
Local Open Scope R_scope.

Lemma map_surf_bind (u : surf R) (f : pt -> pt) (g : pt -> res pt) :
  (forall p, g p = Ok (f p)) -> map_surf f u (fun r s => bind (u r s) g).
Proof.
  intros H r s. split; intros x E; rewrite E; cbn [bind]; [apply H|reflexivity].
Qed.

Ltac vspec := unfold rodrigues, reflect, axis_vec, diff, scaled, crossR, ex, ey, ez in *; vunf.

(** ** rotation *)
Lemma rod_x c a p : rodrigues ex c a p =
  V3 (vx p) (vy c + (cos a * (vy p - vy c) - sin a * (vz p - vz c)))
     (vz c + (sin a * (vy p - vy c) + cos a * (vz p - vz c))).
Proof. vspec; apply vec_ext; cbn; ring. Qed.
Lemma rod_y c a p : rodrigues ey c a p =
  V3 (vx c + (cos a * (vx p - vx c) + sin a * (vz p - vz c))) (vy p)
     (vz c + (- sin a * (vx p - vx c) + cos a * (vz p - vz c))).
Proof. vspec; apply vec_ext; cbn; ring. Qed.
Lemma rod_z c a p : rodrigues ez c a p =
  V3 (vx c + (cos a * (vx p - vx c) - sin a * (vy p - vy c)))
     (vy c + (sin a * (vx p - vx c) + cos a * (vy p - vy c))) (vz p).
Proof. vspec; apply vec_ext; cbn; ring. Qed.

Ltac axcases H := destruct H as [-> | [-> | ->]]; unfold axis_vec;
  cbn [String.eqb Ascii.eqb Bool.eqb]; rewrite ?rod_x, ?rod_y, ?rod_z; cbn [vx vy vz].

Lemma rotate_rodrigues axis a (c p : pt) : is_axis axis ->
  (let! q := rotate_vec a axis (vsub p c) in Ok (vadd q c))
  = Ok (rodrigues (axis_vec axis) c a p).
Proof.
  intros H. unfold rotate_vec. axcases H; cbn [bind]; f_equal;
    unfold vadd, vsub; numR; apply vec_ext; cbn; ring.
Qed.

Lemma rotated_map u a axis c : is_axis (lower_axis axis) ->
  map_surf (rodrigues (axis_vec (lower_axis axis)) c a) u (RotatedPatch u a axis c).
Proof. intros H. apply map_surf_bind. intros p. apply rotate_rodrigues, H. Qed.

Lemma rodrigues_isometry axis c a : is_axis axis -> isometry (rodrigues (axis_vec axis) c a).
Proof.
  intros H p q. unfold dist. f_equal.
  pose proof (sin2_cos2 a) as S. unfold Rsqr in S.
  axcases H; set (sa := sin a) in *; set (ca := cos a) in *; clearbody sa ca.
  - transitivity ((vx p - vx q) * (vx p - vx q)
      + (sa * sa + ca * ca) * ((vy p - vy q) * (vy p - vy q) + (vz p - vz q) * (vz p - vz q)));
      [ring|rewrite S; ring].
  - transitivity ((vy p - vy q) * (vy p - vy q)
      + (sa * sa + ca * ca) * ((vx p - vx q) * (vx p - vx q) + (vz p - vz q) * (vz p - vz q)));
      [ring|rewrite S; ring].
  - transitivity ((vz p - vz q) * (vz p - vz q)
      + (sa * sa + ca * ca) * ((vy p - vy q) * (vy p - vy q) + (vx p - vx q) * (vx p - vx q)));
      [ring|rewrite S; ring].
Qed.

Lemma rodrigues_det axis c a : is_axis axis -> map_det (rodrigues (axis_vec axis) c a) = 1.
Proof.
  intros H. unfold map_det, delta.
  pose proof (sin2_cos2 a) as S. unfold Rsqr in S. rewrite <- S.
  axcases H; unfold det3, ex, ey, ez, origin; cbn [vx vy vz]; ring.
Qed.

Lemma rodrigues_axis axis c a k : is_axis axis ->
  rodrigues (axis_vec axis) c a (plus_scaled c k (axis_vec axis)) = plus_scaled c k (axis_vec axis).
Proof.
  intros H. axcases H; unfold plus_scaled, ex, ey, ez; apply vec_ext; cbn [vx vy vz]; ring.
Qed.

Lemma rodrigues_add axis c a b p : is_axis axis ->
  rodrigues (axis_vec axis) c b (rodrigues (axis_vec axis) c a p)
  = rodrigues (axis_vec axis) c (a + b) p.
Proof.
  intros H. axcases H; rewrite cos_plus, sin_plus; apply vec_ext; cbn [vx vy vz]; ring.
Qed.

Lemma rodrigues_0 axis c p : is_axis axis -> rodrigues (axis_vec axis) c 0 p = p.
Proof.
  intros H. axcases H; rewrite cos_0, sin_0; apply vec_ext; cbn [vx vy vz]; ring.
Qed.

Lemma map_surf_comp f g u v w : map_surf f u v -> map_surf g v w -> map_surf (fun p => g (f p)) u w.
Proof.
  intros H K r s. destruct (H r s) as [H1 H2], (K r s) as [K1 K2]. split; intros; auto.
Qed.
Lemma map_surf_ext f g u v : (forall p, f p = g p) -> map_surf f u v -> map_surf g u v.
Proof. intros E H r s. destruct (H r s) as [H1 H2]. split; intros; auto. rewrite <- E; auto. Qed.
Lemma map_surf_id_eq u v : map_surf (fun p => p) u v -> forall r s, v r s = u r s.
Proof. intros H r s. destruct (H r s) as [H1 H2]. destruct (u r s); auto. Qed.

Lemma rotated_compose u a b axis c : is_axis (lower_axis axis) ->
  map_surf (rodrigues (axis_vec (lower_axis axis)) c (a + b)) u
    (RotatedPatch (RotatedPatch u a axis c) b axis c).
Proof.
  intros H. eapply map_surf_ext;
    [|eapply map_surf_comp; apply rotated_map; exact H].
  intros p. cbn beta. apply rodrigues_add, H.
Qed.

Lemma rotated_inverse u a axis c r s : is_axis (lower_axis axis) ->
  RotatedPatch (RotatedPatch u a axis c) (- a) axis c r s = u r s.
Proof.
  intros H. apply map_surf_id_eq. eapply map_surf_ext; [|apply rotated_compose, H].
  intros p. cbn beta. replace (a + - a) with 0 by ring. apply rodrigues_0, H.
Qed.

Lemma rotated_bad_axis (u : surf R) a axis c r s p : ~ is_axis (lower_axis axis) ->
  u r s = Ok p -> RotatedPatch u a axis c r s = Raise UnboundLocalError.
Proof.
  intros H E. unfold RotatedPatch. rewrite E. cbn [bind]. unfold rotate_vec.
  destruct (String.eqb_spec (lower_axis axis) "x"); [exfalso; apply H; left; auto|].
  destruct (String.eqb_spec (lower_axis axis) "y"); [exfalso; apply H; right; left; auto|].
  destruct (String.eqb_spec (lower_axis axis) "z"); [exfalso; apply H; right; right; auto|].
  reflexivity.
Qed.

(** ** mirroring *)
Lemma mirror_reflect axis p : is_axis axis -> mirror_vec axis p = reflect (axis_vec axis) p.
Proof.
  intros [-> | [-> | ->]]; unfold mirror_vec, axis_vec; cbn [String.eqb Ascii.eqb Bool.eqb];
    vspec; apply vec_ext; cbn; ring.
Qed.
Lemma mirrored_map u axis : is_axis (lower_axis axis) ->
  map_surf (reflect (axis_vec (lower_axis axis))) u (MirroredPatch u axis).
Proof. intros H. apply map_surf_bind. intros p. rewrite mirror_reflect by exact H. reflexivity. Qed.
Lemma reflect_isometry axis : is_axis axis -> isometry (reflect (axis_vec axis)).
Proof.
  intros H p q. unfold dist. f_equal.
  destruct H as [-> | [-> | ->]]; unfold axis_vec; cbn [String.eqb Ascii.eqb Bool.eqb]; vspec; ring.
Qed.
Lemma reflect_det axis : is_axis axis -> map_det (reflect (axis_vec axis)) = -1.
Proof.
  intros H. unfold map_det, delta, det3.
  destruct H as [-> | [-> | ->]]; unfold axis_vec; cbn [String.eqb Ascii.eqb Bool.eqb]; vspec; ring.
Qed.
Lemma reflect_fix axis p : is_axis axis -> (reflect (axis_vec axis) p = p <-> on_plane axis p).
Proof.
  intros H. unfold on_plane.
  destruct H as [-> | [-> | ->]]; unfold axis_vec; cbn [String.eqb Ascii.eqb Bool.eqb];
    split; intros E.
  1: apply (f_equal vx) in E. 3: apply (f_equal vy) in E. 5: apply (f_equal vz) in E.
  all: vspec; try lra; apply vec_ext; cbn; lra.
Qed.
Lemma reflect_invol axis p : is_axis axis ->
  reflect (axis_vec axis) (reflect (axis_vec axis) p) = p.
Proof.
  intros [-> | [-> | ->]]; unfold axis_vec; cbn [String.eqb Ascii.eqb Bool.eqb];
    vspec; apply vec_ext; cbn; ring.
Qed.
Lemma mirrored_invol u axis r s : is_axis (lower_axis axis) ->
  MirroredPatch (MirroredPatch u axis) axis r s = u r s.
Proof.
  intros H. apply map_surf_id_eq.
  eapply map_surf_ext; [|eapply map_surf_comp; apply mirrored_map; exact H].
  intros p. cbn beta. apply reflect_invol, H.
Qed.
Lemma mirrored_bad_axis (u : surf R) axis r s : ~ is_axis (lower_axis axis) ->
  MirroredPatch u axis r s = u r s.
Proof.
  intros H. unfold MirroredPatch, mirror_vec.
  destruct (String.eqb_spec (lower_axis axis) "x"); [exfalso; apply H; left; auto|].
  destruct (String.eqb_spec (lower_axis axis) "y"); [exfalso; apply H; right; left; auto|].
  destruct (String.eqb_spec (lower_axis axis) "z"); [exfalso; apply H; right; right; auto|].
  destruct (u r s) as [[]|]; reflexivity.
Qed.

(** ** curvature *)
Lemma cos_atan2_1 m : cos (Ratan2 m 1) = 1 / sqrt (1 + m * m).
Proof.
  rewrite Ratan2_cos by (left; lra). rewrite Rmult_1_l. reflexivity.
Qed.
Lemma sin_atan2_1 m : sin (Ratan2 m 1) = m / sqrt (1 + m * m).
Proof.
  rewrite Ratan2_sin by (left; lra). rewrite Rmult_1_l. reflexivity.
Qed.
Lemma sqrt_1m m : 0 < sqrt (1 + m * m). Proof. apply sqrt_lt_R0. nra. Qed.

Lemma curved_x (u : surf R) f fd r s p o m :
  u r s = Ok p -> f (vx p) (vy p) = Ok o -> fd (vx p) (vy p) = Ok m ->
  CurvedPatch u "x" (Some f) (Some fd) r s =
  Ok (plus_scaled (V3 (vx p) (vy p) o) (vz p)
        (V3 (- m / sqrt (1 + m * m)) 0 (1 / sqrt (1 + m * m)))).
Proof.
  intros Hu Hf Hd. unfold CurvedPatch, CurvedPatch_call. rewrite Hu. cbn [bind].
  rewrite Hf, Hd. cbn [bind String.eqb Ascii.eqb Bool.eqb]. unfold n1; cbn [natan2 nsin ncos NumR nZ].
  rewrite cos_atan2_1, sin_atan2_1. f_equal. pose proof (sqrt_1m m).
  unfold plus_scaled; apply vec_ext; cbn; field; lra.
Qed.
Lemma curved_y (u : surf R) f fd r s p o m :
  u r s = Ok p -> f (vx p) (vy p) = Ok o -> fd (vx p) (vy p) = Ok m ->
  CurvedPatch u "y" (Some f) (Some fd) r s =
  Ok (plus_scaled (V3 (vx p) (vy p) o) (vz p)
        (V3 0 (- m / sqrt (1 + m * m)) (1 / sqrt (1 + m * m)))).
Proof.
  intros Hu Hf Hd. unfold CurvedPatch, CurvedPatch_call. rewrite Hu. cbn [bind].
  rewrite Hf, Hd. cbn [bind String.eqb Ascii.eqb Bool.eqb]. unfold n1; cbn [natan2 nsin ncos NumR nZ].
  rewrite cos_atan2_1, sin_atan2_1. f_equal. pose proof (sqrt_1m m).
  unfold plus_scaled; apply vec_ext; cbn; field; lra.
Qed.

Lemma curved_all (u : surf R) d f fd r s p o m :
  d = "x"%string \/ d = "y"%string ->
  u r s = Ok p -> f (vx p) (vy p) = Ok o -> fd (vx p) (vy p) = Ok m ->
  exists q, CurvedPatch u d (Some f) (Some fd) r s = Ok q /\
    let base := V3 (vx p) (vy p) o in
    let tangent := if String.eqb d "x" then V3 1 0 m else V3 0 1 m in
    dist q base = Rabs (vz p) /\ inner (diff q base) tangent = 0 /\
    (if String.eqb d "x" then vy q = vy p else vx q = vx p) /\
    0 <= vz p * (vz q - o).
Proof.
  intros [-> | ->] Hu Hf Hd; eexists; (split; [eapply curved_x || eapply curved_y; eauto|]);
    cbn [String.eqb Ascii.eqb Bool.eqb]; pose proof (sqrt_1m m) as Hp;
    assert (S : sqrt (1 + m * m) * sqrt (1 + m * m) = 1 + m * m) by (apply sqrt_sqrt; nra);
    set (q := sqrt (1 + m * m)) in *; cbv zeta; unfold diff, plus_scaled; cbn [vx vy vz];
    (split; [|split; [|split]]).
  1,5: rewrite <- (sqrt_Rsqr_abs (vz p)); unfold dist; cbn [vx vy vz]; f_equal; unfold Rsqr;
       transitivity (vz p * vz p * ((1 + m * m) / (q * q))); [field; lra|];
       rewrite S; field; nra.
  1,4: unfold inner; cbn [vx vy vz]; field; lra.
  1,3: ring.
  all: replace (vz p * (o + vz p * (1 / q) - o)) with (vz p * vz p * / q) by (field; lra);
       apply Rmult_le_pos; [nra|apply Rlt_le, Rinv_0_lt_compat; auto].
Qed.

Lemma curved_missing (u : surf R) d f fd r s : f = None \/ fd = None ->
  CurvedPatch u d f fd r s = Raise GenericError.
Proof. intros [-> | ->]; unfold CurvedPatch, CurvedPatch_call; [|destruct f]; reflexivity. Qed.

Lemma curved_other (u : surf R) d f fd r s p o m :
  d <> "x"%string -> d <> "y"%string ->
  u r s = Ok p -> f (vx p) (vy p) = Ok o -> fd (vx p) (vy p) = Ok m ->
  CurvedPatch_call u d (Some f) (Some fd) r s = Ok None.
Proof.
  intros D1 D2 Hu Hf Hd. unfold CurvedPatch_call. rewrite Hu. cbn [bind]. rewrite Hf, Hd. cbn [bind].
  apply String.eqb_neq in D1, D2. rewrite D1, D2. reflexivity.
Qed.

(** ** bodies of revolution *)
Lemma revolved_value line a0 a1 r s p : p_call line r = Ok p ->
  RevolvedPatch line a0 a1 r s
  = Ok (rodrigues ex origin (- ((1 - s) * a0 + s * a1)) p).
Proof.
  intros H. unfold RevolvedPatch. rewrite H. cbn [bind]. unfold rodrigues.
  rewrite cos_neg, sin_neg. numR.
  replace (a0 * (1 - s) + a1 * s) with ((1 - s) * a0 + s * a1) by ring.
  f_equal. vspec. apply vec_ext; cbn; ring.
Qed.
Lemma revolved_radius line a0 a1 r s p : p_call line r = Ok p ->
  exists q, RevolvedPatch line a0 a1 r s = Ok q /\ vx q = vx p /\ radius_x q = radius_x p.
Proof.
  intros H. eexists. split; [apply revolved_value, H|].
  set (a := - ((1 - s) * a0 + s * a1)). pose proof (sin2_cos2 a) as S. unfold Rsqr in S.
  unfold rodrigues, radius_x. split; [|f_equal];
    vspec; set (sa := sin a) in *; set (ca := cos a) in *; clearbody sa ca; [ring|].
  transitivity ((sa * sa + ca * ca) * (vy p * vy p + vz p * vz p)); [ring|rewrite S; ring].
Qed.
Lemma revolved_angle line a0 a1 b0 b1 r s t :
  (1 - s) * a0 + s * a1 = (1 - t) * b0 + t * b1 ->
  RevolvedPatch line a0 a1 r s = RevolvedPatch line b0 b1 r t.
Proof.
  intros E. unfold RevolvedPatch. numR.
  replace (a0 * (1 - s) + a1 * s) with ((1 - s) * a0 + s * a1) by ring.
  replace (b0 * (1 - t) + b1 * t) with ((1 - t) * b0 + t * b1) by ring. rewrite E. reflexivity.
Qed.
Lemma revolved_turn line a0 a1 b0 b1 r s t (k : nat) :
  (1 - s) * a0 + s * a1 = (1 - t) * b0 + t * b1 + 2 * INR k * PI ->
  RevolvedPatch line a0 a1 r s = RevolvedPatch line b0 b1 r t.
Proof.
  intros E. unfold RevolvedPatch. numR.
  replace (a0 * (1 - s) + a1 * s) with ((1 - s) * a0 + s * a1) by ring.
  replace (b0 * (1 - t) + b1 * t) with ((1 - t) * b0 + t * b1) by ring. rewrite E.
  rewrite cos_period, sin_period. reflexivity.
Qed.
Lemma cone_value (x0 x1 r0 r1 a0 a1 r s : R) :
  exists q, ConePatch x0 x1 r0 r1 a0 a1 r s = Ok q /\
    vx q = (1 - r) * x0 + r * x1 /\
    radius_x q = Rabs ((1 - r) * r0 + r * r1) /\
    vy q = ((1 - r) * r0 + r * r1) * cos ((1 - s) * a0 + s * a1) /\
    vz q = ((1 - r) * r0 + r * r1) * sin ((1 - s) * a0 + s * a1).
Proof.
  eexists. split; [reflexivity|]. unfold radius_x. numR. cbn [vx vy vz].
  replace (a0 * (1 - s) + a1 * s) with ((1 - s) * a0 + s * a1) by ring.
  set (a := (1 - s) * a0 + s * a1). pose proof (sin2_cos2 a) as S. unfold Rsqr in S.
  split; [ring|]. split; [|split; ring]. rewrite <- sqrt_Rsqr_abs. f_equal. unfold Rsqr.
  set (sa := sin a) in *; set (ca := cos a) in *; clearbody sa ca.
  set (w := (1 - r) * r0 + r * r1).
  transitivity ((sa * sa + ca * ca) * (w * w)); [unfold w; ring|rewrite S; ring].
Qed.

(** ** BluntConePatch *)
Lemma blunt_raises (x0 y0 rn rb L a0 a1 r s : R) :
  BluntConePatch x0 y0 rn rb L a0 a1 r s = Raise AttributeError.
Proof. reflexivity. Qed.

Lemma blunt_call_iff (self : dict R) r s :
  is_ok (BluntCone_call self r s) <->
  forall k, In k ["angle0"; "angle1"; "x0"; "r0"; "x1"; "r1"]%string -> dget self k <> None.
Proof.
  unfold BluntCone_call, getattr. split.
  - intros [v Hv] k Hk. revert Hv.
    destruct (dget self "angle0") eqn:E1; [|discriminate]. cbn [bind].
    destruct (dget self "angle1") eqn:E2; [|discriminate]. cbn [bind].
    destruct (dget self "x0") eqn:E3; [|discriminate]. cbn [bind].
    destruct (dget self "r0") eqn:E4; [|discriminate]. cbn [bind].
    destruct (dget self "x1") eqn:E5; [|discriminate]. cbn [bind].
    destruct (dget self "r1") eqn:E6; [|discriminate]. intros _.
    repeat (destruct Hk as [<-|Hk]; [congruence|]). destruct Hk.
  - intros H.
    destruct (dget self "angle0") eqn:E1; [|exfalso; apply (H "angle0"%string); cbn; auto 10].
    destruct (dget self "angle1") eqn:E2; [|exfalso; apply (H "angle1"%string); cbn; auto 10].
    destruct (dget self "x0") eqn:E3; [|exfalso; apply (H "x0"%string); cbn; auto 10].
    destruct (dget self "r0") eqn:E4; [|exfalso; apply (H "r0"%string); cbn; auto 10].
    destruct (dget self "x1") eqn:E5; [|exfalso; apply (H "x1"%string); cbn; auto 10].
    destruct (dget self "r1") eqn:E6; [|exfalso; apply (H "r1"%string); cbn; auto 10].
    cbn [bind]. eexists; reflexivity.
Qed.
