(** Properties C26-C30: wrapped patches and bodies of revolution
    (geometry/geometry.py). *)
From Coq Require Import Reals Lra List String.
From Verif Require Import Num NumR Py M_Vector SpecR3 M_Path M_Surface M_Geometry
  SpecPath SpecPoly SpecSurf L_Vector L_Line L_Rigid.
Import ListNotations.
Local Open Scope R_scope.

(** C26: RotatedPatch applies the right-handed rotation about the named axis
    through the given point *)
Theorem C26_rotation u a axis c : is_axis (lower_axis axis) ->
  map_surf (rodrigues (axis_vec (lower_axis axis)) c a) u (RotatedPatch u a axis c).
Proof. exact (rotated_map u a axis c). Qed.

(** C26: that rotation is a proper rigid motion fixing the axis *)
Theorem C26_rigid axis c a : is_axis axis ->
  isometry (rodrigues (axis_vec axis) c a) /\
  map_det (rodrigues (axis_vec axis) c a) = 1 /\
  (forall k, rodrigues (axis_vec axis) c a (plus_scaled c k (axis_vec axis))
             = plus_scaled c k (axis_vec axis)).
Proof.
  exact (fun H => conj (rodrigues_isometry axis c a H)
    (conj (rodrigues_det axis c a H) (fun k => rodrigues_axis axis c a k H))).
Qed.

(** C26: angles add, and -angle undoes angle *)
Theorem C26_compose u a b axis c : is_axis (lower_axis axis) ->
  map_surf (rodrigues (axis_vec (lower_axis axis)) c (a + b)) u
    (RotatedPatch (RotatedPatch u a axis c) b axis c).
Proof. exact (rotated_compose u a b axis c). Qed.
Theorem C26_inverse u a axis c r s : is_axis (lower_axis axis) ->
  RotatedPatch (RotatedPatch u a axis c) (- a) axis c r s = u r s.
Proof. exact (rotated_inverse u a axis c r s). Qed.

(** C26: any other axis name raises at evaluation *)
Theorem C26_bad_axis (u : surf R) a axis c r s p : ~ is_axis (lower_axis axis) ->
  u r s = Ok p -> RotatedPatch u a axis c r s = Raise UnboundLocalError.
Proof. exact (rotated_bad_axis u a axis c r s p). Qed.

Example C26_meets : is_axis (lower_axis "Z") /\ ~ is_axis (lower_axis "w") /\
  RotatedPatch (fun r s => Ok (V3 r s 0)) (PI / 2) "Z" origin 1 0 = Ok (V3 0 1 0).
Proof.
  split; [right; right; reflexivity|]. split; [intros [H|[H|H]]; discriminate|].
  rewrite (proj1 (C26_rotation (fun r s => Ok (V3 r s 0)) (PI / 2) "Z" origin
    ltac:(right; right; reflexivity) 1 0) (V3 1 0 0) eq_refl).
  f_equal. cbn [lower_axis String.eqb Ascii.eqb Bool.eqb]. unfold axis_vec.
  cbn [String.eqb Ascii.eqb Bool.eqb]. rewrite rod_z, cos_PI2, sin_PI2.
  apply vec_ext; cbn; ring.
Qed.

(** C27: MirroredPatch applies the reflection in the plane orthogonal to the
    axis, an orientation-reversing isometry fixing exactly that plane *)
Theorem C27_reflection u axis : is_axis (lower_axis axis) ->
  map_surf (reflect (axis_vec (lower_axis axis))) u (MirroredPatch u axis).
Proof. exact (mirrored_map u axis). Qed.
Theorem C27_reversing axis : is_axis axis ->
  isometry (reflect (axis_vec axis)) /\ map_det (reflect (axis_vec axis)) = -1 /\
  (forall p, reflect (axis_vec axis) p = p <-> on_plane axis p).
Proof.
  exact (fun H => conj (reflect_isometry axis H)
    (conj (reflect_det axis H) (fun p => reflect_fix axis p H))).
Qed.
Theorem C27_involution u axis r s : is_axis (lower_axis axis) ->
  MirroredPatch (MirroredPatch u axis) axis r s = u r s.
Proof. exact (mirrored_invol u axis r s). Qed.
Theorem C27_bad_axis (u : surf R) axis r s : ~ is_axis (lower_axis axis) ->
  MirroredPatch u axis r s = u r s.
Proof. exact (mirrored_bad_axis u axis r s). Qed.

Example C27_meets : is_axis (lower_axis "Y") /\
  MirroredPatch (fun r s => Ok (V3 r s 3)) "Y" 1 2 = Ok (V3 1 (-2) 3).
Proof.
  split; [right; left; reflexivity|].
  rewrite (proj1 (C27_reflection (fun r s => Ok (V3 r s 3)) "Y"
    ltac:(right; left; reflexivity) 1 2) (V3 1 2 3) eq_refl).
  f_equal. unfold reflect, axis_vec, plus_scaled, inner, ex, ey, ez. apply vec_ext; cbn; ring.
Qed.

(** C28: the exact image of a point: base point on the curve plus z times the
    unit normal of slope f' *)
Theorem C28_value_x (u : surf R) f fd r s p o m :
  u r s = Ok p -> f (vx p) (vy p) = Ok o -> fd (vx p) (vy p) = Ok m ->
  CurvedPatch u "x" (Some f) (Some fd) r s =
  Ok (plus_scaled (V3 (vx p) (vy p) o) (vz p)
        (V3 (- m / sqrt (1 + m * m)) 0 (1 / sqrt (1 + m * m)))).
Proof. exact (curved_x u f fd r s p o m). Qed.
Theorem C28_value_y (u : surf R) f fd r s p o m :
  u r s = Ok p -> f (vx p) (vy p) = Ok o -> fd (vx p) (vy p) = Ok m ->
  CurvedPatch u "y" (Some f) (Some fd) r s =
  Ok (plus_scaled (V3 (vx p) (vy p) o) (vz p)
        (V3 0 (- m / sqrt (1 + m * m)) (1 / sqrt (1 + m * m)))).
Proof. exact (curved_y u f fd r s p o m). Qed.

(** C28: thickness is preserved, measured normal to the curved mean surface *)
Theorem C28_thickness (u : surf R) d f fd r s p o m :
  d = "x"%string \/ d = "y"%string ->
  u r s = Ok p -> f (vx p) (vy p) = Ok o -> fd (vx p) (vy p) = Ok m ->
  exists q, CurvedPatch u d (Some f) (Some fd) r s = Ok q /\
    let base := V3 (vx p) (vy p) o in
    let tangent := if String.eqb d "x" then V3 1 0 m else V3 0 1 m in
    dist q base = Rabs (vz p) /\ inner (diff q base) tangent = 0 /\
    (if String.eqb d "x" then vy q = vy p else vx q = vx p) /\
    0 <= vz p * (vz q - o).
Proof. exact (curved_all u d f fd r s p o m). Qed.

(** C28: missing functions raise; any other direction returns None *)
Theorem C28_missing (u : surf R) d f fd r s : f = None \/ fd = None ->
  CurvedPatch u d f fd r s = Raise GenericError.
Proof. exact (curved_missing u d f fd r s). Qed.
Theorem C28_none (u : surf R) d f fd r s p o m :
  d <> "x"%string -> d <> "y"%string ->
  u r s = Ok p -> f (vx p) (vy p) = Ok o -> fd (vx p) (vy p) = Ok m ->
  CurvedPatch_call u d (Some f) (Some fd) r s = Ok None.
Proof. exact (curved_other u d f fd r s p o m). Qed.

Example C28_meets :  (* f(x) = x^2: the mid-surface point (1, 2, 0) goes to (1, 2, 1) *)
  CurvedPatch (fun r s => Ok (V3 r s 0)) "x" (Some (fun x _ => Ok (x * x)))
    (Some (fun x _ => Ok (2 * x))) 1 2 = Ok (V3 1 2 1).
Proof.
  rewrite (C28_value_x _ (fun x _ => Ok (x * x)) (fun x _ => Ok (2 * x)) 1 2 (V3 1 2 0) (1 * 1) (2 * 1)
    eq_refl eq_refl eq_refl).
  f_equal. apply vec_ext; cbn; ring.
Qed.

(** C29: a RevolvedPatch point is the line point turned about the x-axis *)
Theorem C29_revolved line a0 a1 r s p : p_call line r = Ok p ->
  RevolvedPatch line a0 a1 r s = Ok (rodrigues ex origin (- ((1 - s) * a0 + s * a1)) p).
Proof. exact (revolved_value line a0 a1 r s p). Qed.
Theorem C29_radius line a0 a1 r s p : p_call line r = Ok p ->
  exists q, RevolvedPatch line a0 a1 r s = Ok q /\ vx q = vx p /\ radius_x q = radius_x p.
Proof. exact (revolved_radius line a0 a1 r s p). Qed.

(** C29: patches whose angular ranges abut (also after whole turns) share
    their seam *)
Theorem C29_seams line a0 a1 b0 b1 r s t (k : nat) :
  (1 - s) * a0 + s * a1 = (1 - t) * b0 + t * b1 + 2 * INR k * PI ->
  RevolvedPatch line a0 a1 r s = RevolvedPatch line b0 b1 r t.
Proof. exact (revolved_turn line a0 a1 b0 b1 r s t k). Qed.

(** C29: cone radii *)
Theorem C29_cone (x0 x1 r0 r1 a0 a1 r s : R) :
  exists q, ConePatch x0 x1 r0 r1 a0 a1 r s = Ok q /\
    vx q = (1 - r) * x0 + r * x1 /\
    radius_x q = Rabs ((1 - r) * r0 + r * r1) /\
    vy q = ((1 - r) * r0 + r * r1) * cos ((1 - s) * a0 + s * a1) /\
    vz q = ((1 - r) * r0 + r * r1) * sin ((1 - s) * a0 + s * a1).
Proof. exact (cone_value x0 x1 r0 r1 a0 a1 r s). Qed.

Example C29_meets :  (* the fourth quarter closes onto the first *)
  forall r, RevolvedPatch (Line (V3 0 1 0) (V3 2 1 1)) (3 * PI / 2) (2 * PI) r 1
          = RevolvedPatch (Line (V3 0 1 0) (V3 2 1 1)) 0 (PI / 2) r 0.
Proof. intros r. apply (C29_seams _ _ _ _ _ _ _ _ 1). cbn [INR]. lra. Qed.

(** C30: evaluating a BluntConePatch always fails *)
Theorem C30_never (x0 y0 rn rb L a0 a1 r s : R) :
  BluntConePatch x0 y0 rn rb L a0 a1 r s = Raise AttributeError.
Proof. exact (blunt_raises x0 y0 rn rb L a0 a1 r s). Qed.

(** C30: because its __call__ reads attributes that the constructor never sets:
    evaluation succeeds exactly for attribute tables that contain all six *)
Theorem C30_why (self : dict R) r s :
  is_ok (BluntCone_call self r s) <->
  forall k, In k ["angle0"; "angle1"; "x0"; "r0"; "x1"; "r1"]%string -> dget self k <> None.
Proof. exact (blunt_call_iff self r s). Qed.

Example C30_meets :
  is_ok (BluntCone_call (BluntCone_init 0 0 1 2 3 0 PI ++ [("r0"%string, 1); ("x1"%string, 1); ("r1"%string, 2)]) 0 (0 : R)).
Proof. eexists. reflexivity. Qed.

Print Assumptions C26_rotation.
Print Assumptions C26_rigid.
Print Assumptions C26_inverse.
Print Assumptions C27_reflection.
Print Assumptions C27_reversing.
Print Assumptions C28_value_x.
Print Assumptions C28_thickness.
Print Assumptions C29_revolved.
Print Assumptions C29_seams.
Print Assumptions C29_cone.
Print Assumptions C30_why.
