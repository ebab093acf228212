(** Properties C01-C03: Vector3 (src/hypervehicle/geometry/vector.py). *)
From Coq Require Import Reals Lra.
From Verif Require Import Num NumR M_Vector SpecR3 L_Vector.
Local Open Scope R_scope.

(** C01: vector-space laws *)
Theorem C01_vector_space (a b c : pt) (k l : R) :
  vadd a b = vadd b a /\
  vadd (vadd a b) c = vadd a (vadd b c) /\
  vadd a origin = a /\
  vadd a (vneg a) = origin /\
  vsub a b = vadd a (vneg b) /\
  vscale a 1 = a /\
  vscale (vscale a k) l = vscale a (k * l) /\
  vscale (vadd a b) k = vadd (vscale a k) (vscale b k) /\
  vscale a (k + l) = vadd (vscale a k) (vscale a l) /\
  (k <> 0 -> vscale (vdiv a k) k = a).
Proof.
  exact (conj (vadd_comm a b) (conj (vadd_assoc a b c) (conj (vadd_0_r a)
    (conj (vadd_neg a) (conj (vsub_add_neg a b) (conj (vscale_1 a)
    (conj (vscale_mul a k l) (conj (vscale_add a b k) (conj (vscale_plus a k l)
    (vdiv_scale a k)))))))))).
Qed.

(** C01: dot and cross product *)
Theorem C01_dot_cross (a b c : pt) (k : R) :
  vdot a b = inner a b /\
  (inner (cross_product a b) a = 0 /\ inner (cross_product a b) b = 0) /\
  cross_product a b = vneg (cross_product b a) /\
  inner (cross_product a b) (cross_product a b)
    = inner a a * inner b b - inner a b * inner a b /\
  cross_product (vadd (vscale a k) b) c
    = vadd (vscale (cross_product a c) k) (cross_product b c) /\
  inner (cross_product a b) c = det3 a b c /\
  (cross_product ex ey = ez /\ cross_product ey ez = ex /\ cross_product ez ex = ey).
Proof.
  exact (conj (dot_inner a b) (conj (cross_orth a b) (conj (cross_antisym a b)
    (conj (cross_lagrange a b) (conj (cross_bilinear a b c k)
    (conj (cross_det a b c) cross_basis)))))).
Qed.

(** C01: the cross product vanishes only for parallel vectors *)
Theorem C01_cross_zero (a b : pt) :
  a <> origin -> cross_product a b = origin -> exists k, b = vscale a k.
Proof. exact (cross_zero_parallel a b). Qed.

Example C01_cross_zero_meets :
  (V3 1 2 3 : pt) <> origin /\ cross_product (V3 1 2 3 : pt) (V3 2 4 6) = origin.
Proof.
  split; [unfold origin; intros H; injection H; intros; lra|].
  unfold origin, cross_product; numR; cbn; f_equal; ring.
Qed.

(** C02: the norm is a norm *)
Theorem C02_norm (a b : pt) (k : R) :
  (vnorm a = 0 <-> a = origin) /\
  0 <= vnorm a /\
  vnorm (vscale a k) = Rabs k * vnorm a /\
  vnorm (vadd a b) <= vnorm a + vnorm b /\
  vabs a = vnorm a.
Proof.
  exact (conj (nrm_zero a) (conj (nrm_nonneg a) (conj (nrm_scale a k)
    (conj (nrm_triangle a b) eq_refl)))).
Qed.

(** C02: unit and normalize *)
Theorem C02_unit (v : pt) :
  v <> origin ->
  nrm (vunit v) = 1 /\ vscale (vunit v) (nrm v) = v /\ vnormalize v = vunit v.
Proof.
  exact (fun H => conj (unit_nrm v H) (conj (unit_parallel v H) (normalize_unit v))).
Qed.

Example C02_unit_meets : (V3 3 0 4 : pt) <> origin /\ nrm (V3 3 0 4) = 5.
Proof.
  split; [unfold origin; intros H; injection H; intros; lra|].
  unfold nrm; cbn. replace (3 * 3 + 0 * 0 + 4 * 4) with (5 * 5) by ring.
  apply sqrt_square; lra.
Qed.

(** C03: exact result of a local/global round trip in any orthonormal frame *)
Theorem C03_roundtrip_error (v n t1 t2 c : pt) :
  orthonormal n t1 t2 ->
  let l := transform_to_local_frame v n t1 t2 (Some c) in
  transform_to_global_frame l n t1 t2 (Some c)
  = V3 (vx v) (vy v + (vy l - vz l) * vy t2) (vz v).
Proof. exact (frame_roundtrip v n t1 t2 c). Qed.

(** C03: same without an origin *)
Theorem C03_roundtrip_error_no_origin (v n t1 t2 : pt) :
  orthonormal n t1 t2 ->
  let l := transform_to_local_frame v n t1 t2 None in
  transform_to_global_frame l n t1 t2 None
  = V3 (vx v) (vy v + (vy l - vz l) * vy t2) (vz v).
Proof. exact (frame_roundtrip_none v n t1 t2). Qed.

(** C03: the round trip is the identity iff (z_local - y_local) * t2.y = 0 *)
Theorem C03_roundtrip_iff (v n t1 t2 c : pt) :
  orthonormal n t1 t2 ->
  let l := transform_to_local_frame v n t1 t2 (Some c) in
  transform_to_global_frame l n t1 t2 (Some c) = v
  <-> (vz l - vy l) * vy t2 = 0.
Proof. exact (frame_roundtrip_iff v n t1 t2 c). Qed.

(** C03: the local coordinates are the projections on the frame vectors *)
Theorem C03_local_coordinates (v n t1 t2 c : pt) :
  let l := transform_to_local_frame v n t1 t2 (Some c) in
  vx l = inner (V3 (vx v - vx c) (vy v - vy c) (vz v - vz c)) n /\
  vy l = inner (V3 (vx v - vx c) (vy v - vy c) (vz v - vz c)) t1 /\
  vz l = inner (V3 (vx v - vx c) (vy v - vy c) (vz v - vz c)) t2.
Proof. exact (local_frame_coords v n t1 t2 c). Qed.

(** the frame (e_z, e_x, e_y) is right handed and the round trip of (1,2,3)
    is wrong in it: the defect is not vacuous *)
Example C03_meets : orthonormal ez ex ey /\
  transform_to_global_frame
    (transform_to_local_frame (V3 1 2 3) ez ex ey (Some origin)) ez ex ey (Some origin)
  = V3 1 1 3.
Proof.
  split; [unfold orthonormal, inner, ex, ey, ez; cbn; repeat split; ring|].
  unfold transform_to_global_frame, transform_to_local_frame, vdot, vsub, origin,
    ex, ey, ez; numR; cbn; f_equal; ring.
Qed.

Print Assumptions C01_vector_space.
Print Assumptions C01_dot_cross.
Print Assumptions C01_cross_zero.
Print Assumptions C02_norm.
Print Assumptions C02_unit.
Print Assumptions C03_roundtrip_error.
Print Assumptions C03_roundtrip_error_no_origin.
Print Assumptions C03_roundtrip_iff.
Print Assumptions C03_local_coordinates.
