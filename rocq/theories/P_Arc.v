(** Properties C13-C15: circular arcs (geometry/path.py, class Arc). *)
From Coq Require Import Reals Lra List.
From Verif Require Import Num NumR Py M_Vector SpecR3 M_Path SpecPath SpecPoly
  L_Vector L_Line L_Arc.
Local Open Scope R_scope.

(** C13: when the plane normal has no y component the arc is a circular arc
    from a to b about c; theta is the angle between a-c and b-c *)
Theorem C13_arc_flat a b c :
  dist a c = dist b c -> crossR (diff a c) (diff b c) <> origin ->
  vy (crossR (diff a c) (diff b c)) = 0 ->
  exists theta, arc_angle a b c theta /\ p_len (Arc a b c) = Ok (dist a c * theta) /\
    p_call (Arc a b c) 0 = Ok a /\ p_call (Arc a b c) 1 = Ok b /\
    forall t, p_call (Arc a b c) t = Ok (arc_point a b c (t * theta)) /\
      dist (arc_point a b c (t * theta)) c = dist a c.
Proof. exact (arc_flat a b c). Qed.

(** C13: the angle is determined by the three points *)
Theorem C13_angle_unique a b c th th' :
  crossR (diff a c) (diff b c) <> origin ->
  arc_angle a b c th -> arc_angle a b c th' -> th = th'.
Proof. exact (arc_theta_unique a b c th th'). Qed.

Example C13_meets :
  let a := V3 1 0 0 : pt in let b := V3 0 1 0 in let c := V3 0 0 0 in
  dist a c = dist b c /\ crossR (diff a c) (diff b c) <> origin /\
  vy (crossR (diff a c) (diff b c)) = 0.
Proof.
  cbn. split; [unfold dist; cbn; f_equal; ring|]. split; [|ring].
  intros E. injection E. intros; lra.
Qed.

(** C14: in general the point is off the true arc in y by r sin(t theta) n_y *)
Theorem C14_arc_value a b c :
  dist a c = dist b c -> crossR (diff a c) (diff b c) <> origin ->
  exists theta, arc_angle a b c theta /\
    p_len (Arc a b c) = Ok (dist a c * theta) /\
    (forall t, p_call (Arc a b c) t =
      Ok (let q := arc_point a b c (t * theta) in
          V3 (vx q) (vy q + dist a c * sin (t * theta) * vy (arc_normal a b c)) (vz q))) /\
    arc_point a b c theta = b.
Proof. exact (arc_equal_radii a b c). Qed.

(** C14: the arc starts at a, but ends at b exactly when the plane normal has no
    y component *)
Theorem C14_arc_ends a b c :
  dist a c = dist b c -> crossR (diff a c) (diff b c) <> origin ->
  p_call (Arc a b c) 0 = Ok a /\
  (p_call (Arc a b c) 1 = Ok b <-> vy (crossR (diff a c) (diff b c)) = 0).
Proof.
  exact (fun H H' => conj (arc_start_value a b c H H') (arc_hits_end_iff a b c H H')).
Qed.

(** C14: an arc in the xz-plane, as used for a nose profile in that plane,
    misses its end point *)
Example C14_meets :
  let a := V3 1 0 0 : pt in let b := V3 0 0 1 in let c := V3 0 0 0 in
  dist a c = dist b c /\ crossR (diff a c) (diff b c) <> origin /\
  p_call (Arc a b c) 1 <> Ok b.
Proof.
  intros a b c.
  assert (H : dist a c = dist b c) by (unfold dist; cbn; f_equal; ring).
  assert (H' : crossR (diff a c) (diff b c) <> origin)
    by (cbn; intros E; injection E; intros; lra).
  split; [exact H|]. split; [exact H'|]. intros E.
  apply (arc_hits_end_iff a b c H H') in E. cbn in E. lra.
Qed.

(** C15: evaluation succeeds exactly for (nearly) equal radii and a proper plane *)
Theorem C15_arc_ok_iff a b c t :
  is_ok (p_call (Arc a b c) t) <->
  (Rabs (dist a c - dist b c) <= 1 / 100000 /\ crossR (diff a c) (diff b c) <> origin).
Proof. exact (arc_ok_iff a b c t). Qed.

(** C15: otherwise the generic exception is raised *)
Theorem C15_arc_error a b c t e :
  p_call (Arc a b c) t = Raise e -> e = GenericError.
Proof. exact (arc_raise_kind a b c t e). Qed.

Example C15_meets :  (* a half circle is rejected *)
  p_call (Arc (V3 1 0 0) (V3 (-1) 0 0) (V3 0 0 0) : path R) (1 / 2) = Raise GenericError.
Proof.
  unfold Arc; cbn [p_call]. rewrite arc_raises_plane; [reflexivity|].
  unfold crossR, diff, origin; cbn; f_equal; ring.
Qed.

Print Assumptions C13_arc_flat.
Print Assumptions C14_arc_value.
Print Assumptions C14_arc_ends.
Print Assumptions C15_arc_ok_iff.
