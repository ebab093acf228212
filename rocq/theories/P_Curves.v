(** Properties C21-C22: path wrappers and ellipses (geometry/geometry.py). *)
From Coq Require Import Reals Lra List String Lia.
From Verif Require Import Num NumR Py M_Vector SpecR3 M_Path M_Surface M_Geometry
  SpecPath SpecPoly SpecSurf L_Vector L_Line L_Curves.
Local Open Scope R_scope.

(** C21: reparameterisation laws *)
Theorem C21_sub (p : path R) a b c d :
  p_call (SubRangedPath p a b) 0 = p_call p a /\
  p_call (SubRangedPath p a b) 1 = p_call p b /\
  (forall t, p_call (SubRangedPath (SubRangedPath p a b) c d) t =
             p_call (SubRangedPath p (a + c * (b - a)) (a + d * (b - a))) t) /\
  (forall t, p_call (SubRangedPath p 0 1) t = p_call p t) /\
  (forall t, p_call (ReversedPath (SubRangedPath p a b)) t = p_call (SubRangedPath p b a) t).
Proof.
  exact (conj (proj1 (sub_ends p a b)) (conj (proj2 (sub_ends p a b))
    (conj (sub_nested p a b c d) (conj (sub_full p) (sub_rev p a b))))).
Qed.
Theorem C21_reversed (p : path R) t :
  p_call (ReversedPath p) t = p_call p (1 - t) /\
  p_call (ReversedPath (ReversedPath p)) t = p_call p t /\
  p_len (ReversedPath p) = p_len p.
Proof. exact (conj (rev_call p t) (conj (rev_rev p t) (rev_length p))). Qed.

(** C21: on a line of positive length the sampled length of a sub-range is
    |a-b| times the full length, but length() reports it only if |a-b| = 1 *)
Theorem C21_length_refuted p0 p1 a b n : p0 <> p1 -> (1 <= n)%nat ->
  exists true_len, Path_length (p_call (SubRangedPath (Line p0 p1) a b)) n = Ok true_len /\
    true_len = Rabs (a - b) * dist p0 p1 /\
    (p_len (SubRangedPath (Line p0 p1) a b) = Ok true_len <-> Rabs (a - b) = 1).
Proof. exact (sub_length_iff p0 p1 a b n). Qed.

Example C21_meets : (V3 0 0 0 : pt) <> V3 2 0 0 /\
  p_len (SubRangedPath (Line (V3 0 0 0) (V3 2 0 0)) 0 (1 / 2)) <> Ok (Rabs (0 - 1 / 2) * dist (V3 0 0 0) (V3 2 0 0)).
Proof.
  assert (N : (V3 0 0 0 : pt) <> V3 2 0 0) by (intros E; injection E; lra).
  split; [exact N|]. destruct (C21_length_refuted _ _ 0 (1 / 2) 5 N ltac:(lia)) as (l & _ & -> & I).
  intros E. apply I in E. replace (0 - 1 / 2) with (- (1 / 2)) in E by lra.
  rewrite Rabs_Ropp, Rabs_right in E; lra.
Qed.

(** C22: points of the ellipse path satisfy the ellipse equation *)
Theorem C22_on_ellipse c th w side r : th <> 0 -> w <> 0 ->
  side = "bot"%string \/ side = "top"%string ->
  exists p, p_call (ElipsePath c th w side) r = Ok p /\ vx p = vx c /\
    ((vy p - vy c) / w) * ((vy p - vy c) / w) + ((vz p - vz c) / th) * ((vz p - vz c) / th) = 1.
Proof. exact (elipse_on c th w side r). Qed.

(** C22: "bot" traces the quadrant z >= 0 and "top" the quadrant z <= 0 *)
Theorem C22_quadrant c th w r : th <> 0 -> 0 < w -> 0 <= r <= 1 ->
  (exists p, p_call (ElipsePath c th w "bot") r = Ok p /\
     0 < vy p - vy c <= w /\ 0 <= vz p - vz c <= Rabs th) /\
  (exists p, p_call (ElipsePath c th w "top") r = Ok p /\
     0 < vy p - vy c <= w /\ - Rabs th <= vz p - vz c <= 0).
Proof. exact (elipse_quadrant c th w r). Qed.

(** C22: the quarters share their tip exactly; the other ends miss the
    thickness axis, but by no more than |thickness| / 1.6e16 *)
Theorem C22_ends c th w : th <> 0 -> 0 < w ->
  p_call (ElipsePath c th w "bot") 0 = Ok (V3 (vx c) (vy c + w) (vz c)) /\
  p_call (ElipsePath c th w "top") 1 = Ok (V3 (vx c) (vy c + w) (vz c)) /\
  (exists p, p_call (ElipsePath c th w "bot") 1 = Ok p /\
     0 < vy p - vy c <= Rabs th / 16331239353195370) /\
  (exists p, p_call (ElipsePath c th w "top") 0 = Ok p /\
     0 < vy p - vy c <= Rabs th / 16331239353195370).
Proof. exact (elipse_ends c th w). Qed.

(** C22: any other side name is rejected *)
Theorem C22_bad_side c (th w : R) side r :
  side <> "bot"%string -> side <> "top"%string ->
  p_call (ElipsePath c th w side) r = Raise GenericError.
Proof. exact (elipse_bad_side c th w side r). Qed.

Example C22_meets : exists p, p_call (ElipsePath (V3 1 1 1) (1 / 10) 2 "top") (1 / 3) = Ok p /\ vx p = 1.
Proof.
  destruct (C22_on_ellipse (V3 1 1 1) (1 / 10) 2 "top" (1 / 3)) as (p & E & X & _); [lra|lra|auto|].
  exists p. split; [exact E|exact X].
Qed.

Print Assumptions C21_sub.
Print Assumptions C21_length_refuted.
Print Assumptions C22_on_ellipse.
Print Assumptions C22_quadrant.
Print Assumptions C22_ends.
