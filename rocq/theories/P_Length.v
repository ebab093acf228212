(** Properties C16-C18: arc-length reparameterisation and path length. *)
From Coq Require Import Reals Lra Lia List.
From Verif Require Import Num NumR Py M_Vector SpecR3 M_Path SpecPath SpecPoly
  L_Vector L_Line L_Polyline L_Spline L_ArcLength.
Import ListNotations.
Local Open Scope R_scope.

(** C16 and C17: the reparameterised path is g(u(t)) for a monotone u into [0,1]
    with u(1) = 1, with u(0) = 0 exactly when the first two samples differ; and
    the sampled (piecewise linear) arc length at u(t) is t times the total *)
Theorem C16_reparameterisation (p : path R) g n : evaluates p g -> (1 <= n)%nat ->
  exists q u, ArcLengthParameterizedPath_n p n = Ok q /\
    evaluates q (fun t => g (u t)) /\ p_len q = p_len p /\
    (forall t, 0 <= u t <= 1) /\ (forall s t, s <= t -> u s <= u t) /\
    u 1 = 1 /\ (u 0 = 0 <-> g 0 <> g (1 / INR n)) /\
    (forall t, 0 <= t <= 1 -> sampled_arc g n (u t) (t * inscribed g n)).
Proof. exact (arclen_all p g n). Qed.

(** C16: same end points *)
Theorem C16_ends (p : path R) g n : evaluates p g -> (1 <= n)%nat ->
  g 0 <> g (1 / INR n) ->
  exists q, ArcLengthParameterizedPath_n p n = Ok q /\
    p_call q 0 = p_call p 0 /\ p_call q 1 = p_call p 1.
Proof. exact (arclen_ends p g n). Qed.

(** C16: no samples are rejected *)
Theorem C16_reject (p : path R) : ArcLengthParameterizedPath_n p 0 = Raise RuntimeError.
Proof. exact (arclen_reject p). Qed.

Example C16_meets :
  evaluates (Line (V3 0 0 0) (V3 1 0 0)) (fun t => lerp t (V3 0 0 0) (V3 1 0 0)) /\
  lerp 0 (V3 0 0 0) (V3 1 0 0) <> lerp (1 / INR 4) (V3 0 0 0) (V3 1 0 0).
Proof.
  split; [intros t; apply line_lerp|]. intros E. injection E. cbn. intros; lra.
Qed.

(** C17: the reparameterised path equalises the sampled arc length *)
Theorem C17_equalises (p : path R) g n : evaluates p g -> (1 <= n)%nat ->
  exists q u, ArcLengthParameterizedPath_n p n = Ok q /\
    (forall t, p_call q t = p_call p (u t)) /\
    (forall t, 0 <= t <= 1 -> sampled_arc g n (u t) (t * inscribed g n)).
Proof. exact (arclen_equalises p g n). Qed.

(** C18: Path.length(n) is the length of the inscribed polygon: non-negative, at
    least the chord, and not decreased by refining the sampling *)
Theorem C18_length (p : path R) g n k :
  evaluates p g -> (1 <= n)%nat -> (1 <= k)%nat ->
  exists l l', Path_length (p_call p) n = Ok l /\ Path_length (p_call p) (n * k) = Ok l' /\
    l = inscribed g n /\ 0 <= l /\ dist (g 0) (g 1) <= l /\ l <= l'.
Proof. exact (length_all p g n k). Qed.

(** C18: exact for straight lines traversed monotonically *)
Theorem C18_straight (p : path R) f a b n :
  evaluates p (fun t => lerp (f t) a b) -> (1 <= n)%nat ->
  f 0 = 0 -> f 1 = 1 ->
  (forall s t, 0 <= s -> s <= t -> t <= 1 -> f s <= f t) ->
  Path_length (p_call p) n = Ok (dist a b).
Proof. exact (length_straight p f a b n). Qed.

(** C18: no sample intervals *)
Theorem C18_zero (p : path R) v : p_call p 0 = Ok v ->
  Path_length (p_call p) 0 = Raise ZeroDivisionError.
Proof. exact (path_length_zero (p_call p) v). Qed.

Example C18_meets :
  let f := fun t : R => t * t in
  f 0 = 0 /\ f 1 = 1 /\ (forall s t, 0 <= s -> s <= t -> t <= 1 -> f s <= f t).
Proof. cbn. repeat split; try lra. intros. apply Rmult_le_compat; lra. Qed.

Print Assumptions C16_reparameterisation.
Print Assumptions C17_equalises.
Print Assumptions C18_length.
Print Assumptions C18_straight.
