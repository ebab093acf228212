(** Properties C08-C10, C12: Polyline and Spline (geometry/path.py). *)
From Coq Require Import Reals Lra Lia List.
From Verif Require Import Num NumR Py M_Vector SpecR3 M_Path SpecPath SpecPoly
  L_Vector L_Line L_Polyline L_Spline.
Import ListNotations.
Local Open Scope R_scope.

(** C08: breakpoints of a polyline with positive segment lengths *)
Theorem C08_breakpoints segs ls tol :
  segs <> [] -> lengths segs ls -> Forall (fun l => 0 < l) ls ->
  exists pl, Polyline_init segs false tol = Ok pl /\
    pl_segments pl = segs /\
    length (pl_t_values pl) = S (length segs) /\
    nth 0 (pl_t_values pl) 0 = 0 /\
    nth (length segs) (pl_t_values pl) 0 = 1 /\
    strictly_increasing (pl_t_values pl) /\
    (forall k, (k < length segs)%nat ->
       nth (S k) (pl_t_values pl) 0 - nth k (pl_t_values pl) 0 = nth k ls 0 / Rsum ls) /\
    p_len (polyline_path pl) = Ok (Rsum ls).
Proof. exact (polyline_breaks_all segs ls tol). Qed.

(** C09: exactly one segment determines the value *)
Theorem C09_one_segment segs ls tol pl t :
  segs <> [] -> lengths segs ls -> Forall (fun l => 0 < l) ls ->
  Forall total_path segs -> Polyline_init segs false tol = Ok pl ->
  exists k s, in_segment (length segs) (pl_t_values pl) t k /\
    (forall j, in_segment (length segs) (pl_t_values pl) t j -> j = k) /\
    nth_error segs k = Some s /\
    Polyline_call pl t = p_call s (local_t (pl_t_values pl) k t).
Proof. exact (polyline_one_segment segs ls tol pl t). Qed.

(** C09: values at the breakpoints and at both ends *)
Theorem C09_breakpoint_values segs ls tol pl :
  segs <> [] -> lengths segs ls -> Forall (fun l => 0 < l) ls ->
  Forall total_path segs -> Polyline_init segs false tol = Ok pl ->
  (forall s, nth_error segs 0 = Some s -> Polyline_call pl 0 = p_call s 0) /\
  (forall s, nth_error segs (length segs - 1) = Some s -> Polyline_call pl 1 = p_call s 1) /\
  (forall k s, nth_error segs k = Some s ->
     Polyline_call pl (nth (S k) (pl_t_values pl) 0) = p_call s 1).
Proof. exact (polyline_values_all segs ls tol pl). Qed.

(** C09: when consecutive segments meet, every breakpoint is also the start of
    the following segment *)
Theorem C09_joined segs ls tol pl :
  segs <> [] -> lengths segs ls -> Forall (fun l => 0 < l) ls ->
  Forall total_path segs -> Polyline_init segs false tol = Ok pl ->
  (forall k s s', nth_error segs k = Some s -> nth_error segs (S k) = Some s' ->
     p_call s 1 = p_call s' 0) ->
  forall k s, nth_error segs k = Some s ->
    Polyline_call pl (nth k (pl_t_values pl) 0) = p_call s 0.
Proof. exact (polyline_joined segs ls tol pl). Qed.

Example C09_meets :
  let segs := [Line (V3 0 0 0) (V3 3 0 0); Line (V3 3 0 0) (V3 3 1 0)] : list (path R) in
  segs <> [] /\ (exists ls, lengths segs ls /\ Forall (fun l => 0 < l) ls) /\
  Forall total_path segs /\
  (forall k s s', nth_error segs k = Some s -> nth_error segs (S k) = Some s' ->
     p_call s 1 = p_call s' 0).
Proof.
  split; [discriminate|]. split.
  - exists [dist (V3 0 0 0) (V3 3 0 0); dist (V3 3 0 0) (V3 3 1 0)]. split.
    + repeat constructor; apply line_length.
    + repeat constructor; apply sqrt_lt_R0; cbn; lra.
  - split; [repeat constructor; apply line_total|].
    intros [|[|k]] s s'; cbn; [|discriminate|destruct k; discriminate].
    intros H H'. injection H as <-. injection H' as <-.
    rewrite !line_lerp, lerp_0, lerp_1. reflexivity.
Qed.

(** C10: closed=True on a chain whose ends are further apart than the tolerance
    neither ends where it starts nor is continuous: the appended segment runs
    from the start to the end *)
Theorem C10_closed_defect segs ls s0 sl p0 p1 tol :
  lengths segs ls -> Forall (fun l => 0 < l) ls -> Forall total_path segs ->
  nth_error segs 0 = Some s0 -> nth_error segs (length segs - 1) = Some sl ->
  p_call s0 0 = Ok p0 -> p_call sl 1 = Ok p1 -> 0 <= tol < dist p0 p1 ->
  exists pl, Polyline_init segs true tol = Ok pl /\
    Polyline_call pl 0 = Ok p0 /\
    Polyline_call pl 1 = Ok p1 /\ p1 <> p0 /\
    (let tb := nth (length segs) (pl_t_values pl) 0 in
     0 < tb < 1 /\ Polyline_call pl tb = Ok p1 /\
     forall t, tb < t <= 1 -> Polyline_call pl t = Ok (lerp ((t - tb) / (1 - tb)) p0 p1)).
Proof. exact (closed_open_chain segs ls s0 sl p0 p1 tol). Qed.

(** C10: within the tolerance nothing is appended *)
Theorem C10_already_closed segs ls s0 sl p0 p1 tol :
  lengths segs ls ->
  nth_error segs 0 = Some s0 -> nth_error segs (length segs - 1) = Some sl ->
  p_call s0 0 = Ok p0 -> p_call sl 1 = Ok p1 -> dist p1 p0 <= tol ->
  Polyline_init segs true tol = Polyline_init segs false tol.
Proof. exact (closed_noop segs ls s0 sl p0 p1 tol). Qed.

Example C10_meets :
  let segs := [Line (V3 0 0 0) (V3 3 0 0); Line (V3 3 0 0) (V3 3 1 0)] : list (path R) in
  p_call (nth 0 segs (Line origin origin)) 0 = Ok (V3 0 0 0) /\
  p_call (nth 1 segs (Line origin origin)) 1 = Ok (V3 3 1 0) /\
  0 <= / 10000000000 < dist (V3 0 0 0) (V3 3 1 0).
Proof.
  cbn [nth]. rewrite !line_lerp, lerp_0, lerp_1. repeat split; try lra.
  apply Rlt_trans with (sqrt 1); [rewrite sqrt_1; lra|]. apply sqrt_lt_1; cbn; lra.
Qed.

(** C12: every spline consists of cubics joining consecutive points *)
Theorem C12_segments pts closed tol pl : (2 <= length pts)%nat -> 0 <= tol ->
  Spline_init pts closed tol = Ok pl ->
  length (pl_segments pl) = (length (closed_points pts closed tol) - 1)%nat /\
  forall i, (S i < length (closed_points pts closed tol))%nat ->
    exists q1 q2, nth_error (pl_segments pl) i =
      Some (Bezier [nth i (closed_points pts closed tol) origin; q1; q2;
                    nth (S i) (closed_points pts closed tol) origin]).
Proof. exact (spline_segment_shape pts closed tol pl). Qed.

(** C12: with distinct neighbours the spline passes through every point, in
    order, at increasing parameters *)
Theorem C12_interpolates pts closed tol : (2 <= length pts)%nat -> 0 <= tol ->
  (forall i, (S i < length (closed_points pts closed tol))%nat ->
     nth i (closed_points pts closed tol) origin
     <> nth (S i) (closed_points pts closed tol) origin) ->
  exists pl, Spline_init pts closed tol = Ok pl /\
    length (pl_segments pl) = (length (closed_points pts closed tol) - 1)%nat /\
    strictly_increasing (pl_t_values pl) /\
    forall k, (k < length (closed_points pts closed tol))%nat ->
      Polyline_call pl (nth k (pl_t_values pl) 0)
      = Ok (nth k (closed_points pts closed tol) origin).
Proof. exact (spline_interpolates pts closed tol). Qed.

(** C12: fewer than two points are rejected, with the error of the division by
    the total length *)
Theorem C12_too_few (pts : list pt) tol : (length pts <= 1)%nat ->
  Spline_init pts false tol = Raise ZeroDivisionError.
Proof. exact (spline_too_few pts tol). Qed.

Example C12_meets :
  let pts := [V3 0 0 0; V3 1 1 0; V3 2 0 0] : list pt in
  (2 <= length pts)%nat /\
  (forall i, (S i < length (closed_points pts false 0))%nat ->
     nth i (closed_points pts false 0) origin <> nth (S i) (closed_points pts false 0) origin).
Proof.
  cbn. split; [lia|]. intros [|[|i]] H; [| |lia]; intros E; injection E; intros; lra.
Qed.

Print Assumptions C08_breakpoints.
Print Assumptions C09_one_segment.
Print Assumptions C09_joined.
Print Assumptions C10_closed_defect.
Print Assumptions C12_interpolates.
