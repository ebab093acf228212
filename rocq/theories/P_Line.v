(** Properties C05-C07: Line and Bezier (src/hypervehicle/geometry/path.py). *)
From Coq Require Import Reals Lra List.
From Verif Require Import Num NumR Py M_Vector SpecR3 M_Path SpecPath L_Vector L_Line.
Import ListNotations.
Local Open Scope R_scope.

(** C05: a line is the affine interpolation of its end points; it starts at p0,
    ends at p1, is traversed at constant speed and reports its true length *)
Theorem C05_line (p0 p1 : pt) :
  (forall t, p_call (Line p0 p1) t = Ok (lerp t p0 p1)) /\
  p_call (Line p0 p1) 0 = Ok p0 /\
  p_call (Line p0 p1) 1 = Ok p1 /\
  (forall s t p q, p_call (Line p0 p1) s = Ok p -> p_call (Line p0 p1) t = Ok q ->
     dist p q = Rabs (s - t) * dist p0 p1) /\
  p_len (Line p0 p1) = Ok (dist p0 p1).
Proof. exact (line_all p0 p1). Qed.

(** C05: adding an offset translates every point and keeps the length *)
Theorem C05_line_offset (p0 p1 v : pt) t p :
  p_call (Line p0 p1) t = Ok p ->
  p_call (Line_add p0 p1 v) t = Ok (translate p v) /\
  p_len (Line_add p0 p1 v) = p_len (Line p0 p1).
Proof. exact (line_offset_all p0 p1 v t p). Qed.

Example C05_meets :
  p_call (Line (V3 1 2 3) (V3 5 2 3) : path R) (1 / 4) = Ok (V3 2 2 3).
Proof. rewrite line_lerp. f_equal. apply vec_ext; cbn; lra. Qed.

(** C06: de Casteljau evaluation equals the Bernstein form *)
Theorem C06_bernstein (B : list pt) t : B <> [] ->
  p_call (Bezier B) t = Ok (bernstein_pt B t).
Proof. exact (bezier_bernstein_pt B t). Qed.

(** C06: first and last control point are interpolated *)
Theorem C06_ends (B : list pt) : B <> [] ->
  p_call (Bezier B) 0 = Ok (nth 0 B origin) /\
  p_call (Bezier B) 1 = Ok (last B origin).
Proof. exact (bezier_ends B). Qed.

(** C06: without control points every evaluation raises IndexError, and so does
    the length *)
Theorem C06_empty t :
  p_call (Bezier (@nil pt)) t = Raise IndexError /\
  p_len (Bezier (@nil pt)) = Raise IndexError.
Proof. exact (conj (bezier_empty t) eq_refl). Qed.

Example C06_meets :
  ([V3 0 0 0; V3 1 2 0; V3 3 0 0] : list pt) <> [] /\
  p_call (Bezier ([V3 0 0 0; V3 1 2 0; V3 3 0 0] : list pt)) (1 / 2) = Ok (V3 (5 / 4) 1 0).
Proof.
  split; [discriminate|]. unfold Bezier, Bezier_call; cbn. f_equal.
  apply vec_ext; vunf; cbn; lra.
Qed.

(** C07: hull property, for every linear functional *)
Theorem C07_hull (B : list pt) t f lo hi :
  B <> [] -> 0 <= t <= 1 -> linear_fun f ->
  (forall b, In b B -> lo <= f b <= hi) ->
  exists p, p_call (Bezier B) t = Ok p /\ lo <= f p <= hi.
Proof. exact (bezier_hull B t f lo hi). Qed.

(** C07: coordinates and inner products are such functionals *)
Theorem C07_functionals (v : pt) :
  linear_fun vx /\ linear_fun vy /\ linear_fun vz /\ linear_fun (inner v).
Proof. exact (conj linear_vx (conj linear_vy (conj linear_vz (linear_inner v)))). Qed.

(** C07: affine invariance *)
Theorem C07_affine A (B : list pt) t : affine_map A -> B <> [] ->
  exists p, p_call (Bezier B) t = Ok p /\ p_call (Bezier (map A B)) t = Ok (A p).
Proof. exact (bezier_affine A B t). Qed.

Example C07_hull_meets :
  let B := [V3 0 0 0; V3 1 2 0; V3 3 0 0] : list pt in
  B <> [] /\ (0 <= 1 / 3 <= 1) /\ linear_fun vy /\ (forall b, In b B -> 0 <= vy b <= 2).
Proof.
  split; [discriminate|]. split; [lra|]. split; [exact linear_vy|].
  intros b [<-|[<-|[<-|[]]]]; cbn; lra.
Qed.

Example C07_affine_meets : affine_map (fun p => translate p (V3 1 2 3)).
Proof. intros k a b. unfold translate, lerp; apply vec_ext; cbn; ring. Qed.

Print Assumptions C05_line.
Print Assumptions C06_bernstein.
Print Assumptions C07_hull.
Print Assumptions C07_affine.
