(** Specification vocabulary for fins. *)
From Coq Require Import Reals List String.
From Verif Require Import NumR Py M_Vector SpecR3 M_Path SpecPoly M_Surface SpecSurf SpecWing.
Local Open Scope R_scope.

(** the polygon p1 p2 p3 travelled at constant speed, and the time of the corner *)
Definition corner_time (p1 p2 p3 : pt) : R := dist p1 p2 / (dist p1 p2 + dist p2 p3).
Definition bent (p1 p2 p3 : pt) (t : R) : pt :=
  let T := corner_time p1 p2 p3 in
  if Rle_dec t T then lerp (t / T) p1 p2 else lerp ((t - T) / (1 - T)) p2 p3.

(** points at most e apart *)
Definition apart (e : R) (P Q : pt) : Prop := dist P Q <= e.

(** distance allowed between the end of a quarter ellipse of half thickness b
    and width at least W and the point it should end at *)
Definition ellipse_gap (b W : R) : R :=
  b / 16331239353195370 + b * (b * b) / (2 * (W * W) * (16331239353195370 * 16331239353195370)).

(** a function of the plane that changes by at most K times the distance *)
Definition lipschitz (K : R) (h : R -> R -> R) : Prop :=
  forall x y x' y', Rabs (h x y - h x' y') <= K * dist (V3 x y 0) (V3 x' y' 0).

(** what a root finder with error tol promises: for a Lipschitz function, the
    result lies in the interval, at most tol from a root *)
Definition finds_root (tol : R) (bisect : (R -> res R) -> R -> R -> res R) : Prop :=
  forall fn phi C a b t, (forall x, a <= x <= b -> fn x = Ok (phi x)) ->
    (forall x y, Rabs (phi x - phi y) <= C * Rabs (x - y)) ->
    bisect fn a b = Ok t ->
    a <= t <= b /\ exists r, a <= r <= b /\ phi r = 0 /\ Rabs (t - r) <= tol.
(** it returns the left end if that is a root *)
Definition tries_left (bisect : (R -> res R) -> R -> R -> res R) : Prop :=
  forall fn a b, fn a = Ok 0 -> bisect fn a b = Ok a.

(** how well two sides fit: exactly, up to the end gap of an ellipse, or up to
    that and the misplaced corner of the leading edge *)
Inductive fit := Exact | Ellipse | Corner.
Definition fin_side : Type := string * side.
Definition fin_seam : Type := fin_side * fin_side * bool * fit.
Definition fin_seams_common : list fin_seam :=
 ((("top_patch", r1), ("LE_top_patch_0", s0), true, Corner) ::
  (("top_patch", s1), ("LE_top_patch_1", s0), false, Corner) ::
  (("bot_patch", s1), ("LE_bot_patch_0", s1), true, Corner) ::
  (("bot_patch", r1), ("LE_bot_patch_1", s1), false, Corner) ::
  (("LE_top_patch_0", s1), ("LE_bot_patch_0", s0), false, Exact) ::
  (("LE_top_patch_1", s1), ("LE_bot_patch_1", s0), false, Exact) ::
  (("LE_top_patch_0", r0), ("LE_top_patch_1", r1), false, Exact) ::
  (("LE_bot_patch_0", r0), ("LE_bot_patch_1", r1), false, Exact) ::
  (("bot_ellip", r0), ("bot_1", r0), true, Exact) ::
  (("bot_ellip", s1), ("bot_2", r0), true, Ellipse) ::
  (("bot_ellip", s0), ("LE_top_patch_1", r0), false, Ellipse) ::
  (("bot_ellip", r1), ("LE_bot_patch_1", r0), false, Exact) ::
  (("bot_1", s1), ("top_patch", r0), true, Exact) ::
  (("bot_1", s0), ("bot_2", s1), false, Exact) ::
  (("bot_2", s0), ("bot_patch", s0), true, Exact) :: nil)%string.
Definition flat_rudder_seams : list fin_seam :=
 ((("TE_ellip", r0), ("TE_2", r1), false, Exact) ::
  (("TE_ellip", s1), ("TE_1", r1), false, Ellipse) ::
  (("TE_ellip", r1), ("LE_top_patch_0", r1), true, Exact) ::
  (("TE_ellip", s0), ("LE_bot_patch_0", r1), true, Ellipse) ::
  (("TE_1", s1), ("top_patch", s0), false, Exact) ::
  (("TE_1", s0), ("TE_2", s1), false, Exact) ::
  (("TE_2", s0), ("bot_patch", r0), false, Exact) ::
  (("TE_1", r0), ("bot_1", r1), false, Exact) ::
  (("TE_2", r0), ("bot_2", r1), false, Exact) :: nil)%string.
Definition sharp_rudder_seams : list fin_seam :=
 ((("TE_top", s1), ("top_patch", s0), false, Exact) ::
  (("TE_bot", s0), ("bot_patch", r0), false, Exact) ::
  (("TE_top", s0), ("TE_bot", s1), false, Exact) ::
  (("TE_top", r1), ("TE_ellipse", s0), true, Ellipse) ::
  (("TE_bot", r1), ("TE_ellipse", r1), true, Exact) ::
  (("TE_ellipse", r0), ("LE_top_patch_0", r1), false, Exact) ::
  (("TE_ellipse", s1), ("LE_bot_patch_0", r1), false, Ellipse) ::
  (("TE_triangle", r0), ("TE_top", r0), true, Exact) ::
  (("TE_triangle", s1), ("TE_bot", r0), true, Exact) ::
  (("TE_triangle", s0), ("bot_1", r1), true, Exact) ::
  (("TE_triangle", r1), ("bot_2", r1), true, Exact) :: nil)%string.
Definition fin_sides (l : list fin_seam) : list fin_side :=
  flat_map (fun e => fst (fst (fst e)) :: snd (fst (fst e)) :: nil) l.
Definition sides_of_all (names : list string) : list fin_side :=
  flat_map (fun n => (n, r0) :: (n, r1) :: (n, s0) :: (n, s1) :: nil) names.
(** the seam holds in d, with e the end gap of the ellipses and m the miss at
    the corner *)
Definition seam_fits (d : dict (surf R)) (e m : R) (s : fin_seam) : Prop :=
  let '((na, ea), (nb, eb), rev, ft) := s in
  joined d na ea nb eb (if rev then reversed else along)
    (match ft with Exact => same | Ellipse => apart e | Corner => apart (e + m) end).
