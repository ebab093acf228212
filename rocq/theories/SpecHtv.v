(** Specification vocabulary: wings whose thickness is given over their
    planform, and root finders that answer when there is a root. *)
From Coq Require Import Reals String List.
From Verif Require Import Num NumR Py M_Vector M_Path M_Surface M_Geometry M_Component M_Common M_Wing SpecR3 SpecPath SpecPoly SpecSurf SpecWing.
Import ListNotations.
Local Open Scope R_scope.

(** surfaces that can be evaluated, or agree, on the unit square *)
Definition on_square (u : surf R) : Prop := forall r s, 0 <= r <= 1 -> 0 <= s <= 1 -> is_ok (u r s).
Definition same_square (u v : surf R) : Prop := forall r s, 0 <= r <= 1 -> 0 <= s <= 1 -> u r s = v r s.
Definition same_entries : dict (surf R) -> dict (surf R) -> Prop :=
  Forall2 (fun a b => fst a = fst b /\ same_square (snd a) (snd b)).

(** the wing w with other thickness functions *)
Definition with_tf {T} (w : wing T) (top bot : tfun T) : wing T :=
  mkWing (w_A0 w) (w_A1 w) (w_TT w) (w_B0 w) (w_line w) (w_line_type w) (w_tB1 w) (w_tB2 w) top bot
         (w_width w) (w_LE_type w) (w_tail w) (w_flap_length w) (w_flap_angle w) (w_close w).

(** a thickness function, defined for x between lo and hi, that moves points
    along z *)
Definition vertical_on (lo hi : R) (f : R -> R -> option R -> res pt) (h : R -> R -> R) : Prop :=
  forall x y z, lo <= x <= hi -> f x y z = Ok (V3 0 0 (h x y)).

(** what scipy.optimize.bisect promises: its result lies in the interval, and it
    answers if the function can be evaluated and changes sign *)
Definition in_interval (bisect : (R -> res R) -> R -> R -> res R) : Prop :=
  forall f a b t, bisect f a b = Ok t -> a <= t <= b.
Definition answers (bisect : (R -> res R) -> R -> R -> res R) : Prop :=
  forall f phi, (forall t, 0 <= t <= 1 -> f t = Ok (phi t)) -> phi 0 <= 0 <= phi 1 -> exists t, bisect f 0 1 = Ok t.

(** a wing over the strip between lo and hi: the trailing edge runs straight
    across, the leading edge g forwards from its end B0 to the tip TT *)
Definition planform (w : wing R) (g : R -> pt) (lo hi : R) : Prop :=
  evaluates (w_line w) g /\ g 0 = w_B0 w /\ g 1 = w_TT w /\ lower (w_line_type w) = "bezier"%string /\ w_tail w = "FLAP"%string /\
  vx (w_A0 w) = vx (w_B0 w) /\ vx (w_B0 w) <= vx (w_A1 w) <= vx (w_TT w) /\
  lo <= vx (w_B0 w) /\ vx (w_TT w) <= hi /\
  (forall t t', 0 <= t -> t <= t' -> t' <= 1 -> vx (g t) <= vx (g t')) /\
  (forall t, w_tB1 w = Some t -> 0 <= t <= 1) /\ (w_tB2 w = None \/ w_tB1 w <> None).
