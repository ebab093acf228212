(** Specification vocabulary: where the control surfaces of the X-43 end. *)
From Coq Require Import Reals.
From Verif Require Import Num NumR M_Vector SpecR3.
Local Open Scope R_scope.

(** an angle given in degrees; Rtan is the tangent, with a large number for its
    poles *)
Definition degrees (a : R) : R := a * (PI / 180).

(** the two ends of the trailing edge of the flap, turned by the number fa taken
    as radians; positive angles move it towards +z, away from the top *)
Definition x43_flap_inner (L bw ba fl fa : R) : pt :=
  V3 (fl - fl * cos fa) (bw / 2) ((fl - L) * Rtan (degrees ba) + fl * sin fa).
Definition x43_flap_outer (L bw ba ws wt fl fa : R) : pt :=
  V3 (fl - wt - fl * cos fa) (bw / 2 + ws) ((fl - wt - L) * Rtan (degrees ba) + fl * sin fa).

(** the two ends of the trailing edge of the rudder of the fin at y = side,
    moved sideways as a turn by ra degrees does; its length along x is kept *)
Definition x43_rudder_foot (L ba fn rl ra side : R) : pt :=
  V3 0 (side + rl * sin (degrees ra)) ((fn - L) * Rtan (degrees ba)).
Definition x43_rudder_top (L ba fh fn rl ra side : R) : pt :=
  V3 0 (side + rl * sin (degrees ra)) ((fn - L) * Rtan (degrees ba) - fh).
