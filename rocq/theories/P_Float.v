(** Properties C05, C39, C84: the arithmetic the library runs in, IEEE binary64
    with binary32 storage of meshes (NumF.v). *)
From Coq Require Import Reals Lra ZArith String List Permutation Lia Bool.
From Flocq Require Import Core BinarySingleNaN.
From Verif Require Import Num NumF Py M_Vector M_Path M_Surface M_Geometry M_Mesh M_Component SpecMesh SpecFloats L_Float L_FloatMesh.
Import ListNotations.
Local Open Scope R_scope.

(** C05: in binary64 a line starts at its first point, coordinate by coordinate,
    exactly when that coordinate is not NaN and the other end is finite; it ends
    at its second point exactly when that is not NaN and the first is finite.
    Comparison is Python's ==. *)
Theorem C05_binary64 L (p0 p1 : vec b64) :
  exists a b, p_call (Line (N := NumF L) p0 p1) (of_Z 0) = Ok a /\
    p_call (Line (N := NumF L) p0 p1) (of_Z 1) = Ok b /\
    forall f, In f [vx; vy; vz] ->
      (Beqb (f a) (f p0) = true <-> is_nan (f p0) = false /\ is_finite (f p1) = true) /\
      (Beqb (f b) (f p1) = true <-> is_nan (f p1) = false /\ is_finite (f p0) = true).
Proof. exact (line_ends_float L p0 p1). Qed.
(** C05: so for finite end points both ends are exact *)
Theorem C05_binary64_finite L (p0 p1 : vec b64) : finite_vec p0 -> finite_vec p1 ->
  exists a b, p_call (Line (N := NumF L) p0 p1) (of_Z 0) = Ok a /\
    p_call (Line (N := NumF L) p0 p1) (of_Z 1) = Ok b /\
    finite_vec a /\ finite_vec b /\ real_vec a = real_vec p0 /\ real_vec b = real_vec p1.
Proof. exact (line_ends_real L p0 p1). Qed.
Example C05_binary64_meets : finite_vec (V3 (Bdiv mode_NE (of_Z 1) (of_Z 10)) (of_Z 3) (of_Z (-7))) /\
  ~ finite_vec (V3 (Bdiv mode_NE (of_Z 1) (of_Z 0)) (of_Z 3) (of_Z (-7))).
Proof. split; [repeat split; reflexivity|]. intros (H & _). discriminate H. Qed.

(** C39: in binary64 the parameters a patch is sampled at with n cells increase
    strictly from 0 and are i/n up to 3 units of 2^-53; the last one is 1 or the
    double below 1.  x ** 1 is assumed to be x. *)
Theorem C39_binary64 L n : exact_pow_one L -> (0 < n)%nat -> (Z.of_nat n <= 2 ^ 51)%Z ->
  exists g, default_vertex_func (N := NumF L) (of_Z 0) (of_Z 1) (S n) (of_Z 1) = Ok g /\ length g = S n /\
    (forall i, (i <= n)%nat -> is_finite (nth i g B754_nan) = true /\
       0 <= B2R (nth i g B754_nan) <= 1 /\
       Rabs (B2R (nth i g B754_nan) - INR i / INR n) <= 3 / 2 ^ 53) /\
    B2R (nth 0 g B754_nan) = 0 /\
    (B2R (nth n g B754_nan) = 1 \/ B2R (nth n g B754_nan) = 1 - 1 / 2 ^ 53) /\
    (forall i j, (i < j <= n)%nat -> B2R (nth i g B754_nan) < B2R (nth j g B754_nan)).
Proof. exact (grid_float L n). Qed.
(** C39: for a power of two cells they are exactly i/n *)
Theorem C39_binary64_exact L k : exact_pow_one L -> (k <= 51)%nat ->
  exists g, default_vertex_func (N := NumF L) (of_Z 0) (of_Z 1) (S (2 ^ k)) (of_Z 1) = Ok g /\
    forall i, (i <= 2 ^ k)%nat -> B2R (nth i g B754_nan) = INR i / INR (2 ^ k).
Proof. exact (grid_float_exact L k). Qed.
(** C39: with 49 cells the last parameter is below 1: patches are not meshed to
    their end *)
Theorem C39_binary64_short L : exact_pow_one L ->
  exists g, default_vertex_func (N := NumF L) (of_Z 0) (of_Z 1) 50 (of_Z 1) = Ok g /\
    B2R (nth 49 g B754_nan) = 1 - 1 / 2 ^ 53 /\ Beqb (nth 49 g B754_nan) (of_Z 1) = false.
Proof. exact (grid_float_short L). Qed.
Definition plain_libm : libm :=
  mkLibm (fun x => x) (fun x => x) (fun x => x) (fun x _ => x) (fun x _ => x) (fun x _ => x) (fun _ x => x) (of_Z 3).
Example C39_binary64_meets : exact_pow_one plain_libm /\ (Z.of_nat 49 <= 2 ^ 51)%Z.
Proof. split; [intros x; reflexivity|]. cbn. lia. Qed.

(** C84: a box with cross sections [-1,2] x [-1,2] at x = 0 and x = 1, whose edges
    meet exactly, is watertight at every resolution over the reals (C42), but its
    mesh at resolution 3 computed in binary64 and stored in binary32 is not:
    among its directed edges is one whose reverse is not there (comparing values,
    so 0 = -0) *)
Theorem C84_box_refuted L : exact_pow_one L ->
  exists l m, swept_patches (N := NumF L) (float_box L) 4 true (ResInt 3) = Ok l /\
    fresh_mesh (N := NumF L) (sized_patches l) (ResInt 3) (sized_res_r l) (sized_res_s l) no_clustering = Ok m /\
    length m = 216%nat /\ Forall finite_tri m /\ ~ watertight (map_mesh real_vec m).
Proof. exact (float_box_mesh L). Qed.
(** C84: the corners of that box meet exactly *)
Theorem C84_box_closed L k e : (k < 2)%nat -> (e < 4)%nat ->
  exists a b, p_call (nth e (nth k (float_box L) []) (Line (N := NumF L) origin64 origin64)) (of_Z 1) = Ok a /\
    p_call (nth (Nat.modulo (S e) 4) (nth k (float_box L) []) (Line (N := NumF L) origin64 origin64)) (of_Z 0) = Ok b /\
    real_vec a = real_vec b.
Proof. exact (float_box_closed L k e). Qed.
Example C84_meets : exact_pow_one plain_libm.
Proof. intros x. reflexivity. Qed.

Print Assumptions C05_binary64.
Print Assumptions C05_binary64_finite.
Print Assumptions C39_binary64.
Print Assumptions C39_binary64_exact.
Print Assumptions C39_binary64_short.
Print Assumptions C84_box_refuted.
Print Assumptions C84_box_closed.
