(** Property C85: what remains of C42 in the arithmetic the library runs in. *)
From Coq Require Import Reals Lra ZArith String List Permutation Lia Bool.
From Flocq Require Import Core BinarySingleNaN.
From Verif Require Import Num NumR NumF Py M_Vector M_Path M_Surface M_Geometry M_Mesh M_Component SpecMesh SpecFloats L_Float L_FloatErr L_FloatMesh L_FloatComp P_Float.
Import ListNotations.
Local Open Scope R_scope.

Lemma sized_from M : / 2 ^ 100 <= M <= 2 ^ 100 -> sized_ok M.
Proof.
  intros H. unfold sized_ok. change (bpow radix2 (-100)) with (/ IZR (2 ^ 100)). change (bpow radix2 100) with (IZR (2 ^ 100)).
  rewrite (pow_IZR 2 100) in H. exact H.
Qed.

(** C85: a closed SweptComponent whose m + 2 cross sections are loops of four
    lines through finite corners with coordinates at most M passes the
    constructor's checks in binary64, and its mesh is, triangle by triangle and
    vertex by vertex, within M / 2^20 of the mesh of the same component in exact
    arithmetic, which is watertight. *)
Theorem C85_near_exact L M m n (c : nat -> nat -> vec b64) : exact_pow_one L ->
  / 2 ^ 100 <= M <= 2 ^ 100 -> (Z.of_nat m < 2 ^ 20)%Z -> (0 < n)%nat -> (Z.of_nat n <= 2 ^ 51)%Z ->
  (forall k e, (k < m + 2)%nat -> (e < 4)%nat -> finite_vec (c k e) /\ size_at_most M (c k e)) ->
  Swept_init (N := NumF L) (line_sections (NumF L) c m) true (ResInt n) = Ok 4%nat /\
  exists l mf lr mr,
    swept_patches (N := NumF L) (line_sections (NumF L) c m) 4 true (ResInt n) = Ok l /\
    fresh_mesh (N := NumF L) (sized_patches l) (ResInt n) (sized_res_r l) (sized_res_s l) no_clustering = Ok mf /\
    swept_patches (N := NumR) (line_sections NumR (fun k e => real_vec (c k e)) m) 4 true (ResInt n) = Ok lr /\
    fresh_mesh (N := NumR) (sized_patches lr) (ResInt n) (sized_res_r lr) (sized_res_s lr) no_clustering = Ok mr /\
    watertight mr /\ length mf = (24 * n * n)%nat /\ Forall2 (near_tri (M / 2 ^ 20)) mf mr.
Proof.
  intros E HM Hm Hn Hn' Hc. destruct n as [|n]; [lia|].
  assert (Hm' : (Z.of_nat (S m) <= 1048576)%Z) by lia.
  assert (Hc' : forall k e, (k <= S m)%nat -> (e < 4)%nat -> finite_vec (c k e) /\ size_at_most M (c k e)) by (intros; apply Hc; lia).
  split; [exact (init_float L M m n c (sized_from M HM) Hm' Hc')|].
  exact (component_float L M m n c (sized_from M HM) Hm' Hc' E Hn').
Qed.

(** ** the mesh on its own *)
Definition near_edge (e : R) (a : vec b64 * vec b64) (b : vec R * vec R) : Prop := near_vec e (fst a) (fst b) /\ near_vec e (snd a) (snd b).

Lemma near_edges e mf mr : Forall2 (near_tri e) mf mr -> Forall2 (near_edge e) (mesh_edges mf) (mesh_edges mr).
Proof.
  intros H. unfold mesh_edges. induction H as [|s t mf mr (A & B & C) _ I]; cbn [flat_map tri_edges app]; [constructor|].
  constructor; [split; assumption|]. constructor; [split; assumption|]. constructor; [split; assumption|]. exact I.
Qed.
Lemma F2_flip {A B} (P : A -> B -> Prop) a b : Forall2 P a b -> Forall2 (fun y x => P x y) b a.
Proof. induction 1; constructor; auto. Qed.
Lemma near_close e a b r : near_edge e a r -> near_edge e b r -> edges_within (2 * e) a b.
Proof.
  intros ((_ & A1 & A2 & A3) & (_ & A4 & A5 & A6)) ((_ & B1 & B2 & B3) & (_ & B4 & B5 & B6)) f Hf.
  assert (T : forall x y z, Rabs (x - z) <= e -> Rabs (y - z) <= e -> Rabs (x - y) <= 2 * e).
  { intros x y z Hx Hy. apply Rabs_le_inv in Hx. apply Rabs_le_inv in Hy. apply Rabs_le. lra. }
  cbn in Hf. destruct Hf as [<-|[<-|[<-|[]]]]; split; eapply T; eassumption.
Qed.
(** C85: so the directed edges of the binary64 mesh can be paired off, each with
    an edge running the other way, with end points within M / 2^19 of each other:
    the cracks C84 exhibits are never wider than that *)
Theorem C85_cracks L M m n (c : nat -> nat -> vec b64) : exact_pow_one L ->
  / 2 ^ 100 <= M <= 2 ^ 100 -> (Z.of_nat m < 2 ^ 20)%Z -> (0 < n)%nat -> (Z.of_nat n <= 2 ^ 51)%Z ->
  (forall k e, (k < m + 2)%nat -> (e < 4)%nat -> finite_vec (c k e) /\ size_at_most M (c k e)) ->
  exists l mf partners,
    swept_patches (N := NumF L) (line_sections (NumF L) c m) 4 true (ResInt n) = Ok l /\
    fresh_mesh (N := NumF L) (sized_patches l) (ResInt n) (sized_res_r l) (sized_res_s l) no_clustering = Ok mf /\
    Permutation partners (flips (mesh_edges mf)) /\ Forall2 (edges_within (M / 2 ^ 19)) (mesh_edges mf) partners.
Proof.
  intros E HM Hm Hn Hn' Hc.
  destruct (C85_near_exact L M m n c E HM Hm Hn Hn' Hc) as (_ & l & mf & lr & mr & El & Em & _ & _ & W & _ & NEAR).
  pose proof (near_edges _ _ _ NEAR) as NE.
  assert (NF : Forall2 (near_edge (M / 2 ^ 20)) (flips (mesh_edges mf)) (flips (mesh_edges mr))).
  { clear -NE. unfold flips. induction NE as [|a b x y (A & B) _ I]; constructor; [split; assumption|exact I]. }
  destruct (Permutation_Forall2 (Permutation_sym W) (F2_flip _ _ _ NF)) as (ps & Pp & Fp).
  exists l, mf, ps. split; [exact El|]. split; [exact Em|]. split; [symmetry; exact Pp|].
  replace (M / 2 ^ 19) with (2 * (M / 2 ^ 20)) by (cbn; field).
  clear -NE Fp. revert ps Fp. induction NE as [|a b x y H _ I]; intros ps Fp; inversion Fp; subst; constructor.
  - eapply near_close; eassumption.
  - apply I. assumption.
Qed.
(** the box of C84, whose mesh does have cracks *)
Example C85_meets : exact_pow_one plain_libm /\ / 2 ^ 100 <= 2 <= 2 ^ 100 /\
  (forall k e, (k < 0 + 2)%nat -> (e < 4)%nat -> finite_vec (box64_corner k e) /\ size_at_most 2 (box64_corner k e)) /\
  (forall L, float_box L = line_sections (NumF L) box64_corner 0).
Proof.
  split; [intros x; reflexivity|]. split; [split; cbn; lra|]. split; [|intros L; reflexivity].
  intros k e Hk He.
  assert (Z1 : forall z, (Z.abs z <= 2)%Z -> is_finite (of_Z z) = true /\ Rabs (B2R (of_Z z)) <= 2).
  { intros z Hz. destruct (of_Z_value z ltac:(lia)) as (V & F). split; [exact F|]. rewrite V, <- abs_IZR. apply IZR_le in Hz. exact Hz. }
  assert (K : (Z.abs (Z.of_nat k) <= 2)%Z) by lia.
  do 4 (destruct e as [|e]; [unfold finite_vec, size_at_most, box64_corner; cbn [vx vy vz]; repeat split; apply Z1; cbn; try exact K; lia|]). lia.
Qed.

Print Assumptions C85_near_exact.
Print Assumptions C85_cracks.
