(** Properties C31-C35: swept patches, perimeters, cube and sphere faces
    (geometry/geometry.py). *)
From Coq Require Import Reals Lra ZArith String List Lia.
From Verif Require Import Num NumR Py M_Vector SpecR3 M_Path M_Surface M_Geometry
  SpecPath SpecPoly SpecSurf L_Vector L_Line L_Swept L_Perimeter L_Cube.
Import ListNotations.
Local Open Scope R_scope.

(** C31: between r = k/(n-1) and (k+1)/(n-1), ends included, the patch is the
    linear blend of edges k and k+1 (so it meets each edge and is continuous) *)
Theorem C31_blend edges m k r s d p q :
  length edges = S (S m) -> (k <= m)%nat ->
  INR k / INR (S m) <= r <= INR (S k) / INR (S m) ->
  p_call (nth k edges d) s = Ok p -> p_call (nth (S k) edges d) s = Ok q ->
  SweptPatchfromEdges edges r s = Ok (lerp (r * INR (S m) - INR k) p q).
Proof. exact (fun H => swept_segment edges m H k r s d p q). Qed.

(** C31: at r = k/(n-1) the patch is edge k, whatever that edge does *)
Theorem C31_at_edge edges m k r s d :
  length edges = S (S m) -> (k <= S m)%nat -> r = INR k / INR (S m) ->
  SweptPatchfromEdges edges r s = p_call (nth k edges d) s.
Proof. exact (fun H => swept_at_k edges m H k r s d). Qed.

(** C31: outside [0,1] *)
Theorem C31_above edges m r s : length edges = S (S m) -> 1 < r ->
  SweptPatchfromEdges edges r s = Raise IndexError.
Proof. exact (fun H => swept_above edges m H r s). Qed.
Theorem C31_below_refuted edges m r s d p q : length edges = S (S m) -> r < 0 ->
  p_call (nth 0 edges d) s = Ok p -> p_call (nth (S m) edges d) s = Ok q ->
  SweptPatchfromEdges edges r s = Ok (lerp r p q).
Proof. exact (fun H => swept_below edges m H r s d p q). Qed.

Example C31_meets :
  let l y := Line (V3 0 y 0) (V3 1 y 0) : path R in
  SweptPatchfromEdges [l 0; l 5; l 7] (3 / 4) 0 = Ok (V3 0 6 0).
Proof.
  intros l. rewrite (C31_blend [l 0; l 5; l 7] 1 1 (3 / 4) 0 (l 0) (V3 0 5 0) (V3 0 7 0)).
  - f_equal. unfold lerp. cbn [INR]. apply vec_ext; cbn; lra.
  - reflexivity.
  - lia.
  - cbn [INR]. lra.
  - cbn [nth]. unfold l. rewrite line_lerp. f_equal. unfold lerp; apply vec_ext; cbn; ring.
  - cbn [nth]. unfold l. rewrite line_lerp. f_equal. unfold lerp; apply vec_ext; cbn; ring.
Qed.

(** C32: ascending sections: the patch has the right sweep coordinate and
    blends the two bounding perimeters; outside [0,1] it raises *)
Theorem C32_ascending axis sections os s ps :
  is_axis axis -> section_origins axis sections os ->
  strictly_increasing os -> (2 <= length os)%nat ->
  Forall2 (fun cs p => p_call (SurfacePerimeter cs) s = Ok p) sections ps ->
  exists w, SweptPatch_init sections axis = Ok w /\
    let lo := nth 0 os 0 in let hi := nth (length os - 1) os 0 in
    (forall r, 0 <= r <= 1 -> exists k, (S k < length os)%nat /\
       nth k os 0 <= lo + r * (hi - lo) <= nth (S k) os 0) /\
    (forall r k, (S k < length os)%nat ->
       let d := lo + r * (hi - lo) in
       nth k os 0 <= d <= nth (S k) os 0 ->
       Swept_call w r s = Ok (with_coord axis d
         (lerp ((d - nth k os 0) / (nth (S k) os 0 - nth k os 0)) (nth k ps origin) (nth (S k) ps origin)))) /\
    (forall r, r < 0 \/ 1 < r -> Swept_call w r s = Raise IndexError).
Proof. exact (swept_ascending axis sections os s ps). Qed.

(** C32: sections given in descending order are accepted but can then only be
    evaluated at r <= 0 *)
Theorem C32_descending_refuted axis sections os r s :
  is_axis axis -> section_origins axis sections os ->
  strictly_decreasing os -> (2 <= length os)%nat -> 0 < r ->
  exists w, SweptPatch_init sections axis = Ok w /\ Swept_call w r s = Raise IndexError.
Proof. exact (swept_descending axis sections os r s). Qed.

(** C32: rejected arguments *)
Theorem C32_flat axis sections os c : is_axis axis -> section_origins axis sections os ->
  os <> [] -> (forall x, In x os -> x = c) -> SweptPatch_init sections axis = Raise GenericError.
Proof. exact (swept_init_flat axis sections os c). Qed.
Theorem C32_bad_axis axis (cs : surf R) sections p : ~ is_axis axis -> cs 0 0 = Ok p ->
  SweptPatch_init (cs :: sections) axis = Raise AttributeError.
Proof. exact (swept_init_axis axis cs sections p). Qed.

Definition sq (z : R) : surf R := fun r s => Ok (V3 r s z).
Example C32_meets :
  section_origins "z" [sq 0; sq 1; sq 3] [0; 1; 3] /\ strictly_increasing [0; 1; 3] /\
  Forall2 (fun cs p => p_call (SurfacePerimeter cs) (1 / 2) = Ok p)
    [sq 0; sq 1; sq 3] [V3 1 1 0; V3 1 1 1; V3 1 1 3] /\
  section_origins "z" [sq 3; sq 1] [3; 1] /\ strictly_decreasing [3; 1].
Proof.
  assert (S0 : forall z, exists p, sq z 0 0 = Ok p /\ coord "z" p = z).
  { intros z. exists (V3 0 0 z). split; [reflexivity|].
    unfold coord, inner, axis_vec, ez; cbn. ring. }
  assert (P0 : forall z, p_call (SurfacePerimeter (sq z)) (1 / 2) = Ok (V3 1 1 z)).
  { intros z. destruct (perimeter_closed (sq z)) as (_ & _ & E & _). rewrite E. reflexivity. }
  split; [repeat constructor; apply S0|].
  split; [intros i j Hij Hj; destruct i as [|[|[|i]]], j as [|[|[|j]]]; cbn in *; try lia; lra|].
  split; [repeat constructor; apply P0|].
  split; [repeat constructor; apply S0|].
  intros i j Hij Hj; destruct i as [|[|i]], j as [|[|j]]; cbn in *; try lia; lra.
Qed.

(** C33: the perimeter path only evaluates boundary points: side k = south,
    east, north, west on [k/4, (k+1)/4), at 4t-k up to rounding to 8 digits *)
Theorem C33_sides (u : surf R) t : 0 <= t < 1 ->
  exists k, (k < 4)%nat /\ INR k / 4 <= t < (INR k + 1) / 4 /\
  exists x, Rabs (x - (4 * t - INR k)) <= 1 / 200000000 /\ 0 <= x <= 1 /\
    p_call (SurfacePerimeter u) t =
      match k with 0%nat => u x 0 | 1%nat => u 1 x | 2%nat => u (1 - x) 1 | _ => u 0 (1 - x) end.
Proof. exact (perimeter_sides u t). Qed.

(** C33: it visits the corners and closes *)
Theorem C33_closed (u : surf R) :
  p_call (SurfacePerimeter u) 0 = u 0 0 /\ p_call (SurfacePerimeter u) (1 / 4) = u 1 0 /\
  p_call (SurfacePerimeter u) (1 / 2) = u 1 1 /\ p_call (SurfacePerimeter u) (3 / 4) = u 0 1 /\
  p_call (SurfacePerimeter u) 1 = u 0 0.
Proof. exact (perimeter_closed u). Qed.

(** C33: exact at parameters with at most 8 decimal places along the side *)
Theorem C33_exact (u : surf R) (k : Z) (m : nat) : (0 <= k < 100000000)%Z -> (m < 4)%nat ->
  let x := IZR k / 100000000 in
  p_call (SurfacePerimeter u) ((INR m + x) / 4) =
  match m with 0%nat => u x 0 | 1%nat => u 1 x | 2%nat => u (1 - x) 1 | _ => u 0 (1 - x) end.
Proof. exact (perimeter_grid u k m). Qed.

(** C33: each side is traversed in order, and past t = 1 the path stays put *)
Theorem C33_order t t' k : (k < 4)%nat ->
  INR k / 4 <= t -> t <= t' -> t' < (INR k + 1) / 4 ->
  exists x x', 0 <= x /\ x <= x' /\ x' <= 1 /\ forall u : surf R,
    let at_ y := match k with 0%nat => u y 0 | 1%nat => u 1 y | 2%nat => u (1 - y) 1 | _ => u 0 (1 - y) end in
    p_call (SurfacePerimeter u) t = at_ x /\ p_call (SurfacePerimeter u) t' = at_ x'.
Proof. exact (perimeter_monotone t t' k). Qed.
Theorem C33_past (u : surf R) t : 1 <= t -> p_call (SurfacePerimeter u) t = u 0 0.
Proof. exact (perimeter_outside u t). Qed.

Example C33_meets : p_call (SurfacePerimeter (sq 7)) (5 / 8) = Ok (V3 (1 / 2) 1 7).
Proof.
  replace (5 / 8) with ((INR 2 + IZR 50000000 / 100000000) / 4) by (cbn [INR]; lra).
  rewrite (C33_exact (sq 7) 50000000 2) by lia. unfold sq. f_equal. apply vec_ext; cbn; lra.
Qed.

(** C34: all points of the six sphere faces are at the radius from the centre *)
Theorem C34_on_sphere rad c face r s : In face cube_faces -> 0 <= r <= 1 -> 0 <= s <= 1 ->
  exists q, SpherePatch rad c face r s = Ok q /\ dist q c = Rabs rad.
Proof. exact (sphere_dist rad c face r s). Qed.
(** C34: the faces agree along all twelve edges *)
Theorem C34_seams rad c f e g e' t : In ((f, e), (g, e')) cube_seams ->
  SpherePatch rad c f (fst (on_side e t)) (snd (on_side e t))
  = SpherePatch rad c g (fst (on_side e' t)) (snd (on_side e' t)).
Proof. exact (sphere_seam rad c f e g e' t). Qed.

(** C35: cube faces lie on the cube of half-width |a| and cover it *)
Theorem C35_on_cube a c face r s : In face cube_faces -> 0 <= r <= 1 -> 0 <= s <= 1 ->
  exists q, CubePatch a c face r s = Ok q /\ maxnorm (diff q c) = Rabs a.
Proof. exact (cube_maxnorm a c face r s). Qed.
Theorem C35_covers a c q : 0 < a -> maxnorm (diff q c) = a ->
  exists face r s, In face cube_faces /\ 0 <= r <= 1 /\ 0 <= s <= 1 /\ CubePatch a c face r s = Ok q.
Proof. exact (cube_cover a c q). Qed.
Theorem C35_seams (a : R) c f e g e' t : In ((f, e), (g, e')) cube_seams ->
  CubePatch a c f (fst (on_side e t)) (snd (on_side e t))
  = CubePatch a c g (fst (on_side e' t)) (snd (on_side e' t)).
Proof. exact (cube_seam a c f e g e' t). Qed.
(** C34, C35: the seam table accounts for every side of every face, once *)
Theorem C35_seam_table : NoDup (map fst cube_seams ++ map snd cube_seams) /\
  forall f e, In f cube_faces -> In (f, e) (map fst cube_seams ++ map snd cube_seams).
Proof. exact (conj seams_distinct seams_complete). Qed.
Theorem C35_bad_face (a : R) c face r s : ~ In face cube_faces ->
  CubePatch a c face r s = Raise ValueError /\ SpherePatch a c face r s = Raise ValueError.
Proof. exact (bad_face a c face r s). Qed.

Example C34_C35_meets : In "north"%string cube_faces /\ ~ In "up"%string cube_faces /\
  In (("north", s1), ("top", s1))%string cube_seams /\
  CubePatch 2 (V3 1 0 0) "north" (1 / 2) 1 = Ok (V3 1 2 2).
Proof.
  split; [cbn; auto 10|]. split; [cbn; intuition discriminate|]. split; [cbn; auto 20|].
  unfold CubePatch, cube_face. cbn [String.eqb Ascii.eqb Bool.eqb bind]. numR. f_equal.
  apply vec_ext; cbn; lra.
Qed.

Print Assumptions C31_blend.
Print Assumptions C31_below_refuted.
Print Assumptions C32_ascending.
Print Assumptions C32_descending_refuted.
Print Assumptions C33_sides.
Print Assumptions C33_exact.
Print Assumptions C34_on_sphere.
Print Assumptions C34_seams.
Print Assumptions C35_on_cube.
Print Assumptions C35_covers.
