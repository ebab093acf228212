(** Properties C37-C41, C46: meshes of patches and components
    (utilities.py surfce_to_stl, default_vertex_func; components/component.py
    surface). *)
From Coq Require Import Reals Lra ZArith String List Permutation Lia.
From Verif Require Import Num NumR Py M_Vector SpecR3 M_Path M_Surface M_Geometry M_Mesh M_Component
  SpecPath SpecPoly SpecSurf SpecMesh SpecComp L_Vector L_Rigid L_Edges L_Mesh L_Volume L_Component L_DictRes.
Import ListNotations.
Local Open Scope R_scope.

(** C37: in any arithmetic, a mesh that is returned consists of the four
    triangles of every cell, i running slowest, then j, then the side *)
Theorem C37_triangles {T} {N : Num T} (u : surf T) mir ni nj si sj ci cj m :
  surfce_to_stl u (S ni) (S nj) si sj mir ci cj = Ok m ->
  exists rs ss P,
    vertex_list ci (S ni + 1) (S ni + 1) si = Ok rs /\
    vertex_list cj (S ni + 1) (S nj + 1) sj = Ok ss /\
    (forall i j, (i <= S ni)%nat -> (j <= S nj)%nat -> exists r s,
       nth_error rs i = Some r /\ nth_error ss j = Some s /\ u r s = Ok (P i j)) /\
    length m = (4 * S ni * S nj)%nat /\
    (forall i j k d, (i < S ni)%nat -> (j < S nj)%nat -> (k < 4)%nat ->
       nth (4 * (i * S nj + j) + k) m d =
       Tri (store_vertex mir (at_corner P (corner k i j))) (store_vertex mir (at_corner P (corner (S k) i j)))
           (store_vertex mir (cell_centre (P i j) (P (S i) j) (P i (S j)) (P (S i) (S j))))).
Proof.
  intros H. apply surfce_grid in H as (rs & ss & P & A & B & C & ->). exists rs, ss, P.
  repeat (split; [assumption|]). split; [apply grid_mesh_length|].
  intros i j k d Hi Hj Hk. rewrite grid_mesh_nth by auto. reflexivity.
Qed.

(** C37: over the reals, with the default spacing: the corners are the surface
    at (i/ni, j/nj), the apex is the mean of the four corners *)
Theorem C37_default u ni nj P :
  (forall i j, (i <= S ni)%nat -> (j <= S nj)%nat ->
     u (INR i / INR (S ni)) (INR j / INR (S nj)) = Ok (P i j)) ->
  exists m, surfce_to_stl u (S ni) (S nj) 1 1 false None None = Ok m /\
    length m = (4 * S ni * S nj)%nat /\
    (forall i j k d, (i < S ni)%nat -> (j < S nj)%nat -> (k < 4)%nat ->
       nth (4 * (i * S nj + j) + k) m d =
       Tri (at_corner P (corner k i j)) (at_corner P (corner (S k) i j))
           (mean4 (P i j) (P (S i) j) (P i (S j)) (P (S i) (S j)))).
Proof.
  intros H. eexists. split; [exact (mesh_patch_default u ni nj P H)|].
  split; [apply grid_mesh_length|]. intros i j k d Hi Hj Hk. rewrite grid_mesh_nth by auto. reflexivity.
Qed.

(** C37: mirror_y negates y of every vertex and changes nothing else *)
Theorem C37_mirror u ni nj si sj P :
  (forall i j, (i <= S ni)%nat -> (j <= S nj)%nat ->
     u (vertex (S ni) si i) (vertex (S nj) sj j) = Ok (P i j)) ->
  exists m, surfce_to_stl u (S ni) (S nj) si sj false None None = Ok m /\
    surfce_to_stl u (S ni) (S nj) si sj true None None = Ok (map_mesh (fun p => V3 (vx p) (- vy p) (vz p)) m).
Proof. exact (surfce_mirror u ni nj si sj P). Qed.

(** C37: a zero resolution raises *)
Theorem C37_zero {T} {N : Num T} (u : surf T) mir n si sj :
  surfce_to_stl u 0 n si sj mir None None = Raise ZeroDivisionError /\
  surfce_to_stl u (S n) 0 si sj mir None None = Raise ZeroDivisionError.
Proof.
  split; [apply surfce_zero_i|]. eapply surfce_zero_j. unfold vertex_list, default_vertex_func.
  rewrite Nat.add_1_r. cbn [Nat.eqb]. reflexivity.
Qed.

Example C37_meets : exists m,
  surfce_to_stl (T := R) (fun r s => Ok (V3 r (r * s) 7)) 3 2 1 1 false None None = Ok m /\ length m = 24%nat /\
  nth 14 m (Tri origin origin origin) = Tri (V3 (2 / 3) (2 / 3) 7) (V3 (1 / 3) (1 / 3) 7) (V3 (1 / 2) (3 / 8) 7).
Proof.
  destruct (C37_default (fun r s => Ok (V3 r (r * s) 7)) 2 1
    (fun i j => V3 (INR i / INR 3) (INR i / INR 3 * (INR j / INR 2)) 7)) as (m & E & L & H); [reflexivity|].
  exists m. split; [exact E|]. split; [exact L|].
  change 14%nat with (4 * (1 * 2 + 1) + 2)%nat. rewrite (H 1 1 2 (Tri origin origin origin))%nat by lia.
  cbn [corner at_corner]. unfold at_corner. cbn [fst snd INR]. unfold mean4. cbn [vx vy vz].
  apply f_equal3; apply vec_ext; cbn; lra.
Qed.

(** C38: in any arithmetic, the directed edges of a patch mesh are the outline
    plus edges in opposite pairs; the outline runs once round the patch *)
Theorem C38_crack_free {T} {N : Num T} (u : surf T) mir ni nj si sj ci cj m :
  surfce_to_stl u (S ni) (S nj) si sj mir ci cj = Ok m ->
  exists rs ss Q inner,
    vertex_list ci (S ni + 1) (S ni + 1) si = Ok rs /\
    vertex_list cj (S ni + 1) (S nj + 1) sj = Ok ss /\
    (forall i j, (i <= S ni)%nat -> (j <= S nj)%nat -> exists r s p,
       nth_error rs i = Some r /\ nth_error ss j = Some s /\ u r s = Ok p /\ Q i j = store_vertex mir p) /\
    paired inner /\ Permutation (mesh_edges m) (outline Q (S ni) (S nj) ++ inner).
Proof.
  intros H. apply surfce_grid in H as (rs & ss & P & A & B & C & ->).
  destruct (grid_reduces (fun i j => store_vertex mir (P i j)) (centres mir P) ni nj) as (inner & I & J).
  exists rs, ss, (fun i j => store_vertex mir (P i j)), inner.
  split; [exact A|]. split; [exact B|]. split; [|split; [exact I|exact J]].
  intros i j Hi Hj. destruct (C i j Hi Hj) as (r & s & R1 & S1 & E). exists r, s, (P i j). auto.
Qed.

Example C38_meets : exists m,
  surfce_to_stl (T := R) (fun r s => Ok (V3 r (r * s) 7)) 3 2 1 1 false None None = Ok m /\ m <> [] /\
  length (outline (fun i j => V3 (INR i) (INR j) 0) 3 2) = 10%nat.
Proof.
  destruct C37_meets as (m & E & L & _). exists m. split; [exact E|]. split; [|reflexivity].
  intros ->. discriminate.
Qed.

(** C39: the grid starts at lb, ends at ub and increases strictly *)
Theorem C39_grid lb ub n sp : 0 < sp -> lb < ub ->
  exists l, default_vertex_func lb ub (S (S n)) sp = Ok l /\ length l = S (S n) /\
    nth 0 l 0 = lb /\ nth (S n) l 0 = ub /\
    (forall i j, (i < j)%nat -> (j <= S n)%nat -> nth i l 0 < nth j l 0).
Proof. exact (default_vertex_spec lb ub n sp). Qed.
(** C39: for unit spacing it is uniform *)
Theorem C39_uniform lb ub n k : (k <= S n)%nat ->
  exists l, default_vertex_func lb ub (S (S n)) 1 = Ok l /\ nth k l 0 = lb + INR k / INR (S n) * (ub - lb).
Proof. exact (default_vertex_uniform lb ub n k). Qed.
Theorem C39_one_step (lb ub sp : R) : default_vertex_func lb ub 1 sp = Raise ZeroDivisionError.
Proof. exact (default_vertex_raise lb ub sp). Qed.
Example C39_meets : 0 < 2 /\ 1 < 5 /\ exists l, default_vertex_func 1 5 3 1 = Ok l /\ nth 1 l 0 = 3.
Proof.
  split; [lra|]. split; [lra|]. destruct (C39_uniform 1 5 1 1 ltac:(lia)) as (l & E & H).
  exists l. split; [exact E|]. rewrite H. cbn [INR]. lra.
Qed.

(** C40: with a j clustering function g the columns are at g(j/ni), not at
    g(j/nj); when nj < ni and g is strictly increasing with g(1) = 1 the mesh
    stops before the end of the patch, when nj > ni meshing raises *)
Theorem C40_columns u mir ni nj si sj (f : R -> res R) g P :
  (forall x, f x = Ok (g x)) -> (S nj <= S ni)%nat ->
  (forall i j, (i <= S ni)%nat -> (j <= S nj)%nat ->
     u (vertex (S ni) si i) (g (INR j / INR (S ni))) = Ok (P i j)) ->
  surfce_to_stl u (S ni) (S nj) si sj mir None (Some f)
  = Ok (grid_mesh (fun i j => mirY mir (P i j))
         (fun i j => mean4 (mirY mir (P i j)) (mirY mir (P (S i) j)) (mirY mir (P i (S j))) (mirY mir (P (S i) (S j))))
         (S ni) (S nj)).
Proof. exact (surfce_clustered u mir ni nj si sj f g P). Qed.
Theorem C40_covers_iff g ni nj :
  (forall x y, 0 <= x -> x < y -> y <= 1 -> g x < g y) -> g 1 = 1 -> (S nj <= S ni)%nat ->
  (g (INR (S nj) / INR (S ni)) = 1 <-> nj = ni).
Proof. exact (clustering_covers g ni nj). Qed.
Theorem C40_raises (u : surf R) mir ni nj si sj (f : R -> res R) g :
  (forall x, f x = Ok (g x)) -> (forall r s, is_ok (u r s)) -> (ni < nj)%nat ->
  surfce_to_stl u (S ni) (S nj) si sj mir None (Some f) = Raise IndexError.
Proof. exact (surfce_clustered_short u mir ni nj si sj f g). Qed.
Example C40_meets :
  (forall x y, 0 <= x -> x < y -> y <= 1 -> x * x < y * y) /\ 1 * 1 = 1 /\
  surfce_to_stl (T := R) (fun r s => Ok (V3 r s 0)) 1 2 1 1 false None (Some (fun x => Ok (x * x))) = Raise IndexError.
Proof.
  split; [intros x y Hx H Hy; nra|]. split; [ring|].
  apply (C40_raises _ false 0 1 1 1 (fun x => Ok (x * x)) (fun x => x * x)); [reflexivity|intros r s; eexists; reflexivity|lia].
Qed.

(** C41: with per-edge resolutions neither the s resolutions nor the
    dictionary itself matters *)
Theorem C41_s_ignored {T} {N : Num T} (d : dict (surf T)) x y rr rs rs' c :
  fresh_mesh d (ResDict x) rr rs c = fresh_mesh d (ResDict y) rr rs' c.
Proof. reflexivity. Qed.
(** C41: patch k gets 4 rr(k)^2 triangles *)
Theorem C41_count (d : dict (surf R)) x rr rs m : NoDup (dkeys d) ->
  fresh_mesh d (ResDict x) rr rs no_clustering = Ok m ->
  length m = total (map (patch_count rr) (dkeys d)).
Proof. exact (dict_res_length d x rr rs m). Qed.
(** C41: a closed swept component: only "sweep" and "e0" have any effect *)
Theorem C41_swept sections d a b l m : dget d "sweep" = Some a -> dget d "e0" = Some b ->
  swept_patches sections 4 true (ResDict d) = Ok l ->
  fresh_mesh (sized_patches l) (ResDict d) (sized_res_r l) (sized_res_s l) no_clustering = Ok m ->
  length m = (16 * (a * a) + 8 * (b * b))%nat.
Proof. exact (swept_dict_count sections d a b l m). Qed.

(** C46: a watertight mesh has zero net area and a translation invariant
    volume; rotations keep the volume and reflections negate it *)
Theorem C46_net_area m : watertight m -> net_area m = origin.
Proof. exact (watertight_net_area m). Qed.
Theorem C46_translation m v : watertight m -> signed_volume (map_mesh (translate v) m) = signed_volume m.
Proof. exact (volume_translate m v). Qed.
Theorem C46_rotation m axis c a : is_axis axis -> watertight m ->
  signed_volume (map_mesh (rodrigues (axis_vec axis) c a) m) = signed_volume m.
Proof.
  intros H W. rewrite volume_affine by (auto using rodrigues_affine). rewrite rodrigues_det by auto. ring.
Qed.
Theorem C46_reflection m axis : is_axis axis ->
  signed_volume (map_mesh (reflect (axis_vec axis)) m) = - signed_volume m.
Proof.
  intros H. rewrite volume_fix0 by (auto using reflect_affine, reflect_origin). rewrite reflect_det by auto. ring.
Qed.
(** C46: the mesh of a moved patch is the moved mesh *)
Theorem C46_moved_patch f u v c a b m : affine f -> map_surf f u v ->
  mesh_patch c u a b = Ok m -> mesh_patch c v a b = Ok (map_mesh f m).
Proof. intros A M E. rewrite (mesh_patch_map f u v c a b A M), E. reflexivity. Qed.

(** a tetrahedron: watertight, of volume 1/6 *)
Definition tetra : list (tri R) :=
  [Tri origin ey ex; Tri origin ex ez; Tri origin ez ey; Tri ex ey ez].
Example C46_meets : watertight tetra /\ signed_volume tetra = 1 / 6.
Proof.
  split.
  - unfold watertight, tetra. generalize origin ex ey ez. intros origin ex ey ez. apply paired_balanced.
    exists [(origin, ey); (ey, ex); (ex, origin); (ex, ez); (ez, origin); (ez, ey)].
    unfold mesh_edges, flips, tri_edges, flip. cbn. perm_solve.
  - unfold signed_volume, tetra, vol6, det3, origin, ex, ey, ez. cbn. field.
Qed.

Print Assumptions C37_triangles.
Print Assumptions C37_default.
Print Assumptions C37_mirror.
Print Assumptions C38_crack_free.
Print Assumptions C39_grid.
Print Assumptions C40_columns.
Print Assumptions C40_covers_iff.
Print Assumptions C40_raises.
Print Assumptions C41_count.
Print Assumptions C41_swept.
Print Assumptions C46_net_area.
Print Assumptions C46_rotation.
Print Assumptions C46_reflection.
