(** C99: reflecting half a body
    (component.py:283-329; hangar/htv.py:104, x43.py:344-347, waverider.py:288). *)
From Coq Require Import String Reals Lra ZArith List Permutation Lia Bool.
From Verif Require Import Num NumR Py M_Vector SpecR3 M_Path M_Surface M_Geometry M_Mesh M_Component M_Vehicle M_Hangar M_Stl
  SpecPath SpecPoly SpecSurf SpecMesh SpecComp SpecVehicle SpecAdd SpecFiles SpecPair SpecHalf
  L_Edges L_Volume L_Reflect SpecHangar L_Component L_Mesh L_SweptComp L_Prism L_Block L_Half P_Component P_Vehicle P_Pair.
Import ListNotations.
Local Open Scope R_scope.

(** ** of meshes: what the mirror image does to the edges *)
Lemma half_watertight axis (m : list (tri R)) : is_axis axis -> one_side axis m ->
  (watertight (m ++ map_mesh (reflect (axis_vec axis)) m) <-> watertight m).
Proof.
  intros A (sign & Sg & O). unfold watertight. rewrite edges_app, map_mesh_edges.
  apply (mirror_balanced (fun p => sign * coord axis p) (reflect (axis_vec axis))); [auto using reflect_twice| | |exact O].
  - intros p. cbv beta. rewrite reflect_coord by exact A. ring.
  - intros p Z. apply reflect_fix; [exact A|]. destruct Sg as [-> | ->]; lra.
Qed.

(** C99: a component that lies on one side of the plane of its reflection and
    is appended to its mirror image is watertight iff it is so alone: the
    reflection closes nothing.  And if the half has any edge in the plane, the
    whole fails stl_check's edge test, open or not. *)
Theorem C99_component own arg axis d n rr rs c m : chosen_axis own arg axis -> is_axis (lower_axis axis) ->
  NoDup (dkeys d ++ map mirrored_key (dkeys d)) ->
  fresh_mesh d (ResInt n) rr rs c = Ok m -> one_side (lower_axis axis) m ->
  exists whole, fresh_mesh (reflect_patches own true arg d) (ResInt n) rr rs c = Ok whole /\
    (watertight whole <-> watertight m) /\
    ((exists e, In e (mesh_edges m) /\ in_plane (lower_axis axis) e) ->
     stl_check whole (mesh_normals whole) false true = Ok false).
Proof.
  intros A B C D O. destruct (C47_append own arg axis d n rr rs c m A B C D) as (whole & E & EQ & _).
  exists whole. split; [exact E|]. subst whole. split; [exact (half_watertight _ m B O)|].
  intros (e & I & [P1 P2]). destruct (C45_decides (m ++ map_mesh (reflect (axis_vec (lower_axis axis))) m)) as (b & EB & HB).
  rewrite EB. f_equal. destruct b; [exfalso|reflexivity]. destruct (proj1 HB eq_refl) as [ND _]. clear HB EB.
  rewrite edges_app, map_mesh_edges in ND.
  assert (I2 : In e (map (fun e => (reflect (axis_vec (lower_axis axis)) (fst e), reflect (axis_vec (lower_axis axis)) (snd e))) (mesh_edges m))).
  { apply in_map_iff. exists e. split; [|exact I]. rewrite !reflect_fix by assumption. destruct e; reflexivity. }
  destruct (in_split _ _ I) as (l1 & l2 & S1). rewrite S1 in ND at 1. rewrite <- app_assoc in ND. cbn [app] in ND.
  apply NoDup_remove_2 in ND. apply ND. apply in_or_app. right. apply in_or_app. right. exact I2.
Qed.

(** C99: the same for the reflected one of a component and its deep copy in a
    vehicle *)
Theorem C99_pair (v : vehicle R) h i c g n axis n1 n2 g1 g2 :
  separate h -> untouched h i c g n -> accepts (c_type c) = true -> is_axis axis -> v_transformations v = [] ->
  (forall k, In k (v_components v) -> exists g p, ready h k g p) ->
  NoDup (i :: flat_map (with_children h) (v_components v)) ->
  exists h1 j h2 v2 h3 half whole,
    deepcopy_comp i h = (h1, Ok j) /\
    adds v [(j, plain_args n1 g1); (i, mirror_args n2 axis true g2)] h1 = (h2, v2) /\
    generate v2 h2 = (h3, mark_generated v2, Ok tt) /\
    mesh_of h3 j = Ok half /\ mesh_of h3 i = Ok whole /\
    (one_side axis half -> (watertight whole <-> watertight half)).
Proof.
  intros H1 H2 H3 H4 H5 H6 H7.
  destruct (C96_pair v h i c g n axis true n1 n2 g1 g2 H1 H2 H3 H4 H5 H6 H7) as (h1 & j & h2 & v2 & h3 & m & A & B & _ & D & E & F).
  exists h1, j, h2, v2, h3, m, (m ++ map_mesh (reflect (axis_vec axis)) m).
  split; [exact A|]. split; [exact B|]. split; [exact D|]. split; [exact E|]. split; [exact F|].
  apply half_watertight, H4.
Qed.

(** C99: what is missing: if the mirrored triangles were turned over, every half
    body whose only open edges lie in the plane would be closed *)
Theorem C99_turned axis (m : list (tri R)) : is_axis axis -> open_in_plane axis m ->
  watertight (m ++ map turn_over (map_mesh (reflect (axis_vec axis)) m)).
Proof.
  intros A (es & loose & P & F). unfold watertight. rewrite edges_app.
  eapply balanced_perm; [symmetry; apply Permutation_app_head; exact (edges_turned (map_mesh (reflect (axis_vec axis)) m))|].
  rewrite map_mesh_edges.
  apply (mirror_turned_balanced (coord axis) (reflect (axis_vec axis)) (fun p => reflect_fix axis p A) _ es loose P). exact F.
Qed.
(** C99: and without it the body stays open: a half body with open edges in the
    plane is never closed by the reflection *)
Theorem C99_open axis (m : list (tri R)) : is_axis axis -> one_side axis m -> ~ watertight m ->
  ~ watertight (m ++ map_mesh (reflect (axis_vec axis)) m).
Proof. intros A O N W. apply N. exact (proj1 (half_watertight axis m A O) W). Qed.

(** a tetrahedron without its face in the plane y = 0: open, stays open, and
    would be closed by turning the image over; one directed edge in the plane *)
Definition half_tetra : list (tri R) := [Tri origin ey ex; Tri origin ez ey; Tri ex ey ez].
Example C99_meets : is_axis "y" /\ one_side "y" half_tetra /\ ~ watertight half_tetra /\ open_in_plane "y" half_tetra /\
  (exists e, In e (mesh_edges half_tetra) /\ in_plane "y" e).
Proof.
  assert (N : origin <> ex /\ origin <> ey /\ origin <> ez /\ ex <> ey /\ ex <> ez /\ ey <> ez).
  { unfold origin, ex, ey, ez. repeat split; intros K; injection K; intros; lra. }
  split; [right; left; reflexivity|]. split; [|split; [|split]].
  - exists 1. split; [auto|]. intros e He. unfold half_tetra, mesh_edges, tri_edges in He. cbn in He.
    repeat (destruct He as [<-|He]; [unfold coord, inner, origin, ex, ey, ez; cbn; lra|]). destruct He.
  - intros W. unfold watertight, balanced in W. assert (I : In (origin, ez) (mesh_edges half_tetra)) by (unfold half_tetra, mesh_edges, tri_edges; cbn; tauto).
    apply (Permutation_in _ W) in I. unfold half_tetra, mesh_edges, tri_edges, flips, flip in I. cbn in I.
    destruct N as (N1 & N2 & N3 & N4 & N5 & N6).
    repeat (destruct I as [K|I]; [apply (f_equal (fun e => (fst e, snd e))) in K; cbn in K; assert (K1 := f_equal fst K); assert (K2 := f_equal snd K); cbn in K1, K2; congruence|]). destruct I.
  - exists [(origin, ey); (ey, ex); (ez, ey)], [(ex, origin); (origin, ez); (ez, ex)]. split.
    + unfold half_tetra, mesh_edges, tri_edges, flips, flip. cbn [flat_map app map t0 t1 t2 fst snd].
      apply (Permutation_count_occ edge_dec). intros e. cbn [count_occ].
      repeat match goal with |- context [if edge_dec ?a e then _ else _] => destruct (edge_dec a e) end; reflexivity.
    + repeat constructor; unfold on_plane, inner, origin, ex, ez; cbn; lra.
  - exists (ex, origin). split; [unfold half_tetra, mesh_edges, tri_edges; cbn; tauto|]. split; unfold on_plane, inner, origin, ex; cbn; lra.
Qed.

(** half a bump over the plane y = 0, as a component at any resolution *)
Definition bump : dict (surf R) := [("s"%string, fun r s => Ok (V3 r s (s * s)))].
Example C99_component_meets n : chosen_axis None (Some "Y"%string) "Y" /\ is_axis (lower_axis "Y") /\
  NoDup (dkeys bump ++ map mirrored_key (dkeys bump)) /\
  exists m, fresh_mesh bump (ResInt (S n)) [] [] no_clustering = Ok m /\ one_side (lower_axis "Y") m /\
            (exists e, In e (mesh_edges m) /\ in_plane (lower_axis "Y") e).
Proof.
  split; [right; auto|]. split; [right; left; reflexivity|]. split; [cbn; repeat constructor; cbn; intuition discriminate|].
  set (w := fun r s : R => V3 r s (s * s)). exists (flat_map (patch_grid n) [w]). split; [|split].
  - rewrite flat_map_concat_map. apply fresh_mesh_int; [discriminate|cbn; repeat constructor; cbn; tauto|].
    apply grids_of_patches. constructor; [reflexivity|constructor].
  - assert (Q : forall p, vertex_of (flat_map (patch_grid n) [w]) p -> in_half (V3 0 (-1) 0) 0 p).
    { apply vertex_in. intros v [<-|[]] r s Hr Hs. unfold in_half, w, inner. cbn. lra. }
    exists 1. split; [auto|]. intros e He. unfold mesh_edges in He. apply in_flat_map in He. destruct He as (t & Ht & He).
    assert (P : forall p, p = t0 t \/ p = t1 t \/ p = t2 t -> 0 <= 1 * coord (lower_axis "Y") p).
    { intros p Hp. assert (K : in_half (V3 0 (-1) 0) 0 p) by (apply Q; exists t; split; [exact Ht|exact Hp]).
      unfold in_half, inner in K. unfold coord, inner. cbn in K |- *. lra. }
    destruct He as [<-|[<-|[<-|[]]]]; split; apply P; cbn; tauto.
  - set (t := cell_tri (grid_of n w) (centred (grid_of n w)) 0 0 0). exists (t0 t, t1 t). split.
    + unfold mesh_edges. apply in_flat_map. exists t. split; [|left; reflexivity]. cbn [flat_map]. rewrite app_nil_r. unfold patch_grid, grid_mesh.
      apply in_flat_map. exists 0%nat. split; [apply in_seq; lia|]. apply in_flat_map. exists 0%nat. split; [apply in_seq; lia|]. apply in_map, in_seq. lia.
    + split; unfold on_plane, inner, t, cell_tri, t0, t1, at_corner, grid_of, corner, fst, snd, w; cbn; unfold Rdiv; ring.
Qed.

Print Assumptions C99_component. Print Assumptions C99_pair. Print Assumptions C99_turned. Print Assumptions C99_open.
