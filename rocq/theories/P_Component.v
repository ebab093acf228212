(** Properties C36, C42-C45, C47, C48, C73-C76: component meshes
    (components/polygon.py, swept.py, revolved.py, component.py). *)
From Coq Require Import Reals Lra ZArith String List Permutation Lia.
From Verif Require Import Num NumR Py M_Vector SpecR3 M_Path M_Surface M_Geometry M_Mesh M_Component M_Stl
  SpecPath SpecPoly SpecSurf SpecMesh SpecComp SpecStl L_Vector L_Line L_Edges L_Mesh L_Volume L_Component
  L_SweptComp L_CubeMesh L_RevolvedComp L_Reflect L_Stl L_Repair L_DictRes.
From Verif Require L_Rigid.
Import ListNotations.
Local Open Scope R_scope.

(** C36: at every resolution, the mesh of a Cube is not closed, and its signed
    volume depends on where the cube stands (0 at the origin) *)
Theorem C36_cube_refuted a c n :
  exists m, fresh_mesh (cube_patches a c) (ResInt (S n)) [] [] no_clustering = Ok m /\
    signed_volume m = 8 / 3 * (a * a) * (vx c - vy c + vz c) /\
    net_area m = scaled (16 * (a * a)) (V3 1 (-1) 1) /\
    (a <> 0 -> ~ watertight m).
Proof.
  exists (cube_mesh a c n). split; [apply cube_mesh_ok|]. split; [apply cube_volume|].
  split; [apply cube_net_area|]. apply cube_not_watertight.
Qed.
(** C36: the same for a Sphere *)
Theorem C36_sphere_refuted rad c n :
  exists m, fresh_mesh (sphere_patches rad c) (ResInt (S n)) [] [] no_clustering = Ok m /\
    (rad <> 0 -> ~ watertight m) /\ (c = origin -> signed_volume m = 0).
Proof. exact (sphere_mesh rad c n). Qed.
Example C36_meets : exists m, fresh_mesh (cube_patches 2 (V3 3 0 0)) (ResInt 5) [] [] no_clustering = Ok m /\
  signed_volume m = 32.
Proof.
  destruct (C36_cube_refuted 2 (V3 3 0 0) 4) as (m & E & V & _). exists m. split; [exact E|]. rewrite V. cbn. field.
Qed.

(** a box: unit squares at x = 0 and x = 5 *)
Definition box_corner (k e : nat) : pt :=
  match e with 0 => V3 (5 * INR k) 0 0 | 1 => V3 (5 * INR k) 1 0 | 2 => V3 (5 * INR k) 1 1 | _ => V3 (5 * INR k) 0 1 end.
Definition box_edge (k e : nat) (t : R) : pt := lerp t (box_corner k e) (box_corner k (next_edge 4 e)).
Definition box_section (k : nat) : list (path R) :=
  map (fun e => Line (box_corner k e) (box_corner k (next_edge 4 e))) [0; 1; 2; 3]%nat.
Definition box : list (list (path R)) := [box_section 0; box_section 1].
Lemma box_sections : sections_are 4 box box_edge.
Proof.
  intros k cs H. destruct k as [|[|k]]; cbn [box nth_error] in H; [| |destruct k; discriminate]; injection H as <-;
  (split; [reflexivity|]; intros e p He; do 4 (destruct e as [|e]; [cbn in He; injection He as <-; intros t _; apply line_lerp|]);
   destruct e; discriminate).
Qed.
Lemma box_loops : loops_close 4 2 box_edge.
Proof.
  intros k e Hk He. unfold box_edge. rewrite lerp_1, lerp_0. reflexivity.
Qed.

(** C42: a closed SweptComponent with exactly meeting edges is watertight at
    every resolution *)
Theorem C42_watertight m sections g n : length sections = S (S m) -> sections_are 4 sections g ->
  loops_close 4 (S (S m)) g ->
  exists l mesh, swept_patches sections 4 true (ResInt (S n)) = Ok l /\
    fresh_mesh (sized_patches l) (ResInt (S n)) (sized_res_r l) (sized_res_s l) no_clustering = Ok mesh /\
    watertight mesh /\ length mesh = (24 * S n * S n)%nat.
Proof. exact (swept_watertight m sections g n). Qed.
Example C42_meets : length box = 2%nat /\ sections_are 4 box box_edge /\ loops_close 4 2 box_edge.
Proof. split; [reflexivity|]. split; [exact box_sections|exact box_loops]. Qed.

(** C43: exactly the documented conditions are checked *)
Theorem C43_accepts_iff sections close r g :
  (forall k cs, nth_error sections k = Some cs -> forall e p, nth_error cs e = Some p -> evaluates01 p (g k e)) ->
  (is_ok (Swept_init sections close r) <->
   exists n, sections <> [] /\
     (forall k cs, nth_error sections k = Some cs -> length cs = n /\
        forall e, (e < n)%nat -> within (1 / 1000000000000) (g k (next_edge n e) 0) (g k e 1)) /\
     (close = true -> n = 4%nat /\ forall d, r = ResDict d -> exists a b,
        dget d "e0" = Some a /\ dget d "e2" = Some a /\ dget d "e1" = Some b /\ dget d "e3" = Some b)).
Proof. exact (swept_init_iff sections close r g). Qed.
(** C43: patches of accepted components *)
Theorem C43_generates_open n sections k : (forall cs, In cs sections -> length cs = n) ->
  is_ok (swept_patches (T := R) sections n false (ResInt k)).
Proof. exact (open_patches n sections k). Qed.
Theorem C43_generates_closed m sections g r : length sections = S (S m) -> sections_are 4 sections g ->
  loops_close 4 (S (S m)) g ->
  (forall e, (e < 4)%nat -> is_ok (swept_res r "sweep" ("e" ++ str_nat e))) ->
  is_ok (swept_res r "e0" "e1") -> is_ok (swept_patches sections 4 true r).
Proof.
  intros L S C E F. destruct (closed_patches m sections g r L S C E F) as (l & H & _). exists l. exact H.
Qed.
Example C43_meets : is_ok (Swept_init box true (ResInt 3)) /\ ~ is_ok (Swept_init [box_section 0; []] true (ResInt 3)).
Proof.
  split.
  - apply (C43_accepts_iff box true (ResInt 3) box_edge).
    { intros k cs H e p He. exact (proj2 (box_sections k cs H) e p He). }
    exists 4%nat. split; [discriminate|]. split.
    + intros k cs H. split; [exact (proj1 (box_sections k cs H))|]. intros e He.
      rewrite <- (box_loops k e); [|destruct k as [|[|[|k]]]; cbn in H; [lia|lia|discriminate|discriminate]|lia].
      unfold within. rewrite !Rminus_eq_0, Rabs_R0. lra.
    + intros _. split; [reflexivity|]. discriminate.
  - intros H. apply (C43_accepts_iff [box_section 0; []] true (ResInt 3) box_edge) in H.
    + destruct H as (n & _ & H & _). destruct (H 0%nat _ eq_refl) as [A _]. destruct (H 1%nat _ eq_refl) as [B _].
      cbn in A, B. congruence.
    + intros [|[|[|k]]] cs H' e p He; cbn [nth_error] in H'; try discriminate; inversion H'; subst cs; clear H'.
      * exact (proj2 (box_sections 0%nat _ eq_refl) e p He).
      * destruct e; discriminate.
Qed.

(** C41: the number of triangles of the box with per-edge resolutions *)
Example C41_meets : exists l,
  swept_patches box 4 true (ResDict [("sweep", 3); ("e0", 2); ("e1", 9); ("e2", 2); ("e3", 9)]%nat%string) = Ok l.
Proof.
  apply (C43_generates_closed 0 box box_edge); [reflexivity|exact box_sections|exact box_loops| |].
  - intros e He. do 4 (destruct e as [|e]; [eexists; reflexivity|]). lia.
  - eexists. reflexivity.
Qed.

(** C44: a body of revolution whose line starts and ends on the axis is
    watertight; one whose end radii differ is not *)
Theorem C44_watertight line g n : evaluates01 line g ->
  vy (g 0) = 0 -> vz (g 0) = 0 -> vy (g 1) = 0 -> vz (g 1) = 0 ->
  exists mesh, fresh_mesh (revolved_patches line) (ResInt (S n)) [] [] no_clustering = Ok mesh /\
    watertight mesh /\ length mesh = (16 * S n * S n)%nat.
Proof. exact (revolved_watertight line g n). Qed.
Theorem C44_open line g n : evaluates01 line g -> radius_x (g 0) <> radius_x (g 1) ->
  exists mesh, fresh_mesh (revolved_patches line) (ResInt (S n)) [] [] no_clustering = Ok mesh /\ ~ watertight mesh.
Proof. exact (revolved_open line g n). Qed.
(** a parabolic arc from the nose (0,0,0) to the tail (1,0,0) *)
Definition spindle : path R := Bezier [V3 0 0 0; V3 (1 / 2) 1 0; V3 1 0 0].
Definition spindle_at (t : R) : pt := V3 t (2 * t * (1 - t)) 0.
Lemma spindle_evaluates : evaluates01 spindle spindle_at.
Proof.
  intros t _. cbn. numR. unfold spindle_at. f_equal. apply vec_ext; cbn; field.
Qed.
Example C44_meets : evaluates01 spindle spindle_at /\ vy (spindle_at 0) = 0 /\ vz (spindle_at 0) = 0 /\
  vy (spindle_at 1) = 0 /\ vz (spindle_at 1) = 0 /\
  (forall line g, line = Line (V3 0 1 0) (V3 1 2 0) -> g = (fun t => lerp t (V3 0 1 0) (V3 1 2 0)) ->
     evaluates01 line g /\ radius_x (g 0) <> radius_x (g 1)).
Proof.
  split; [exact spindle_evaluates|]. unfold spindle_at. cbn. repeat (split; [ring|]).
  intros line g -> ->. split; [intros t _; apply line_lerp|]. rewrite lerp_0, lerp_1. unfold radius_x. cbn.
  rewrite !Rmult_0_l, !Rplus_0_r, !Rmult_1_l, sqrt_1.
  replace (2 * 2) with (Rsqr 2) by (unfold Rsqr; ring). rewrite sqrt_Rsqr; lra.
Qed.

(** C45: what stl_check decides *)
Theorem C45_decides (m : list (tri R)) :
  exists b, stl_check m (mesh_normals m) false true = Ok b /\
    (b = true <-> NoDup (mesh_edges m) /\
                  forall e, In e (mesh_edges m) -> fst e <> snd e /\ In (flip e) (mesh_edges m)).
Proof. exact (stl_check_iff m). Qed.
(** C45: with any stored normals, the check is that of the mesh turned to face
    them, and the area test asks in addition that they cancel *)
Theorem C45_stored_normals (m : list (tri R)) ns m' : faces m ns m' ->
  let closed := NoDup (mesh_edges m') /\
                forall e, In e (mesh_edges m') -> fst e <> snd e /\ In (flip e) (mesh_edges m') in
  exists b c, stl_check m ns false true = Ok b /\ (b = true <-> closed) /\
              stl_check m ns true true = Ok c /\
              (c = true <-> closed /\ cancels vx ns /\ cancels vy ns /\ cancels vz ns).
Proof.
  intros F. destruct (stl_check_faces m ns m' F) as (b & E & H). exists b, (project_check ns && b)%bool.
  split; [exact E|]. split; [exact H|]. split; [exact (stl_check_project m ns b E)|].
  rewrite Bool.andb_true_iff, project_check_iff. rewrite H. unfold all_matched. tauto.
Qed.
(** C45: the projected-area test does not change the verdict *)
Theorem C45_area_test (m : list (tri R)) :
  stl_check m (mesh_normals m) true true = stl_check m (mesh_normals m) false true.
Proof. exact (stl_check_area m). Qed.
(** C45: matching_lines=False always raises *)
Theorem C45_no_lines_refuted {T} {N : Num T} (m : list (tri T)) normals pa :
  stl_check m normals pa false = Raise UnboundLocalError.
Proof. exact (stl_check_unbound m normals pa). Qed.

(** a tetrahedron passes *)
Definition tetra : list (tri R) :=
  [Tri origin ey ex; Tri origin ex ez; Tri origin ez ey; Tri ex ey ez].
Example C45_meets : stl_check tetra (mesh_normals tetra) false true = Ok true.
Proof.
  destruct (C45_decides tetra) as (b & E & H). rewrite E. f_equal. apply H.
  assert (N : origin <> ex /\ origin <> ey /\ origin <> ez /\ ex <> ey /\ ex <> ez /\ ey <> ez).
  { unfold origin, ex, ey, ez. repeat split; intros K; injection K; intros; lra. }
  unfold tetra. revert N. generalize origin ex ey ez. intros a b' c d (N1 & N2 & N3 & N4 & N5 & N6).
  unfold mesh_edges, tri_edges. cbn [flat_map app t0 t1 t2]. split.
  - repeat constructor; cbn; intuition congruence.
  - intros e He. cbn in He. unfold flip.
    repeat (destruct He as [<-|He]; [cbn; split; [congruence|tauto]|]). destruct He.
Qed.

(** a tetrahedron with one triangle wound the wrong way passes with the normals
    of the right one and fails with its own *)
Definition wrong_tetra : list (tri R) :=
  [Tri origin ex ey; Tri origin ex ez; Tri origin ez ey; Tri ex ey ez].
Example C45_stored_meets :
  stl_check wrong_tetra (mesh_normals tetra) false true = Ok true /\
  stl_check wrong_tetra (mesh_normals wrong_tetra) false true = Ok false.
Proof.
  split.
  - assert (F : faces wrong_tetra (mesh_normals tetra) tetra).
    { unfold wrong_tetra, tetra, mesh_normals. cbn [map].
      apply (faces_turn (Tri origin ex ey)); [cbn; unfold inner, area_vec, crossR, diff, origin, ex, ey; cbn; lra|].
      repeat (apply faces_keep; [unfold inner, area_vec, crossR, diff, origin, ex, ey, ez; cbn; lra|]).
      constructor. }
    destruct (C45_stored_normals _ _ _ F) as (b & c & E & H & _). rewrite E. f_equal. apply H.
    destruct (C45_decides tetra) as (b' & E' & H'). rewrite C45_meets in E'. injection E' as <-. apply H'. reflexivity.
  - destruct (C45_decides wrong_tetra) as (b & E & H). rewrite E. f_equal. destruct b; [exfalso|reflexivity].
    destruct H as [H _]. destruct (H eq_refl) as [ND _]. unfold wrong_tetra, mesh_edges, tri_edges in ND.
    cbn [flat_map app t0 t1 t2] in ND. inversion ND as [|x l K _]. apply K. cbn. tauto.
Qed.

(** C47: appending the reflection makes the signed volume zero; replacing
    negates it *)
Theorem C47_append own arg axis d n rr rs c m : chosen_axis own arg axis -> is_axis (lower_axis axis) ->
  NoDup (dkeys d ++ map mirrored_key (dkeys d)) ->
  fresh_mesh d (ResInt n) rr rs c = Ok m ->
  exists m', fresh_mesh (reflect_patches own true arg d) (ResInt n) rr rs c = Ok m' /\
    m' = m ++ map_mesh (reflect (axis_vec (lower_axis axis))) m /\ signed_volume m' = 0.
Proof.
  intros A B C D. eexists. split; [exact (reflect_append own arg axis d n rr rs c m A B C D)|].
  split; [reflexivity|]. rewrite signed_volume_app, reflect_volume by (apply axis_cases; exact B). ring.
Qed.
Theorem C47_replace own arg axis d n rr rs c m : chosen_axis own arg axis -> is_axis (lower_axis axis) ->
  NoDup (dkeys d) -> fresh_mesh d (ResInt n) rr rs c = Ok m ->
  exists m', fresh_mesh (reflect_patches own false arg d) (ResInt n) rr rs c = Ok m' /\
    m' = map_mesh (reflect (axis_vec (lower_axis axis))) m /\ signed_volume m' = - signed_volume m.
Proof.
  intros A B C D. eexists. split; [exact (reflect_replace own arg axis d n rr rs c m A B C D)|].
  split; [reflexivity|]. apply reflect_volume, axis_cases, B.
Qed.
Example C47_meets : chosen_axis None (Some "y"%string) "y" /\ is_axis (lower_axis "y") /\
  NoDup (dkeys (cube_patches 1 (V3 3 4 5)) ++ map mirrored_key (dkeys (cube_patches 1 (V3 3 4 5)))) /\
  is_ok (fresh_mesh (cube_patches 1 (V3 3 4 5)) (ResInt 7) [] [] no_clustering).
Proof.
  split; [right; split; reflexivity|]. split; [right; left; reflexivity|].
  split; [cbn; repeat constructor; cbn; intuition discriminate|].
  eexists. apply (cube_mesh_ok 1 (V3 3 4 5) 6).
Qed.

(** C48: stl_repair applies one map to all vertices: the number of triangles is
    kept, no coordinate moves by small_distance, and a vertex with no other
    vertex within small_distance (per coordinate) stays *)
Theorem C48_repair argsort small (m : list (tri R)) : (forall col, sorts col (argsort col)) -> 0 < small ->
  exists f, stl_repair argsort small m = map_mesh f m /\
    (forall p, is_corner p m -> moved_less small (f p) p) /\
    (forall p, is_corner p m -> (forall q, is_corner q m -> q <> p -> ~ moved_less small q p) -> f p = p).
Proof. exact (repair_map argsort small m). Qed.
(** C48: vertices closer than small_distance can stay apart: of the points 0,
    0.6d, 1.2d only the first two are merged *)
Theorem C48_chain_refuted argsort d : (forall col, sorts col (argsort col)) -> 0 < d ->
  stl_repair argsort d [Tri (V3 0 0 0) (V3 (3 / 5 * d) 0 0) (V3 (6 / 5 * d) 0 0)]
  = [Tri (V3 (3 / 10 * d) 0 0) (V3 (3 / 10 * d) 0 0) (V3 (6 / 5 * d) 0 0)].
Proof. exact (repair_chain argsort d). Qed.
Example C48_meets : (forall col, sorts col (ref_argsort col)) /\ 0 < 1 / 1000000.
Proof. split; [exact ref_sorts|lra]. Qed.

(** C73: stl_repair never opens a watertight mesh *)
Theorem C73_repair_watertight argsort small (m : list (tri R)) : (forall col, sorts col (argsort col)) -> 0 < small ->
  watertight m -> watertight (stl_repair argsort small m).
Proof.
  intros A S W. destruct (repair_map argsort small m A S) as (f & -> & _). apply watertight_map, W.
Qed.
Example C73_meets : watertight tetra.
Proof. exact (stl_check_sound tetra C45_meets). Qed.

(** C74: a mesh stl_check accepts is watertight, but every mesh with an edge of
    length zero is rejected, such as that of any body of revolution that starts
    on the axis *)
Theorem C74_sound (m : list (tri R)) : stl_check m (mesh_normals m) false true = Ok true -> watertight m.
Proof. exact (stl_check_sound m). Qed.
Theorem C74_degenerate_refuted (m : list (tri R)) e : In e (mesh_edges m) -> fst e = snd e ->
  stl_check m (mesh_normals m) false true = Ok false.
Proof. exact (stl_check_degenerate m e). Qed.
Theorem C74_revolved_refuted line g n : evaluates01 line g ->
  vy (g 0) = 0 -> vz (g 0) = 0 -> vy (g 1) = 0 -> vz (g 1) = 0 ->
  exists mesh, fresh_mesh (revolved_patches line) (ResInt (S n)) [] [] no_clustering = Ok mesh /\
    watertight mesh /\ stl_check mesh (mesh_normals mesh) false true = Ok false.
Proof.
  intros E A B C D. destruct (revolved_watertight line g n E A B C D) as (m & F & W & _).
  destruct (revolved_degenerate line g n E A B) as (m' & F' & _ & K).
  exists m. split; [exact F|]. split; [exact W|]. rewrite F in F'. injection F' as <-. exact K.
Qed.
Example C74_meets : stl_check tetra (mesh_normals tetra) false true = Ok true /\ evaluates01 spindle spindle_at.
Proof. split; [exact C45_meets|exact spindle_evaluates]. Qed.

(** C75: with per-edge resolutions, a reflected component cannot be meshed *)
Theorem C75_reflected_dict_refuted own arg axis (d : dict (surf R)) dd rr rs c : chosen_axis own arg axis ->
  d <> [] -> NoDup (dkeys d ++ map mirrored_key (dkeys d)) ->
  (forall k, In k (dkeys d) -> dget rr (mirrored_key k) = None) ->
  ~ is_ok (fresh_mesh (reflect_patches own true arg d) (ResDict dd) rr rs c).
Proof. exact (reflect_dict_res own arg axis d dd rr rs c). Qed.
Example C75_meets : chosen_axis (Some "y"%string) None "y" /\
  exists l, swept_patches box 4 false (ResDict [("sweep", 3); ("e0", 2); ("e1", 9); ("e2", 2); ("e3", 9)]%nat%string) = Ok l /\
    NoDup (dkeys (sized_patches l) ++ map mirrored_key (dkeys (sized_patches l))) /\
    (forall k, In k (dkeys (sized_patches l)) -> dget (sized_res_r l) (mirrored_key k) = None).
Proof.
  split; [left; reflexivity|]. eexists. split; [reflexivity|]. split.
  - cbn. repeat constructor; cbn; intuition discriminate.
  - intros k H. cbn in H. repeat (destruct H as [<-|H]; [reflexivity|]). destruct H.
Qed.

(** C76: a SweptComponent with one cross section generates its patches but
    cannot be meshed at any resolution *)
Theorem C76_single_section_refuted (cs : list (path R)) close k rr l n : (0 < k)%nat ->
  swept_patches [cs] k close rr = Ok l ->
  ~ is_ok (fresh_mesh (sized_patches l) (ResInt (S n)) (sized_res_r l) (sized_res_s l) no_clustering).
Proof. exact (single_section cs close k rr l n). Qed.
Example C76_meets : is_ok (Swept_init [box_section 0] false (ResInt 3)) /\
  is_ok (swept_patches [box_section 0] 4 false (ResInt 3)).
Proof.
  split.
  - apply (C43_accepts_iff [box_section 0] false (ResInt 3) box_edge).
    + intros [|[|k]] cs H e p He; cbn [nth_error] in H; try discriminate. inversion H; subst cs; clear H.
      exact (proj2 (box_sections 0%nat _ eq_refl) e p He).
    + exists 4%nat. split; [discriminate|]. split; [|discriminate].
      intros [|[|k]] cs H; cbn [nth_error] in H; try discriminate. inversion H; subst cs; clear H. split; [reflexivity|].
      intros e He. rewrite <- (box_loops 0%nat e) by lia. unfold within. rewrite !Rminus_eq_0, Rabs_R0. lra.
  - apply C43_generates_open. intros cs [<-|[]]. reflexivity.
Qed.

Print Assumptions C36_cube_refuted.
Print Assumptions C36_sphere_refuted.
Print Assumptions C42_watertight.
Print Assumptions C43_accepts_iff.
Print Assumptions C44_watertight.
Print Assumptions C44_open.
Print Assumptions C45_decides.
Print Assumptions C45_area_test.
Print Assumptions C45_stored_normals.
Print Assumptions C47_append.
Print Assumptions C48_repair.
Print Assumptions C48_chain_refuted.
Print Assumptions C73_repair_watertight.
Print Assumptions C74_revolved_refuted.
Print Assumptions C75_reflected_dict_refuted.
Print Assumptions C76_single_section_refuted.
