(** C107: what the options of a component do to the closedness of its mesh. *)
From Coq Require Import String Reals Lra ZArith List Permutation Lia Bool.
From Verif Require Import Num NumR Py M_Vector SpecR3 M_Path M_Surface M_Geometry M_Mesh M_Component M_Vehicle
  SpecPath SpecPoly SpecSurf SpecMesh SpecComp SpecVehicle SpecFiles SpecPrism SpecHangar SpecHtv SpecProfile SpecLathe SpecClosed
  L_Vector L_Edges L_Mesh L_Component L_Heap L_Pipeline L_Generate L_Cache L_Hangar L_Closed L_Prism L_Falcon L_Finner L_Htv L_Parts L_Parts2 P_Cylinder P_Vehicle.
Import ListNotations.
Local Open Scope R_scope.

Section Closed.
  Variables (v : vehicle R) (h : heap R) (more : list motion).
  Hypothesis SP : separate h.
  Hypothesis ND : NoDup (flat_map (with_children h) (v_components v)).
  Hypothesis RD : forall i, In i (v_components v) -> exists g p, ready h i g p.
  Hypothesis VT : v_transformations v = map written more.
  Hypothesis OM : Forall motion_ok more.

  Lemma generated_mesh : exists h', generate v h = (h', mark_generated v, Ok tt) /\
    forall i g p c n, In i (v_components v) -> ready h i g p -> nth_error (comps h) i = Some c -> c_mesh c = None -> c_surfaces c = None -> c_resolution c = ResInt n ->
      exists d rr rs, finished p (v_angle v) more g d /\ mesh_of h' i = fresh_mesh d (ResInt n) rr rs (c_clustering c).
  Proof using SP ND RD VT OM.
    apply separate_ns in SP. destruct (generate_run v h more SP ND) as (h' & A & S & Q & _).
    { intros i Hi. destruct (RD i Hi) as (g & p & Ri). destruct (ready_set_up h i g p SP Ri) as (c & U & _). eauto. }
    { exact VT. }
    exists h'. split; [exact A|]. intros i g p c0 n Hi Ri E0 C1 C2 C3.
    destruct (ready_set_up h i g p SP Ri) as (c & U & P).
    destruct (Q i g c (p_motions p) Hi U) as (c2 & V2 & SO).
    assert (c0 = c) as -> by (destruct U as (_ & E & _); congruence).
    destruct (generated_caches v _ h h' i A) as (c3 & E3 & M1 & M2); [exists c; auto|].
    destruct (view_inv _ _ _ _ V2) as [E2 _]. assert (c3 = c2) as -> by congruence.
    destruct (so_inv c c2 SO) as (_ & _ & R1 & _ & R2 & _).
    destruct Ri as (_ & K & O & _).
    pose proof (finished_effect c p (v_angle v) more g P O OM K) as FE.
    set (d := fold_left _ _ _) in *. exists d, (c_res_r c2), (c_res_s c2). split; [exact FE|].
    unfold mesh_of. rewrite (fresh_comp_mesh i h' c2 _ V2 M1 M2), R1, R2, C3. reflexivity.
  Qed.

  (** C107: no option opens a closed component: modifier, curvatures, vehicle
      angle, reflection and transformations, with any clustering *)
  Theorem C107_closed : exists h', generate v h = (h', mark_generated v, Ok tt) /\
    forall i g p c n m, In i (v_components v) -> ready h i g p -> nth_error (comps h) i = Some c -> c_mesh c = None -> c_surfaces c = None -> c_resolution c = ResInt n ->
      fresh_mesh g (ResInt n) [] [] (c_clustering c) = Ok m -> options_defined p (v_angle v) more m ->
      exists m', mesh_of h' i = Ok m' /\ (watertight m -> watertight m') /\
        length m' = (match p_axis p with Some _ => if p_append p then 2 else 1 | None => 1 end * length m)%nat.
  Proof using SP ND RD VT OM.
    destruct generated_mesh as (h' & A & Q). exists h'. split; [exact A|].
    intros i g p c n m Hi Ri E C1 C2 C3 M [D1 D2]. destruct (Q i g p c n Hi Ri E C1 C2 C3) as (d & rr & rs & FI & ->).
    pose proof (finished_mesh p (v_angle v) more g d (c_clustering c) n rr rs m (proj1 (proj2 Ri)) FI M) as H.
    destruct (p_axis p) as [axis|].
    - destruct (H (D2 axis eq_refl)) as (m2 & R2 & H2); [intros Ap; apply D1; right; exact Ap|]. destruct (p_append p).
      + destruct H2 as (m1 & E1 & R1). exists (m1 ++ m2). split; [exact E1|]. split.
        * intros W. unfold watertight. rewrite mesh_edges_app. apply balanced_app; [exact (redrawn_closed _ _ _ R1 W)|exact (redrawn_closed _ _ _ R2 W)].
        * rewrite app_length, (proj1 R1), (proj1 R2). lia.
      + exists m2. split; [exact H2|]. split; [exact (redrawn_closed _ _ _ R2)|]. rewrite (proj1 R2). lia.
    - destruct H as (m' & E1 & R1); [apply D1; left; reflexivity|]. exists m'. split; [exact E1|]. split; [exact (redrawn_closed _ _ _ R1)|]. rewrite (proj1 R1). lia.
  Qed.

  (** C107: nor does one close an open component, as long as it keeps the
      vertices apart and nothing is appended *)
  Theorem C107_open : exists h', generate v h = (h', mark_generated v, Ok tt) /\
    forall i g p c n m, In i (v_components v) -> ready h i g p -> nth_error (comps h) i = Some c -> c_mesh c = None -> c_surfaces c = None -> c_resolution c = ResInt n ->
      fresh_mesh g (ResInt n) [] [] (c_clustering c) = Ok m -> options_defined p (v_angle v) more m ->
      match p_axis p with
      | None => apart_on (straight p (v_angle v) more) m
      | Some axis => p_append p = false /\ apart_on (folded p axis (v_angle v) more) m
      end -> exists m', mesh_of h' i = Ok m' /\ (watertight m' <-> watertight m).
  Proof using SP ND RD VT OM.
    destruct generated_mesh as (h' & A & Q). exists h'. split; [exact A|].
    intros i g p c n m Hi Ri E C1 C2 C3 M [D1 D2] AP. destruct (Q i g p c n Hi Ri E C1 C2 C3) as (d & rr & rs & FI & ->).
    pose proof (finished_mesh p (v_angle v) more g d (c_clustering c) n rr rs m (proj1 (proj2 Ri)) FI M) as H.
    assert (TO : forall F, defined_on F m -> apart_on F m -> forall a b, vertex_of m a -> vertex_of m b -> totally F a = totally F b -> a = b).
    { intros F D B a b Ha Hb. unfold totally. destruct (D a Ha) as (a' & Ea). destruct (D b Hb) as (b' & Eb). rewrite Ea, Eb. intros ->. apply B; [exact Ha|exact Hb|congruence]. }
    destruct (p_axis p) as [axis|].
    - destruct AP as [Ap AP]. rewrite Ap in *. destruct (H (D2 axis eq_refl)) as (m2 & R2 & H2); [discriminate|]. exists m2. split; [exact H2|].
      apply redrawn_iff with (2 := R2). apply TO; [apply D2; reflexivity|exact AP].
    - destruct H as (m' & E1 & R1); [apply D1; left; reflexivity|]. exists m'. split; [exact E1|]. apply redrawn_iff with (2 := R1). apply TO; [apply D1; left; reflexivity|exact AP].
  Qed.
End Closed.

(** a cylinder, bent to z = x^2, with its reflection appended, in a vehicle that
    is turned afterwards *)
Definition bent_plan : plan := mkPlan None [mkBend true (fun x _ => Ok (x * x)) (fun x _ => Ok (2 * x))] (Some "y"%string) true [].
Definition bent_comp (line : path R) : comp R :=
  mkComp "revolved" (Own false (Ok (revolved_patches line, [], []))) 0 [] [] (ResInt 10) None None
    (Some [("x"%string, Some (fun x _ => Ok (x * x)), Some (fun x _ => Ok (2 * x)))]) no_clustering [] None (Some "y"%string) true false None 1%Z.
Example C107_meets : exists line m, let h := mkHeap [[]] [bent_comp line] in
  let v := mkVehicle [0%nat] "v" 0 1 false [] [] [] [written (Turn 90 "x")] in
  separate h /\ NoDup (flat_map (with_children h) (v_components v)) /\ ready h 0 (revolved_patches line) bent_plan /\
  v_transformations v = map written [Turn 90 "x"] /\ Forall motion_ok [Turn 90 "x"] /\
  fresh_mesh (revolved_patches line) (ResInt 10) [] [] no_clustering = Ok m /\ watertight m /\ signed_volume m <> 0 /\
  options_defined bent_plan 0 [Turn 90 "x"] m.
Proof.
  destruct (C95_cylinder 0 (-3) 1 9) as (p & m & Ep & Em & W & _ & V & _); [lra|lra|]. exists p, m. cbv zeta.
  split; [|split; [|split; [|split; [reflexivity|split; [|split; [exact Em|split; [exact W|split]]]]]]].
  - eapply separate_by; [reflexivity| |]; cbn; repeat constructor; cbn; intuition discriminate.
  - repeat constructor; cbn; tauto.
  - change (mkHeap [[]] [bent_comp p]) with (ext (mkHeap [] []) [[]] [bent_comp p]).
    apply (own_ready (mkHeap [] []) [[]] [bent_comp p] 0 (bent_comp p) false (revolved_patches p) bent_plan); [reflexivity|reflexivity|apply revolved_fine| | |].
    + right. exists 0%nat. split; reflexivity.
    + split; [|constructor]. intros a E. injection E as <-. right; left; reflexivity.
    + split; [reflexivity|]. split; [left; reflexivity|]. repeat split.
  - repeat constructor.
  - assert (E : signed_volume m = ngon (4 * 10) * (1 * 1 * (-3 - 0))).
    { apply V. exists 2%nat. replace (-3 - 0) with (-3) by ring. rewrite Rabs_left by lra. cbn. lra. }
    assert (G : 0 < ngon (4 * 10)) by (apply L_Lathe.ngon_pos; lia). rewrite E. nra.
  - split.
    + intros _ q _. eexists. reflexivity.
    + intros axis E q _. injection E as <-. eexists. reflexivity.
Qed.

Print Assumptions C107_closed.
Print Assumptions C107_open.
