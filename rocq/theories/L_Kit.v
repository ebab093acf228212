(** Vehicles assembled from parts that are turned and reflected: the meshes and
    volumes delivered. *)
From Coq Require Import String Reals Lra ZArith List Permutation Lia Bool.
From Verif Require Import Num NumR Py M_Vector SpecR3 M_Path M_Surface M_Geometry M_Mesh M_Component M_Vehicle
  SpecPath SpecSurf SpecMesh SpecComp SpecVehicle SpecAdd SpecFiles SpecPrism SpecHangar SpecPair SpecHtv SpecLedger
  L_Vector L_Edges L_Mesh L_Volume L_Component L_Heap L_Rigid L_Reflect L_Pipeline L_Generate L_Cache L_Files L_Prism L_Hangar L_Wedge L_Pair.
Import ListNotations.
Local Open Scope R_scope.

(** ** maps that multiply volumes *)
Definition combined (a b c d p : pt) : pt :=
  V3 (vx a + vx p * vx b + vy p * vx c + vz p * vx d) (vy a + vx p * vy b + vy p * vy c + vz p * vy d) (vz a + vx p * vz b + vy p * vz c + vz p * vz d).
Lemma affine_form f : affine f <-> exists a b c d, forall p, f p = combined a b c d p.
Proof.
  split.
  - intros F. exists (f origin), (delta f ex), (delta f ey), (delta f ez). intros p. rewrite (F p).
    generalize (f origin) (delta f ex) (delta f ey) (delta f ez). intros a b c d.
    unfold translate, scaled, combined. apply vec_ext; cbn; ring.
  - intros (a & b & c & d & H) p. unfold delta. rewrite !H. unfold combined, translate, scaled, ex, ey, ez, origin. apply vec_ext; cbn; ring.
Qed.
Lemma affine_compose f g : affine f -> affine g -> affine (fun p => g (f p)).
Proof.
  rewrite !affine_form. intros (a & b & c & d & F) (a' & b' & c' & d' & G).
  set (z := V3 0 0 0 : pt).
  exists (combined a' b' c' d' a), (combined z b' c' d' b), (combined z b' c' d' c), (combined z b' c' d' d).
  intros p. rewrite F, G. unfold combined, z. cbn [vx vy vz]. apply vec_ext; cbn [vx vy vz]; ring.
Qed.
Definition scales (f : pt -> pt) (c : R) : Prop := affine f /\ forall m, signed_volume (map_mesh f m) = c * signed_volume m.
Lemma scales_id : scales (fun p => p) 1.
Proof.
  split; [intros p; unfold delta, translate, scaled, ex, ey, ez, origin; apply vec_ext; cbn; ring|].
  intros m. replace (map_mesh (fun p => p) m) with m; [ring|]. unfold map_mesh. symmetry. rewrite <- (map_id m) at 2. apply map_ext. intros []; reflexivity.
Qed.
Lemma scales_compose f g a b : scales f a -> scales g b -> scales (fun p => g (f p)) (b * a).
Proof.
  intros [A1 A2] [B1 B2]. split; [apply affine_compose; assumption|]. intros m.
  replace (map_mesh (fun p => g (f p)) m) with (map_mesh g (map_mesh f m)); [rewrite B2, A2; ring|].
  unfold map_mesh. rewrite map_map. reflexivity.
Qed.
Lemma scales_turn axis a : is_axis axis -> scales (rodrigues (axis_vec axis) origin a) 1.
Proof.
  intros H. split; [apply rodrigues_affine, H|]. intros m. rewrite volume_fix0, rodrigues_det by auto using rodrigues_affine, rodrigues_origin. reflexivity.
Qed.
Lemma scales_reflect axis : is_axis axis -> scales (reflect (axis_vec axis)) (-1).
Proof. intros H. split; [apply reflect_affine|]. intros m. rewrite reflect_volume by (apply axis_cases, H). ring. Qed.

Definition turn_of (F : pmap) : Prop := exists a axis, is_axis axis /\ F = turned a axis.
Lemma turns_total l : Forall turn_of l -> exists f, motion_total l f /\ scales f 1.
Proof.
  induction 1 as [|F l (a & axis & B & ->) _ (f & E & S)].
  - exists (fun p => p). split; [intros p; reflexivity|apply scales_id].
  - eexists. split; [|replace 1 with (1 * 1) by ring; apply (scales_compose _ f 1 1 (scales_turn axis (a * (PI / 180)) B) S)].
    intros p. cbn [in_order fold_right]. unfold and_then, turned. apply E.
Qed.
Lemma in_order_app l l' p q : in_order l p = Ok q -> in_order (l ++ l') p = in_order l' q.
Proof.
  revert p. induction l as [|F l IH]; intros p E; [cbn in E; injection E as <-; reflexivity|].
  cbn [app in_order fold_right] in E |- *. unfold and_then in *. destruct (F p) as [r|]; [|discriminate]. apply IH, E.
Qed.
Lemma total_app l l' f f' : motion_total l f -> motion_total l' f' -> motion_total (l ++ l') (fun p => f' (f p)).
Proof. intros A B p. rewrite (in_order_app l l' p (f p) (A p)). apply B. Qed.
Lemma written_turns l : Forall is_turn l -> Forall turn_of (map motion_map l).
Proof. induction 1 as [|m l (a & axis & -> & B) _ IH]; constructor; [|exact IH]. exists a, axis. auto. Qed.
Lemma before_turns p a : turns_only p -> Forall turn_of (before_reflection p a).
Proof.
  intros (M & B & _). unfold before_reflection. rewrite M, B. cbn. constructor; [|constructor]. exists a, "y"%string. split; [right; left; reflexivity|reflexivity].
Qed.
Lemma after_turns p more : turns_only p -> Forall is_turn more -> Forall turn_of (after_reflection p more).
Proof. intros (_ & _ & T) F. unfold after_reflection. apply written_turns, Forall_app. auto. Qed.

(** ** the mesh of every part *)
Lemma built_values n g : flat_map (patch_grid n) (values_of (dvals g)) = as_built n g.
Proof.
  unfold as_built, values_of, dvals. rewrite map_map. induction g as [|a g IH]; [reflexivity|]. cbn [map flat_map]. rewrite IH. reflexivity.
Qed.
Lemma turn_ok m : is_turn m -> motion_ok m.
Proof. intros (a & axis & -> & B). exact B. Qed.

Section Vehicle.
  Variables (v : vehicle R) (h : heap R) (more : list motion).
  Hypothesis SP : separate h.
  Hypothesis ND : NoDup (flat_map (with_children h) (v_components v)).
  Hypothesis ET : v_transformations v = map written more.
  Hypothesis TM : Forall is_turn more.
  Hypothesis ST : forall i, In i (v_components v) -> exists m k, stocked h i m k.

  Theorem stock_generates : exists h2, generate v h = (h2, mark_generated v, Ok tt) /\
    length (comps h2) = length (comps h) /\
    (forall i c, nth_error (comps h) i = Some c -> exists c', nth_error (comps h2) i = Some c' /\ same_options c c') /\
    (forall i g p n, In i (v_components v) -> ready h i g p -> turns_only p -> unmeshed h i n -> g <> [] -> (forall u, In u (dvals g) -> on_square u) ->
       exists f1 f2, scales f1 1 /\ scales f2 (-1) /\
         mesh_of h2 i = Ok (match p_axis p with
                            | None => map_mesh f1 (as_built n g)
                            | Some _ => (if p_append p then map_mesh f1 (as_built n g) else []) ++ map_mesh f2 (as_built n g)
                            end)).
  Proof using SP ND ET TM ST.
    assert (OM : Forall motion_ok more) by (eapply Forall_impl; [|exact TM]; apply turn_ok).
    assert (RD : forall i, In i (v_components v) -> exists g p, ready h i g p).
    { intros i Hi. destruct (ST i Hi) as (m & k & g & p & n & R & _). eauto. }
    destruct (generated_meshes v h more SP ND RD ET OM) as (h2 & A & LN & SO & Q).
    pose proof (reflected_meshes v h more SP ND RD ET OM h2 A) as RM.
    exists h2. split; [exact A|]. split; [exact LN|]. split; [exact SO|].
    intros i g p n Hi Rd T U NE Sq.
    destruct (turns_total _ (before_turns p (v_angle v) T)) as (fb & Eb & Sb).
    destruct (turns_total _ (after_turns p more T TM)) as (fa & Ea & Sa).
    pose proof (values_of_ok (dvals g) Sq) as V.
    assert (S1 : scales (fun q => fa (fb q)) 1) by (replace 1 with (1 * 1) by ring; apply scales_compose; assumption).
    destruct (p_axis p) as [axis|] eqn:AX.
    - assert (B : is_axis axis) by (destruct Rd as (_ & _ & [PO _] & _); apply PO, AX).
      assert (S2 : scales (fun q => fa (reflect (axis_vec axis) (fb q))) (-1)).
      { replace (-1) with (1 * (-1 * 1)) by ring. apply (scales_compose (fun q => reflect (axis_vec axis) (fb q)) fa); [|exact Sa].
        apply (scales_compose fb); [exact Sb|apply scales_reflect, B]. }
      exists (fun q => fa (fb q)), (fun q => fa (reflect (axis_vec axis) (fb q))). split; [exact S1|]. split; [exact S2|].
      rewrite (RM i g p n (values_of (dvals g)) axis _ _ Hi Rd U NE V AX (total_app _ _ _ _ Eb Ea)
        (total_app _ (mirrored_in axis :: _) fb (fun q => fa (reflect (axis_vec axis) q)) Eb (fun q => Ea _))).
      f_equal. rewrite (grids_affine (fun q => fa (fb q))), (grids_affine (fun q => fa (reflect (axis_vec axis) (fb q)))) by (apply S1 || apply S2).
      rewrite built_values. reflexivity.
    - exists (fun q => fa (fb q)), (fun q => fa (reflect (axis_vec "y") (fb q))). split; [exact S1|].
      split. { replace (-1) with (1 * (-1 * 1)) by ring. apply (scales_compose (fun q => reflect (axis_vec "y") (fb q)) fa); [|exact Sa].
        apply (scales_compose fb); [exact Sb|apply scales_reflect; right; left; reflexivity]. }
      rewrite (Q i g p n (values_of (dvals g)) _ Hi Rd U NE V AX (total_app _ _ _ _ Eb Ea)).
      f_equal. rewrite (grids_affine (fun q => fa (fb q))) by apply S1. rewrite built_values. reflexivity.
  Qed.
End Vehicle.
