(** Reflected components: meshes after generation, and a component beside its
    deep copy. *)
From Coq Require Import String Reals Lra ZArith List Permutation Lia Bool.
From Verif Require Import Num NumR Py M_Vector SpecR3 M_Path M_Surface M_Geometry M_Mesh M_Component M_Vehicle
  SpecPath SpecPoly SpecSurf SpecMesh SpecComp SpecVehicle SpecAdd SpecFiles SpecPrism SpecPair L_Vector L_Edges L_Mesh L_Volume L_Component
  L_SweptComp L_Rigid L_Reflect L_Heap L_Pipeline L_Generate L_Cache L_Prism L_Hangar L_Wedge.
Import ListNotations.
Local Open Scope R_scope.

Theorem reflected_meshes (v : vehicle R) h more : separate h ->
  NoDup (flat_map (with_children h) (v_components v)) ->
  (forall i, In i (v_components v) -> exists g p, ready h i g p) ->
  v_transformations v = map written more -> Forall motion_ok more ->
  forall h', generate v h = (h', mark_generated v, Ok tt) ->
    forall i g p n vs axis f1 f2, In i (v_components v) -> ready h i g p -> unmeshed h i n -> g <> [] -> values01 (dvals g) vs ->
      p_axis p = Some axis ->
      motion_total (before_reflection p (v_angle v) ++ after_reflection p more) f1 ->
      motion_total (before_reflection p (v_angle v) ++ mirrored_in axis :: after_reflection p more) f2 ->
      mesh_of h' i = Ok ((if p_append p then flat_map (patch_grid n) (map (fun u r s => f1 (u r s)) vs) else [])
                         ++ flat_map (patch_grid n) (map (fun u r s => f2 (u r s)) vs)).
Proof.
  intros SP ND RD ET OM h' A. apply separate_ns in SP.
  destruct (generate_run v h more SP ND) as (h'' & A' & S & Q & _).
  { intros i Hi. destruct (RD i Hi) as (g & p & Ri). destruct (ready_set_up h i g p SP Ri) as (c & U & _). eauto. }
  { exact ET. }
  rewrite A' in A. injection A as <-. rename A' into A.
  intros i g p n vs axis f1 f2 Hi Ri (c0 & E0 & C1 & C2 & C3 & C4) NE V AX F1 F2.
  destruct (ready_set_up h i g p SP Ri) as (c & U & P).
  destruct (Q i g c (p_motions p) Hi U) as (c2 & V2 & SO).
  assert (c0 = c) as -> by (destruct U as (_ & E & _); congruence).
  destruct (generated_caches v _ h h'' i A) as (c3 & E3 & M1 & M2); [exists c; auto|].
  destruct (view_inv _ _ _ _ V2) as [E2 _]. assert (c3 = c2) as -> by congruence.
  destruct (so_inv c c2 SO) as (_ & _ & R1 & _ & R2 & _).
  unfold mesh_of. rewrite (fresh_comp_mesh i h'' c2 _ V2 M1 M2), R1, R2, C3, C4.
  destruct Ri as (_ & K & O & _).
  pose proof (finished_effect c p (v_angle v) more g P O OM K) as FE. unfold finished in FE. rewrite AX in FE.
  pose proof (plain_nodup g K) as ND2.
  set (d := fold_left _ _ _) in *. clearbody d. destruct (p_append p).
  - destruct FE as (d1 & d2 & -> & Q1 & Q2).
    rewrite <- flat_map_app. apply mesh_of_values.
    + unfold dkeys. rewrite map_app. change (map fst d1) with (dkeys d1). change (map fst d2) with (dkeys d2).
      rewrite (L_Hangar.relates_keys _ _ _ _ Q1), (L_Hangar.relates_keys _ _ _ _ Q2).
      unfold same_key. rewrite map_id. exact ND2.
    + intros E. apply app_eq_nil in E as [-> _]. inversion Q1. congruence.
    + unfold dvals. rewrite map_app. apply Forall2_app; [apply (relates_values _ _ _ _ _ _ Q1 F1 V)|apply (relates_values _ _ _ _ _ _ Q2 F2 V)].
  - cbn [app]. apply mesh_of_values.
    + rewrite (L_Hangar.relates_keys _ _ _ _ FE). apply L_Pipeline.NoDup_app_r' in ND2. exact ND2.
    + intros ->. inversion FE. congruence.
    + apply (relates_values _ _ _ _ _ _ FE F2 V).
Qed.

(** objects outside the components of k do not matter for k *)
Lemma ready_frame (h h' : heap R) k g p : 
  (forall j, In j (with_children h k) -> nth_error (comps h') j = nth_error (comps h) j) ->
  (forall r d, nth_error (dicts h) r = Some d -> nth_error (dicts h') r = Some d) ->
  ready h k g p -> ready h' k g p /\ with_children h' k = with_children h k.
Proof.
  intros HC HD (B & K & O & c & Ec & P).
  assert (Hk : nth_error (comps h') k = nth_error (comps h) k) by (apply HC; left; reflexivity).
  assert (OWN : forall j g, In j (with_children h k) -> builds_own h j g -> builds_own h' j g).
  { intros j g0 Hj (c0 & r & rr & rs & E & E2 & N0 & Q). exists c0, r, rr, rs. rewrite HC by exact Hj.
    split; [exact E|]. split; [exact E2|]. split; [exact N0|]. destruct Q as [Q|Q]; [left; exact Q|right].
    unfold patches_at in *. rewrite HC by exact Hj. rewrite E in *. apply HD, Q. }
  split.
  - split; [|split; [exact K|]; split; [exact O|]; exists c; rewrite Hk; auto].
    destruct B as [B|(c0 & ch & gs & E & E2 & F & G)]; [left; apply OWN; [left; reflexivity|exact B]|].
    right. exists c0, ch, gs. rewrite Hk. split; [exact E|]. split; [exact E2|]. split; [|exact G].
    assert (I : forall j, In j ch -> In j (with_children h k)) by (intros j Hj; unfold with_children; rewrite E, E2; right; exact Hj).
    clear -F OWN I. induction F; constructor; [apply OWN; [apply I; left; reflexivity|assumption]|apply IHF; intros; apply I; right; assumption].
  - unfold with_children. rewrite Hk. reflexivity.
Qed.

Definition values_of (us : list (surf R)) : list (R -> R -> pt) :=
  map (fun u r s => match u r s with Ok p => p | Raise _ => origin end) us.
Lemma values_of_ok us : (forall u, In u us -> forall r s, 0 <= r <= 1 -> 0 <= s <= 1 -> is_ok (u r s)) -> values01 us (values_of us).
Proof.
  unfold values01, values_of. induction us as [|u l IH]; intros H; cbn [map]; constructor.
  - intros r s Hr Hs. destruct (H u (or_introl eq_refl) r s Hr Hs) as [p ->]. reflexivity.
  - apply IH. intros w Hw. apply H. right; exact Hw.
Qed.

Definition mirror_plan (axis : string) (b : bool) : plan := mkPlan None [] (Some axis) b [].
Lemma still_turned a : motion_total (before_reflection still a ++ after_reflection still []) (rodrigues (axis_vec "y") origin (a * (PI / 180))).
Proof. intros q. reflexivity. Qed.
Lemma mirror_turned a axis b : motion_total (before_reflection (mirror_plan axis b) a ++ after_reflection (mirror_plan axis b) [])
  (rodrigues (axis_vec "y") origin (a * (PI / 180))).
Proof. intros q. reflexivity. Qed.
Lemma mirror_turned2 a axis b : motion_total (before_reflection (mirror_plan axis b) a ++ mirrored_in axis :: after_reflection (mirror_plan axis b) [])
  (fun q => reflect (axis_vec axis) (rodrigues (axis_vec "y") origin (a * (PI / 180)) q)).
Proof. intros q. reflexivity. Qed.

Lemma options_plain vb name gh (c : comp R) : let c' := with_options vb (plain_args name gh) c in
  c_type c' = c_type c /\ c_kind c' = c_kind c /\ c_patches c' = c_patches c /\ c_resolution c' = c_resolution c /\
  c_surfaces c' = c_surfaces c /\ c_mesh c' = c_mesh c /\ c_clustering c' = c_clustering c /\ (planned c still -> planned c' still).
Proof. cbv zeta. repeat split; try reflexivity; apply H. Qed.
Lemma options_mirror vb name axis b gh (c : comp R) : let c' := with_options vb (mirror_args name axis b gh) c in
  c_type c' = c_type c /\ c_kind c' = c_kind c /\ c_patches c' = c_patches c /\ c_resolution c' = c_resolution c /\
  c_surfaces c' = c_surfaces c /\ c_mesh c' = c_mesh c /\ c_clustering c' = c_clustering c /\ (planned c still -> planned c' (mirror_plan axis b)).
Proof. cbv zeta. repeat split; try reflexivity; apply H. Qed.

Theorem pair_meshes (v : vehicle R) h i c g rr rs r n axis b n1 n2 g1 g2 :
  separate h -> nth_error (comps h) i = Some c -> str_in (c_type c) allowable = true -> c_kind c = Own r (Ok (g, rr, rs)) ->
  r = true \/ patches_at h i = Some [] -> plain_keys g -> g <> [] ->
  (forall u, In u (dvals g) -> forall r s, 0 <= r <= 1 -> 0 <= s <= 1 -> is_ok (u r s)) ->
  planned c still -> unmeshed h i n -> is_axis axis -> v_transformations v = [] ->
  (forall k, In k (v_components v) -> exists g p, ready h k g p) ->
  NoDup (i :: flat_map (with_children h) (v_components v)) -> 
  exists h1 h2 v2 h3 m, let j := length (comps h) in
    deepcopy_comp i h = (h1, Ok j) /\
    adds v [(j, plain_args n1 g1); (i, mirror_args n2 axis b g2)] h1 = (h2, v2) /\
    v_components v2 = v_components v ++ [j; i] /\
    v_named v2 = dset (dset (v_named v) (match n1 with Some n => n | None => if truthy (c_name c) then or_else (c_name c) ""%string
                                           else enum_name (c_type c) (or_else (dget (v_counts v) (c_type c)) 0 + 1)%nat end) j)
                      (match n2 with Some n => n | None => if truthy (c_name c) then or_else (c_name c) ""%string
                                           else enum_name (c_type c) (or_else (dget (v_counts v) (c_type c)) 0 + 1 + 1)%nat end) i /\
    generate v2 h2 = (h3, mark_generated v2, Ok tt) /\
    mesh_of h3 j = Ok m /\
    mesh_of h3 i = Ok ((if b then m else []) ++ map_mesh (reflect (axis_vec axis)) m).
Proof.
  intros SP E TY KD EM PK NE VAL PL UN AX VT RD ND.
  assert (exists d, patches_at h i = Some d) as [d Ed].
  { destruct (patches_at h i) as [d|] eqn:Q; [eauto|]. exfalso. apply (proj1 SP i); [apply nth_error_Some; congruence|exact Q]. }
  assert (Ed' : nth_error (dicts h) (c_patches c) = Some d) by (unfold patches_at in Ed; rewrite E in Ed; exact Ed).
  set (j := length (comps h)). set (cj := set_patches c (length (dicts h))).
  set (h1 := mkHeap (dicts h ++ [d]) (comps h ++ [cj])).
  assert (Dp : deepcopy_comp i h = (h1, Ok j)).
  { unfold deepcopy_comp, bindM, get_comp. rewrite E, KD. unfold get_dict. rewrite Ed'. reflexivity. }
  set (cj' := with_options (v_verbosity v) (plain_args n1 g1) cj).
  set (ci' := with_options (v_verbosity v) (mirror_args n2 axis b g2) c).
  set (h2 := mkHeap (dicts h ++ [d]) (list_set (list_set (comps h ++ [cj]) j cj') i ci')).
  assert (Lij : (i < j)%nat) by (apply nth_error_Some; congruence).
  assert (Ej : nth_error (comps h1) j = Some cj) by apply nth_app_new.
  assert (Ei : nth_error (list_set (comps h ++ [cj]) j cj') i = Some c).
  { rewrite list_set_other by lia. apply nth_app_old, E. }
  set (N1 := match n1 with Some n => n | None => if truthy (c_name c) then or_else (c_name c) ""%string
                                           else enum_name (c_type c) (or_else (dget (v_counts v) (c_type c)) 0 + 1)%nat end).
  set (N2 := match n2 with Some n => n | None => if truthy (c_name c) then or_else (c_name c) ""%string
                                           else enum_name (c_type c) (or_else (dget (v_counts v) (c_type c)) 0 + 1 + 1)%nat end).
  assert (exists v2, adds v [(j, plain_args n1 g1); (i, mirror_args n2 axis b g2)] h1 = (h2, v2) /\
     v_components v2 = v_components v ++ [j; i] /\ v_named v2 = dset (dset (v_named v) N1 j) N2 i /\
     v_angle v2 = v_angle v /\ v_transformations v2 = []) as (v2 & AD & VC & VN & VA & VT2).
  { unfold adds, add_component. rewrite Ej. change (c_type cj) with (c_type c). rewrite TY. cbn [comps dicts].
    change (comps h1) with (comps h ++ [cj]). change (dicts h1) with (dicts h ++ [d]).
    change (with_options (v_verbosity v) (plain_args n1 g1) cj) with cj'. rewrite Ei, TY.
    eexists. split; [reflexivity|]. cbn [v_components v_named v_angle v_transformations v_counts plain_args mirror_args a_name].
    split; [rewrite <- app_assoc; reflexivity|]. split; [|split; [reflexivity|exact VT]].
    unfold N1, N2. rewrite dget_dset, String.eqb_refl. reflexivity. }
  assert (Gi : nth_error (comps h2) i = Some ci').
  { apply list_set_same. rewrite list_set_length, app_length. cbn. lia. }
  assert (Gj : nth_error (comps h2) j = Some cj').
  { cbn [comps h2]. rewrite list_set_other by lia. apply list_set_same. rewrite app_length. cbn. unfold j. lia. }
  assert (Gk : forall k, k <> i -> k <> j -> nth_error (comps h2) k = nth_error (comps h) k).
  { intros k K1 K2. cbn [comps h2]. rewrite !list_set_other by congruence. destruct (Nat.lt_ge_cases k j).
    - apply nth_error_app1; assumption.
    - rewrite (proj2 (nth_error_None (comps h) k)) by exact H. apply nth_error_None. rewrite app_length. cbn. unfold j in *. lia. }
  assert (DD : forall q e, nth_error (dicts h) q = Some e -> nth_error (dicts h2) q = Some e) by (intros; apply nth_app_old; assumption).
  assert (Pi : c_patches ci' = c_patches c) by reflexivity.
  assert (Pj : c_patches cj' = length (dicts h)) by reflexivity.
  assert (SP2 : separate h2).
  { rewrite separate_ns in SP |- *. destruct SP as [A B]. 
    assert (Q : forall k ck, nth_error (comps h2) k = Some ck -> k = j /\ c_patches ck = length (dicts h) \/
                 k <> j /\ exists c0, nth_error (comps h) k = Some c0 /\ c_patches c0 = c_patches ck).
    { intros k ck Hk. destruct (Nat.eq_dec k j) as [-> |Nj]; [left; split; [reflexivity|congruence]|right; split; [exact Nj|]].
      destruct (Nat.eq_dec k i) as [-> |Ni]; [exists c; split; [exact E|congruence]|]. rewrite Gk in Hk by assumption. eauto. }
    split.
    - intros k ck Hk. cbn [dicts h2]. rewrite app_length. cbn. destruct (Q k ck Hk) as [[_ ->]|(_ & c0 & Q1 & <-)]; [lia|]. specialize (A k c0 Q1). lia.
    - intros k l ck cl Hk Hl NEk. destruct (Q k ck Hk) as [[-> P1]|(N3 & c0 & Q1 & P1)], (Q l cl Hl) as [[-> P2]|(N4 & c0' & Q2 & P2)]; [congruence|..].
      + specialize (A l c0' Q2). lia.
      + specialize (A k c0 Q1). lia.
      + rewrite <- P1, <- P2. eapply B; eauto. }
  assert (Rj : ready h2 j g still).
  { split; [left; exists cj', r, rr, rs; split; [exact Gj|]; split; [exact KD|]; split; [apply PK|]|].
    - destruct EM as [EM|EM]; [left; exact EM|right]. unfold patches_at. rewrite Gj, Pj. cbn [dicts h2]. rewrite nth_app_new. congruence.
    - split; [exact PK|]. split; [split; [intros a; discriminate|constructor]|]. exists cj'. split; [exact Gj|].
      apply (options_plain (v_verbosity v) n1 g1 cj). exact PL. }
  assert (Ri : ready h2 i g (mirror_plan axis b)).
  { split; [left; exists ci', r, rr, rs; split; [exact Gi|]; split; [exact KD|]; split; [apply PK|]|].
    - destruct EM as [EM|EM]; [left; exact EM|right]. unfold patches_at in EM |- *. rewrite Gi, Pi. rewrite E in EM. apply DD, EM.
    - split; [exact PK|]. split; [split; [intros a; cbn; intros Q; injection Q as <-; exact AX|constructor]|]. exists ci'. split; [exact Gi|].
      apply (options_mirror (v_verbosity v) n2 axis b g2 c). exact PL. }
  assert (Old : forall k, In k (flat_map (with_children h) (v_components v)) -> k <> i /\ k <> j).
  { intros k Hk. split; [intros ->; inversion ND; contradiction|]. intros ->.
    apply in_flat_map in Hk as (k & Hk & Hj). destruct (RD k Hk) as (g0 & p0 & ([B|B] & _)).
    - destruct B as (c0 & r0 & rr0 & rs0 & B1 & B2 & _). unfold with_children in Hj. rewrite B1, B2 in Hj. destruct Hj as [Hj|[]].
      apply nth_some_lt in B1. unfold j in Hj. lia.
    - destruct B as (c0 & ch & gs & B1 & B2 & F & _). unfold with_children in Hj. rewrite B1, B2 in Hj. destruct Hj as [Hj|Hj]; [apply nth_some_lt in B1; unfold j in Hj; lia|].
      clear -F Hj. unfold j in Hj. induction F as [|x y l l' (c1 & _ & _ & _ & E1 & _) F IH]; [destruct Hj|]. destruct Hj as [-> |Hj]; [apply nth_some_lt in E1; lia|auto]. }
  assert (RK : forall k, In k (v_components v) -> (exists g p, ready h2 k g p) /\ with_children h2 k = with_children h k).
  { intros k Hk. destruct (RD k Hk) as (g0 & p0 & R0).
    destruct (ready_frame h h2 k g0 p0) as [Q1 Q2]; [|exact DD|exact R0|split; [eauto|exact Q2]].
    intros l Hl. destruct (Old l) as [O1 O2]; [apply in_flat_map; eauto|]. apply Gk; assumption. }
  assert (WC : flat_map (with_children h2) (v_components v2) = flat_map (with_children h) (v_components v) ++ [j; i]).
  { rewrite VC, flat_map_app. f_equal.
    - rewrite !flat_map_concat_map. f_equal. apply map_ext_in. intros k Hk. apply RK, Hk.
    - cbn [flat_map]. unfold with_children. rewrite Gj, Gi. change (c_kind cj') with (c_kind c). change (c_kind ci') with (c_kind c). rewrite KD. reflexivity. }
  assert (ND2 : NoDup (flat_map (with_children h2) (v_components v2))).
  { rewrite WC. inversion ND; subst. apply NoDup_app'; [assumption| |].
    - constructor; [|constructor; [intros []|constructor]]. intros [Q|[]]. lia.
    - intros k Hk [Q|[Q|[]]]; subst; destruct (Old _ Hk); congruence. }
  assert (RD2 : forall k, In k (v_components v2) -> exists g p, ready h2 k g p).
  { intros k Hk. rewrite VC in Hk. apply in_app_or in Hk as [Hk|[<-|[<-|[]]]]; [apply RK, Hk|eauto|eauto]. }
  destruct (generated_meshes v2 h2 [] SP2 ND2 RD2) as (h3 & GE & _ & _ & MM); [rewrite VT2; reflexivity|constructor|].
  pose proof (reflected_meshes v2 h2 [] SP2 ND2 RD2) as RM. rewrite VT2 in RM. specialize (RM eq_refl (Forall_nil _) h3 GE).
  destruct UN as (c0 & E0 & U1 & U2 & U3 & U4). assert (c0 = c) as -> by congruence.
  assert (Ui : unmeshed h2 i n) by (exists ci'; split; [exact Gi|]; repeat split; assumption).
  assert (Uj : unmeshed h2 j n) by (exists cj'; split; [exact Gj|]; repeat split; assumption).
  pose proof (values_of_ok _ VAL) as V.
  exists h1, h2, v2, h3. eexists. split; [exact Dp|]. split; [exact AD|]. split; [exact VC|]. split; [exact VN|]. split; [exact GE|]. split.
  - apply (MM j g still n (values_of (dvals g)) (rodrigues (axis_vec "y") origin (v_angle v2 * (PI / 180)))); try assumption.
    + rewrite VC. apply in_or_app. right. left. reflexivity.
    + reflexivity.
    + apply still_turned.
  - rewrite (RM i g (mirror_plan axis b) n (values_of (dvals g)) axis _ _ ltac:(rewrite VC; apply in_or_app; right; right; left; reflexivity)
      Ri Ui NE V eq_refl (mirror_turned _ axis b) (mirror_turned2 _ axis b)).
    cbn [p_append mirror_plan]. do 2 f_equal.
    rewrite <- (grids_affine (reflect (axis_vec axis)) n) by apply reflect_affine. rewrite map_map. reflexivity.
Qed.
