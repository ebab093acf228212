(** The parametric ReFEX with parts left out: vehicles put together from pieces. *)
From Coq Require Import String Reals Lra ZArith List Permutation Lia Bool.
From Verif Require Import Num NumR Py M_Vector SpecR3 M_Path M_Surface M_Geometry M_Mesh M_Component M_Common M_Wing M_Fin M_Vehicle M_VecHeap M_Sens M_Gen M_Hangar M_Htv M_X43 M_D21 M_Transform M_Refex
  SpecPath SpecPoly SpecSurf SpecMesh SpecComp SpecVehicle SpecAdd SpecPrism SpecHangar SpecWing SpecFin SpecPair SpecFiles SpecHtv SpecHalf SpecX43 SpecLathe SpecProfile SpecHifire8 SpecRefex
  L_Vector L_Line L_Polyline L_Coons L_Curves L_Ellipse L_Wing L_WingOk L_WingTotal L_Fin L_FinSeams L_FinTotal L_Component L_RevolvedComp L_Mesh L_Heap L_Volume L_Rigid L_Reflect L_Pipeline L_Generate L_Cache L_Files L_Wedge L_SweptComp L_Closed L_Edges L_Prism L_Lathe L_Hangar L_Block L_Pair L_Half L_Htv L_Parts L_Finner L_Profile L_Falcon L_Parts2 L_Parts3 L_D21 L_Hifire4 L_Hifire8 L_Hifire8b L_Cluster L_Parts4 P_Cart3D L_Refex L_Refex2 L_Refex3 SpecRows M_Wing.
Import ListNotations.
Local Open Scope R_scope.

(** a piece: its object (by the place of its dictionary), patches, options,
    resolution and mesh *)
Record piece := mkPiece { pc_comp : nat -> comp R; pc_type : string; pc_g : dict (surf R); pc_plan : plan; pc_res : nat; pc_mesh : list (tri R) }.
Definition piece_made (x : piece) : Prop := forall d, c_patches (pc_comp x d) = d /\ c_type (pc_comp x d) = pc_type x /\ c_name (pc_comp x d) = None /\ c_ghost (pc_comp x d) = false /\
  exists b gen, c_kind (pc_comp x d) = Own b gen.
Definition piece_ok (x : piece) : Prop :=
  (forall h ds cs k, nth_error cs k = Some (pc_comp x (length (dicts h) + k)) -> nth_error ds k = Some [] ->
    ready (ext h ds cs) (length (comps h) + k) (pc_g x) (pc_plan x) /\ unmeshed (ext h ds cs) (length (comps h) + k) (pc_res x)) /\
  pc_g x <> [] /\ values01 (dvals (pc_g x)) (values_of (dvals (pc_g x))) /\
  (pc_plan x = still /\ pc_mesh x = wing_grid (pc_res x) (pc_g x) \/
   pc_plan x = mirror_plan "y" true /\ pc_mesh x = (wing_grid (pc_res x) (pc_g x) ++ map_mesh (reflect (axis_vec "y")) (wing_grid (pc_res x) (pc_g x)))%list).
Fixpoint comps_from (d : nat) (ps : list piece) : list (comp R) :=
  match ps with [] => [] | x :: r => pc_comp x d :: comps_from (S d) r end.
Definition blanks (ps : list piece) : list (dict (surf R)) := map (fun _ => []) ps.
Definition heap_of (h : heap R) (ps : list piece) : heap R := ext h (blanks ps) (comps_from (length (dicts h)) ps).
Lemma comps_from_nth ps : forall d k, nth_error (comps_from d ps) k = option_map (fun x => pc_comp x (d + k)%nat) (nth_error ps k).
Proof.
  induction ps as [|x r IH]; intros d [|k]; cbn; try reflexivity; [rewrite Nat.add_0_r; reflexivity|].
  rewrite IH. destruct (nth_error r k); cbn; [do 2 f_equal; lia|reflexivity].
Qed.
Lemma comps_from_length ps : forall d, length (comps_from d ps) = length ps.
Proof. induction ps as [|x r IH]; intros d; cbn; [reflexivity|rewrite IH; reflexivity]. Qed.
Lemma comps_from_app ps x : forall d, comps_from d (ps ++ [x]) = (comps_from d ps ++ [pc_comp x (d + length ps)])%list.
Proof. induction ps as [|y r IH]; intros d; cbn; [rewrite Nat.add_0_r; reflexivity|rewrite IH; do 4 f_equal; lia]. Qed.
Lemma comps_from_places ps D : Forall piece_made ps -> forall i, map c_patches (comps_from (D + i) ps) = map (fun k => D + k)%nat (seq i (length ps)).
Proof.
  induction 1 as [|x r Hx Hr IH]; intros i; [reflexivity|]. cbn [comps_from map length seq]. rewrite (proj1 (Hx _)). f_equal. rewrite <- IH. do 2 f_equal. lia.
Qed.
Lemma blanks_app ps x : blanks (ps ++ [x]) = (blanks ps ++ [[]])%list.
Proof. unfold blanks. rewrite map_app. reflexivity. Qed.

Section Pieces.
  Variables (h : heap R) (ps : list piece) (ks : list nat).
  Hypothesis SP : separate h.
  Hypothesis MD : Forall piece_made ps.
  Hypothesis NK : NoDup ks.
  Hypothesis OK : forall k, In k ks -> exists x, nth_error ps k = Some x /\ piece_ok x.
  Let C := length (comps h).
  Let D := length (dicts h).
  Lemma pieces_separate : separate (heap_of h ps).
  Proof using SP MD.
    apply (ext_separate h _ _ (seq 0 (length ps)) SP).
    - pose proof (comps_from_places ps D MD 0) as X; rewrite Nat.add_0_r in X; exact X.
    - apply seq_NoDup.
    - apply Forall_forall. intros k Hk. apply in_seq in Hk. unfold blanks. rewrite map_length. lia.
  Qed.
  Lemma pieces_nth k : nth_error (comps (heap_of h ps)) (C + k) = option_map (fun x => pc_comp x (D + k)%nat) (nth_error ps k).
  Proof using. unfold heap_of, ext, C, D. cbn [comps]. rewrite nth_ext. apply comps_from_nth. Qed.
  Lemma pieces_alone : NoDup (flat_map (with_children (heap_of h ps)) (map (fun k => C + k)%nat ks)).
  Proof using MD NK OK.
    assert (E : forall l, (forall k, In k l -> In k ks) -> flat_map (with_children (heap_of h ps)) (map (fun k => C + k)%nat l) = map (fun k => C + k)%nat l).
    { induction l as [|k l IH]; intros HL; [reflexivity|]. cbn [map flat_map]. rewrite IH by (intros; apply HL; right; assumption).
      destruct (OK k) as (x & Ex & _); [apply HL; left; reflexivity|]. unfold with_children. rewrite pieces_nth, Ex. cbn [option_map].
      pose proof (proj1 (Forall_forall _ _) MD x (nth_error_In _ _ Ex)) as M. destruct (M (D + k)%nat) as (_ & _ & _ & _ & b & gen & ->). reflexivity. }
    rewrite E by auto. apply FinFun.Injective_map_NoDup; [intros a b; lia|exact NK].
  Qed.
  Definition pick (k : nat) : piece := nth k ps (mkPiece (fun d => rev_comp (Line origin origin) 1 d) "" [] still 0 []).
  Lemma pick_is k x : nth_error ps k = Some x -> pick k = x.
  Proof using. unfold pick. intros E. apply nth_error_nth. exact E. Qed.
  Lemma pieces_generate v : v_components v = map (fun k => C + k)%nat ks -> v_transformations v = CART3D -> v_angle v = 0 ->
    exists h2, generate v (heap_of h ps) = (h2, mark_generated v, Ok tt) /\ length (comps h2) = (C + length ps)%nat /\
      (forall k x, nth_error ps k = Some x -> ghost_at h2 (C + k) = false /\ type_at h2 (C + k) = pc_type x /\ tag_at h2 (C + k) = None) /\
      forall k x, In k ks -> nth_error ps k = Some x -> mesh_of h2 (C + k) = Ok (map_mesh to_cart3d (pc_mesh x)).
  Proof using SP MD NK OK.
    intros VC VT VA.
    destruct (kit_more v cart h (blanks ps) (comps_from D ps) ks (fun k => pc_g (pick k)) (fun k => values_of (dvals (pc_g (pick k)))) (fun k => pc_res (pick k)) (fun k => pc_plan (pick k))
      (fun _ => to_cart3d) (fun _ p => to_cart3d (reflect (axis_vec "y") p))) as (h2 & A & B & T & Q).
    - exact pieces_separate.
    - exact VC.
    - rewrite VC. exact pieces_alone.
    - rewrite VT. reflexivity.
    - apply cart_ok.
    - intros k Hk. destruct (OK k Hk) as (x & Ex & (HR & NG & V & _)). rewrite (pick_is k x Ex).
      destruct (HR h (blanks ps) (comps_from D ps) k) as [R1 R2].
      { rewrite comps_from_nth, Ex. reflexivity. }
      { unfold blanks. apply map_nth_error with (f := fun _ : piece => [] : dict (surf R)) in Ex. exact Ex. }
      auto.
    - intros k Hk. destruct (OK k Hk) as (x & Ex & (_ & _ & _ & PL)). rewrite (pick_is k x Ex), VA.
      destruct PL as [[-> _]|[-> _]]; [apply still_cart|exact mirrored_cart].
    - exists h2. split; [exact A|]. split; [rewrite B, comps_from_length; reflexivity|]. split.
      + intros k x Ex. destruct (T k (pc_comp x (D + k)%nat)) as (T1 & T2 & T3); [rewrite comps_from_nth, Ex; reflexivity|].
        pose proof (proj1 (Forall_forall _ _) MD x (nth_error_In _ _ Ex)) as M. destruct (M (D + k)%nat) as (_ & M1 & M2 & M3 & _). unfold C. rewrite T1, T2, T3. auto.
      + intros k x Hk Ex. destruct (OK k Hk) as (x' & Ex' & (_ & _ & _ & PL)). rewrite Ex in Ex'. injection Ex' as <-. unfold C. rewrite (Q k Hk), (pick_is k x Ex).
        assert (RF : forall m g, flat_map (patch_grid m) (map (fun u r s => to_cart3d (reflect (axis_vec "y") (u r s))) (values_of (dvals g))) = map_mesh to_cart3d (map_mesh (reflect (axis_vec "y")) (wing_grid m g))).
        { intros m g. rewrite <- (wing_grid_affine (reflect (axis_vec "y")) m g (reflect_affine _)), <- (grids_affine to_cart3d _ _ to_cart3d_affine), map_map. reflexivity. }
        assert (R1 : forall m g, flat_map (patch_grid m) (map (fun u r s => to_cart3d (u r s)) (values_of (dvals g))) = map_mesh to_cart3d (wing_grid m g)).
        { intros m g. apply wing_grid_affine, to_cart3d_affine. }
        destruct PL as [[-> ->]|[-> ->]]; cbn [still mirror_plan p_axis p_append]; rewrite ?R1, ?RF; [reflexivity|]. unfold map_mesh. rewrite map_app. reflexivity.
  Qed.
End Pieces.

(** ** adding pieces to a vehicle *)
Definition step (c : nat) (v : vehicle R) (tk : string * nat) : vehicle R :=
  let count := (or_else (dget (v_counts v) (fst tk)) 0 + 1)%nat in
  mkVehicle (v_components v ++ [c + snd tk])%nat (v_name v) (v_angle v) (v_verbosity v) (v_generated v) (dset (v_counts v) (fst tk) count)
    (dset (v_enumerated v) (enum_name (fst tk) count) (c + snd tk)%nat) (dset (v_named v) (enum_name (fst tk) count) (c + snd tk)%nat) (v_transformations v).
Lemma list_set_last {A} (l : list A) a b : list_set (l ++ [a]) (length l) b = (l ++ [b])%list.
Proof. induction l as [|x l IH]; cbn; [reflexivity|rewrite IH; reflexivity]. Qed.
Section Adding.
  Variable bisect : (R -> res R) -> R -> R -> res R.
  Definition raw (x : piece) (c : nat -> comp R) (a : add_args R) : Prop :=
    a_name a = None /\ forall d, pc_comp x d = with_options 1 a (c d) /\ c_type (c d) = pc_type x /\ c_name (c d) = None.
  Lemma add_piece h ps x c a v : raw x c a -> str_in (pc_type x) allowable = true -> v_verbosity v = 1%Z ->
    add v (length (comps h) + length ps) a (ext h (blanks ps ++ [[]]) (comps_from (length (dicts h)) ps ++ [c (length (dicts h) + length ps)%nat]))
    = (heap_of h (ps ++ [x]), Ok (step (length (comps h)) v (pc_type x, length ps))).
  Proof using.
    intros (AN & HR) ST VV. destruct (HR (length (dicts h) + length ps)%nat) as (E & T & NM).
    rewrite (add_to h _ _ v (length ps) (c (length (dicts h) + length ps)%nat) a (step (length (comps h)) v (pc_type x, length ps))).
    - unfold heap_of. rewrite blanks_app, comps_from_app, E. cbn [step v_verbosity]. rewrite VV.
      pose proof (list_set_last (comps_from (length (dicts h)) ps) (c (length (dicts h) + length ps)%nat) (with_options 1 a (c (length (dicts h) + length ps)%nat))) as L.
      rewrite comps_from_length in L. rewrite L. reflexivity.
    - rewrite nth_error_app2; rewrite comps_from_length; [rewrite Nat.sub_diag; reflexivity|lia].
    - rewrite T. exact ST.
    - cbv zeta. rewrite AN, NM, T. reflexivity.
  Qed.
  Lemma step_verbosity c v tk : v_verbosity (step c v tk) = v_verbosity v.
  Proof using. reflexivity. Qed.
  (** any constructor that appends one object *)
  Definition makes (m : M (T := R) nat) (c : nat -> comp R) : Prop :=
    forall h ps, m (heap_of h ps) = (ext h (blanks ps ++ [[]]) (comps_from (length (dicts h)) ps ++ [c (length (dicts h) + length ps)%nat]), Ok (length (comps h) + length ps)%nat).
  Definition more {A} (b : bool) (l : list A) (x : A) : list A := if b then (l ++ [x])%list else l.
  Lemma add_if_piece b h ps x c a v m : raw x c a -> makes m c -> str_in (pc_type x) allowable = true -> v_verbosity v = 1%Z ->
    add_if b v m a (heap_of h ps) = (heap_of h (more b ps x), Ok (if b then step (length (comps h)) v (pc_type x, length ps) else v)).
  Proof using.
    intros HR HM ST VV. destruct b; [|reflexivity]. unfold add_if, bindM. rewrite HM. rewrite (add_piece h ps x c a v HR ST VV). reflexivity.
  Qed.
  Lemma makes_fin f : makes (new_fin bisect f (ResInt 3) None) (L_Parts.fin_comp bisect f (ResInt 3) None).
  Proof using. intros h ps. unfold heap_of. rewrite new_fin_ext, comps_from_length. unfold blanks. rewrite map_length. reflexivity. Qed.
  Lemma makes_rev p n : makes (new_revolved p (ResInt n) None) (rev_comp p n).
  Proof using. intros h ps. unfold heap_of. rewrite new_rev, comps_from_length. unfold blanks. rewrite map_length. reflexivity. Qed.
  Lemma makes_wing w t1 : wing_t_B1 bisect w = Ok t1 -> makes (new_wing bisect w (ResInt 3) None) (wing_comp bisect w (ResInt 3) None).
  Proof using. intros E h ps. unfold heap_of. rewrite (new_wing_ext _ _ _ _ _ _ _ _ E), comps_from_length. unfold blanks. rewrite map_length. reflexivity. Qed.
  Lemma makes_swept l n : Swept_init l true (ResInt n) = Ok 4%nat -> makes (new_swept l (ResInt n) None) (swept_comp l n).
  Proof using. intros E h ps. unfold heap_of. rewrite (new_swept_ext _ _ _ _ _ E), comps_from_length. unfold blanks. rewrite map_length. reflexivity. Qed.
End Adding.

(** ** the pieces of the ReFEX *)
Lemma plan_still : plan_ok still.
Proof. split; [discriminate|constructor]. Qed.
Lemma plan_mirror : plan_ok (mirror_plan "y" true).
Proof. split; [intros a Ha; injection Ha as <-; right; left; reflexivity|constructor]. Qed.
Section Kinds.
  Variable bisect : (R -> res R) -> R -> R -> res R.
  Definition rev_piece (added : bool) (p : path R) (g : R -> pt) : piece :=
    mkPiece (fun d => if added then with_options 1 default_add (rev_comp p 50 d) else rev_comp p 50 d) "revolved" (revolved_patches p) still 49 (profile_mesh 49 g).
  Definition fin_piece (f : fin R) (g : dict (surf R)) : piece :=
    mkPiece (fun d => with_options 1 default_add (L_Parts.fin_comp bisect f (ResInt 3) None d)) "fin" g still 2 (wing_grid 2 g).
  Definition wing_piece (w : wing R) (g : dict (surf R)) : piece :=
    mkPiece (fun d => with_options 1 mirrored_add (wing_comp bisect w (ResInt 3) None d)) "wing" g (mirror_plan "y" true) 2 (wing_grid 2 g ++ map_mesh (reflect (axis_vec "y")) (wing_grid 2 g))%list.
  Definition swept_piece (l : list (list (path R))) (g : dict (surf R)) : piece :=
    mkPiece (fun d => with_options 1 default_add (swept_comp l 20 d)) "swept" g still 19 (wing_grid 19 g).
  Lemma rev_made b p g : piece_made (rev_piece b p g).
  Proof using. intros d. destruct b; repeat split; eexists _, _; reflexivity. Qed.
  Lemma fin_made f g : piece_made (fin_piece f g).
  Proof using. intros d. repeat split; eexists _, _; reflexivity. Qed.
  Lemma wing_made' w g : piece_made (wing_piece w g).
  Proof using. intros d. repeat split; eexists _, _; reflexivity. Qed.
  Lemma swept_made l g : piece_made (swept_piece l g).
  Proof using. intros d. repeat split; eexists _, _; reflexivity. Qed.
  Lemma at_ext h ds cs k (c : comp R) : nth_error cs k = Some c -> nth_error (comps (ext h ds cs)) (length (comps h) + k) = Some c.
  Proof using. intros E. unfold ext. cbn [comps]. rewrite nth_ext. exact E. Qed.
  Lemma rev_ok p g : evaluates01 p g -> piece_ok (rev_piece true p g).
  Proof using.
    intros Ev. split; [|split; [discriminate|split; [apply values_of_ok, (revolved_grid 1 p g Ev)|left; split; [reflexivity|symmetry; apply (revolved_grid 49 p g Ev)]]]].
    intros h ds cs k Ec Ed. split.
    - eapply own_ready; [exact Ec|reflexivity|apply revolved_fine|right; exists k; split; [reflexivity|exact Ed]|exact plan_still|].
      split; [reflexivity|]. split; [right; auto|]. repeat split.
    - eexists. split; [apply at_ext, Ec|]. repeat split.
  Qed.
  Lemma fin_ok f g : d21_fin_done bisect f g -> piece_ok (fin_piece f g).
  Proof using.
    intros (E & K & S). assert (NF : g <> []).
    { intros ->. cbn in K. unfold fin_keys in K. destruct (String.eqb (f_rudder f) "sharp"); discriminate K. }
    split; [|split; [exact NF|split; [apply values_of_ok, S|left; split; reflexivity]]].
    intros h ds cs k Ec Ed. split.
    - eapply (own_ready h _ _ k _ true); [exact Ec|cbn [fin_piece pc_comp with_options L_Parts.fin_comp c_kind]; rewrite E; reflexivity|cbn [fin_piece pc_g]; rewrite K; apply fin_fine|left; reflexivity|exact plan_still|].
      split; [reflexivity|]. split; [right; auto|]. repeat split.
    - eexists. split; [apply at_ext, Ec|]. repeat split.
  Qed.
  Lemma wing_ok' w g : wing_patches bisect w = Ok g -> dkeys g = open_wing_keys -> (forall u, In u (dvals g) -> on_square u) -> piece_ok (wing_piece w g).
  Proof using.
    intros E K S. split; [|split; [cbn [wing_piece pc_g]; intros ->; discriminate K|split; [apply values_of_ok, S|right; split; reflexivity]]].
    intros h ds cs k Ec Ed. split.
    - eapply own_ready; [exact Ec|cbn [wing_piece pc_comp with_options wing_comp c_kind]; unfold wing_result; rewrite E; reflexivity|cbn [wing_piece pc_g]; rewrite K; apply fineb_fine; reflexivity
        |right; exists k; split; [reflexivity|exact Ed]|exact plan_mirror|].
      split; [reflexivity|]. split; [right; auto|]. repeat split.
    - eexists. split; [apply at_ext, Ec|]. repeat split.
  Qed.
  Lemma swept_ok l g rr rs : swept_result l 20 = Ok (g, rr, rs) -> fine_keys (dkeys g) -> g <> [] -> (forall u, In u (dvals g) -> on_square u) -> piece_ok (swept_piece l g).
  Proof using.
    intros E FK NG S. split; [|split; [exact NG|split; [apply values_of_ok, S|left; split; reflexivity]]].
    intros h ds cs k Ec Ed. pose proof (at_ext h ds cs k _ Ec) as E'. split.
    - split; [|split; [exact FK|split; [exact plan_still|]]].
      + left. eexists _, _, _, _. split; [exact E'|]. split; [cbn [swept_piece pc_comp with_options swept_comp c_kind]; rewrite E; reflexivity|].
        split; [exact (proj1 FK)|]. right. unfold patches_at. rewrite E'. unfold ext. cbn [dicts swept_piece pc_comp with_options swept_comp c_patches]. rewrite nth_ext. exact Ed.
      + eexists. split; [exact E'|]. split; [reflexivity|]. split; [right; auto|]. repeat split.
    - eexists. split; [exact E'|]. repeat split.
  Qed.
End Kinds.

(** ** files and meshes of a vehicle of pieces *)
Fixpoint suffixes (before ts : list string) : list string :=
  match ts with
  | [] => []
  | t :: r => (t ++ "-" ++ str_nat (length (filter (String.eqb t) before)) ++ ".stl")%string :: suffixes (before ++ [t]) r
  end.
Lemma files_suffixes (v : vehicle R) prefix (h : heap R) : forall l before, (forall i, In i l -> ghost_at h i = false /\ tag_at h i = None) ->
  files v prefix h before l = combine (map (fun s => ((match text prefix with Some p => p | None => v_name v end) ++ "-" ++ s)%string) (suffixes (map (type_at h) before) (map (type_at h) l))) l.
Proof.
  induction l as [|i l IH]; intros before H; [reflexivity|]. cbn [files map suffixes combine]. destruct (H i (or_introl eq_refl)) as [-> T].
  rewrite IH by (intros; apply H; right; assumption). rewrite map_app. cbn [map app]. f_equal. f_equal.
  unfold file_name, earlier. rewrite T.
  assert (E : forall t, length (filter (fun j => String.eqb t (type_at h j)) before) = length (filter (String.eqb t) (map (type_at h) before))).
  { intros t. induction before as [|b bs IB]; [reflexivity|]. cbn [filter map]. destruct (String.eqb t (type_at h b)); cbn [length]; rewrite IB; reflexivity. }
  rewrite E. destruct (text prefix); reflexivity.
Qed.
Lemma prefixed_apart (a : string) : forall x y, (a ++ x)%string = (a ++ y)%string -> x = y.
Proof. induction a as [|ch s IH]; intros x y H; [exact H|]. injection H as H. exact (IH x y H). Qed.
Theorem pieces_deliver h ps (es : list (nat * row)) v : separate h -> Forall piece_made ps -> NoDup (map fst es) ->
  (forall k r, In (k, r) es -> exists x, nth_error ps k = Some x /\ piece_ok x /\ pc_mesh x = r_mesh r) ->
  v_named v = map (fun e => (r_name (snd e), length (comps h) + fst e)%nat) es -> v_components v = map (fun k => length (comps h) + k)%nat (map fst es) ->
  v_transformations v = CART3D -> v_angle v = 0 ->
  suffixes [] (map (fun k => pc_type (pick ps k)) (map fst es)) = map (fun e => (r_file (snd e) ++ ".stl")%string) es -> NoDup (map (fun e => (r_file (snd e) ++ ".stl")%string) es) ->
  exists h2, generate v (heap_of h ps) = (h2, mark_generated v, Ok tt) /\ delivers to_cart3d (v_name v) v h2 (map snd es).
Proof.
  intros SP MD ND H VN VC VT VA SU NS. set (C := length (comps h)) in *.
  destruct (pieces_generate h ps (map fst es) SP MD ND) with (v := v) as (h2 & A & LC & T & Q); try assumption.
  { intros k Hk. apply in_map_iff in Hk as ([k' r] & <- & I). destruct (H k' r I) as (x & E & O & _). eauto. }
  fold C in LC, T, Q. exists h2. split; [exact A|].
  assert (M : forall k r, In (k, r) es -> mesh_of h2 (C + k) = Ok (map_mesh to_cart3d (r_mesh r))).
  { intros k r I. destruct (H k r I) as (x & E & _ & <-). apply Q; [|exact E]. exact (in_map fst _ _ I). }
  split; [reflexivity|]. split; [rewrite VN, VC, !map_map; reflexivity|]. split.
  { rewrite VN, !map_map. apply map_ext_in. intros [k r] I. cbn [fst snd]. rewrite (M k r I). reflexivity. }
  intros prefix fs0. set (m := fun i => match mesh_of h2 i with Ok t => t | Raise _ => [] end).
  assert (FI : files (mark_generated v) prefix h2 [] (v_components (mark_generated v)) = map (fun e => (stl_of (v_name v) prefix (snd e), C + fst e)%nat) es).
  { rewrite files_suffixes.
    - cbn [mark_generated v_components v_name map]. rewrite VC, map_map. rewrite map_map with (f := fst).
      rewrite (map_ext_in (fun k => type_at h2 (C + fst k)) (fun e => pc_type (pick ps (fst e)))).
      + rewrite map_map in SU. rewrite SU, map_map. unfold stl_of. clear. induction es as [|e l IH]; [reflexivity|]. cbn [map combine]. rewrite IH. reflexivity.
      + intros [k r] I. cbn [fst]. destruct (H k r I) as (x & E & _). rewrite (pick_is ps k x E). apply (T k x E).
    - cbn [mark_generated v_components]. rewrite VC, map_map. intros i Hi. apply in_map_iff in Hi as ([k r] & <- & I). destruct (H k r I) as (x & E & _). destruct (T k x E) as (G & _ & N). auto. }
  destruct (filed (mark_generated v) prefix h2 fs0 (map (fun e => (stl_of (v_name v) prefix (snd e), C + fst e)%nat) es) m) as (h3 & fs & WR & F1 & F2).
  - cbn [mark_generated v_components]. rewrite VC, map_map. intros i Hi. apply in_map_iff in Hi as ([k r] & <- & I). cbn [fst]. unfold m. rewrite (M k r I). split; [|reflexivity].
    destruct (H k r I) as (x & E & _). rewrite LC. assert (k < length ps)%nat by (apply nth_error_Some; rewrite E; discriminate). lia.
  - exact FI.
  - rewrite map_map. cbn [fst]. unfold stl_of.
    assert (X : forall a (l : list string), NoDup l -> NoDup (map (fun s => (a ++ s)%string) l)).
    { intros a l. apply FinFun.Injective_map_NoDup. intros x y. apply prefixed_apart. }
    apply (X "-"%string) in NS. apply (X (match text prefix with Some p => p | None => v_name v end)) in NS. rewrite !map_map in NS. exact NS.
  - intros s i I. apply in_map_iff in I as ([k r] & E & I). injection E as <- <-. cbn [mark_generated v_components]. rewrite VC, map_map. apply in_map_iff. exists (k, r). auto.
  - exists h3, fs. split; [exact WR|]. split.
    + intros r Hr. apply in_map_iff in Hr as ([k r'] & E & I). cbn [snd] in E. subst r'. rewrite (F1 (stl_of (v_name v) prefix r) (C + k)%nat).
      * unfold m. rewrite (M k r I). reflexivity.
      * apply in_map_iff. exists (k, r). auto.
    + intros s Hs. apply F2. rewrite map_map. intros I. apply in_map_iff in I as ([k r] & <- & I). cbn [fst snd] in Hs. apply (Hs r); [exact (in_map snd _ _ I)|reflexivity].
Qed.

Section Run.
  Variable bisect : (R -> res R) -> R -> R -> res R.
  Variable cs0 : pt.
  Lemma add_rev b h ps p g v : v_verbosity v = 1%Z ->
    add_if b v (ret (length (comps h) + length ps)%nat) default_add (ext h (blanks ps ++ [[]]) (comps_from (length (dicts h)) ps ++ [rev_comp p 50 (length (dicts h) + length ps)]))
    = (heap_of h (ps ++ [rev_piece b p g]), Ok (if b then step (length (comps h)) v ("revolved"%string, length ps) else v)).
  Proof using.
    intros VV. destruct b.
    - unfold add_if, bindM, ret. apply (add_piece h ps (rev_piece true p g) (rev_comp p 50) default_add v); [|reflexivity|exact VV]. split; [reflexivity|]. intros d. repeat split.
    - unfold add_if, ret, heap_of. rewrite blanks_app, comps_from_app. reflexivity.
  Qed.
  Lemma raw_fin f g : raw (fin_piece bisect f g) (L_Parts.fin_comp bisect f (ResInt 3) None) default_add.
  Proof using. split; [reflexivity|]. intros d. repeat split. Qed.
  Lemma raw_wing w g : raw (wing_piece bisect w g) (wing_comp bisect w (ResInt 3) None) mirrored_add.
  Proof using. split; [reflexivity|]. intros d. repeat split. Qed.
  Lemma raw_swept l g : raw (swept_piece l g) (swept_comp l 20) default_add.
  Proof using. split; [reflexivity|]. intros d. repeat split. Qed.
  (** one addition, for a value of the switch *)
  Definition stage (c : nat) (bx : bool * piece) (s : list piece * vehicle R) : list piece * vehicle R :=
    (more (fst bx) (fst s) (snd bx), if fst bx then step c (snd s) (pc_type (snd bx), length (fst s)) else snd s).
  Definition rx_end (c : nat) (bf bw bc bt : bool) (n b c1 c2 w s t : piece) : list piece * vehicle R :=
    let v0 := configured "ReFEX" in
    let v1 := if bf then step c v0 ("revolved"%string, 0%nat) else v0 in
    let v2 := if bf then step c v1 ("revolved"%string, 1%nat) else v1 in
    stage c (bt, t) (stage c (bf, s) (stage c (bw, w) (stage c (bc, c2) (stage c (bc, c1) ([n; b], v2))))).
  Lemma add_if_stage b h s x c a m : raw x c a -> makes m c -> str_in (pc_type x) allowable = true -> v_verbosity (snd s) = 1%Z ->
    add_if b (snd s) m a (heap_of h (fst s)) = (heap_of h (fst (stage (length (comps h)) (b, x) s)), Ok (snd (stage (length (comps h)) (b, x) s))).
  Proof using. intros. apply add_if_piece with (c := c); assumption. Qed.
  Lemma stage_verbosity c bx s : v_verbosity (snd (stage c bx s)) = v_verbosity (snd s).
  Proof using. destruct bx as [[|] x]; reflexivity. Qed.
  Lemma rx_run_parts bf bw bc bt P h p q line t1 gp gq g1 g2 g3 gw gs : OgiveNose (rx_h P) (rx_r_n P) (rx_r_o P) (rx_L_o P) = Ok p -> rx_body_line P = Ok q -> rx_edge P = Ok line ->
    wing_t_B1 bisect (rx_wing P line) = Ok t1 -> Swept_init (rx_sections P) true (ResInt 20) = Ok 4%nat ->
    let e := rx_end (length (comps h)) bf bw bc bt (rev_piece bf p gp) (rev_piece bf q gq) (fin_piece bisect (rx_canard cs0 P (nZ 0) (rx_canard_angle P)) g1)
      (fin_piece bisect (rx_canard cs0 P (nZ 180) (nneg (rx_canard_angle P))) g2) (wing_piece bisect (rx_wing P line) gw) (swept_piece (rx_sections P) gs) (fin_piece bisect (rx_tail P) g3) in
    rx_vehicle bisect bf bw bc bt cs0 P h = (heap_of h (fst e), Ok (add_vehicle_transformations (snd e) CART3D)).
  Proof using.
    intros Ep Eq El Et Es e. subst e. unfold rx_vehicle. rewrite <- (ext_nil h) at 1. change (ext h [] []) with (heap_of h []). unfold rx_end. cbv zeta.
    set (w := rx_wing P line) in *. set (f1 := rx_canard cs0 P (nZ 0) _). set (f2 := rx_canard cs0 P (nZ 180) _). set (f3 := rx_tail P). set (sl := rx_sections P) in *.
    unfold bindM at 1. unfold M_Vehicle.lift at 1. rewrite Ep.
    unfold bindM at 1. rewrite (makes_rev p 50 h []).
    unfold bindM at 1. rewrite (add_rev bf h [] p gp) by reflexivity. cbn [app length].
    unfold bindM at 1. unfold M_Vehicle.lift at 1. rewrite Eq.
    unfold bindM at 1. rewrite (makes_rev q 50 h [rev_piece bf p gp]).
    unfold bindM at 1. rewrite (add_rev bf h [rev_piece bf p gp] q gq) by (destruct bf; reflexivity). cbn [app length].
    set (v2 := if bf then step _ _ ("revolved"%string, 1%nat) else _).
    assert (V2 : v_verbosity v2 = 1%Z) by (unfold v2; destruct bf; reflexivity). set (s2 := ([rev_piece bf p gp; rev_piece bf q gq], v2)).
    assert (VS : v_verbosity (snd s2) = 1%Z) by exact V2.
    change (heap_of h [rev_piece bf p gp; rev_piece bf q gq]) with (heap_of h (fst s2)). change v2 with (snd s2) at 1. clearbody s2. clear v2 V2.
    unfold bindM at 1. rewrite (add_if_stage bc h s2 (fin_piece bisect f1 g1) _ _ _ (raw_fin f1 g1) (makes_fin bisect f1) eq_refl VS).
    set (s3 := stage _ (bc, fin_piece bisect f1 g1) s2). assert (V3' : v_verbosity (snd s3) = 1%Z) by (unfold s3; rewrite stage_verbosity; exact VS). clearbody s3. clear VS.
    unfold bindM at 1. rewrite (add_if_stage bc h s3 (fin_piece bisect f2 g2) _ _ _ (raw_fin f2 g2) (makes_fin bisect f2) eq_refl V3').
    set (s4 := stage _ (bc, fin_piece bisect f2 g2) s3). assert (V4 : v_verbosity (snd s4) = 1%Z) by (unfold s4; rewrite stage_verbosity; exact V3'). clearbody s4. clear V3'.
    unfold bindM at 1. unfold M_Vehicle.lift at 1. rewrite El. fold w.
    unfold bindM at 1. rewrite (add_if_stage bw h s4 (wing_piece bisect w gw) _ _ _ (raw_wing w gw) (makes_wing bisect w t1 Et) eq_refl V4).
    set (s5 := stage _ (bw, wing_piece bisect w gw) s4). assert (V5 : v_verbosity (snd s5) = 1%Z) by (unfold s5; rewrite stage_verbosity; exact V4). clearbody s5. clear V4.
    unfold bindM at 1. rewrite (add_if_stage bf h s5 (swept_piece sl gs) _ _ _ (raw_swept sl gs) (makes_swept sl 20 Es) eq_refl V5).
    set (s6 := stage _ (bf, swept_piece sl gs) s5). assert (V6 : v_verbosity (snd s6) = 1%Z) by (unfold s6; rewrite stage_verbosity; exact V5). clearbody s6. clear V5.
    unfold bindM at 1. rewrite (add_if_stage bt h s6 (fin_piece bisect f3 g3) _ _ _ (raw_fin f3 g3) (makes_fin bisect f3) eq_refl V6).
    reflexivity.
  Qed.
End Run.
