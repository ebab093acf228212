(** The parametric ReFEX: the vehicle. *)
From Coq Require Import String Reals Lra ZArith List Permutation Lia Bool.
From Verif Require Import Num NumR Py M_Vector SpecR3 M_Path M_Surface M_Geometry M_Mesh M_Component M_Common M_Wing M_Fin M_Vehicle M_VecHeap M_Sens M_Gen M_Hangar M_Htv M_X43 M_D21 M_Transform M_Refex
  SpecPath SpecPoly SpecSurf SpecMesh SpecComp SpecVehicle SpecAdd SpecPrism SpecHangar SpecWing SpecFin SpecPair SpecFiles SpecHtv SpecHalf SpecX43 SpecLathe SpecProfile SpecHifire8 SpecRefex
  L_Vector L_Line L_Polyline L_Coons L_Curves L_Ellipse L_Wing L_WingOk L_WingTotal L_Fin L_FinSeams L_FinTotal L_Component L_RevolvedComp L_Mesh L_Heap L_Volume L_Rigid L_Reflect L_Pipeline L_Generate L_Cache L_Files L_Wedge L_SweptComp L_Closed L_Edges L_Prism L_Lathe L_Hangar L_Block L_Pair L_Half L_Htv L_Parts L_Finner L_Profile L_Falcon L_Parts2 L_Parts3 L_D21 L_Hifire4 L_Hifire8 L_Hifire8b L_Cluster L_Parts4 P_Cart3D L_Refex L_Refex2 M_Wing.
Import ListNotations.
Local Open Scope R_scope.

(** ** generation of any components, with transformations of the vehicle *)
Theorem kit_more (v : vehicle R) more h ds cs ks (part : nat -> dict (surf R)) (vals : nat -> list (R -> R -> pt)) (res : nat -> nat) (pl : nat -> plan) (f f2 : nat -> pt -> pt) :
  separate (ext h ds cs) -> v_components v = map (fun k => length (comps h) + k)%nat ks -> NoDup (flat_map (with_children (ext h ds cs)) (v_components v)) ->
  v_transformations v = map written more -> Forall motion_ok more ->
  (forall k, In k ks -> ready (ext h ds cs) (length (comps h) + k) (part k) (pl k) /\ unmeshed (ext h ds cs) (length (comps h) + k) (res k) /\ part k <> [] /\ values01 (dvals (part k)) (vals k)) ->
  (forall k, In k ks -> routes_of (pl k) (v_angle v) more (f k) (f2 k)) ->
  exists h2, generate v (ext h ds cs) = (h2, mark_generated v, Ok tt) /\ length (comps h2) = (length (comps h) + length cs)%nat /\
    (forall k c, nth_error cs k = Some c -> ghost_at h2 (length (comps h) + k) = c_ghost c /\ type_at h2 (length (comps h) + k) = c_type c /\ tag_at h2 (length (comps h) + k) = c_name c) /\
    forall k, In k ks -> mesh_of h2 (length (comps h) + k) = Ok (
      match p_axis (pl k) with
      | None => flat_map (patch_grid (res k)) (map (fun u r s => f k (u r s)) (vals k))
      | Some _ => (if p_append (pl k) then flat_map (patch_grid (res k)) (map (fun u r s => f k (u r s)) (vals k)) else []) ++
          flat_map (patch_grid (res k)) (map (fun u r s => f2 k (u r s)) (vals k))
      end).
Proof.
  intros SP VC ND VT MO H HM. set (C := length (comps h)) in *. set (h1 := ext h ds cs) in *.
  assert (NE : forall k, nth_error (comps h1) (C + k) = nth_error cs k) by (intros k; unfold h1, ext, C; cbn [comps]; apply nth_ext).
  assert (RD' : forall i, In i (v_components v) -> exists g p, ready h1 i g p).
  { intros i Hi. rewrite VC in Hi. apply in_map_iff in Hi as (k & <- & Hk). eexists _, _. exact (proj1 (H k Hk)). }
  destruct (generated_meshes v h1 more SP ND RD' VT MO) as (h2 & A & LN & SO & Q).
  pose proof (reflected_meshes v h1 more SP ND RD' VT MO h2 A) as RM.
  exists h2. split; [exact A|]. split; [rewrite LN; unfold h1, ext, C; cbn [comps]; apply app_length|]. split.
  - intros k c E. rewrite <- NE in E. destruct (SO _ _ E) as (c' & E' & S). destruct (so_inv _ _ S) as (O1 & _ & _ & _ & _ & _ & _ & _ & _ & O2 & O3).
    unfold ghost_at, type_at, tag_at. rewrite E', O1, O2, O3. auto.
  - intros k Hk. destruct (H k Hk) as (Rk & Uk & NG & V).
    assert (I : In (C + k)%nat (v_components v)) by (rewrite VC; apply in_map_iff; eauto).
    destruct (HM k Hk) as [M1 M2]. destruct (p_axis (pl k)) as [axis|] eqn:AX.
    + exact (RM _ _ _ _ (vals k) axis (f k) (f2 k) I Rk Uk NG V AX M1 (M2 axis eq_refl)).
    + exact (Q _ _ _ _ (vals k) (f k) I Rk Uk NG V AX M1).
Qed.

(** the turns of the Cart3D frame come last *)
Lemma to_cart3d_affine : affine to_cart3d.
Proof. intros p. unfold to_cart3d, plus_scaled, scaled, diff, translate. apply vec_ext; cbn; ring. Qed.
Lemma still_cart f2 : routes_of still 0 cart to_cart3d f2.
Proof.
  split; [|discriminate]. intros q. pose proof (still_total q) as S. unfold after_reflection in S |- *. cbn [still p_motions app map] in S |- *. rewrite app_nil_r in S.
  rewrite in_order_app. unfold and_then. rewrite S. apply cart_map.
Qed.
Lemma mirrored_cart : routes_of (mirror_plan "y" true) 0 cart to_cart3d (fun p => to_cart3d (reflect (axis_vec "y") p)).
Proof.
  split.
  - intros q. pose proof (mirror_total "y" true q) as S. unfold after_reflection in S |- *. cbn [mirror_plan p_motions app map] in S |- *. rewrite app_nil_r in S.
    rewrite in_order_app. unfold and_then. rewrite S. apply cart_map.
  - intros a Ha. injection Ha as <-. intros q. pose proof (mirror_total "y" true q) as S. unfold after_reflection in S |- *. cbn [mirror_plan p_motions app map] in S |- *. rewrite app_nil_r in S.
    rewrite in_order_app. unfold and_then. rewrite S. cbn [in_order fold_right]. unfold and_then at 1, mirrored_in. apply cart_map.
Qed.

Section Parts.
  Variable bisect : (R -> res R) -> R -> R -> res R.
  Variable cs0 : pt.
  Definition rx_made (c : nat) : vehicle R :=
    mkVehicle [c + 0; c + 1; c + 2; c + 3; c + 4; c + 5; c + 6]%nat "ReFEX" 0 1 false
      [("revolved"%string, 2%nat); ("fin"%string, 3%nat); ("wing"%string, 1%nat); ("swept"%string, 1%nat)]
      [("revolved_1", c + 0); ("revolved_2", c + 1); ("fin_1", c + 2); ("fin_2", c + 3); ("wing_1", c + 4); ("swept_1", c + 5); ("fin_3", c + 6)]%nat%string
      [("revolved_1", c + 0); ("revolved_2", c + 1); ("fin_1", c + 2); ("fin_2", c + 3); ("wing_1", c + 4); ("swept_1", c + 5); ("fin_3", c + 6)]%nat%string CART3D.
  Definition rx_first (k c : nat) : vehicle R :=
    let v := rx_made c in
    mkVehicle (firstn k (v_components v)) "ReFEX" 0 1 false
      (match k with 1 => [("revolved"%string, 1)] | 2 => [("revolved"%string, 2)] | 3 => [("revolved"%string, 2); ("fin"%string, 1)]
       | 4 => [("revolved"%string, 2); ("fin"%string, 2)] | 5 => [("revolved"%string, 2); ("fin"%string, 2); ("wing"%string, 1)]
       | 6 => [("revolved"%string, 2); ("fin"%string, 2); ("wing"%string, 1); ("swept"%string, 1)] | _ => v_counts v end)%nat
      (firstn k (v_enumerated v)) (firstn k (v_named v)) [].
  Definition swept_result (l : list (list (path R))) (n : nat) : res (dict (surf R) * dict nat * dict nat) :=
    let! l := swept_patches l 4 true (ResInt n) in Ok (sized_patches l, sized_res_r l, sized_res_s l).
  Definition swept_comp l n (d : nat) : comp R :=
    mkComp "swept" (Own false (swept_result l n)) d [] [] (ResInt n) None None None no_clustering [] None None true false None 1%Z.
  Lemma new_swept_ext h ds cs l n : Swept_init l true (ResInt n) = Ok 4%nat -> new_swept l (ResInt n) None (ext h ds cs) =
    (ext h (ds ++ [[]]) (cs ++ [swept_comp l n (length (dicts h) + length ds)]), Ok (length (comps h) + length cs)%nat).
  Proof using. intros E. unfold new_swept, bindM, M_Vehicle.lift. rewrite E, object_ext. reflexivity. Qed.
  Definition rx_comps (p q : path R) (f1 f2 f3 : fin R) (w : wing R) (l : list (list (path R))) (d : nat) : list (comp R) :=
    [with_options 1 default_add (rev_comp p 50 (d + 0)); with_options 1 default_add (rev_comp q 50 (d + 1));
     with_options 1 default_add (L_Parts.fin_comp bisect f1 (ResInt 3) None (d + 2)); with_options 1 default_add (L_Parts.fin_comp bisect f2 (ResInt 3) None (d + 3));
     with_options 1 mirrored_add (wing_comp bisect w (ResInt 3) None (d + 4)); with_options 1 default_add (swept_comp l 20 (d + 5));
     with_options 1 default_add (L_Parts.fin_comp bisect f3 (ResInt 3) None (d + 6))].
  Definition seven : list (dict (surf R)) := [[]; []; []; []; []; []; []].
  Lemma rx_run P h p q line t1 : OgiveNose (rx_h P) (rx_r_n P) (rx_r_o P) (rx_L_o P) = Ok p -> rx_body_line P = Ok q -> rx_edge P = Ok line ->
    wing_t_B1 bisect (rx_wing P line) = Ok t1 -> Swept_init (rx_sections P) true (ResInt 20) = Ok 4%nat ->
    rx_vehicle bisect true true true true cs0 P h =
    (ext h seven (rx_comps p q (rx_canard cs0 P (nZ 0) (rx_canard_angle P)) (rx_canard cs0 P (nZ 180) (nneg (rx_canard_angle P))) (rx_tail P) (rx_wing P line) (rx_sections P) (length (dicts h))),
     Ok (rx_made (length (comps h)))).
  Proof using.
    intros Ep Eq El Et Es. unfold rx_vehicle, add_if. rewrite <- (ext_nil h) at 1.
    set (w := rx_wing P line) in *. set (f1 := rx_canard cs0 P (nZ 0) _). set (f2 := rx_canard cs0 P (nZ 180) _). set (f3 := rx_tail P). set (sl := rx_sections P) in *.
    unfold bindM at 1. unfold M_Vehicle.lift at 1. rewrite Ep.
    unfold bindM at 1. rewrite new_rev. cbn [app length].
    unfold bindM at 1. unfold bindM at 1. unfold ret at 1.
    rewrite (add_to h _ _ (configured "ReFEX") 0 (rev_comp p 50 (length (dicts h) + 0)) _ (rx_first 1 (length (comps h)))) by reflexivity. cbn [list_set].
    unfold bindM at 1. unfold M_Vehicle.lift at 1. rewrite Eq.
    unfold bindM at 1. rewrite new_rev. cbn [app length].
    unfold bindM at 1. unfold bindM at 1. unfold ret at 1.
    rewrite (add_to h _ _ _ 1 (rev_comp q 50 (length (dicts h) + 1)) _ (rx_first 2 (length (comps h)))) by reflexivity. cbn [list_set].
    unfold bindM at 1. unfold bindM at 1. rewrite (new_fin_ext bisect h _ _ f1). cbn [app length].
    rewrite (add_to h _ _ _ 2 (L_Parts.fin_comp bisect f1 (ResInt 3) None (length (dicts h) + 2)) _ (rx_first 3 (length (comps h)))) by reflexivity. cbn [list_set].
    unfold bindM at 1. unfold bindM at 1. rewrite (new_fin_ext bisect h _ _ f2). cbn [app length].
    rewrite (add_to h _ _ _ 3 (L_Parts.fin_comp bisect f2 (ResInt 3) None (length (dicts h) + 3)) _ (rx_first 4 (length (comps h)))) by reflexivity. cbn [list_set].
    unfold bindM at 1. unfold M_Vehicle.lift at 1. rewrite El. fold w.
    unfold bindM at 1. unfold bindM at 1. rewrite (new_wing_ext bisect h _ _ w (ResInt 3) None t1 Et). cbn [app length].
    rewrite (add_to h _ _ _ 4 (wing_comp bisect w (ResInt 3) None (length (dicts h) + 4)) _ (rx_first 5 (length (comps h)))) by reflexivity. cbn [list_set].
    unfold bindM at 1. unfold bindM at 1. rewrite (new_swept_ext h _ _ sl 20 Es). cbn [app length].
    rewrite (add_to h _ _ _ 5 (swept_comp sl 20 (length (dicts h) + 5)) _ (rx_first 6 (length (comps h)))) by reflexivity. cbn [list_set].
    unfold bindM at 1. unfold bindM at 1. rewrite (new_fin_ext bisect h _ _ f3). cbn [app length].
    rewrite (add_to h _ _ _ 6 (L_Parts.fin_comp bisect f3 (ResInt 3) None (length (dicts h) + 6)) _ (rx_first 7 (length (comps h)))) by reflexivity.
    reflexivity.
  Qed.

  Definition rx_piece {A} (n b c1 c2 w s t : A) (k : nat) : A :=
    match k with 0 => n | 1 => b | 2 => c1 | 3 => c2 | 4 => w | 5 => s | _ => t end%nat.
  Definition rx_ready_to (h1 : heap R) (C : nat) (p q : path R) (g1 g2 g3 gw gs : dict (surf R)) : Prop :=
    separate h1 /\ NoDup (flat_map (with_children h1) (map (fun k => C + k)%nat [0; 1; 2; 3; 4; 5; 6]%nat)) /\
    forall k, In k [0; 1; 2; 3; 4; 5; 6]%nat -> let g := rx_piece (revolved_patches p) (revolved_patches q) g1 g2 gw gs g3 k in
      ready h1 (C + k) g (rx_piece still still still still (mirror_plan "y" true) still still k) /\ unmeshed h1 (C + k) (rx_piece 49 49 2 2 2 19 2 k)%nat /\ g <> [] /\
      values01 (dvals g) (values_of (dvals g)).
  Section Set_up.
    Variables (p q : path R) (f1 f2 f3 : fin R) (w : wing R) (sl : list (list (path R))) (gp gq : R -> pt) (g1 g2 g3 gw gs : dict (surf R)) (rr rs : dict nat) (h : heap R).
    Hypothesis SP : separate h.
    Hypothesis Evp : evaluates01 p gp.
    Hypothesis Evq : evaluates01 q gq.
    Hypothesis D1 : d21_fin_done bisect f1 g1.
    Hypothesis D2 : d21_fin_done bisect f2 g2.
    Hypothesis D3 : d21_fin_done bisect f3 g3.
    Hypothesis Ew : wing_patches bisect w = Ok gw.
    Hypothesis Kw : dkeys gw = open_wing_keys.
    Hypothesis Sw : forall u, In u (dvals gw) -> on_square u.
    Hypothesis Es : swept_result sl 20 = Ok (gs, rr, rs).
    Hypothesis Ks : dkeys gs = ["swept_patch_0"; "swept_patch_1"; "swept_patch_2"; "swept_patch_3"; "swept_patch_end_0"; "swept_patch_end_1"]%string.
    Hypothesis Ss : forall u, In u (dvals gs) -> on_square u.
    Let C := length (comps h).
    Let v := rx_made C.
    Let cs := rx_comps p q f1 f2 f3 w sl (length (dicts h)).
    Lemma rx_readied : rx_ready_to (ext h seven cs) C p q g1 g2 g3 gw gs.
    Proof using Sw Ss SP Kw Ks Ew Evq Evp Es D3 D2 D1.
    destruct D1 as (E1 & K1 & S1). destruct D2 as (E2 & K2 & S2). destruct D3 as (E3 & K3 & S3).
    assert (NF : forall (f : fin R) (g : dict (surf R)), dkeys g = fin_keys f -> g <> []).
    { intros f g K ->. cbn in K. unfold fin_keys in K. destruct (String.eqb (f_rudder f) "sharp"); discriminate K. }
    assert (PS : plan_ok still) by (split; [discriminate|constructor]).
    assert (PM : plan_ok (mirror_plan "y" true)) by (split; [intros a Ha; injection Ha as <-; right; left; reflexivity|constructor]).
    assert (SP1 : separate (ext h seven cs)).
    { eapply (ext_separate h _ _ [0; 1; 2; 3; 4; 5; 6]%nat SP); [reflexivity| |]; repeat constructor; cbn; lia || intuition discriminate. }
    assert (NE : forall k, nth_error (comps (ext h seven cs)) (C + k) = nth_error cs k) by (intros k; unfold ext, C; cbn [comps]; apply nth_ext).
    assert (RS : ready (ext h seven cs) (C + 5) gs still).
    { assert (E' : nth_error (comps (ext h seven cs)) (C + 5) = Some (with_options 1 default_add (swept_comp sl 20 (length (dicts h) + 5)))) by (rewrite NE; reflexivity).
      assert (FK : fine_keys (dkeys gs)) by (rewrite Ks; apply fineb_fine; reflexivity).
      split; [|split; [exact FK|split; [exact PS|]]].
      - left. eexists _, _, _, _. split; [exact E'|]. split; [cbn [with_options swept_comp c_kind]; rewrite Es; reflexivity|].
        split; [exact (proj1 FK)|]. right. unfold patches_at. rewrite E'. unfold ext. cbn [dicts with_options swept_comp c_patches]. rewrite nth_ext. reflexivity.
      - eexists. split; [exact E'|]. split; [reflexivity|]. split; [right; auto|]. repeat split. }
    split; [exact SP1|]. split.
    - cbn [map flat_map]. unfold with_children.  rewrite !NE. cbn [cs rx_comps nth_error c_kind with_options rev_comp swept_comp wing_comp L_Parts.fin_comp app].
      repeat constructor; cbn; lia.
    - intros k Hk. cbn [In] in Hk. cbv zeta. destruct Hk as [<-|[<-|[<-|[<-|[<-|[<-|[<-|[]]]]]]]]; cbn [rx_piece].
      + split.
        { unfold C. eapply (own_ready h _ _ 0); [reflexivity|reflexivity|apply revolved_fine|right; exists 0%nat; split; reflexivity|exact PS|].
          split; [reflexivity|]. split; [right; auto|]. repeat split. }
        split; [eexists; split; [rewrite NE; reflexivity|repeat split]|]. split; [discriminate|apply values_of_ok, (revolved_grid 1 p gp Evp)].
      + split.
        { unfold C. eapply (own_ready h _ _ 1); [reflexivity|reflexivity|apply revolved_fine|right; exists 1%nat; split; reflexivity|exact PS|].
          split; [reflexivity|]. split; [right; auto|]. repeat split. }
        split; [eexists; split; [rewrite NE; reflexivity|repeat split]|]. split; [discriminate|apply values_of_ok, (revolved_grid 1 q gq Evq)].
      + split.
        { unfold C. eapply (own_ready h _ _ 2 _ true); [reflexivity|cbn [with_options L_Parts.fin_comp c_kind]; rewrite E1; reflexivity|rewrite K1; apply fin_fine|left; reflexivity|exact PS|].
          split; [reflexivity|]. split; [right; auto|]. repeat split. }
        split; [eexists; split; [rewrite NE; reflexivity|repeat split]|]. split; [apply (NF f1), K1|apply values_of_ok, S1].
      + split.
        { unfold C. eapply (own_ready h _ _ 3 _ true); [reflexivity|cbn [with_options L_Parts.fin_comp c_kind]; rewrite E2; reflexivity|rewrite K2; apply fin_fine|left; reflexivity|exact PS|].
          split; [reflexivity|]. split; [right; auto|]. repeat split. }
        split; [eexists; split; [rewrite NE; reflexivity|repeat split]|]. split; [apply (NF f2), K2|apply values_of_ok, S2].
      + split.
        { unfold C. eapply (own_ready h _ _ 4); [reflexivity|cbn [with_options wing_comp c_kind]; unfold wing_result; rewrite Ew; reflexivity|rewrite Kw; apply fineb_fine; reflexivity|right; exists 4%nat; split; reflexivity|exact PM|].
          split; [reflexivity|]. split; [right; auto|]. repeat split. }
        split; [eexists; split; [rewrite NE; reflexivity|repeat split]|]. split; [intros ->; discriminate Kw|apply values_of_ok, Sw].
      + split; [exact RS|]. split; [eexists; split; [rewrite NE; reflexivity|repeat split]|]. split; [intros ->; discriminate Ks|apply values_of_ok, Ss].
      + split.
        { unfold C. eapply (own_ready h _ _ 6 _ true); [reflexivity|cbn [with_options L_Parts.fin_comp c_kind]; rewrite E3; reflexivity|rewrite K3; apply fin_fine|left; reflexivity|exact PS|].
          split; [reflexivity|]. split; [right; auto|]. repeat split. }
        split; [eexists; split; [rewrite NE; reflexivity|repeat split]|]. split; [apply (NF f3), K3|apply values_of_ok, S3].
    Qed.
    Definition rx_built : nat -> list (tri R) := rx_piece (profile_mesh 49 gp) (profile_mesh 49 gq) (wing_grid 2 g1) (wing_grid 2 g2)
        (wing_grid 2 gw ++ map_mesh (reflect (axis_vec "y")) (wing_grid 2 gw)) (wing_grid 19 gs) (wing_grid 2 g3).
    Lemma rx_generates : exists h2, generate v (ext h seven cs) = (h2, mark_generated v, Ok tt) /\ length (comps h2) = (C + 7)%nat /\
      (forall k c, nth_error cs k = Some c -> ghost_at h2 (C + k) = c_ghost c /\ type_at h2 (C + k) = c_type c /\ tag_at h2 (C + k) = c_name c) /\
      forall k, In k [0; 1; 2; 3; 4; 5; 6]%nat -> mesh_of h2 (C + k) = Ok (map_mesh to_cart3d (rx_built k)).
    Proof using Sw Ss SP Kw Ks Ew Evq Evp Es D3 D2 D1.
    destruct rx_readied as (SP1 & ND & RD).
    destruct (kit_more v cart h seven cs [0; 1; 2; 3; 4; 5; 6]%nat (rx_piece (revolved_patches p) (revolved_patches q) g1 g2 gw gs g3)
      (fun k => values_of (dvals (rx_piece (revolved_patches p) (revolved_patches q) g1 g2 gw gs g3 k)))
      (rx_piece 49 49 2 2 2 19 2)%nat (rx_piece still still still still (mirror_plan "y" true) still still) (fun _ => to_cart3d)
      (fun _ p => to_cart3d (reflect (axis_vec "y") p))) as (h2 & A & B & D & Q).
    - exact SP1.
    - reflexivity.
    - exact ND.
    - reflexivity.
    - apply cart_ok.
    - exact RD.
    - intros k Hk. cbn [In] in Hk. change (v_angle v) with 0. destruct Hk as [<-|[<-|[<-|[<-|[<-|[<-|[<-|[]]]]]]]]; cbn [rx_piece];
        first [exact mirrored_cart|apply still_cart].
    - exists h2. split; [exact A|]. split; [exact B|]. split; [exact D|]. intros k Hk. unfold C. rewrite (Q k Hk).
      assert (RF : forall m g, flat_map (patch_grid m) (map (fun u r s => to_cart3d (reflect (axis_vec "y") (u r s))) (values_of (dvals g))) = map_mesh to_cart3d (map_mesh (reflect (axis_vec "y")) (wing_grid m g))).
      { intros m g. rewrite <- (wing_grid_affine (reflect (axis_vec "y")) m g (reflect_affine _)), <- (grids_affine to_cart3d _ _ to_cart3d_affine), map_map. reflexivity. }
      assert (R1 : forall m g, flat_map (patch_grid m) (map (fun u r s => to_cart3d (u r s)) (values_of (dvals g))) = map_mesh to_cart3d (wing_grid m g)).
      { intros m g. apply wing_grid_affine, to_cart3d_affine. }
      cbn [In] in Hk. destruct Hk as [<-|[<-|[<-|[<-|[<-|[<-|[<-|[]]]]]]]]; unfold rx_built; cbn [rx_piece p_axis still mirror_plan p_append]; rewrite ?R1, ?RF;
        rewrite ?(proj1 (revolved_grid 49 p gp Evp)), ?(proj1 (revolved_grid 49 q gq Evq)); try reflexivity.
      unfold map_mesh. rewrite map_app. reflexivity.
    Qed.
    (** turned once more after generation, as the script of refex.py does *)
    Lemma rx_turned_back : exists h2 h3, generate v (ext h seven cs) = (h2, mark_generated v, Ok tt) /\ transform_vehicle (mark_generated v) CART3D h2 = (h3, Ok tt) /\
      forall k, In k [0; 1; 2; 3; 4; 5; 6]%nat -> mesh_of h3 (C + k) = Ok (rx_built k).
    Proof using Sw Ss SP Kw Ks Ew Evq Evp Es D3 D2 D1.
    destruct rx_readied as (SP1 & ND & RD).
    set (v0 := mkVehicle (v_components v) "ReFEX" 0 1%Z false (v_counts v) (v_enumerated v) (v_named v) [] : vehicle R).
    destruct (kit_more v0 [] h seven cs [0; 1; 2; 3; 4; 5; 6]%nat (rx_piece (revolved_patches p) (revolved_patches q) g1 g2 gw gs g3)
      (fun k => values_of (dvals (rx_piece (revolved_patches p) (revolved_patches q) g1 g2 gw gs g3 k)))
      (rx_piece 49 49 2 2 2 19 2)%nat (rx_piece still still still still (mirror_plan "y" true) still still) (fun _ p => p)
      (fun _ => reflect (axis_vec "y"))) as (h1 & A & B & D & Q).
    - exact SP1.
    - reflexivity.
    - exact ND.
    - reflexivity.
    - constructor.
    - exact RD.
    - intros k Hk. cbn [In] in Hk. change (v_angle v0) with 0. destruct Hk as [<-|[<-|[<-|[<-|[<-|[<-|[<-|[]]]]]]]]; cbn [rx_piece];
        first [split; [exact (mirror_total "y" true)|intros a Ha; injection Ha as <-; exact (mirror_total2 "y" true)]|split; [exact still_total|discriminate]].
    - destruct (C92_twice v0 (ext h seven cs) []) as (h1' & h2 & h3 & A1 & A2 & A3 & _ & MM).
      { split; [exact SP1|]. split; [exact ND|]. split; [|split; [reflexivity|constructor]].
        intros i Hi. change (v_components v0) with (map (fun k => C + k)%nat [0; 1; 2; 3; 4; 5; 6]%nat) in Hi. apply in_map_iff in Hi as (k & <- & Hk). eexists _, _. exact (proj1 (RD k Hk)). }
      change (add_vehicle_transformations v0 CART3D) with v in A2, A3. exists h2, h3. split; [exact A2|]. split; [exact A3|].
      assert (h1' = h1) as -> by congruence. intros k Hk.
      rewrite (MM (C + k)%nat (rx_piece 49 49 2 2 2 19 2 k)%nat); [|change (v_components v0) with (map (fun k => C + k)%nat [0; 1; 2; 3; 4; 5; 6]%nat); apply in_map_iff; eauto|exact (proj1 (proj2 (RD k Hk)))].
      unfold C. rewrite (Q k Hk).
      assert (ID : forall m (vs : list (R -> R -> pt)), flat_map (patch_grid m) (map (fun u r s => u r s) vs) = flat_map (patch_grid m) vs).
      { intros m vs. f_equal. rewrite <- (map_id vs) at 2. reflexivity. }
      assert (R0 : forall m g, flat_map (patch_grid m) (values_of (dvals g)) = wing_grid m g) by reflexivity.
      assert (RF : forall m g, flat_map (patch_grid m) (map (fun u r s => reflect (axis_vec "y") (u r s)) (values_of (dvals g))) = map_mesh (reflect (axis_vec "y")) (wing_grid m g)).
      { intros m g. apply wing_grid_affine, reflect_affine. }
      cbn [In] in Hk. destruct Hk as [<-|[<-|[<-|[<-|[<-|[<-|[<-|[]]]]]]]]; unfold rx_built; cbn [rx_piece p_axis still mirror_plan p_append]; rewrite ?ID, ?RF, ?R0;
        rewrite ?(proj1 (revolved_grid 49 p gp Evp)), ?(proj1 (revolved_grid 49 q gq Evq)); reflexivity.
    Qed.
  End Set_up.
End Parts.
