(** The parametric HIFiRE 8: the vehicle. *)
From Coq Require Import String Reals Lra ZArith List Permutation Lia Bool.
From Verif Require Import Num NumR Py M_Vector SpecR3 M_Path M_Surface M_Geometry M_Mesh M_Component M_Common M_Wing M_Fin M_Vehicle M_VecHeap M_Sens M_Gen M_Hangar M_Htv M_X43 M_D21 M_Hifire8
  SpecPath SpecPoly SpecSurf SpecMesh SpecComp SpecVehicle SpecAdd SpecPrism SpecHangar SpecWing SpecFin SpecPair SpecFiles SpecHtv SpecHalf SpecX43 SpecLathe SpecHifire8
  L_Vector L_Line L_Polyline L_Coons L_Curves L_Ellipse L_Wing L_WingOk L_WingTotal L_Fin L_FinSeams L_FinTotal L_Component L_RevolvedComp L_Mesh L_Heap L_Volume L_Rigid L_Reflect L_Pipeline L_Generate L_Cache L_Files L_Wedge L_SweptComp L_Closed L_Edges L_Prism L_Lathe L_Hangar L_Block L_Pair L_Half L_Htv L_Parts L_Finner L_Falcon L_Parts2 L_Parts3 L_D21 L_Hifire4 L_Hifire8 L_Hifire8b M_Wing.
Import ListNotations.
Local Open Scope R_scope.

Section Parts.
  Variable bisect : (R -> res R) -> R -> R -> res R.
  Definition h8_made (c : nat) : vehicle R :=
    mkVehicle [c + 2; c + 6; c + 7; c + 3; c + 4; c + 5]%nat "HIFiRE-8" 0 1 false
      [("composite"%string, 1%nat); ("wing"%string, 2%nat); ("fin"%string, 3%nat)]
      [("composite_1", c + 2); ("wing_1", c + 6); ("wing_2", c + 7); ("fin_1", c + 3); ("fin_2", c + 4); ("fin_3", c + 5)]%nat%string
      [("fuselage", c + 2); ("wing", c + 6); ("nose", c + 7); ("fin1", c + 3); ("fin2", c + 4); ("fin3", c + 5)]%nat%string [].
  Definition h8_first (k c : nat) : vehicle R :=
    let v := h8_made c in
    mkVehicle (firstn k (v_components v)) "HIFiRE-8" 0 1 false
      (match k with 0 => [] | 1 => [("composite"%string, 1)] | 2 => [("composite"%string, 1); ("wing"%string, 1)]
       | 3 => [("composite"%string, 1); ("wing"%string, 2)] | 4 => [("composite"%string, 1); ("wing"%string, 2); ("fin"%string, 1)]
       | 5 => [("composite"%string, 1); ("wing"%string, 2); ("fin"%string, 2)] | _ => v_counts v end)%nat
      (firstn k (v_enumerated v)) (firstn k (v_named v)) [].
  Definition h8_body (c d : nat) : comp R :=
    mkComp "composite" (Composite [c + 0; c + 1]%nat) d [] [] (ResInt 8) None None None no_clustering [] None None true false None 1%Z.
  Definition h8_comps (p q : path R) (f1 f2 f3 : fin R) (w n : wing R) (c d : nat) : list (comp R) :=
    [rev_comp p 4 (d + 0); rev_comp q 4 (d + 1); with_options 1 (h8_add None "fuselage") (h8_body c (d + 2));
     with_options 1 (h8_add None "fin1") (L_Parts.fin_comp bisect f1 (ResInt 3) None (d + 3));
     with_options 1 (h8_add None "fin2") (L_Parts.fin_comp bisect f2 (ResInt 3) None (d + 4));
     with_options 1 (h8_add None "fin3") (L_Parts.fin_comp bisect f3 (ResInt 3) None (d + 5));
     with_options 1 (h8_add (Some "y"%string) "wing") (wing_comp bisect w (ResInt 4) None (d + 6));
     with_options 1 (h8_add (Some "y"%string) "nose") (wing_comp bisect n (ResInt 4) None (d + 7))].
  Definition eight : list (dict (surf R)) := [[]; []; []; []; []; []; []; []].
  Lemma h8_run L Rb Rn nl h p line nline t1 t2 : h8_fuse_line L Rb Rn nl = Ok p -> h8_edge = Ok line -> h8_nose_edge L Rb Rn = Ok nline ->
    wing_t_B1 bisect (h8_wing line) = Ok t1 -> wing_t_B1 bisect (h8_nose L Rb Rn nline) = Ok t2 ->
    h8_vehicle bisect L Rb Rn nl h =
    (ext h eight (h8_comps p (h8_cap_line L Rb Rn) (h8_fin1 L Rb Rn) (h8_fin2 L Rb Rn) (h8_fin3 L Rb Rn) (h8_wing line) (h8_nose L Rb Rn nline) (length (comps h)) (length (dicts h))),
     Ok (h8_made (length (comps h)))).
  Proof using.
    intros Ep El En Et1 Et2. unfold h8_vehicle. rewrite <- (ext_nil h) at 1.
    set (w := h8_wing line) in *. set (nw := h8_nose L Rb Rn nline) in *. set (f1 := h8_fin1 L Rb Rn). set (f2 := h8_fin2 L Rb Rn). set (f3 := h8_fin3 L Rb Rn). set (q := h8_cap_line L Rb Rn).
    unfold bindM at 1. unfold M_Vehicle.lift at 1. rewrite Ep.
    unfold bindM at 1. rewrite new_rev. cbn [app length].
    unfold bindM at 1. rewrite new_rev. cbn [app length].
    unfold bindM at 1. unfold new_composite. rewrite object_ext. cbn [app length].
    unfold bindM at 1. erewrite (composite_add_ext h _ _ 2 0) by (reflexivity || discriminate). cbn [list_set].
    unfold bindM at 1. erewrite (composite_add_ext h _ _ 2 1) by (reflexivity || discriminate). cbn [list_set].
    match goal with |- context [ext h _ [?a; ?b; ?c]] => change [a; b; c] with [rev_comp p 4 (length (dicts h) + 0); rev_comp q 4 (length (dicts h) + 1); h8_body (length (comps h)) (length (dicts h) + 2)] end.
    unfold bindM at 1. rewrite (new_fin_ext bisect h _ _ f1). cbn [app length].
    unfold bindM at 1. rewrite (new_fin_ext bisect h _ _ f2). cbn [app length].
    unfold bindM at 1. rewrite (new_fin_ext bisect h _ _ f3). cbn [app length].
    unfold bindM at 1. unfold M_Vehicle.lift at 1. rewrite El. fold w. unfold bindM at 1. rewrite (new_wing_ext bisect h _ _ w (ResInt 4) None t1 Et1). cbn [app length].
    unfold bindM at 1. unfold M_Vehicle.lift at 1. rewrite En. fold nw. unfold bindM at 1. rewrite (new_wing_ext bisect h _ _ nw (ResInt 4) None t2 Et2). cbn [app length].
    unfold bindM at 1. rewrite (add_to h _ _ (configured "HIFiRE-8") 2 (h8_body (length (comps h)) (length (dicts h) + 2)) _ (h8_first 1 (length (comps h)))) by reflexivity. cbn [list_set].
    unfold bindM at 1. rewrite (add_to h _ _ _ 6 (wing_comp bisect w (ResInt 4) None (length (dicts h) + 6)) _ (h8_first 2 (length (comps h)))) by reflexivity. cbn [list_set].
    unfold bindM at 1. rewrite (add_to h _ _ _ 7 (wing_comp bisect nw (ResInt 4) None (length (dicts h) + 7)) _ (h8_first 3 (length (comps h)))) by reflexivity. cbn [list_set].
    unfold bindM at 1. rewrite (add_to h _ _ _ 3 (L_Parts.fin_comp bisect f1 (ResInt 3) None (length (dicts h) + 3)) _ (h8_first 4 (length (comps h)))) by reflexivity. cbn [list_set].
    unfold bindM at 1. rewrite (add_to h _ _ _ 4 (L_Parts.fin_comp bisect f2 (ResInt 3) None (length (dicts h) + 4)) _ (h8_first 5 (length (comps h)))) by reflexivity. cbn [list_set].
    rewrite (add_to h _ _ _ 5 (L_Parts.fin_comp bisect f3 (ResInt 3) None (length (dicts h) + 5)) _ (h8_first 6 (length (comps h)))) by reflexivity.
    reflexivity.
  Qed.

  Definition h8_piece {A} (f f1 f2 f3 w n : A) (k : nat) : A :=
    match k with 3 => f1 | 4 => f2 | 5 => f3 | 6 => w | 7 => n | _ => f end%nat.
  Definition joint_patches (p q : path R) : dict (surf R) := SpecVehicle.joined 0%nat [revolved_patches p; revolved_patches q].
  Lemma joint_keys p q : plain_keys (joint_patches p q).
  Proof using.
    clear. unfold joint_patches. cbn [SpecVehicle.joined]. unfold plain_keys, dkeys. cbn [revolved_patches map seq app fst snd].
    set (K := _ :: _). vm_compute in K. subst K. split.
    - repeat constructor; cbn; intuition discriminate.
    - intros k Hk. unfold mirror_key. repeat (destruct Hk as [<-|Hk]; [cbn; intuition discriminate|]). destruct Hk.
  Qed.
  Lemma h8_generates p q f1 f2 f3 w n gp gq g1 g2 g3 gw gn h : separate h -> evaluates01 p gp -> evaluates01 q gq ->
    d21_fin_done bisect f1 g1 -> d21_fin_done bisect f2 g2 -> d21_fin_done bisect f3 g3 ->
    wing_patches bisect w = Ok gw -> dkeys gw = open_wing_keys -> (forall u, In u (dvals gw) -> on_square u) ->
    wing_patches bisect n = Ok gn -> dkeys gn = flat_wing_keys -> (forall u, In u (dvals gn) -> on_square u) ->
    let C := length (comps h) in let v := h8_made C in let cs := h8_comps p q f1 f2 f3 w n C (length (dicts h)) in
    exists h2, generate v (ext h eight cs) = (h2, mark_generated v, Ok tt) /\ length (comps h2) = (C + 8)%nat /\
      (forall k c, nth_error cs k = Some c -> ghost_at h2 (C + k) = c_ghost c /\ type_at h2 (C + k) = c_type c /\ tag_at h2 (C + k) = c_name c) /\
      forall k, In k [2; 6; 7; 3; 4; 5]%nat -> mesh_of h2 (C + k) = Ok (h8_piece (lathe_mesh 7 [gp; gq]) (wing_grid 2 g1) (wing_grid 2 g2) (wing_grid 2 g3)
        (wing_grid 3 gw ++ map_mesh (reflect (axis_vec "y")) (wing_grid 3 gw)) (wing_grid 3 gn ++ map_mesh (reflect (axis_vec "y")) (wing_grid 3 gn)) k).
  Proof using.
    intros SP Evp Evq (E1 & K1 & S1) (E2 & K2 & S2) (E3 & K3 & S3) Ew Kw Sw En Kn Sn C v cs.
    assert (NF : forall (f : fin R) (g : dict (surf R)), dkeys g = fin_keys f -> g <> []).
    { intros f g K ->. cbn in K. unfold fin_keys in K. destruct (String.eqb (f_rudder f) "sharp"); discriminate K. }
    assert (PS : plan_ok still) by (split; [discriminate|constructor]).
    assert (PM : plan_ok (mirror_plan "y" true)) by (split; [intros a Ha; injection Ha as <-; right; left; reflexivity|constructor]).
    assert (SP1 : separate (ext h eight cs)).
    { eapply (ext_separate h _ _ [0; 1; 2; 3; 4; 5; 6; 7]%nat SP); [reflexivity| |]; repeat constructor; cbn; lia || intuition discriminate. }
    assert (NE : forall k, nth_error (comps (ext h eight cs)) (C + k) = nth_error cs k) by (intros k; unfold ext, C; cbn [comps]; apply nth_ext).
    assert (RB : ready (ext h eight cs) (C + 2) (joint_patches p q) still).
    { split; [|split; [apply joint_keys|split; [exact PS|]]].
      - right. eexists _, _, _. split; [rewrite NE; reflexivity|]. split; [reflexivity|]. split; [|reflexivity].
        assert (O : forall k line, nth_error cs k = Some (rev_comp line 4 (length (dicts h) + k)) -> (k < 2)%nat ->
          builds_own (ext h eight cs) (C + k) (revolved_patches line)).
        { intros k line E Hk. exists (rev_comp line 4 (length (dicts h) + k)), false, [], []. rewrite <- NE in E.
          split; [exact E|]. split; [reflexivity|]. split.
          - unfold dkeys, revolved_patches. cbn. repeat constructor; cbn; intuition discriminate.
          - right. unfold patches_at. rewrite E. unfold ext. cbn [dicts rev_comp c_patches]. rewrite nth_ext. destruct k as [|[|k]]; [reflexivity..|lia]. }
        constructor; [apply O; [reflexivity|lia]|constructor; [apply O; [reflexivity|lia]|constructor]].
      - eexists. split; [rewrite NE; reflexivity|]. split; [reflexivity|]. split; [right; auto|]. repeat split. }
    destruct (kit_generates v h eight cs [2; 6; 7; 3; 4; 5]%nat (h8_piece (joint_patches p q) g1 g2 g3 gw gn)
      (h8_piece (flat_map four [gp; gq]) (values_of (dvals g1)) (values_of (dvals g2)) (values_of (dvals g3)) (values_of (dvals gw)) (values_of (dvals gn)))
      (h8_piece 7 2 2 2 3 3)%nat (h8_piece still still still still (mirror_plan "y" true) (mirror_plan "y" true)) (fun _ p => p)
      (fun _ => reflect (axis_vec "y"))) as (h2 & A & B & D & Q).
    - exact SP1.
    - reflexivity.
    - unfold v, h8_made. cbn [v_components flat_map]. unfold with_children. fold C. rewrite !NE. cbn [cs h8_comps nth_error c_kind with_options h8_body wing_comp L_Parts.fin_comp app].
      repeat constructor; cbn; lia.
    - reflexivity.
    - intros k Hk. cbn [In] in Hk. fold C. destruct Hk as [<-|[<-|[<-|[<-|[<-|[<-|[]]]]]]]; cbn [h8_piece].
      + split; [exact RB|]. split; [eexists; split; [rewrite NE; reflexivity|repeat split]|]. split; [discriminate|].
        cbn [flat_map]. unfold joint_patches. apply (joined_values 0%nat [revolved_patches p; revolved_patches q] [four gp; four gq]).
        constructor; [apply four_values, Evp|constructor; [apply four_values, Evq|constructor]].
      + split.
        { unfold C. eapply own_ready; [reflexivity|cbn [with_options wing_comp c_kind]; unfold wing_result; rewrite Ew; reflexivity|rewrite Kw; apply fineb_fine; reflexivity|right; exists 6%nat; split; reflexivity|exact PM|].
          split; [reflexivity|]. split; [right; auto|]. repeat split. }
        split; [eexists; split; [rewrite NE; reflexivity|repeat split]|]. split; [intros ->; discriminate Kw|apply values_of_ok, Sw].
      + split.
        { unfold C. eapply own_ready; [reflexivity|cbn [with_options wing_comp c_kind]; unfold wing_result; rewrite En; reflexivity|rewrite Kn; apply fineb_fine; reflexivity|right; exists 7%nat; split; reflexivity|exact PM|].
          split; [reflexivity|]. split; [right; auto|]. repeat split. }
        split; [eexists; split; [rewrite NE; reflexivity|repeat split]|]. split; [intros ->; discriminate Kn|apply values_of_ok, Sn].
      + split.
        { unfold C. eapply (own_ready h _ _ 3 _ true); [reflexivity|cbn [with_options L_Parts.fin_comp c_kind]; rewrite E1; reflexivity|rewrite K1; apply fin_fine|left; reflexivity|exact PS|].
          split; [reflexivity|]. split; [right; auto|]. repeat split. }
        split; [eexists; split; [rewrite NE; reflexivity|repeat split]|]. split; [apply (NF f1), K1|apply values_of_ok, S1].
      + split.
        { unfold C. eapply (own_ready h _ _ 4 _ true); [reflexivity|cbn [with_options L_Parts.fin_comp c_kind]; rewrite E2; reflexivity|rewrite K2; apply fin_fine|left; reflexivity|exact PS|].
          split; [reflexivity|]. split; [right; auto|]. repeat split. }
        split; [eexists; split; [rewrite NE; reflexivity|repeat split]|]. split; [apply (NF f2), K2|apply values_of_ok, S2].
      + split.
        { unfold C. eapply (own_ready h _ _ 5 _ true); [reflexivity|cbn [with_options L_Parts.fin_comp c_kind]; rewrite E3; reflexivity|rewrite K3; apply fin_fine|left; reflexivity|exact PS|].
          split; [reflexivity|]. split; [right; auto|]. repeat split. }
        split; [eexists; split; [rewrite NE; reflexivity|repeat split]|]. split; [apply (NF f3), K3|apply values_of_ok, S3].
    - intros k Hk. cbn [In] in Hk. change (v_angle v) with 0. destruct Hk as [<-|[<-|[<-|[<-|[<-|[<-|[]]]]]]]; cbn [h8_piece];
        first [split; [exact still_total|discriminate]|split; [exact (mirror_total "y" true)|intros a Ha; injection Ha as <-; exact (mirror_total2 "y" true)]].
    - exists h2. split; [exact A|]. split; [exact B|]. split; [exact D|]. intros k Hk. unfold C. rewrite (Q k Hk).
      assert (ID : forall m (vs : list (R -> R -> pt)), flat_map (patch_grid m) (map (fun u r s => u r s) vs) = flat_map (patch_grid m) vs).
      { intros m vs. f_equal. rewrite <- (map_id vs) at 2. reflexivity. }
      assert (RF : forall m g, flat_map (patch_grid m) (map (fun u r s => reflect (axis_vec "y") (u r s)) (values_of (dvals g))) = map_mesh (reflect (axis_vec "y")) (wing_grid m g)).
      { intros m g. apply wing_grid_affine, reflect_affine. }
      cbn [In] in Hk. destruct Hk as [<-|[<-|[<-|[<-|[<-|[<-|[]]]]]]]; cbn [h8_piece p_axis still mirror_plan p_append]; rewrite ?ID, ?RF; reflexivity.
  Qed.
End Parts.
