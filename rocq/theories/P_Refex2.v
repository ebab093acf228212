(** C114: the parametric ReFEX with parts switched off (hangar/refex.py). *)
From Coq Require Import String Reals Lra ZArith List Permutation Lia Bool.
From Verif Require Import Num NumR Py M_Vector SpecR3 M_Path M_Surface M_Geometry M_Mesh M_Component M_Stl M_Common M_Wing M_Fin M_Vehicle M_VecHeap M_Sens M_Gen M_Inertia M_Hangar M_Htv M_X43 M_D21 M_Transform M_Refex
  SpecPath SpecPoly SpecSurf SpecMesh SpecComp SpecVehicle SpecAdd SpecFiles SpecInertia SpecPrism SpecHangar SpecWing SpecFin SpecPair SpecHalf SpecHtv SpecX43 SpecD21 SpecLathe SpecProfile SpecHifire8 SpecRefex
  L_Vector L_Edges L_Component L_SweptComp L_Coons L_Heap L_Pipeline L_Generate L_Files L_Prism L_Reflect L_Volume L_Hangar L_Finner L_Study L_Block L_Wing L_WingTotal L_Fin L_FinTotal L_Lathe L_Pair L_Half L_Htv L_Parts L_Profile L_Falcon L_Closed L_Parts2 L_Parts3 L_D21 L_Hifire4 L_Hifire8 L_Hifire8b L_Parts4 L_Refex L_Refex2 L_Refex3 SpecRows L_Refex4
  P_Component P_Vehicle P_Gen P_Inertia P_Hangar P_Ogive P_Profile P_Falcon P_Half P_Planform P_Htv P_Ledger P_X43 P_Cylinder P_D21 P_Cart3D P_Waverider P_Refex.
Import ListNotations.
Local Open Scope R_scope.

(** the parts with their switches: the names and the files of the canards and the
    tail are counted together, all others keep theirs *)
Definition rx_rows (fuselage wings canards tails : bool) (xc a : R) (nose body canard wing trans tail : list (tri R)) : list (bool * row) :=
  [(fuselage, mkRow "revolved_1" "revolved-0" nose); (fuselage, mkRow "revolved_2" "revolved-1" body);
   (canards, mkRow "fin_1" "fin-0" canard); (canards, mkRow "fin_2" "fin-1" (other_canard xc a canard));
   (wings, mkRow "wing_1" "wing-0" (wing ++ map_mesh (reflect (axis_vec "y")) wing)); (fuselage, mkRow "swept_1" "swept-0" trans);
   (tails, if canards then mkRow "fin_3" "fin-2" tail else mkRow "fin_1" "fin-0" tail)]%string.

(** places of the added rows among the objects made *)
Fixpoint place (k : nat) (l : list (bool * (bool * row))) : list (nat * row) :=
  match l with
  | [] => []
  | (made, (added, r)) :: l => ((if added then [(k, r)] else []) ++ place (if made then S k else k) l)%list
  end.
Definition rx_placed bf bw bc bt (rows : list (bool * row)) : list (nat * row) :=
  place 0 (combine [true; true; bc; bc; bw; bf; bt] rows).

Definition table (bf bw bc bt : bool) (m0 m1 m2 m3 m4 m5 m6 : list (tri R)) : list (bool * row) :=
  [(bf, mkRow "revolved_1" "revolved-0" m0); (bf, mkRow "revolved_2" "revolved-1" m1); (bc, mkRow "fin_1" "fin-0" m2); (bc, mkRow "fin_2" "fin-1" m3);
   (bw, mkRow "wing_1" "wing-0" m4); (bf, mkRow "swept_1" "swept-0" m5); (bt, if bc then mkRow "fin_3" "fin-2" m6 else mkRow "fin_1" "fin-0" m6)]%string.
Lemma rx_ends h bf bw bc bt n b c1 c2 w s t : separate h -> Forall piece_made [n; b; c1; c2; w; s; t] -> map pc_type [n; b; c1; c2; w; s; t] = ["revolved"; "revolved"; "fin"; "fin"; "wing"; "swept"; "fin"]%string ->
  (bf = true -> piece_ok n /\ piece_ok b /\ piece_ok s) -> piece_ok c1 -> piece_ok c2 -> piece_ok w -> piece_ok t ->
  let e := rx_end (length (comps h)) bf bw bc bt n b c1 c2 w s t in
  let v := add_vehicle_transformations (snd e) CART3D in
  exists h2, generate v (heap_of h (fst e)) = (h2, mark_generated v, Ok tt) /\
    delivers to_cart3d "ReFEX" v h2 (chosen (table bf bw bc bt (pc_mesh n) (pc_mesh b) (pc_mesh c1) (pc_mesh c2) (pc_mesh w) (pc_mesh s) (pc_mesh t))).
Proof.
  intros SP MD TY OF O2 O3 O4 O6 e v. cbn [map] in TY. injection TY as T0 T1 T2 T3 T4 T5 T6.
  apply Forall_inv_tail in MD as MD1. apply Forall_inv_tail in MD1 as MD2. apply Forall_inv_tail in MD2 as MD3. apply Forall_inv_tail in MD3 as MD4. apply Forall_inv_tail in MD4 as MD5. apply Forall_inv_tail in MD5 as MD6.
  apply Forall_inv in MD, MD1, MD2, MD3, MD4, MD5, MD6.
  set (rows := table _ _ _ _ _ _ _ _ _ _ _).
  replace (chosen rows) with (map snd (rx_placed bf bw bc bt rows)) by (unfold rows; destruct bf, bw, bc, bt; reflexivity).
  replace "ReFEX"%string with (v_name v) by (unfold v, e; destruct bf, bw, bc, bt; reflexivity).
  apply (pieces_deliver h (fst e) (rx_placed bf bw bc bt rows)).
  - exact SP.
  - unfold e; destruct bf, bw, bc, bt; cbn; repeat (constructor; [assumption|]); constructor.
  - unfold rows; destruct bf, bw, bc, bt; cbn; repeat constructor; cbn; lia.
  - assert (W : forall x r, piece_ok x -> r = mkRow (r_name r) (r_file r) (pc_mesh x) -> piece_ok x /\ pc_mesh x = r_mesh r) by (intros x r Ox ->; split; [exact Ox|reflexivity]).
    intros k r I. unfold rows, table in I. unfold e.
    destruct bf; [destruct (OF eq_refl) as (O0 & O1 & O5)|clear OF];
      destruct bw, bc, bt; cbn in I; repeat (destruct I as [I|I]; [injection I as <- <-; eexists; split; [reflexivity|apply W; [assumption|reflexivity]]|]); destruct I.
  - unfold v, e, rows; destruct bf, bw, bc, bt; cbn [rx_end stage more fst snd length app add_vehicle_transformations]; rewrite ?T0, ?T1, ?T2, ?T3, ?T4, ?T5, ?T6; reflexivity.
  - unfold v, e, rows; destruct bf, bw, bc, bt; cbn [rx_end stage more fst snd length app add_vehicle_transformations]; rewrite ?T0, ?T1, ?T2, ?T3, ?T4, ?T5, ?T6; reflexivity.
  - unfold v, e; destruct bf, bw, bc, bt; reflexivity.
  - unfold v, e; destruct bf, bw, bc, bt; reflexivity.
  - unfold e, rows; destruct bf, bw, bc, bt; cbn [rx_end stage more fst snd length app rx_placed table combine place map pick nth]; unfold pick; cbn [nth map]; rewrite ?T0, ?T1, ?T2, ?T3, ?T4, ?T5, ?T6; reflexivity.
  - unfold rows; destruct bf, bw, bc, bt; cbn; repeat constructor; cbn; intuition discriminate.
Qed.

Section Refex2.
  Variable bisect : (R -> res R) -> R -> R -> res R.
  Variable cs : pt.
  Hypothesis Zs : vz cs = 0.

  (** C114: ParametricReFEX on any heap, for all sixteen settings of the switches *)
  Theorem C114_parts : in_interval bisect -> answers bisect -> forall P, rx_fair P ->
    exists nose body canard wing trans tail, rx_shapes cs P nose body canard wing trans tail /\
      forall fuselage wings canards tails call kw h, separate h -> rx_keywords kw P ->
      exists v h2, flies call (ParametricReFEX bisect fuselage wings canards tails cs) kw h v h2 /\
        delivers to_cart3d "ReFEX" v h2 (chosen (rx_rows fuselage wings canards tails (rx_middle cs P) (in_radians (rx_canard_angle P)) nose body canard wing trans tail)).
  Proof using Zs.
    intros Hi Han P HP. destruct (rx_drawn bisect cs Zs Hi Han P HP) as (p & q & line & t1 & gp & gq & g1 & g2 & g3 & gw & gs & rr & rs & (Ep & Eq & El & Et & Es0 & Evp & Evq & D1 & D2 & D3 & Ew & Kw & Sw & Es & Ks & Ss & G2) & SH).
    exists (profile_mesh 49 gp), (profile_mesh 49 gq), (wing_grid 2 g1), (wing_grid 2 gw), (wing_grid 19 gs), (wing_grid 2 g3). split; [exact SH|].
    intros bf bw bc bt call kw h SP K.
    pose proof (rx_run_parts bisect cs bf bw bc bt P h p q line t1 gp gq g1 g2 g3 gw gs Ep Eq El Et Es0) as RUN. cbv zeta in RUN.
    pose proof (rev_ok p gp Evp) as O0. pose proof (rev_ok q gq Evq) as O1. pose proof (fin_ok bisect _ _ D1) as O2. pose proof (fin_ok bisect _ _ D2) as O3. pose proof (fin_ok bisect _ _ D3) as O6.
    pose proof (wing_ok' bisect _ _ Ew Kw Sw) as O4.
    assert (O5 : piece_ok (swept_piece (rx_sections P) gs)).
    { apply (swept_ok _ gs rr rs Es); [rewrite Ks; apply fineb_fine; reflexivity|intros ->; discriminate Ks|exact Ss]. }
    set (f1 := rx_canard cs P (nZ 0) _) in *. set (f2 := rx_canard cs P (nZ 180) _) in *. set (f3 := rx_tail P) in *. set (w := rx_wing P line) in *. set (sl := rx_sections P) in *.
    destruct (rx_ends h bf bw bc bt (rev_piece bf p gp) (rev_piece bf q gq) (fin_piece bisect f1 g1) (fin_piece bisect f2 g2) (wing_piece bisect w gw) (swept_piece sl gs) (fin_piece bisect f3 g3) SP)
      as (h2 & A & DL); try assumption.
    { repeat (constructor; [first [apply rev_made|apply fin_made|apply wing_made'|apply swept_made]|]). constructor. }
    { reflexivity. }
    { intros ->. auto. }
    cbn [rev_piece fin_piece wing_piece swept_piece pc_mesh] in DL. rewrite G2 in DL.
    eexists _, h2. split; [eexists _, _; split; [apply rx_program, K|]; split; [exact RUN|exact A]|exact DL].
  Qed.

  (** C114: the mass properties are the totals over the parts that are switched on *)
  Theorem C114_mass mp areas : in_interval bisect -> answers bisect -> weighs mp -> forall P, rx_fair P ->
    exists nose body canard wing trans tail, rx_shapes cs P nose body canard wing trans tail /\
      forall fuselage wings canards tails call kw h densities, separate h -> rx_keywords kw P -> fuselage || wings || canards || tails = true ->
      let rows := chosen (rx_rows fuselage wings canards tails (rx_middle cs P) (in_radians (rx_canard_angle P)) nose body canard wing trans tail) in
      (forall r, In r rows -> exists x, dget densities (r_name r) = Some x) ->
      let rho k := match dget densities k with Some r => r | None => 0 end in
      exists v h2 h3 cog moi, flies call (ParametricReFEX bisect fuselage wings canards tails cs) kw h v h2 /\
        analyse mp areas (mark_generated v) densities h2 = (h3, mark_generated v,
          Ok (rsum (fun r => signed_volume (r_mesh r)) rows, rsum (fun r => rho (r_name r) * signed_volume (r_mesh r)) rows, cog, moi)).
  Proof using Zs.
    intros Hi Han MP P HP. destruct (C114_parts Hi Han P HP) as (nose & body & canard & wing & trans & tail & SH & H).
    exists nose, body, canard, wing, trans, tail. split; [exact SH|]. intros bf bw bc bt call kw h densities SP K ON rows Den rho.
    destruct (H bf bw bc bt call kw h SP K) as (v & h2 & FL & _ & _ & MM & _). clear H. fold rows in MM.
    assert (W : forall m, signed_volume (map_mesh to_cart3d m) = signed_volume m).
    { intros m. rewrite volume_fix0; [|exact to_cart3d_affine|unfold to_cart3d, origin; apply vec_ext; cbn; ring]. destruct C92_rotation as (_ & -> & _). ring. }
    assert (NE : rows <> []) by (unfold rows; destruct bf, bw, bc, bt; discriminate).
    clearbody rows. set (m := fun i => match mesh_of h2 i with Ok t => t | Raise _ => [] end).
    destruct (weighed mp areas (mark_generated v) h2 densities m MP eq_refl) as (h3 & cog & moi & AN).
    - cbn [mark_generated v_named]. intros E. rewrite E in MM. destruct rows; [apply NE; reflexivity|discriminate MM].
    - cbn [mark_generated v_named]. intros k i I. pose proof (in_map (fun ki => (fst ki, mesh_of h2 (snd ki))) _ _ I) as J. rewrite MM in J. apply in_map_iff in J as (r & E & J). cbn [fst snd] in E. injection E as <- E.
      unfold m. rewrite <- E. split; [reflexivity|apply Den, J].
    - exists v, h2, h3, cog, moi. split; [exact FL|]. rewrite AN. cbn [mark_generated v_named]. clear - MM W.
      assert (X : rsum (fun ki => signed_volume (m (snd ki))) (v_named v) = rsum (fun r => signed_volume (r_mesh r)) rows /\
        rsum (fun ki => rho (fst ki) * signed_volume (m (snd ki))) (v_named v) = rsum (fun r => rho (r_name r) * signed_volume (r_mesh r)) rows); [|destruct X as [X1 X2]; unfold rho in X2 |- *; rewrite X1, X2; reflexivity].
      revert rows MM. induction (v_named v) as [|[k i] l IH]; intros [|r rows] MM; try discriminate MM; [split; reflexivity|].
      cbn [map fst snd] in MM. injection MM as E1 E2 MM. destruct (IH rows MM) as [I1 I2]. cbn [rsum map fst snd].
      assert (S : signed_volume (m i) = signed_volume (r_mesh r)) by (unfold m; rewrite E2; apply W).
      rewrite S, I1, I2, <- E1. split; reflexivity.
  Qed.
End Refex2.

(** C114: with all switches on these are the seven parts of C113 *)
Example C114_full xc a nose body canard wing trans tail :
  map (fun r => (r_name r, r_mesh r)) (chosen (rx_rows true true true true xc a nose body canard wing trans tail)) = rx_meshes xc a nose body canard wing trans tail.
Proof. reflexivity. Qed.
Example C114_tail_alone xc a nose body canard wing trans tail :
  chosen (rx_rows false false false true xc a nose body canard wing trans tail) = [mkRow "fin_1" "fin-0" tail] /\
  chosen (rx_rows false false false false xc a nose body canard wing trans tail) = [].
Proof. split; reflexivity. Qed.
(** the hypotheses are met by the defaults, with the tail alone switched on *)
Example C114_meets : in_interval (loop_bisect 20) /\ answers (loop_bisect 20) /\ separate (mkHeap [] []) /\ vz (V3 (15 / 100) 0 0 : pt) = 0 /\
  rx_keywords [] rx_default /\ rx_fair rx_default /\ weighs (fun m rho => (signed_volume m, signed_volume m * rho, origin, M3 origin origin origin)) /\
  forall nose body canard wing trans tail r, In r (chosen (rx_rows false false false true (rx_middle (V3 (15 / 100) 0 0) rx_default) 0 nose body canard wing trans tail)) ->
    exists x, dget [("fin_1"%string, 1000)] (r_name r) = Some x.
Proof.
  destruct C113_meets as (A & B & C & D & E & F & _ & _ & W). do 7 (split; [assumption|]).
  intros nose body canard wing trans tail r [<-|[]]. eexists. reflexivity.
Qed.

Print Assumptions C114_parts.
Print Assumptions C114_mass.
