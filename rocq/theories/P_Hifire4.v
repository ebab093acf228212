(** C109: the parametric HIFiRE 4 end to end (hangar/hifire4.py). *)
From Coq Require Import String Reals Lra ZArith List Permutation Lia Bool.
From Verif Require Import Num NumR Py M_Vector SpecR3 M_Path M_Surface M_Geometry M_Mesh M_Component M_Stl M_Common M_Wing M_Fin M_Vehicle M_VecHeap M_Sens M_Gen M_Inertia M_Hangar M_Htv M_X43 M_D21 M_Hifire4
  SpecPath SpecPoly SpecSurf SpecMesh SpecComp SpecVehicle SpecAdd SpecFiles SpecInertia SpecPrism SpecHangar SpecWing SpecFin SpecPair SpecHalf SpecHtv SpecX43 SpecD21 SpecHifire4
  L_Vector L_Edges L_Component L_Heap L_Pipeline L_Generate L_Files L_Prism L_Reflect L_Volume L_Hangar L_Finner L_Study L_Block L_Wing L_Fin L_FinTotal L_Pair L_Half L_Htv L_Parts L_Falcon L_Closed L_Parts2 L_Parts3 L_D21 L_Hifire4
  P_Component P_Vehicle P_Gen P_Inertia P_Hangar P_Falcon P_Half P_Planform P_Htv P_Ledger P_X43 P_Cylinder P_D21.
Import ListNotations.
Local Open Scope R_scope.

Definition hf4_keywords (kw : dict (pval R)) (xm ym R0 Ln Lb : R) : Prop := plain_keywords kw /\
  given kw "x_curve_mult" (3 / 10) = PNum xm /\ given kw "y_curve_mult" (5 / 10) = PNum ym /\ given kw "R" (2 / 10) = PNum R0 /\
  given kw "L_n" 2 = PNum Ln /\ given kw "L_b" 4 = PNum Lb.
Lemma hf4_program bisect call kw xm ym R0 Ln Lb : hf4_keywords kw xm ym R0 Ln Lb ->
  make_vehicle call (ParametricHIFiRE4 bisect) kw = Ok (hf4_vehicle bisect xm ym R0 Ln Lb).
Proof.
  intros ((Nd & S1 & S2) & H1 & H2 & H3 & H4 & H5). unfold make_vehicle, instantiate. rewrite no_key by exact S1.
  cbn [g_init ParametricHIFiRE4 run_init bind g_classes]. unfold create_instance. rewrite generator_init_get by exact Nd.
  destruct (dget kw "create_instance") as [v|] eqn:E.
  { exfalso. apply S2. apply dget_in in E. apply (in_map fst) in E. exact E. }
  cbn [dget dset String.eqb]. cbn [g_create ParametricHIFiRE4 g_classes].
  set (d := dset _ "L_b"%string _).
  rewrite (read_given kw d "x_curve_mult" xm (3 / 10) Nd eq_refl H1). cbn [bind].
  rewrite (read_given kw d "y_curve_mult" ym (5 / 10) Nd eq_refl H2). cbn [bind].
  rewrite (read_given kw d "R" R0 (2 / 10) Nd eq_refl H3). cbn [bind].
  rewrite (read_given kw d "L_n" Ln 2 Nd eq_refl H4). cbn [bind].
  rewrite (read_given kw d "L_b" Lb 4 Nd eq_refl H5). cbn [bind].
  reflexivity.
Qed.

(** the five components, from the fuselage, one half of the wing and one fin *)
Definition hf4_meshes (R0 : R) (fuse wing fin : list (tri R)) : list (string * list (tri R)) :=
  [("revolved_1", fuse); ("wing_1", (wing ++ map_mesh (reflect (axis_vec "y")) wing)%list);
   ("fin_1", map_mesh (translate (V3 0 (35 / 10 * R0) 0)) fin); ("fin_2", map_mesh (translate (V3 0 (- (35 / 10 * R0)) 0)) fin);
   ("fin_3", map_mesh (translate (V3 0 0 (- (95 / 100 * R0)))) fin)]%string.
Definition hf4_file (prefix : option string) (k : string) : string :=
  ((match text prefix with Some p => p | None => "HIFiRE4" end) ++ "-" ++
   (match dget [("revolved_1", "revolved-0"); ("wing_1", "wing-0"); ("fin_1", "fin-0"); ("fin_2", "fin-1"); ("fin_3", "fin-2")] k with
    | Some s => s | None => "" end) ++ ".stl")%string.
Definition hf4_parts (v : vehicle R) (h2 : heap R) (ms : list (string * list (tri R))) : Prop :=
  v_name v = "HIFiRE4"%string /\ v_components v = map snd (v_named v) /\
  map (fun ki => (fst ki, mesh_of h2 (snd ki))) (v_named v) = map (fun km => (fst km, Ok (snd km))) ms /\
  forall prefix fs0, exists h3 fs, to_stl (mark_generated v) prefix h2 fs0 = (h3, fs, Ok tt) /\
    (forall k m, In (k, m) ms -> dget fs (hf4_file prefix k) = Some m) /\
    forall s, (forall k m, In (k, m) ms -> s <> hf4_file prefix k) -> dget fs s = dget fs0 s.

(** the height of the arch at a distance x from the nose *)
Definition rise (xm x : R) : R := xm / 20 * (x * x).
(** where the outer corner of the right wing's flap goes *)
Definition flap_corner (xm ym R0 L : R) : pt :=
  let W := 35 / 10 * R0 in let m := ym / 5 * W in let c := rise xm (9 / 10 * L) in
  V3 (- (9 / 10 * L)) (W - c * (m / sqrt (1 + m * m))) (ym / 10 * (W * W) + c / sqrt (1 + m * m)).

Definition hf4_shapes (xm ym R0 Ln Lb : R) (fuse wing fin : list (tri R)) : Prop :=
  let L := Ln + Lb in
  length fuse = 6400%nat /\
  (whole_micro R0 -> watertight fuse /\ vertex_of fuse (V3 0 0 0) /\ vertex_of fuse (V3 (- L) 0 (rise xm L))) /\
  (xm = 0 -> ym = 0 -> watertight fuse -> whole_micro R0) /\
  length wing = 468%nat /\
  (let whole := wing ++ map_mesh (reflect (axis_vec "y")) wing in stl_check whole (mesh_normals whole) false true = Ok false) /\
  vertex_of wing (V3 (- (9 / 10 * L)) 0 (rise xm (9 / 10 * L))) /\ vertex_of wing (flap_corner xm ym R0 L) /\
  length fin = 468%nat /\ vertex_of fin (V3 (- (9 / 10 * L) - R0 / 4) 0 (rise xm (9 / 10 * L))) /\
  forall s, (s = R0 / 8 \/ s = - (R0 / 8)) ->
    vertex_of fin (V3 (- (9 / 10 * L)) s (rise xm (9 / 10 * L))) /\ vertex_of fin (V3 (- (9 / 10 * L)) s (rise xm (9 / 10 * L) - R0)) /\
    vertex_of fin (V3 (- (74 / 100 * L)) s (rise xm (74 / 100 * L))).

Lemma hf4_apart prefix k k' a b : dget [("revolved_1", "revolved-0"); ("wing_1", "wing-0"); ("fin_1", "fin-0"); ("fin_2", "fin-1"); ("fin_3", "fin-2")]%string k = Some a ->
  dget [("revolved_1", "revolved-0"); ("wing_1", "wing-0"); ("fin_1", "fin-0"); ("fin_2", "fin-1"); ("fin_3", "fin-2")]%string k' = Some b ->
  (a ++ ".stl")%string <> (b ++ ".stl")%string -> hf4_file prefix k <> hf4_file prefix k'.
Proof.
  intros A B H. unfold hf4_file. rewrite A, B.
  assert (NE : forall (s a b : string), a <> b -> (s ++ a)%string <> (s ++ b)%string).
  { induction s as [|ch s IH]; intros x y Hxy; [exact Hxy|]. intros C. injection C as C. exact (IH x y Hxy C). }
  apply NE, NE, H.
Qed.

Section Hifire4.
  Variable bisect : (R -> res R) -> R -> R -> res R.

  (** C109: ParametricHIFiRE4 on any heap: the fuselage is closed whenever R is a
      whole number of millionths (with no curvature: only then); the checker never
      accepts the wing; the three fins are translates of one fin; each component
      goes to its own file *)
  Theorem C109_hifire4 xm ym R0 Ln Lb : in_interval bisect -> answers bisect -> 0 < R0 <= 1000000 -> 0 < Ln -> 0 < Lb -> 3 / 4 <= Ln + Lb ->
    exists fuse wing fin, hf4_shapes xm ym R0 Ln Lb fuse wing fin /\
      forall call kw h, separate h -> hf4_keywords kw xm ym R0 Ln Lb ->
      exists v h2, flies call (ParametricHIFiRE4 bisect) kw h v h2 /\ hf4_parts v h2 (hf4_meshes R0 fuse wing fin).
  Proof using.
    intros Hi Han HR HN HB HL. assert (HL' : 0 < Ln + Lb) by lra.
    destruct (fuse_mesh R0 Ln Lb (proj1 HR) HN HB 19) as (p & Ep & (gp & Evp) & _ & Wp & Cp & Vp).
    destruct (hf4_edge_ok R0 Ln Lb HR HL') as (line & g & El & Ev & G0 & G1).
    destruct (hf4_wing_ok bisect R0 Ln Lb HR HL' line g Hi Han El Ev G0 G1 HL) as (gw & t1 & Ew & Et & Kw & Sw & Ow & Fw).
    destruct (hf4_fin_ok bisect xm R0 Ln Lb HR HL' (V3 0 0 0) Hi Han) as (g0 & E0 & K0 & S0 & V0).
    destruct (hf4_fin_ok bisect xm R0 Ln Lb HR HL' (off1 R0) Hi Han) as (g1 & E1 & K1 & S1 & _).
    destruct (hf4_fin_ok bisect xm R0 Ln Lb HR HL' (off2 R0) Hi Han) as (g2 & E2 & K2 & S2 & _).
    destruct (hf4_fin_ok bisect xm R0 Ln Lb HR HL' (off3 R0) Hi Han) as (g3 & E3 & K3 & S3 & _).
    set (F := hifire4_curved xm ym) in *.
    assert (LN : forall n (g : dict (surf R)) ks, dkeys g = ks -> length (wing_grid n g) = (length ks * (4 * (S n * S n)))%nat).
    { intros n gg ks K. rewrite wing_grid_length, <- (map_length fst). change (map fst gg) with (dkeys gg). rewrite K. lia. }
    exists (moved_grid F 19 (revolved_patches p)), (moved_grid F 2 gw), (wing_grid 2 g0).
    split.
    { unfold hf4_shapes. cbv zeta.
      split; [rewrite moved_length; reflexivity|]. split.
      { intros M. split; [apply Cp, M|]. split; [apply (Vp xm ym M)|]. unfold rise. apply (Vp xm ym M). }
      split; [intros X Y H; apply Wp; unfold F in H; rewrite X, Y in H; rewrite (moved_same _ (fun q => q)) in H by apply curved_flat; rewrite moved_id in H; exact H|].
      split; [rewrite moved_length, <- (map_length fst); change (map fst gw) with (dkeys gw); rewrite Kw; reflexivity|]. split.
      { destruct (Ow F 2%nat) as (e & I & P); [intros q; apply curved_middle|]. apply (reflected_open "y" _ e); [right; left; reflexivity|exact I|exact P]. }
      destruct (Fw F 2%nat) as [F1 F2]. split; [|split].
      { unfold F in F1 at 2. pose proof (curved_plane xm ym (- (9 / 10 * (Ln + Lb))) 0) as C. cbv zeta in C. rewrite C in F1. replace (ym / 5 * 0) with 0 in F1 by ring. rewrite Rmult_0_l, Rplus_0_r, sqrt_1 in F1.
        match type of F1 with vertex_of _ ?q => replace (V3 (- (9 / 10 * (Ln + Lb))) 0 (rise xm (9 / 10 * (Ln + Lb)))) with q; [exact F1|] end. unfold rise. apply vec_ext; cbn [vx vy vz]; field. }
      { unfold F in F2 at 2. pose proof (curved_plane xm ym (- (9 / 10 * (Ln + Lb))) (35 / 10 * R0)) as C. cbv zeta in C. rewrite C in F2. unfold flap_corner, rise. cbv zeta.
        replace (9 / 10 * (Ln + Lb) * (9 / 10 * (Ln + Lb))) with (- (9 / 10 * (Ln + Lb)) * - (9 / 10 * (Ln + Lb))) by ring. exact F2. }
      split; [rewrite (LN _ _ _ K0); reflexivity|].
      assert (AD : forall q, vadd q (V3 0 0 0) = q) by (intros q; unfold vadd; numR; apply vec_ext; cbn [vx vy vz]; ring).
      destruct (V0 2%nat) as [VT VS]. rewrite AD in VT. split; [exact VT|]. intros s Hs. specialize (VS s Hs). rewrite !AD in VS. exact VS. }
    assert (G1' : wing_grid 2 g1 = map_mesh (translate (V3 0 (35 / 10 * R0) 0)) (wing_grid 2 g0)) by exact (hf4_fin_slid bisect xm R0 Ln Lb 2 _ _ _ E0 E1 S0).
    assert (G2' : wing_grid 2 g2 = map_mesh (translate (V3 0 (- (35 / 10 * R0)) 0)) (wing_grid 2 g0)) by exact (hf4_fin_slid bisect xm R0 Ln Lb 2 _ _ _ E0 E2 S0).
    assert (G3' : wing_grid 2 g3 = map_mesh (translate (V3 0 0 (- (95 / 100 * R0)))) (wing_grid 2 g0)) by exact (hf4_fin_slid bisect xm R0 Ln Lb 2 _ _ _ E0 E3 S0).
    intros call kw h SP K.
    pose proof (hf4_run bisect xm ym R0 Ln Lb h p line t1 Ep El Et) as RUN.
    destruct (hf4_generates bisect xm ym p _ _ _ _ gp gw g1 g2 g3 h SP Evp Ew Kw Sw (conj E1 (conj K1 S1)) (conj E2 (conj K2 S2)) (conj E3 (conj K3 S3))) as (h2 & A & LC & OP & Q).
    fold F in Q. rewrite G1', G2', G3' in Q. set (c0 := length (comps h)) in *. exists (hf4_made c0), h2.
    split; [eexists _, _; split; [apply hf4_program, K|]; split; [exact RUN|exact A]|].
    set (fuse := moved_grid F 19 (revolved_patches p)) in *. set (wing := moved_grid F 2 gw) in *. set (fin := wing_grid 2 g0) in *.
    pose proof (Q 0%nat ltac:(lia)) as M0. pose proof (Q 1%nat ltac:(lia)) as M1. pose proof (Q 2%nat ltac:(lia)) as M2.
    pose proof (Q 3%nat ltac:(lia)) as M3. pose proof (Q 4%nat ltac:(lia)) as M4.
    cbn [hf4_piece] in M0, M1, M2, M3, M4. clear Q.
    split; [reflexivity|]. split; [reflexivity|].
    split; [cbn [hf4_made v_named map fst snd]; rewrite M0, M1, M2, M3, M4; reflexivity|].
    intros prefix fs0. set (v := mark_generated _).
    set (m := fun i => match mesh_of h2 i with Ok t => t | Raise _ => [] end).
    destruct (filed v prefix h2 fs0 [(hf4_file prefix "revolved_1", c0 + 0); (hf4_file prefix "wing_1", c0 + 1);
      (hf4_file prefix "fin_1", c0 + 2); (hf4_file prefix "fin_2", c0 + 3); (hf4_file prefix "fin_3", c0 + 4)]%nat%string m) as (h3 & fs & WR & F1 & F2).
    { intros i Hc. unfold m. cbn [v mark_generated hf4_made v_components In] in Hc.
      destruct Hc as [<-|[<-|[<-|[<-|[<-|[]]]]]]; (split; [rewrite LC; lia|]); [rewrite M0|rewrite M1|rewrite M2|rewrite M3|rewrite M4]; reflexivity. }
    { destruct (OP 0%nat _ eq_refl) as (X0 & T0 & N0). destruct (OP 1%nat _ eq_refl) as (X1 & T1 & N1). destruct (OP 2%nat _ eq_refl) as (X2 & T2 & N2).
      destruct (OP 3%nat _ eq_refl) as (X3 & T3 & N3). destruct (OP 4%nat _ eq_refl) as (X4 & T4 & N4).
      cbn [v mark_generated hf4_made v_components files]. rewrite X0, X1, X2, X3, X4. cbn [with_options wing_comp L_Parts.fin_comp rev_comp default_add hf4_add c_ghost a_ghost app].
      unfold file_name, earlier. rewrite N0, N1, N2, N3, N4. cbn [filter]. rewrite T0, T1, T2, T3, T4. unfold hf4_file.
      cbn [with_options default_add hf4_add a_name over c_name c_type wing_comp L_Parts.fin_comp rev_comp text truthy String.eqb Ascii.eqb Bool.eqb negb length dget].
      destruct (text prefix); reflexivity. }
    { cbn [map fst]. repeat constructor; cbn [In]; intros H; repeat (destruct H as [H|H]; [revert H; eapply hf4_apart; [reflexivity|reflexivity|discriminate]|]); exact H. }
    { intros s i Hc. cbn [v mark_generated hf4_made v_components In] in *.
      repeat (destruct Hc as [Hc|Hc]; [injection Hc as _ <-; tauto|]). destruct Hc. }
    exists h3, fs. split; [exact WR|]. split.
    - intros k t I. unfold hf4_meshes in I. cbn [In] in I.
      destruct I as [I|[I|[I|[I|[I|[]]]]]]; injection I as <- <-.
      + rewrite (F1 (hf4_file prefix "revolved_1") (c0 + 0)%nat) by (left; reflexivity). unfold m. rewrite M0. reflexivity.
      + rewrite (F1 (hf4_file prefix "wing_1") (c0 + 1)%nat) by (do 1 right; left; reflexivity). unfold m. rewrite M1. reflexivity.
      + rewrite (F1 (hf4_file prefix "fin_1") (c0 + 2)%nat) by (do 2 right; left; reflexivity). unfold m. rewrite M2. reflexivity.
      + rewrite (F1 (hf4_file prefix "fin_2") (c0 + 3)%nat) by (do 3 right; left; reflexivity). unfold m. rewrite M3. reflexivity.
      + rewrite (F1 (hf4_file prefix "fin_3") (c0 + 4)%nat) by (do 4 right; left; reflexivity). unfold m. rewrite M4. reflexivity.
    - intros s H. apply F2. cbn [map fst In]. intros I. unfold hf4_meshes in H. cbn [In] in H.
      destruct I as [I|[I|[I|[I|[I|[]]]]]]; symmetry in I; revert I; eapply H.
      + left; reflexivity.
      + right; left; reflexivity.
      + do 2 right; left; reflexivity.
      + do 3 right; left; reflexivity.
      + do 4 right; left; reflexivity.
  Qed.

  (** C109: a vehicle shorter than 0.75 cannot be made *)
  Theorem C109_short xm ym R0 Ln Lb call kw (h : heap R) : refuses bisect -> 0 < R0 <= 1000000 -> 0 < Ln -> 0 < Lb -> Ln + Lb < 3 / 4 ->
    hf4_keywords kw xm ym R0 Ln Lb ->
    exists program, make_vehicle call (ParametricHIFiRE4 bisect) kw = Ok program /\ snd (program h) = Raise ValueError.
  Proof using.
    intros Rf HR HN HB HL K. assert (HL' : 0 < Ln + Lb) by lra.
    destruct (fuse_mesh R0 Ln Lb (proj1 HR) HN HB 19) as (p & Ep & _). destruct (hf4_edge_ok R0 Ln Lb HR HL') as (line & g & El & Ev & G0 & G1).
    eexists. split; [apply hf4_program, K|]. eapply hf4_run_short; [exact Ep|exact El|]. exact (hf4_wing_short bisect R0 Ln Lb HR HL' line g Rf Ev G0 G1 HL).
  Qed.

  (** C109: volume and mass are those of the fuselage and of the fins *)
  Theorem C109_mass mp areas xm ym R0 Ln Lb : in_interval bisect -> answers bisect -> weighs mp -> 0 < R0 <= 1000000 -> 0 < Ln -> 0 < Lb -> 3 / 4 <= Ln + Lb ->
    exists fuse wing fin, hf4_shapes xm ym R0 Ln Lb fuse wing fin /\
      forall call kw h densities, separate h -> hf4_keywords kw xm ym R0 Ln Lb ->
      (forall k, In k ["revolved_1"; "wing_1"; "fin_1"; "fin_2"; "fin_3"]%string -> exists r, dget densities k = Some r) ->
      let rho k := match dget densities k with Some r => r | None => 0 end in
      exists v h2 h3 cog moi, flies call (ParametricHIFiRE4 bisect) kw h v h2 /\
        analyse mp areas (mark_generated v) densities h2 = (h3, mark_generated v,
          Ok (signed_volume fuse + signed_volume (map_mesh (translate (V3 0 (35 / 10 * R0) 0)) fin) +
              signed_volume (map_mesh (translate (V3 0 (- (35 / 10 * R0)) 0)) fin) + signed_volume (map_mesh (translate (V3 0 0 (- (95 / 100 * R0)))) fin),
              rho "revolved_1"%string * signed_volume fuse + rho "fin_1"%string * signed_volume (map_mesh (translate (V3 0 (35 / 10 * R0) 0)) fin) +
              rho "fin_2"%string * signed_volume (map_mesh (translate (V3 0 (- (35 / 10 * R0)) 0)) fin) +
              rho "fin_3"%string * signed_volume (map_mesh (translate (V3 0 0 (- (95 / 100 * R0)))) fin), cog, moi)).
  Proof using.
    intros Hi Han MP HR HN HB HL. destruct (C109_hifire4 xm ym R0 Ln Lb Hi Han HR HN HB HL) as (fuse & wing & fin & SH & H).
    exists fuse, wing, fin. split; [exact SH|]. intros call kw h densities SP K Den rho. destruct (H call kw h SP K) as (v & h2 & FL & _ & _ & MM & _). clear H.
    unfold hf4_meshes in MM.
    destruct (v_named v) as [|[k1 i1] [|[k2 i2] [|[k3 i3] [|[k4 i4] [|[k5 i5] [|]]]]]] eqn:Evn; try discriminate MM.
    cbn [map fst snd] in MM. injection MM as -> A1 -> A2 -> A3 -> A4 -> A5.
    assert (Z : forall m, signed_volume (m ++ map_mesh (reflect (axis_vec "y")) m) = 0).
    { intros m. rewrite signed_volume_app, reflect_volume by (apply axis_cases; right; left; reflexivity). ring. }
    set (m := fun i => match mesh_of h2 i with Ok t => t | Raise _ => [] end).
    destruct (weighed mp areas (mark_generated v) h2 densities m MP eq_refl) as (h3 & cog & moi & AN).
    - cbn [mark_generated v_named]. rewrite Evn. discriminate.
    - cbn [mark_generated v_named]. rewrite Evn. intros k i I. cbn [In] in I. unfold m.
      destruct I as [I|[I|[I|[I|[I|[]]]]]]; injection I as <- <-;
        (split; [first [rewrite A1|rewrite A2|rewrite A3|rewrite A4|rewrite A5]; reflexivity|apply Den; cbn; tauto]).
    - exists v, h2, h3, cog, moi. split; [exact FL|].
      rewrite AN. cbn [mark_generated v_named]. rewrite Evn. cbn [rsum fst snd]. unfold m. rewrite A1, A2, A3, A4, A5, Z.
      change (match dget densities "revolved_1" with Some r => r | None => 0 end) with (rho "revolved_1"%string).
      change (match dget densities "fin_1" with Some r => r | None => 0 end) with (rho "fin_1"%string).
      change (match dget densities "fin_2" with Some r => r | None => 0 end) with (rho "fin_2"%string).
      change (match dget densities "fin_3" with Some r => r | None => 0 end) with (rho "fin_3"%string).
      match goal with |- (_, _, Ok (?a, ?b, _, _)) = (_, _, Ok (?c, ?d, _, _)) => replace a with c by ring; replace b with d by ring end. reflexivity.
  Qed.
End Hifire4.

(** C109: the wing and the fins part company. The fin on the right stands on the
    middle of its foot at (x, W, c); the outer flap corner of the right wing is
    there exactly when the spanwise curvature is switched off *)
Theorem C109_gap xm ym R0 Ln Lb fuse wing fin : 0 < R0 -> hf4_shapes xm ym R0 Ln Lb fuse wing fin ->
  let L := Ln + Lb in let W := 35 / 10 * R0 in let c := rise xm (9 / 10 * L) in
  vertex_of wing (flap_corner xm ym R0 L) /\
  (forall s, (s = R0 / 8 \/ s = - (R0 / 8)) -> vertex_of (map_mesh (translate (V3 0 W 0)) fin) (V3 (- (9 / 10 * L)) (W + s) c)) /\
  (flap_corner xm ym R0 L = V3 (- (9 / 10 * L)) W c <-> ym = 0).
Proof.
  intros HR (_ & _ & _ & _ & _ & _ & V1 & _ & _ & V2) L W c. split; [exact V1|]. split.
  - intros s Hs. destruct (V2 s Hs) as ((t & I & H) & _). exists (map_tri (translate (V3 0 W 0)) t). split; [apply in_map, I|].
    assert (E : V3 (- (9 / 10 * L)) (W + s) c = translate (V3 0 W 0) (V3 (- (9 / 10 * L)) s c)).
    { unfold translate, vadd. numR. apply vec_ext; cbn [vx vy vz]; ring. }
    rewrite E. unfold c, L. destruct H as [->|[->| ->]]; [left|right; left|right; right]; reflexivity.
  - assert (WP : 0 < W) by (unfold W; lra). pose proof (sqrt1_pos (ym / 5 * W)) as SP. split.
    + intros H. unfold flap_corner in H. cbv zeta in H. fold W in H. fold c in H. injection H as Hy Hz. set (m := ym / 5 * W) in *. set (s := sqrt (1 + m * m)) in *.
      assert (CM : c * m = 0). { replace (c * m) with (c * (m / s) * s) by (field; lra). replace (c * (m / s)) with 0 by lra. ring. }
      apply Rmult_integral in CM. destruct CM as [C|M].
      * rewrite C in Hz. unfold Rdiv in Hz at 2. rewrite Rmult_0_l, Rplus_0_r in Hz. assert (P : 0 < W * W) by nra. assert (ym / 10 = 0); [|lra].
        apply (Rmult_eq_reg_r (W * W)); lra.
      * unfold m in M. assert (ym / 5 = 0); [|lra]. apply (Rmult_eq_reg_r W); lra.
    + intros ->. unfold flap_corner. cbv zeta. fold W. fold c. replace (0 / 5 * W) with 0 by lra. rewrite Rmult_0_l, Rplus_0_r, sqrt_1. apply vec_ext; cbn [vx vy vz]; field.
Qed.
(** with the default attributes the corner lies inboard of the fin's inner face
    (at W - R/8) and above the fin *)
Theorem C109_default_gap : let W := 35 / 10 * (2 / 10) in
  vy (flap_corner (3 / 10) (5 / 10) (2 / 10) 6) < W - 2 / 10 / 8 /\ rise (3 / 10) (9 / 10 * 6) < vz (flap_corner (3 / 10) (5 / 10) (2 / 10) 6).
Proof.
  cbv zeta. unfold flap_corner, rise. cbv zeta. cbn [vy vz].
  match goal with |- context [sqrt ?a] => set (s := sqrt a); assert (S1 : 1 < s); [rewrite <- sqrt_1; apply sqrt_lt_1; lra|];
    assert (S2 : s < 101 / 100); [replace (101 / 100) with (sqrt (101 / 100 * (101 / 100))) by (apply sqrt_square; lra); apply sqrt_lt_1; lra|] end.
  assert (I1 : / s < 1) by (rewrite <- Rinv_1; apply Rinv_lt_contravar; lra).
  assert (I2 : 100 / 101 < / s) by (replace (100 / 101) with (/ (101 / 100)) by field; apply Rinv_lt_contravar; lra).
  unfold Rdiv at 6. split; unfold Rdiv in *; nra.
Qed.

(** bisection that refuses two ends of the same sign *)
Definition sign_bisect (k : nat) (f : R -> res R) (a b : R) : res R :=
  match f a, f b with
  | Ok fa, Ok fb => if Rleb (fa * fb) 0 then loop_bisect k f a b else Raise ValueError
  | Raise e, _ => Raise e
  | _, Raise e => Raise e
  end.
Lemma sign_bisects k : in_interval (sign_bisect k) /\ answers (sign_bisect k) /\ refuses (sign_bisect k).
Proof.
  destruct (loop_bisects k) as (A & B & _). split; [|split].
  - intros f a b t H. unfold sign_bisect in H. destruct (f a); [|discriminate]. destruct (f b); [|discriminate]. destruct (Rleb _ _); [|discriminate]. exact (A f a b t H).
  - intros f phi E S. unfold sign_bisect. rewrite !E by lra. rewrite (proj2 (Rleb_true _ 0)) by nra. destruct (B f phi E S) as (t & _ & _ & H & _). eauto.
  - intros f phi E S. unfold sign_bisect. rewrite !E by lra. rewrite (proj2 (Rleb_false _ 0)) by lra. reflexivity.
Qed.
(** the default vehicle; and one with both lengths at 0.3 *)
Example C109_meets : in_interval (sign_bisect 20) /\ answers (sign_bisect 20) /\ refuses (sign_bisect 20) /\ separate (mkHeap [] []) /\
  hf4_keywords [] (3 / 10) (5 / 10) (2 / 10) 2 4 /\ 0 < 2 / 10 <= 1000000 /\ 3 / 4 <= 2 + 4 /\ whole_micro (2 / 10) /\
  hf4_keywords [("L_n"%string, PNum (3 / 10)); ("L_b"%string, PNum (3 / 10))] (3 / 10) (5 / 10) (2 / 10) (3 / 10) (3 / 10) /\ 3 / 10 + 3 / 10 < 3 / 4 /\
  weighs (fun m rho => (signed_volume m, signed_volume m * rho, origin, M3 origin origin origin)).
Proof.
  destruct (sign_bisects 20) as (A & B & C). split; [exact A|]. split; [exact B|]. split; [exact C|].
  split; [split; [intros j Hj; cbn in Hj; lia|]; intros j k c c' H; destruct j; discriminate|].
  split; [split; [split; [constructor|split; cbn; intuition discriminate]|]; repeat split|].
  split; [lra|]. split; [lra|]. split; [exists 200000%Z; lra|].
  split; [split; [split; [repeat constructor; cbn; intuition discriminate|split; cbn; intuition discriminate]|]; repeat split|].
  split; [lra|]. intros m rho. eauto.
Qed.

Print Assumptions C109_hifire4.
Print Assumptions C109_short.
Print Assumptions C109_mass.
Print Assumptions C109_gap.
Print Assumptions C109_default_gap.
