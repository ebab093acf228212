(** C105: the parametric X-43 end to end (hangar/x43.py). *)
From Coq Require Import String Reals Lra ZArith List Permutation Lia Bool.
From Verif Require Import Num NumR Py M_Vector SpecR3 M_Path M_Surface M_Geometry M_Mesh M_Component M_Stl M_Common M_Wing M_Fin M_Vehicle M_VecHeap M_Sens M_Gen M_Inertia M_Hangar M_Htv M_X43
  SpecPath SpecPoly SpecSurf SpecMesh SpecComp SpecVehicle SpecAdd SpecFiles SpecInertia SpecPrism SpecHangar SpecWing SpecFin SpecPair SpecHalf SpecHtv SpecX43
  L_Vector L_Edges L_Component L_Heap L_Pipeline L_Generate L_Files L_Prism L_Reflect L_Volume L_Hangar L_Finner L_Study L_Block L_Wing L_Fin L_FinTotal L_Pair L_Half L_Htv L_Parts L_X43
  P_Component P_Vehicle P_Gen P_Inertia P_Hangar P_Falcon P_Half P_Planform P_Htv P_Ledger.
Import ListNotations.
Local Open Scope R_scope.

Definition x43_keywords (kw : dict (pval R)) (L bw ba ws wl wt fl eh fh fn rl fa ra : R) : Prop := plain_keywords kw /\
  given kw "body_length" (37 / 10) = PNum L /\ given kw "body_width" 1 = PNum bw /\ given kw "body_angle" 0 = PNum ba /\
  given kw "wing_span" (4 / 10) = PNum ws /\ given kw "wing_length" 1 = PNum wl /\ given kw "wing_TE_back" (25 / 100) = PNum wt /\
  given kw "flap_length" (3 / 10) = PNum fl /\ given kw "engine_h" (1 / 10) = PNum eh /\ given kw "fin_height" (3 / 10) = PNum fh /\
  given kw "fin_length" 1 = PNum fn /\ given kw "rudder_length" (2 / 10) = PNum rl /\ given kw "flap_angle" 0 = PNum fa /\ given kw "rudder_angle" 0 = PNum ra.
(** reading an attribute that the keywords give, or its default *)
Lemma read_given (kw d : dict (pval R)) k x dv : NoDup (dkeys kw) -> dget d k = Some (PNum dv) -> given kw k dv = PNum x -> number (getattr [] (generator_init kw d)) k = Ok x.
Proof.
  intros Nd D H. unfold number, getattr. rewrite generator_init_get by exact Nd. unfold given in H.
  destruct (dget kw k); cbn in H |- *; [subst; reflexivity|]. rewrite D. injection H as <-. reflexivity.
Qed.
Lemma x43_program bisect call kw L bw ba ws wl wt fl eh fh fn rl fa ra : x43_keywords kw L bw ba ws wl wt fl eh fh fn rl fa ra ->
  make_vehicle call (ParametricX43 bisect) kw = Ok (x43_vehicle bisect L bw ba ws wl wt fl eh fh fn rl fa ra).
Proof.
  intros ((Nd & S1 & S2) & H1 & H2 & H3 & H4 & H5 & H6 & H7 & H8 & H9 & H10 & H11 & H12 & H13). unfold make_vehicle, instantiate. rewrite no_key by exact S1.
  cbn [g_init ParametricX43 run_init bind g_classes]. unfold create_instance. rewrite generator_init_get by exact Nd.
  destruct (dget kw "create_instance") as [v|] eqn:E.
  { exfalso. apply S2. apply dget_in in E. apply (in_map fst) in E. exact E. }
  cbn [dget dset String.eqb]. cbn [g_create ParametricX43 g_classes].
  set (d := dset _ "rudder_angle"%string _).
  rewrite (read_given kw d "body_length" L (37 / 10) Nd eq_refl H1). cbn [bind].
  rewrite (read_given kw d "body_width" bw 1 Nd eq_refl H2). cbn [bind].
  rewrite (read_given kw d "body_angle" ba 0 Nd eq_refl H3). cbn [bind].
  rewrite (read_given kw d "wing_span" ws (4 / 10) Nd eq_refl H4). cbn [bind].
  rewrite (read_given kw d "wing_length" wl 1 Nd eq_refl H5). cbn [bind].
  rewrite (read_given kw d "wing_TE_back" wt (25 / 100) Nd eq_refl H6). cbn [bind].
  rewrite (read_given kw d "flap_length" fl (3 / 10) Nd eq_refl H7). cbn [bind].
  rewrite (read_given kw d "engine_h" eh (1 / 10) Nd eq_refl H8). cbn [bind].
  rewrite (read_given kw d "fin_height" fh (3 / 10) Nd eq_refl H9). cbn [bind].
  rewrite (read_given kw d "fin_length" fn 1 Nd eq_refl H10). cbn [bind].
  rewrite (read_given kw d "rudder_length" rl (2 / 10) Nd eq_refl H11). cbn [bind].
  rewrite (read_given kw d "flap_angle" fa 0 Nd eq_refl H12). cbn [bind].
  rewrite (read_given kw d "rudder_angle" ra 0 Nd eq_refl H13). cbn [bind].
  reflexivity.
Qed.

Section X43.
  Variable bisect : (R -> res R) -> R -> R -> res R.

  (** the six components by name, from the half body, one wing, the half inlet
      and the two fins *)
  Definition x43_meshes (body wing inlet fin1 fin2 : list (tri R)) : list (string * list (tri R)) :=
    let whole m := m ++ map_mesh (reflect (axis_vec "y")) m in
    [("body", whole body); ("wing1", wing); ("wing2", whole wing); ("inlet", whole inlet); ("fin1", fin1); ("fin2", fin2)]%string.
  Definition x43_file (prefix : option string) (k : string) : string :=
    match text prefix with Some p => (p ++ "-" ++ k ++ ".stl")%string | None => (k ++ ".stl")%string end.
  Definition x43_parts (v : vehicle R) (h2 : heap R) (ms : list (string * list (tri R))) : Prop :=
    v_name v = "X-43A"%string /\ v_components v = map snd (v_named v) /\
    map (fun ki => (fst ki, mesh_of h2 (snd ki))) (v_named v) = map (fun km => (fst km, Ok (snd km))) ms /\
    forall prefix fs0, exists h3 fs, to_stl (mark_generated v) prefix h2 fs0 = (h3, fs, Ok tt) /\
      (forall k m, In (k, m) ms -> dget fs (x43_file prefix k) = Some m) /\
      forall s, (forall k m, In (k, m) ms -> s <> x43_file prefix k) -> dget fs s = dget fs0 s.

  Lemma file_apart prefix k k' : k <> k' -> x43_file prefix k <> x43_file prefix k'.
  Proof using.
    assert (NE : forall (s a b : string), a <> b -> (s ++ a)%string <> (s ++ b)%string).
    { induction s as [|ch s IH]; intros x y H; [exact H|]. intros C. injection C as C. exact (IH x y H C). }
    assert (NS : forall a b : string, a <> b -> (a ++ ".stl")%string <> (b ++ ".stl")%string).
    { intros a b H C. apply H. apply (f_equal list_ascii_of_string) in C.
      assert (X : forall u w, list_ascii_of_string (u ++ w) = (list_ascii_of_string u ++ list_ascii_of_string w)%list) by (induction u; intros w; cbn; congruence).
      rewrite !X in C. apply app_inv_tail in C. apply (f_equal string_of_list_ascii) in C. rewrite !string_of_list_ascii_of_string in C. exact C. }
    intros H. unfold x43_file. destruct (text prefix); [do 2 apply NE|]; apply NS, H.
  Qed.

  (** C105: ParametricX43 on any heap.  The checker never accepts the body nor the
      inlet: edges in the plane of symmetry come twice in the same direction.  One
      wing is there twice: wing1 is also half of wing2.  The flap turns by
      flap_angle radians, the rudders by rudder_angle degrees, both to the same
      side *)
  Theorem C105_x43 L bw ba ws wl wt fl eh fh fn rl fa ra : in_interval bisect -> answers bisect ->
    0 < L <= 1000000 -> 0 < bw -> 0 < ws -> 0 < wl -> fl - wt <= wl / 2 -> 0 < fn -> rl < fn / 2 ->
    exists body wing inlet fin1 fin2, length body = 832%nat /\ length wing = 304%nat /\ length inlet = 832%nat /\
      length fin1 = 208%nat /\ length fin2 = 208%nat /\
      (forall half, In half [body; inlet] -> let whole := half ++ map_mesh (reflect (axis_vec "y")) half in stl_check whole (mesh_normals whole) false true = Ok false) /\
      vertex_of wing (x43_flap_inner L bw ba fl fa) /\ vertex_of wing (x43_flap_outer L bw ba ws wt fl fa) /\
      vertex_of fin1 (x43_rudder_foot L ba fn rl ra (bw / 2)) /\ vertex_of fin1 (x43_rudder_top L ba fh fn rl ra (bw / 2)) /\
      vertex_of fin2 (x43_rudder_foot L ba fn rl ra (- (bw / 2))) /\ vertex_of fin2 (x43_rudder_top L ba fh fn rl ra (- (bw / 2))) /\
      forall call kw h, separate h -> x43_keywords kw L bw ba ws wl wt fl eh fh fn rl fa ra ->
      exists v h2, flies call (ParametricX43 bisect) kw h v h2 /\ x43_parts v h2 (x43_meshes body wing inlet fin1 fin2).
  Proof.
    intros Hin Han HL Hbw Hws Hwl Hb Hfn Hrl.
    destruct (x43_body_ok bisect Hin Han L bw ba HL Hbw) as (wb & gb & Eb & Mb & Kb & Ob).
    destruct (x43_wing_ok bisect Hin Han L bw ba ws wl wt fl fa HL Hbw Hws Hwl Hb) as (ww & gw & Ew & Mw & Kw & Vw).
    destruct (x43_inlet_ok bisect Hin Han L bw ba eh HL Hbw) as (wi & gi & Ei & Mi & Ki & Oi).
    destruct (x43_fin_ok bisect Hin Han L ba fh fn rl ra HL Hfn Hrl (bw / 2)) as (g1 & E1 & K1 & S1 & V1).
    destruct (x43_fin_ok bisect Hin Han L ba fh fn rl ra HL Hfn Hrl (- (bw / 2))) as (g2 & E2 & K2 & S2 & V2).
    set (f1 := x43_fin L ba fh fn rl ra (bw / 2)) in *. set (f2 := x43_fin L ba fh fn rl ra (- (bw / 2))) in *.
    assert (LN : forall n (g : dict (surf R)) ks, dkeys g = ks -> length (wing_grid n g) = (length ks * (4 * (S n * S n)))%nat).
    { intros n g ks K. rewrite wing_grid_length, <- (map_length fst). change (map fst g) with (dkeys g). rewrite K. lia. }
    exists (wing_grid 3 gb), (wing_grid 1 gw), (wing_grid 3 gi), (wing_grid 1 g1), (wing_grid 1 g2).
    pose proof Mb as (_ & [tb Tb] & Kb' & _). pose proof Mw as (_ & [tw Tw] & Kw' & _). pose proof Mi as (_ & [ti Ti] & Ki' & _).
    rewrite Kb in Kb'. rewrite Kw in Kw'. rewrite Ki in Ki'.
    split; [rewrite (LN _ _ _ Kb'); reflexivity|]. split; [rewrite (LN _ _ _ Kw'); reflexivity|]. split; [rewrite (LN _ _ _ Ki'); reflexivity|].
    split; [rewrite (LN _ _ _ K1); reflexivity|]. split; [rewrite (LN _ _ _ K2); reflexivity|].
    split.
    { intros half [<-|[<-|[]]].
      - destruct (Ob 3%nat) as (e & I & P). apply (reflected_open "y" _ e); [right; left; reflexivity|exact I|exact P].
      - destruct (Oi 3%nat) as (e & I & P). apply (reflected_open "y" _ e); [right; left; reflexivity|exact I|exact P]. }
    split; [apply Vw|]. split; [apply Vw|]. split; [apply V1|]. split; [apply V1|]. split; [apply V2|]. split; [apply V2|].
    intros call kw h SP K.
    pose proof (x43_run bisect L bw ba ws wl wt fl eh fh fn rl fa ra h wb ww wi tb tw ti Eb Tb Ew Tw Ei Ti) as RUN. fold f1 f2 in RUN.
    destruct (x43_generates bisect wb ww wi f1 f2 gb gw gi g1 g2 h SP Mb Mw Mi (conj E1 (conj K1 S1)) (conj E2 (conj K2 S2))) as (h2 & A & LC & OP & Q).
    set (c0 := length (comps h)) in *. exists (x43_made c0), h2.
    split; [eexists _, _; split; [apply x43_program, K|]; split; [exact RUN|exact A]|].
    set (body := wing_grid 3 gb) in *. set (wing := wing_grid 1 gw) in *. set (inlet := wing_grid 3 gi) in *. set (fin1 := wing_grid 1 g1) in *. set (fin2 := wing_grid 1 g2) in *.
    pose proof (Q 0%nat (or_introl eq_refl)) as M0. pose proof (Q 5%nat (or_intror (or_introl eq_refl))) as M5. pose proof (Q 1%nat ltac:(cbn; tauto)) as M1.
    pose proof (Q 2%nat ltac:(cbn; tauto)) as M2. pose proof (Q 3%nat ltac:(cbn; tauto)) as M3. pose proof (Q 4%nat ltac:(cbn; tauto)) as M4.
    cbn [x43_piece grid_y] in M0, M1, M2, M3, M4, M5. fold body in M0. fold wing in M1, M5. fold inlet in M2. fold fin1 in M3. fold fin2 in M4. clear Q.
    split; [reflexivity|]. split; [reflexivity|].
    split; [cbn [x43_made v_named map fst snd]; rewrite M0, M1, M2, M3, M4, M5; reflexivity|].
    intros prefix fs0. set (v := mark_generated _).
    set (m := fun i => match mesh_of h2 i with Ok t => t | Raise _ => [] end).
    destruct (filed v prefix h2 fs0 [(x43_file prefix "body", c0 + 0); (x43_file prefix "wing1", c0 + 5); (x43_file prefix "wing2", c0 + 1);
      (x43_file prefix "inlet", c0 + 2); (x43_file prefix "fin1", c0 + 3); (x43_file prefix "fin2", c0 + 4)]%nat%string m) as (h3 & fs & W & F1 & F2).
    { intros i Hi. unfold m. cbn [v mark_generated x43_made v_components In] in Hi.
      destruct Hi as [<-|[<-|[<-|[<-|[<-|[<-|[]]]]]]]; (split; [rewrite LC; lia|]); [rewrite M0|rewrite M5|rewrite M1|rewrite M2|rewrite M3|rewrite M4]; reflexivity. }
    { destruct (OP 0%nat _ eq_refl) as (G0 & T0 & N0). destruct (OP 1%nat _ eq_refl) as (G1 & T1 & N1). destruct (OP 2%nat _ eq_refl) as (G2 & T2 & N2).
      destruct (OP 3%nat _ eq_refl) as (G3 & T3 & N3). destruct (OP 4%nat _ eq_refl) as (G4 & T4 & N4). destruct (OP 5%nat _ eq_refl) as (G5 & T5 & N5).
      cbn [v mark_generated x43_made v_components files]. rewrite G0, G1, G2, G3, G4, G5. cbn [with_options wing_comp fin_comp named_add c_ghost a_ghost app].
      unfold file_name. rewrite N0, N1, N2, N3, N4, N5. unfold x43_file. cbn [with_options named_add a_name over c_name text truthy String.eqb negb].
      destruct (text prefix); reflexivity. }
    { cbn [map fst]. repeat constructor; cbn [In]; intros H; repeat (destruct H as [H|H]; [revert H; apply file_apart; discriminate|]); exact H. }
    { intros s i Hi. cbn [v mark_generated x43_made v_components In] in *.
      repeat (destruct Hi as [Hi|Hi]; [injection Hi as _ <-; tauto|]). destruct Hi. }
    exists h3, fs. split; [exact W|]. split.
    - intros k t I. unfold x43_meshes in I. cbn [In] in I.
      destruct I as [I|[I|[I|[I|[I|[I|[]]]]]]]; injection I as <- <-.
      + rewrite (F1 _ (c0 + 0)%nat ltac:(cbn; tauto)). unfold m. rewrite M0. reflexivity.
      + rewrite (F1 _ (c0 + 5)%nat ltac:(cbn; tauto)). unfold m. rewrite M5. reflexivity.
      + rewrite (F1 _ (c0 + 1)%nat ltac:(cbn; tauto)). unfold m. rewrite M1. reflexivity.
      + rewrite (F1 _ (c0 + 2)%nat ltac:(cbn; tauto)). unfold m. rewrite M2. reflexivity.
      + rewrite (F1 _ (c0 + 3)%nat ltac:(cbn; tauto)). unfold m. rewrite M3. reflexivity.
      + rewrite (F1 _ (c0 + 4)%nat ltac:(cbn; tauto)). unfold m. rewrite M4. reflexivity.
    - intros s H. apply F2. cbn [map fst In]. intros I. unfold x43_meshes in H. cbn [In] in H.
      destruct I as [I|[I|[I|[I|[I|[I|[]]]]]]]; symmetry in I; revert I; eapply H.
      + left; reflexivity.
      + right; left; reflexivity.
      + do 2 right; left; reflexivity.
      + do 3 right; left; reflexivity.
      + do 4 right; left; reflexivity.
      + do 5 right; left; reflexivity.
  Qed.

  (** C105: volume and mass are those of one wing and the two fins: the body, the
      inlet and the second wing contribute nothing *)
  Theorem C105_mass mp areas L bw ba ws wl wt fl eh fh fn rl fa ra : in_interval bisect -> answers bisect -> weighs mp ->
    0 < L <= 1000000 -> 0 < bw -> 0 < ws -> 0 < wl -> fl - wt <= wl / 2 -> 0 < fn -> rl < fn / 2 ->
    exists wing fin1 fin2, forall call kw h densities, separate h -> x43_keywords kw L bw ba ws wl wt fl eh fh fn rl fa ra ->
      (forall k, In k ["body"; "wing1"; "wing2"; "inlet"; "fin1"; "fin2"]%string -> exists r, dget densities k = Some r) ->
      let rho k := match dget densities k with Some r => r | None => 0 end in
      exists v h2 h3 cog moi, flies call (ParametricX43 bisect) kw h v h2 /\
        (forall k i m, In (k, m) [("wing1", wing); ("fin1", fin1); ("fin2", fin2)]%string -> dget (v_named v) k = Some i -> mesh_of h2 i = Ok m) /\
        analyse mp areas (mark_generated v) densities h2 = (h3, mark_generated v,
          Ok (signed_volume wing + signed_volume fin1 + signed_volume fin2,
              rho "wing1"%string * signed_volume wing + rho "fin1"%string * signed_volume fin1 + rho "fin2"%string * signed_volume fin2, cog, moi)).
  Proof.
    intros Hin Han MP HL Hbw Hws Hwl Hb Hfn Hrl.
    destruct (C105_x43 L bw ba ws wl wt fl eh fh fn rl fa ra Hin Han HL Hbw Hws Hwl Hb Hfn Hrl) as (body & wing & inlet & fin1 & fin2 & _ & _ & _ & _ & _ & _ & _ & _ & _ & _ & _ & _ & H).
    exists wing, fin1, fin2. intros call kw h densities SP K Den rho. destruct (H call kw h SP K) as (v & h2 & FL & _ & _ & MM & _). clear H.
    unfold x43_meshes in MM. set (whole := fun m => m ++ map_mesh (reflect (axis_vec "y")) m) in MM. cbv beta zeta in MM.
    destruct (v_named v) as [|[k1 i1] [|[k2 i2] [|[k3 i3] [|[k4 i4] [|[k5 i5] [|[k6 i6] [|]]]]]]] eqn:Evn; try discriminate MM.
    cbn [map fst snd] in MM. injection MM as -> A1 -> A2 -> A3 -> A4 -> A5 -> A6.
    assert (Z : forall m, signed_volume (m ++ map_mesh (reflect (axis_vec "y")) m) = 0).
    { intros m. rewrite signed_volume_app, reflect_volume by (apply axis_cases; right; left; reflexivity). ring. }
    set (m := fun i => match mesh_of h2 i with Ok t => t | Raise _ => [] end).
    destruct (weighed mp areas (mark_generated v) h2 densities m MP eq_refl) as (h3 & cog & moi & AN).
    - cbn [mark_generated v_named]. rewrite Evn. discriminate.
    - cbn [mark_generated v_named]. rewrite Evn. intros k i I. cbn [In] in I. unfold m.
      destruct I as [I|[I|[I|[I|[I|[I|[]]]]]]]; injection I as <- <-;
        (split; [first [rewrite A1|rewrite A2|rewrite A3|rewrite A4|rewrite A5|rewrite A6]; reflexivity|apply Den; cbn; tauto]).
    - exists v, h2, h3, cog, moi. split; [exact FL|]. split.
      { intros k i t I D. rewrite Evn in D. cbn [In] in I. destruct I as [I|[I|[I|[]]]]; injection I as <- <-; cbn in D; injection D as <-; assumption. }
      rewrite AN. cbn [mark_generated v_named]. rewrite Evn. cbn [rsum fst snd]. unfold m. rewrite A1, A2, A3, A4, A5, A6, !Z.
      change (match dget densities "wing1" with Some r => r | None => 0 end) with (rho "wing1"%string).
      change (match dget densities "fin1" with Some r => r | None => 0 end) with (rho "fin1"%string).
      change (match dget densities "fin2" with Some r => r | None => 0 end) with (rho "fin2"%string).
      match goal with |- (_, _, Ok (?a, ?b, _, _)) = (_, _, Ok (?c, ?d, _, _)) => replace a with c by ring; replace b with d by ring end. reflexivity.
  Qed.
End X43.

(** a flap turned by 15, which is not a turn of 15 degrees, and rudders turned by
    10 degrees *)
Example C105_meets : in_interval sign_bisect /\ answers sign_bisect /\ separate (mkHeap [] []) /\
  x43_keywords [("flap_angle"%string, PNum 15); ("rudder_angle"%string, PNum 10)] (37 / 10) 1 0 (4 / 10) 1 (25 / 100) (3 / 10) (1 / 10) (3 / 10) 1 (2 / 10) 15 10 /\
  3 / 10 - 25 / 100 <= 1 / 2 /\ 2 / 10 < 1 / 2 /\
  weighs (fun m rho => (signed_volume m, signed_volume m * rho, origin, M3 origin origin origin)).
Proof.
  split; [exact sign_in|]. split; [exact sign_answers|]. split; [|split; [|split; [lra|split; [lra|]]]].
  - split; [intros j Hj; cbn in Hj; lia|]. intros j k c c' H. destruct j; discriminate.
  - split; [split; [repeat constructor; cbn; intuition discriminate|split; cbn; intuition discriminate]|]. repeat split.
  - intros m rho. eauto.
Qed.

Print Assumptions C105_x43.
Print Assumptions C105_mass.
