(** C104: the mass of a vehicle assembled from turned and reflected parts. *)
From Coq Require Import String Reals Lra ZArith List Permutation Lia Bool.
From Verif Require Import Num NumR Py M_Vector SpecR3 M_Path M_Surface M_Geometry M_Mesh M_Component M_Common M_Vehicle M_Hangar M_Inertia
  SpecPath SpecSurf SpecMesh SpecComp SpecVehicle SpecAdd SpecFiles SpecInertia SpecPrism SpecHangar SpecPair SpecHtv SpecLedger
  L_Vector L_Edges L_Component L_Heap L_Rigid L_Pipeline L_Generate L_Files L_Prism L_Reflect L_Volume L_Hangar L_Block L_SweptComp L_Wedge L_Pair L_Kit L_Mesh
  P_Inertia P_Falcon.
Import ListNotations.
Local Open Scope R_scope.

(** the analysis of any vehicle whose meshes are there *)
Lemma weighed mp areas (v : vehicle R) h densities (meshes : nat -> list (tri R)) : weighs mp -> v_generated v = true -> v_named v <> [] ->
  (forall k i, In (k, i) (v_named v) -> mesh_of h i = Ok (meshes i) /\ exists r, dget densities k = Some r) ->
  let rho k := match dget densities k with Some r => r | None => 0 end in
  exists h' cog moi, analyse mp areas v densities h = (h', v,
    Ok (rsum (fun ki => signed_volume (meshes (snd ki))) (v_named v), rsum (fun ki => rho (fst ki) * signed_volume (meshes (snd ki))) (v_named v), cog, moi)).
Proof.
  intros MP GE NE H rho. destruct (C59_totals mp areas v densities h GE NE) as (h' & P & cs & _ & AN & FF & SM & SV & _).
  - apply Forall_forall. intros [k i] Hi. destruct (H k i Hi) as (M & r & D). destruct (MP (meshes i) r) as (cog & moi & E).
    eexists (mkMeasures _ _ _ _ _). exists (meshes i), r. split; [exact M|]. split; [exact D|]. split; [exact E|reflexivity].
  - exists h', (p_cog P), (p_moi P). rewrite AN, SM, SV. clear AN SM SV NE GE.
    assert (X : rsum (fun kc => m_volume (snd kc)) cs = rsum (fun ki => signed_volume (meshes (snd ki))) (v_named v) /\
                rsum (fun kc => m_mass (snd kc)) cs = rsum (fun ki => rho (fst ki) * signed_volume (meshes (snd ki))) (v_named v)).
    { clear P. revert H. induction FF as [|[k i] [k' c] l l' [E (m & r & M & D & F & _)] _ IH]; intros H; [split; reflexivity|].
      destruct IH as [I1 I2]; [intros k0 i0 Hi; apply H; right; exact Hi|]. cbn [rsum map fst snd] in *. rewrite <- I1, <- I2.
      destruct (H k i (or_introl eq_refl)) as [M' _]. rewrite M' in M. injection M as <-.
      destruct (MP (meshes i) r) as (cog & moi & E'). rewrite E' in F. injection F as F1 F2 _ _.
      unfold rho at 1. cbn [fst snd] in D. rewrite D, <- F1, <- F2. split; [reflexivity|]. f_equal. ring. }
    destruct X as [-> ->]. reflexivity.
Qed.

Section Ledger.
  Variables (v : vehicle R) (h : heap R) (more : list motion) (part : nat -> list (tri R)) (sign : nat -> R).
  (** a vehicle of any number of parts, turned and reflected in any way, each
      entering one component only *)
  Definition assembled : Prop := separate h /\ NoDup (flat_map (with_children h) (v_components v)) /\
    v_transformations v = map written more /\ Forall is_turn more /\
    (forall i, In i (v_components v) -> stocked h i (part i) (sign i)) /\
    v_named v <> [] /\ (forall k i, In (k, i) (v_named v) -> In i (v_components v)).

  (** C104: the volume and the mass are those of the parts, multiplied by the
      sign that their reflection gives them.  Angle of attack, turns and the
      order of the parts have no influence *)
  Theorem C104_ledger mp areas densities : weighs mp -> assembled ->
    (forall k i, In (k, i) (v_named v) -> exists r, dget densities k = Some r) ->
    let rho k := match dget densities k with Some r => r | None => 0 end in
    exists h2 h3 cog moi, generate v h = (h2, mark_generated v, Ok tt) /\
      analyse mp areas (mark_generated v) densities h2 = (h3, mark_generated v,
        Ok (rsum (fun ki => sign (snd ki) * signed_volume (part (snd ki))) (v_named v),
            rsum (fun ki => rho (fst ki) * (sign (snd ki) * signed_volume (part (snd ki)))) (v_named v), cog, moi)).
  Proof.
    intros MP (SP & ND & ET & TM & ST & NE & NC) D rho.
    destruct (stock_generates v h more SP ND ET TM) as (h2 & A & _ & _ & Q).
    { intros i Hi. exists (part i), (sign i). apply ST, Hi. }
    assert (M : forall i, In i (v_components v) -> exists m, mesh_of h2 i = Ok m /\ signed_volume m = sign i * signed_volume (part i)).
    { intros i Hi. destruct (ST i Hi) as (g & p & n & Rd & T & U & NG & Sq & -> & ->).
      destruct (Q i g p n Hi Rd T U NG Sq) as (f1 & f2 & [_ S1] & [_ S2] & E). eexists. split; [exact E|].
      unfold counted. destruct (p_axis p); [|apply S1].
      rewrite signed_volume_app, S2. destruct (p_append p); [rewrite S1; ring|]. unfold signed_volume at 1. cbn. lra. }
    destruct (weighed mp areas (mark_generated v) h2 densities (fun i => match mesh_of h2 i with Ok m => m | Raise _ => [] end) MP eq_refl NE) as (h3 & cog & moi & E).
    { intros k i Hi. destruct (M i (NC k i Hi)) as (m & -> & _). split; [reflexivity|]. exact (D k i Hi). }
    exists h2, h3, cog, moi. split; [exact A|]. rewrite E. cbn [mark_generated v_named].
    assert (X : forall F : string * nat -> R -> R,
      rsum (fun ki => F ki (signed_volume (match mesh_of h2 (snd ki) with Ok m => m | Raise _ => [] end))) (v_named v) =
      rsum (fun ki => F ki (sign (snd ki) * signed_volume (part (snd ki)))) (v_named v)).
    { intros F. revert NC. clear - M. induction (v_named v) as [|[k i] l IH]; intros NC; [reflexivity|]. cbn [rsum snd].
      rewrite (IH (fun k0 i0 Hi => NC k0 i0 (or_intror Hi))). destruct (M i (NC k i (or_introl eq_refl))) as (m & -> & <-). reflexivity. }
    rewrite (X (fun _ x => x)), (X (fun ki x => match dget densities (fst ki) with Some r => r | None => 0 end * x)). reflexivity.
  Qed.

  (** so parts with their mirror image are not weighed at all: the densities
      given for them, and whatever they are, do not matter.  A vehicle of such
      parts only weighs nothing *)
  Theorem C104_symmetric mp areas densities : weighs mp -> assembled ->
    (forall k i, In (k, i) (v_named v) -> exists r, dget densities k = Some r) ->
    (forall i, In i (v_components v) -> sign i = 0) ->
    exists h2 h3 cog moi, generate v h = (h2, mark_generated v, Ok tt) /\
      analyse mp areas (mark_generated v) densities h2 = (h3, mark_generated v, Ok (0, 0, cog, moi)).
  Proof.
    intros MP AS D Z. destruct (C104_ledger mp areas densities MP AS D) as (h2 & h3 & cog & moi & A & E).
    exists h2, h3, cog, moi. split; [exact A|]. rewrite E. destruct AS as (_ & _ & _ & _ & _ & _ & NC).
    assert (X : forall F : string * nat -> R -> R, (forall k, F k 0 = 0) -> rsum (fun ki => F ki (sign (snd ki) * signed_volume (part (snd ki)))) (v_named v) = 0).
    { intros F F0. revert NC. clear - Z F0. induction (v_named v) as [|[k i] l IH]; intros NC; [reflexivity|]. cbn [rsum snd].
      rewrite (IH (fun k0 i0 Hi => NC k0 i0 (or_intror Hi))), (Z i (NC k i (or_introl eq_refl))), Rmult_0_l, F0. lra. }
    rewrite (X (fun _ x => x)), (X (fun ki x => match dget densities (fst ki) with Some r => r | None => 0 end * x)); auto. intros; ring.
  Qed.
End Ledger.

(** two wedges at an angle of attack, one of them replaced by its mirror image,
    the whole vehicle turned *)
Definition two_wedges : heap R :=
  ext (mkHeap [] []) [[]; []]
    [with_options 1 default_add (block_comp (wedge_corner 1 2 3) 10 None 0);
     with_options 1 (mirror_args None "x" false false) (block_comp (wedge_corner 4 5 6) 10 None 1)].
Definition two_wedge_vehicle : vehicle R :=
  mkVehicle [0; 1]%nat "pair" 5 1 false [("swept"%string, 2%nat)] [("swept_1"%string, 0%nat); ("swept_2"%string, 1%nat)]
    [("left"%string, 0%nat); ("right"%string, 1%nat)] [written (Turn 30 "z")].
Example C104_meets : exists part, assembled two_wedge_vehicle two_wedges [Turn 30 "z"] part (fun i => match i with O => 1 | _ => -1 end) /\
  length (part 0%nat) = 2400%nat /\ length (part 1%nat) = 2400%nat.
Proof.
  destruct (block_result_ok (wedge_corner 1 2 3) 10) as (g & rr & rs & G & NE & V).
  destruct (block_result_ok (wedge_corner 4 5 6) 10) as (g' & rr' & rs' & G' & NE' & V').
  assert (SQ : forall g q, values01 (dvals g) (faces q) -> forall u, In u (dvals g) -> on_square u).
  { clear. intros g q. unfold values01. generalize (faces q). induction 1 as [|u v us vs E _ IH]; [intros u []|].
    intros w [<-|Hw]; [|apply IH, Hw]. intros r s Hr Hs. rewrite (E r s Hr Hs). eexists; reflexivity. }
  exists (fun i => match i with O => as_built 9 g | _ => as_built 9 g' end). split; [|].
  - split; [|split; [|split; [|split; [|split; [|split]]]]].
    + unfold two_wedges. eapply (ext_separate _ _ _ [0; 1]%nat); [|reflexivity| |]; [|repeat constructor; cbn; intuition discriminate|repeat constructor].
      split; [intros j Hj; cbn in Hj; lia|]. intros j k c c' H. destruct j; discriminate.
    + cbn. repeat constructor; cbn; intuition discriminate.
    + reflexivity.
    + constructor; [|constructor]. exists 30, "z"%string. split; [reflexivity|right; right; reflexivity].
    + intros i [<-|[<-|[]]].
      * exists g, still, 9%nat. split.
        { enough (Q : ready two_wedges (length (comps (mkHeap [] [] : heap R)) + 0) g still) by exact Q.
          unfold two_wedges. eapply block_ready; [reflexivity|reflexivity|exact G|..].
          - exists 0%nat. auto.
          - split; [discriminate|constructor].
          - repeat split. right. auto. }
        split; [repeat split; constructor|]. split; [eexists; split; [reflexivity|repeat split]|].
        split; [exact NE|]. split; [exact (SQ _ _ V)|]. split; reflexivity.
      * exists g', (mirror_plan "x" false), 9%nat. split.
        { enough (Q : ready two_wedges (length (comps (mkHeap [] [] : heap R)) + 1) g' (mirror_plan "x" false)) by exact Q.
          unfold two_wedges. eapply block_ready; [reflexivity|reflexivity|exact G'|..].
          - exists 1%nat. auto.
          - split; [intros x Hx; injection Hx as <-; left; reflexivity|constructor].
          - repeat split. right. auto. }
        split; [repeat split; constructor|]. split; [eexists; split; [reflexivity|repeat split]|].
        split; [exact NE'|]. split; [exact (SQ _ _ V')|]. split; reflexivity.
    + discriminate.
    + intros k i [H|[H|[]]]; injection H as <- <-; cbn; auto.
  - destruct (block_patches (wedge_corner 1 2 3) 10) as (l & El & Kl & _). destruct (block_patches (wedge_corner 4 5 6) 10) as (l' & El' & Kl' & _).
    unfold block_result in G, G'. rewrite El in G. rewrite El' in G'. cbn [bind] in G, G'. injection G as <- _ _. injection G' as <- _ _.
    assert (X : forall d, dkeys d = dkeys (sized_patches l) -> length (as_built 9 d) = 2400%nat).
    { intros d Hd. assert (Q : length d = 6%nat) by (rewrite <- (map_length fst); change (map fst d) with (dkeys d); rewrite Hd, Kl; reflexivity).
      unfold as_built. destruct d as [|a1 [|a2 [|a3 [|a4 [|a5 [|a6 [|]]]]]]]; try discriminate. cbn [flat_map]. rewrite !app_length.
      unfold patch_grid. rewrite !grid_mesh_length. reflexivity. }
    split; apply X; [reflexivity|]. rewrite Kl, Kl'. reflexivity.
Qed.
Print Assumptions C104_ledger.
Print Assumptions C104_symmetric.
