(** C96: a component and its deep copy, one of them reflected
    (hangar/x43.py:345-346, htv.py:144-145, waverider.py:373-384). *)
From Coq Require Import String Reals Lra ZArith List Permutation Lia Bool.
From Verif Require Import Num NumR Py M_Vector SpecR3 M_Path M_Surface M_Geometry M_Mesh M_Component M_Vehicle M_Inertia M_Hangar
  SpecPath SpecPoly SpecSurf SpecMesh SpecComp SpecVehicle SpecAdd SpecFiles SpecInertia SpecPair
  L_Reflect L_Volume L_Block L_Pair P_Vehicle P_Inertia P_Falcon.
Import ListNotations.
Local Open Scope R_scope.

(** C96: for every vehicle and every component i that is not yet part of it:
    v.add_component(deepcopy(i)); v.add_component(i, reflection_axis=axis,
    append_reflection=b); v.generate().  The reflected component is the mirror
    image of the other one only with append_reflection=False; by default it
    contains the triangles of the other one once more. *)
Theorem C96_pair (v : vehicle R) h i c g n axis b n1 n2 g1 g2 :
  separate h -> untouched h i c g n -> accepts (c_type c) = true -> is_axis axis -> v_transformations v = [] ->
  (forall k, In k (v_components v) -> exists g p, ready h k g p) ->
  NoDup (i :: flat_map (with_children h) (v_components v)) ->
  exists h1 j h2 v2 h3 m, 
    deepcopy_comp i h = (h1, Ok j) /\
    adds v [(j, plain_args n1 g1); (i, mirror_args n2 axis b g2)] h1 = (h2, v2) /\
    v_components v2 = v_components v ++ [j; i] /\
    generate v2 h2 = (h3, mark_generated v2, Ok tt) /\
    mesh_of h3 j = Ok m /\
    mesh_of h3 i = Ok ((if b then m else []) ++ map_mesh (reflect (axis_vec axis)) m).
Proof.
  intros SP (E & (r & rr & rs & KD & EM) & PK & NE & VAL & PL & U1 & U2 & U3 & U4) TY AX VT RD ND.
  destruct (pair_meshes v h i c g rr rs r n axis b n1 n2 g1 g2) as (h1 & h2 & v2 & h3 & m & A & B & C & _ & D & F & G); auto.
  - exists c. auto.
  - exists h1, (length (comps h)), h2, v2, h3, m. auto 10.
Qed.

(** C96: the figures of such a pair in an otherwise empty vehicle, with equal
    densities: half of those of two bodies when the reflection is appended,
    nothing at all when it is not *)
Theorem C96_mass mp areas h i c g n axis b k1 k2 name densities rho :
  weighs mp -> separate h -> untouched h i c g n -> accepts (c_type c) = true -> is_axis axis ->
  k1 <> k2 -> dget densities k1 = Some rho -> dget densities k2 = Some rho ->
  exists h1 j h2 v2 h3 m h4 volume mass cog moi,
    deepcopy_comp i h = (h1, Ok j) /\
    adds (configured name) [(j, plain_args (Some k1) false); (i, mirror_args (Some k2) axis b false)] h1 = (h2, v2) /\
    generate v2 h2 = (h3, mark_generated v2, Ok tt) /\
    mesh_of h3 j = Ok m /\
    analyse mp areas (mark_generated v2) densities h3 = (h4, mark_generated v2, Ok (volume, mass, cog, moi)) /\
    volume = (if b then signed_volume m else 0) /\ mass = (if b then rho * signed_volume m else 0).
Proof.
  intros MP SP (E & (r & rr & rs & KD & EM) & PK & NE & VAL & PL & U1 & U2 & U3 & U4) TY AX NK D1 D2.
  destruct (pair_meshes (configured name) h i c g rr rs r n axis b (Some k1) (Some k2) false false) as (h1 & h2 & v2 & h3 & m & A & B & C & Dn & G & M1 & M2); auto.
  { exists c. auto. }
  { intros k []. }
  { cbn. constructor; [intros []|constructor]. }
  set (j := length (comps h)) in *. set (m2 := (if b then m else []) ++ map_mesh (reflect (axis_vec axis)) m) in *.
  assert (Vn : v_named v2 = [(k1, j); (k2, i)]).
  { rewrite Dn. cbn [configured v_named dset]. rewrite (proj2 (String.eqb_neq k2 k1)) by congruence. reflexivity. }
  assert (V2 : signed_volume m2 = (if b then signed_volume m else 0) - signed_volume m).
  { unfold m2. rewrite signed_volume_app, reflect_volume by (apply axis_cases, AX). destruct b; [ring|]. cbn. unfold signed_volume. cbn. lra. }
  destruct (MP m rho) as (cg1 & mo1 & E1). destruct (MP m2 rho) as (cg2 & mo2 & E2).
  destruct (C59_totals mp areas (mark_generated v2) densities h3) as (h4 & P & cs & _ & AN & FF & SM & SV & _).
  - reflexivity.
  - cbn [mark_generated v_named]. rewrite Vn. discriminate.
  - cbn [mark_generated v_named]. rewrite Vn. constructor; [|constructor; [|constructor]].
    + eexists (mkMeasures _ _ _ _ _). exists m, rho. split; [exact M1|]. split; [exact D1|]. split; [exact E1|reflexivity].
    + eexists (mkMeasures _ _ _ _ _). exists m2, rho. split; [exact M2|]. split; [exact D2|]. split; [exact E2|reflexivity].
  - exists h1, j, h2, v2, h3, m, h4, (p_volume P), (p_mass P), (p_cog P), (p_moi P).
    split; [exact A|]. split; [exact B|]. split; [exact G|]. split; [exact M1|]. split; [exact AN|].
    cbn [mark_generated v_named] in FF. rewrite Vn in FF.
    inversion FF as [|x y l l' [_ (m' & rho1 & B1 & B2 & B3 & _)] FF' X Y]; subst. inversion FF' as [|x' y' l0 l0' [_ (m'' & rho' & B1' & B2' & B3' & _)] FF'' X' Y']; subst. inversion FF''; subst.
    cbn [snd fst] in *. rewrite M1 in B1. apply ok_inj in B1. subst m'. rewrite M2 in B1'. apply ok_inj in B1'. subst m''.
    rewrite D1 in B2. injection B2 as <-. rewrite D2 in B2'. injection B2' as <-. rewrite E1 in B3. rewrite E2 in B3'.
    injection B3 as Q1 Q2 _ _. injection B3' as Q3 Q4 _ _. rewrite SM, SV. cbn [rsum snd]. rewrite <- Q1, <- Q2, <- Q3, <- Q4, V2.
    destruct b; split; ring.
Qed.

(** a wing-like component of two sheets on a heap with another component *)
Definition bare (t : string) (g : dict (surf R)) (r : nat) : comp R :=
  mkComp t (Own false (Ok (g, [], []))) r [] [] (ResInt 3) None None None no_clustering [] None None true false None 1.
Definition two_parts : heap R := mkHeap [[]; []] [bare "wing" wing_patches 0; bare "swept" [("s"%string, sheet 4)] 1].
Definition one_swept : vehicle R := mkVehicle [1%nat] "v" 5 1 false [] [] [] [].
Example C96_meets : separate two_parts /\ untouched two_parts 0 (bare "wing" wing_patches 0) wing_patches 2 /\
  accepts (c_type (bare "wing" wing_patches 0)) = true /\ is_axis "y" /\
  v_transformations one_swept = [] /\ (forall k, In k (v_components one_swept) -> exists g p, ready two_parts k g p) /\
  NoDup (0%nat :: flat_map (with_children two_parts) (v_components one_swept)) /\
  weighs (fun m rho => (signed_volume m, signed_volume m * rho, origin, M3 origin origin origin)).
Proof.
  split; [eapply separate_by; [reflexivity| |]; cbn; repeat constructor; cbn; intuition discriminate|].
  split; [|split; [reflexivity|split; [right; left; reflexivity|split; [reflexivity|split; [|split; [cbn; repeat constructor; cbn; intuition discriminate|intros m rho; eauto]]]]]].
  - split; [reflexivity|]. split; [eexists _, _, _; split; [reflexivity|right; reflexivity]|].
    split; [split; [cbn; repeat constructor; cbn; intuition discriminate|intros k Hk; cbn in Hk |- *; destruct Hk as [<-|[<-|[]]]; cbn; intuition discriminate]|].
    split; [discriminate|]. split; [intros u [<-|[<-|[]]] r s _ _; eexists; reflexivity|].
    split; [split; [reflexivity|split; [right; auto|repeat split]]|]. repeat split.
  - intros k [<-|[]]. exists [("s"%string, sheet 4)], (mkPlan None [] None true []).
    split; [left; eexists _, _, _, _; split; [reflexivity|]; split; [reflexivity|]; split; [cbn; repeat constructor; tauto|right; reflexivity]|].
    split; [split; [cbn; repeat constructor; tauto|intros k Hk; cbn in Hk |- *; destruct Hk as [<-|[]]; cbn; intuition discriminate]|]. split; [split; [discriminate|constructor]|].
    eexists. split; [reflexivity|]. split; [reflexivity|split; [right; auto|repeat split]].
Qed.

Print Assumptions C96_pair. Print Assumptions C96_mass.
