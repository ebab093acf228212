(** Revolved components on the heap, and the Falcon 9. *)
From Coq Require Import String Reals Lra ZArith List Permutation Lia Bool.
From Verif Require Import Num NumR Py M_Vector SpecR3 M_Path M_Surface M_Geometry M_Mesh M_Component M_Vehicle M_VecHeap M_Sens M_Gen M_Hangar M_Falcon M_Common
  SpecPath SpecPoly SpecSurf SpecMesh SpecComp SpecVehicle SpecAdd SpecFiles SpecPrism SpecHangar L_Vector L_Edges L_Mesh L_Volume L_Component
  L_RevolvedComp L_Heap L_Rigid L_Pipeline L_Generate L_Cache L_Files L_Prism L_Hangar L_Block L_Wedge L_Lathe L_Finner P_Ogive P_Lathe.
From Verif Require Import SpecLathe SpecProfile L_Profile P_Profile.
Import ListNotations.
Local Open Scope R_scope.

(** ** the mesh of one profile *)
Definition profile_mesh (n : nat) (g : R -> pt) : list (tri R) := flat_map (patch_grid n) (four g).
Lemma profile_turned n line g : evaluates01 line g -> turned_mesh n line = Ok (profile_mesh n g).
Proof. apply turned_mesh_four. Qed.
Lemma profile_count n g : length (profile_mesh n g) = (4 * (4 * S n * S n))%nat.
Proof.
  assert (L : forall v, length (patch_grid n v) = (4 * S n * S n)%nat).
  { intros v. unfold patch_grid. rewrite grid_mesh_length. lia. }
  unfold profile_mesh, four. cbn [seq map flat_map]. rewrite !app_length, !L. cbn [length]. lia.
Qed.
Lemma profile_reaches n g : on_axis (g 0) -> on_axis (g 1) -> vertex_of (profile_mesh n g) (g 0) /\ vertex_of (profile_mesh n g) (g 1).
Proof.
  intros [A0 B0] [A1 B1].
  assert (I : forall p, vertex_of (patch_grid n (rev_val g 0)) p -> vertex_of (profile_mesh n g) p).
  { intros p (t & Ht & Hp). exists t. split; [|exact Hp]. unfold profile_mesh. apply in_flat_map. exists (rev_val g 0). split; [left; reflexivity|exact Ht]. }
  assert (Q : forall r, vy (g r) = 0 -> vz (g r) = 0 -> rev_val g 0 r 0 = g r).
  { intros r Y Z. unfold rev_val, turn. apply vec_ext; cbn [vx vy vz]; rewrite ?Y, ?Z; ring. }
  split; apply I.
  - rewrite <- (Q 0 A0 B0) at 1. apply grid_corner.
  - rewrite <- (Q 1 A1 B1) at 1. apply grid_corner1.
Qed.
Lemma profile_inside n g lo hi H : 0 <= H -> planar g -> (forall t, 0 <= t <= 1 -> lo <= vx (g t) <= hi /\ 0 <= vy (g t) <= H) ->
  forall p, vertex_of (profile_mesh n g) p -> lo <= vx p <= hi /\ radius_x p <= H.
Proof.
  intros HH PL G p Hp.
  assert (K : forall a b, (forall i r s, 0 <= r <= 1 -> in_half a b (rev_val g i r s)) -> in_half a b p).
  { intros a b K. apply (vertex_in n a b (four g)); [|exact Hp]. intros v Hv r s Hr _. unfold four in Hv. apply in_map_iff in Hv. destruct Hv as (i & <- & _).
    apply K, Hr. }
  clear Hp. unfold in_half, inner, rev_val, turn in K. cbn [vx vy vz] in K.
  pose proof (K (V3 1 0 0) hi) as X1. pose proof (K (V3 (-1) 0 0) (- lo)) as X2. cbn [vx vy vz] in X1, X2.
  assert (1 * vx p + 0 * vy p + 0 * vz p <= hi) by (apply X1; intros i r s Hr; destruct (G r Hr) as (? & _); lra).
  assert (-1 * vx p + 0 * vy p + 0 * vz p <= - lo) by (apply X2; intros i r s Hr; destruct (G r Hr) as (? & _); lra).
  split; [lra|]. clear X1 X2.
  destruct (Req_dec (radius_x p) 0) as [Z|Z]; [lra|].
  assert (P : 0 < radius_x p) by (pose proof (sqrt_pos (vy p * vy p + vz p * vz p)); unfold radius_x in *; lra).
  assert (Sq : radius_x p * radius_x p = vy p * vy p + vz p * vz p).
  { unfold radius_x. apply sqrt_sqrt. pose proof (Rle_0_sqr (vy p)) as S1. pose proof (Rle_0_sqr (vz p)) as S2. unfold Rsqr in *. lra. }
  specialize (K (V3 0 (vy p) (vz p)) (H * radius_x p)). cbn [vx vy vz] in K.
  assert (Q : 0 * vx p + vy p * vy p + vz p * vz p <= H * radius_x p).
  { apply K. intros i r s Hr. destruct (G r Hr) as (_ & Y). rewrite (PL r Hr).
    set (a := INR i * PI / 2 * (1 - s) + INR (i + 1) * PI / 2 * s). pose proof (sin2_cos2 a) as SC. unfold Rsqr in SC.
    set (X := vy p * cos a - vz p * sin a).
    assert (C : X * X <= radius_x p * radius_x p).
    { rewrite Sq. pose proof (Rle_0_sqr (vy p * sin a + vz p * cos a)) as N0. unfold Rsqr in N0. unfold X.
      replace (vy p * vy p + vz p * vz p) with ((vy p * vy p + vz p * vz p) * (sin a * sin a + cos a * cos a)) by (rewrite SC; ring). lra. }
    assert (C' : X <= radius_x p) by (destruct (Rle_dec X (radius_x p)) as [?|?]; [assumption|nra]).
    replace (0 * vx (g r) + vy p * (vy (g r) * cos a + 0 * sin a) + vz p * (0 * cos a - vy (g r) * sin a)) with (vy (g r) * X) by (unfold X; ring).
    apply Rle_trans with (vy (g r) * radius_x p); [apply Rmult_le_compat_l; lra|apply Rmult_le_compat_r; lra]. }
  apply (Rmult_le_reg_r (radius_x p)); [exact P|]. rewrite Sq. lra.
Qed.

(** ** a path that draws a profile from the axis to the axis *)
Lemma draws_le H H' p a b : H <= H' -> draws H p a b -> draws H' p a b.
Proof.
  intros L (T & Ln & g & E & G0 & G1 & P & M & A & B). split; [exact T|]. split; [exact Ln|]. exists g. repeat split; auto.
  intros t Ht. specialize (B t Ht). lra.
Qed.
Lemma drawn_mesh H p a b n : draws H p a b -> on_axis a -> on_axis b -> vx b < vx a -> exists g, evaluates01 p g /\
  let m := profile_mesh (S n) g in watertight m /\ length m = (4 * (4 * S (S n) * S (S n)))%nat /\
  - (ngon (4 * S (S n)) * (H * H) * (vx a - vx b)) <= signed_volume m < 0 /\
  vertex_of m a /\ vertex_of m b /\ forall q, vertex_of m q -> vx b <= vx q <= vx a /\ radius_x q <= H.
Proof.
  intros (_ & _ & g & E & G0 & G1 & P & M & A & B) Aa Ab X. exists g. split; [exact E|]. cbv zeta.
  assert (Y : forall t, 0 <= t <= 1 -> 0 <= vy (g t) <= H).
  { intros t Ht. split; [|apply B, Ht]. destruct (Req_dec t 0) as [-> |N0]; [rewrite G0; destruct Aa; lra|].
    destruct (Req_dec t 1) as [-> |N1]; [rewrite G1; destruct Ab; lra|]. left. apply A. lra. }
  assert (HH : 0 <= H) by (specialize (Y 0 ltac:(lra)); lra).
  assert (Aa' : on_axis (g 0)) by (rewrite G0; exact Aa). assert (Ab' : on_axis (g 1)) by (rewrite G1; exact Ab).
  destruct (C93_inward p g n H E Aa' Ab' P M A B ltac:(rewrite G0, G1; exact X)) as (m & Hm & W & V).
  rewrite (profile_turned (S n) p g E) in Hm. injection Hm as <-.
  split; [exact W|]. split; [apply profile_count|]. rewrite G0, G1 in V. split; [exact V|].
  destruct (profile_reaches (S n) g Aa' Ab') as [R0 R1]. rewrite G0 in R0. rewrite G1 in R1. split; [exact R0|]. split; [exact R1|].
  apply profile_inside; [exact HH|exact P|]. intros t Ht. split; [|apply Y, Ht].
  pose proof (M 0 t ltac:(lra) ltac:(lra)) as M0. pose proof (M t 1 ltac:(lra) ltac:(lra)) as M1. rewrite G0 in M0. rewrite G1 in M1. lra.
Qed.

(** ** the lines of the Falcon 9 *)
Section Lines.
  Variables D Lb h rn ro fl : R.
  Hypothesis HD : 0 < D.
  Hypothesis HLb : 0 < Lb.
  Hypothesis Hn : 0 < rn.
  Hypothesis Hh : rn < h < ro.
  Hypothesis Hf : 0 < fl.
  Let X := sqrt ((ro - rn) * (ro - rn) - (ro - h) * (ro - h)).
  Lemma fairing_parts : falcon9_fairing D h rn ro fl =
    let f1 := V3 (- fl) h 0 in let fb1 := V3 (- fl - 1 / 10 * fl) (D / 2) 0 in
    let! fb := Polyline [Line f1 fb1; Line fb1 (V3 (- fl - 3 / 10 * fl) 0 0)] in
    let o := ogive_parts h rn ro fl in Polyline [og_nose o; og_arc o; og_fairing o; fb].
  Proof using.
    unfold falcon9_fairing, ogive_parts, vec2. cbv zeta. cbn [og_nose og_arc og_fairing].
    assert (F1 : vsub (V3 n0 h n0) (V3 fl n0 n0) = V3 (- fl) h 0) by (apply vec_ext; cbn; ring). rewrite F1. cbn [vx].
    assert (F2 : V3 (nsub (- fl) (nmul (nlit 1 10) fl)) (ndiv D n2) n0 = V3 (- fl - 1 / 10 * fl) (D / 2) 0) by reflexivity.
    assert (F3 : V3 (nsub (- fl) (nmul (nlit 3 10) fl)) n0 n0 = V3 (- fl - 3 / 10 * fl) 0 0) by reflexivity.
    rewrite F2, F3. reflexivity.
  Qed.
  Lemma fairing_draws : exists p, falcon9_fairing D h rn ro fl = Ok p /\
    draws (Rmax h (D / 2)) p (V3 (X + rn) 0 0) (V3 (- (13 / 10 * fl)) 0 0).
  Proof using HD Hn Hh Hf.
    rewrite fairing_parts. cbv zeta. pose proof (Rmax_l h (D / 2)) as M1. pose proof (Rmax_r h (D / 2)) as M2. set (H := Rmax h (D / 2)) in *.
    set (f1 := V3 (- fl) h 0). set (fb1 := V3 (- fl - 1 / 10 * fl) (D / 2) 0). set (fb2 := V3 (- fl - 3 / 10 * fl) 0 0).
    destruct (draws_polyline H [Line f1 fb1; Line fb1 fb2] [f1; fb1; fb2]) as (fb & Ef & Df).
    - discriminate.
    - intros k s Es. destruct k as [|[|k]]; cbn in Es; [injection Es as <-..|destruct k; discriminate].
      + apply draws_line; cbn; try lra. intros Q. injection Q as Q. lra.
      + apply draws_line; cbn; try lra. intros Q. injection Q as Q. lra.
    - intros k Hk. cbn [length] in Hk. assert (k = 1%nat) as -> by lia. cbn. lra.
    - rewrite Ef. cbn [bind]. destruct (og_parts h rn ro fl Hn Hh) as (P1 & P2 & P3 & _). rewrite P1, P2, P3.
      pose proof (og_tangent h rn ro Hn Hh) as OT. fold X.
      destruct (draws_polyline H [Arc (V3 (X + rn) 0 0) (V3 (X * ro / (ro - rn)) (rn * (ro - h) / (ro - rn)) 0) (V3 X 0 0);
          Arc (V3 (X * ro / (ro - rn)) (rn * (ro - h) / (ro - rn)) 0) (V3 0 h 0) (V3 0 (- (ro - h)) 0); Line (V3 0 h 0) (V3 (- fl) h 0); fb]
          [V3 (X + rn) 0 0; V3 (X * ro / (ro - rn)) (rn * (ro - h) / (ro - rn)) 0; V3 0 h 0; f1; fb2]) as (p & Ep & Dp).
      + discriminate.
      + intros k s Es. destruct k as [|[|[|[|k]]]]; cbn in Es; [injection Es as <-..|destruct k; discriminate].
        * apply (draws_le h); [exact M1|]. apply (og_nose_draws h rn ro Hn Hh).
        * apply (draws_le h); [exact M1|]. apply (og_arc_draws h rn ro Hn Hh).
        * apply draws_line; cbn; try lra. intros Q. injection Q as Q. lra.
        * exact Df.
      + intros k Hk. cbn [length] in Hk. destruct k as [|[|[|[|k]]]]; [lia| | | |lia]; cbn; lra.
      + exists p. split; [exact Ep|]. replace (V3 (- (13 / 10 * fl)) 0 0) with fb2; [exact Dp|]. unfold fb2. apply vec_ext; cbn; field.
  Qed.
  Lemma body_parts : falcon9_body D Lb h fl =
    Polyline [Line (V3 (- fl) 0 0) (V3 (- fl) (D / 2) 0); Line (V3 (- fl) (D / 2) 0) (V3 (- fl - Lb) (D / 2) 0);
              Line (V3 (- fl - Lb) (D / 2) 0) (V3 (- fl - Lb) 0 0)].
  Proof using.
    unfold falcon9_body, vec2. cbv zeta.
    assert (F1 : vsub (V3 n0 h n0) (V3 fl n0 n0) = V3 (- fl) h 0) by (apply vec_ext; cbn; ring). rewrite F1. cbn [vx].
    assert (F2 : vsub (V3 (- fl) (ndiv D n2) n0) (V3 Lb n0 n0) = V3 (- fl - Lb) (D / 2) 0) by (apply vec_ext; cbn; ring). rewrite F2. cbn [vx].
    reflexivity.
  Qed.
  Lemma body_draws : exists p, falcon9_body D Lb h fl = Ok p /\ draws (D / 2) p (V3 (- fl) 0 0) (V3 (- fl - Lb) 0 0).
  Proof using HD HLb.
    rewrite body_parts.
    destruct (draws_polyline (D / 2) [Line (V3 (- fl) 0 0) (V3 (- fl) (D / 2) 0); Line (V3 (- fl) (D / 2) 0) (V3 (- fl - Lb) (D / 2) 0);
              Line (V3 (- fl - Lb) (D / 2) 0) (V3 (- fl - Lb) 0 0)] [V3 (- fl) 0 0; V3 (- fl) (D / 2) 0; V3 (- fl - Lb) (D / 2) 0; V3 (- fl - Lb) 0 0]) as (p & Ep & Dp).
    - discriminate.
    - intros k s Es. destruct k as [|[|[|k]]]; cbn in Es; [injection Es as <-..|destruct k; discriminate];
        (apply draws_line; cbn; [try lra..|]; intros Q; injection Q as Q; lra).
    - intros k Hk. cbn [length] in Hk. destruct k as [|[|[|k]]]; [lia| | |lia]; cbn; lra.
    - exists p. auto.
  Qed.
End Lines.

(** ** generation *)
Lemma revolved_keys line : plain_keys (revolved_patches (T := R) line).
Proof.
  unfold plain_keys, dkeys, revolved_patches. cbn [map seq fst]. split.
  - repeat constructor; cbn; intuition discriminate.
  - intros k Hk. unfold mirror_key. repeat (destruct Hk as [<-|Hk]; [cbn; intuition discriminate|]). destruct Hk.
Qed.
Lemma revolved_ready h ds cs k line n d : nth_error cs k = Some (rev_comp line n (length (dicts h) + d)) -> nth_error ds d = Some [] ->
  ready (ext h ds cs) (length (comps h) + k) (revolved_patches line) still.
Proof.
  intros E Dd.
  assert (E' : nth_error (comps (ext h ds cs)) (length (comps h) + k) = Some (rev_comp line n (length (dicts h) + d))) by (unfold ext; cbn [comps]; rewrite nth_ext; exact E).
  split; [|split; [apply revolved_keys|split; [split; [discriminate|constructor]|]]].
  - left. exists (rev_comp line n (length (dicts h) + d)), false, [], []. split; [exact E'|]. split; [reflexivity|].
    split; [apply revolved_keys|]. right. unfold patches_at. rewrite E'. unfold ext. cbn [dicts rev_comp c_patches]. rewrite nth_ext. exact Dd.
  - eexists. split; [exact E'|]. repeat split. right. auto.
Qed.

Definition falcon_comps (p q : path R) (dd : nat) : list (comp R) := [rev_comp p 100 (dd + 0); rev_comp q 50 (dd + 1)]%nat.
Definition falcon_made (c : nat) : vehicle R :=
  mkVehicle [c; c + 1]%nat "SpaceX Falcon 9" 0 1 false [("revolved", 2)]%string%nat
    [("revolved_1", c); ("revolved_2", c + 1)]%string%nat [("revolved_1", c); ("revolved_2", c + 1)]%string%nat [].
Lemma falcon_run D Lb hh rn ro fl p q h : falcon9_fairing D hh rn ro fl = Ok p -> falcon9_body D Lb hh fl = Ok q ->
  falcon9_vehicle D Lb hh rn ro fl h = (ext h [[]; []] (falcon_comps p q (length (dicts h))), Ok (falcon_made (length (comps h)))).
Proof.
  intros Ep Eq. unfold falcon9_vehicle, bindM, lift. rewrite Ep. rewrite <- (ext_nil h) at 1. rewrite new_rev. cbn [app length].
  rewrite (add_ext h _ _ (configured "SpaceX Falcon 9") 0 (rev_comp p 100 (length (dicts h) + 0))) by reflexivity. cbn [list_set].
  rewrite Eq, new_rev. cbn [app length].
  erewrite (add_ext h _ _ _ 1) by reflexivity. cbn [list_set]. unfold falcon_comps. rewrite !Nat.add_0_r. reflexivity.
Qed.
Lemma falcon_generates h p q gp gq : separate h -> evaluates01 p gp -> evaluates01 q gq ->
  exists h2, generate (falcon_made (length (comps h))) (ext h [[]; []] (falcon_comps p q (length (dicts h)))) =
      (h2, mark_generated (falcon_made (length (comps h))), Ok tt) /\
    length (comps h2) = (length (comps h) + 2)%nat /\
    (forall k, (k < 2)%nat -> ghost_at h2 (length (comps h) + k) = false /\ type_at h2 (length (comps h) + k) = "revolved"%string /\ tag_at h2 (length (comps h) + k) = None) /\
    mesh_of h2 (length (comps h)) = Ok (profile_mesh 99 gp) /\ mesh_of h2 (length (comps h) + 1) = Ok (profile_mesh 49 gq).
Proof.
  intros SP Ep Eq. set (c0 := length (comps h)). set (h1 := ext h _ _).
  assert (N1 : forall k, nth_error (comps h1) (c0 + k) = nth_error (falcon_comps p q (length (dicts h))) k).
  { intros k. unfold h1, ext. cbn [comps]. apply nth_ext. }
  assert (R0 : ready h1 (c0 + 0) (revolved_patches p) still) by (apply revolved_ready with (n := 100%nat) (d := 0%nat); reflexivity).
  assert (R1 : ready h1 (c0 + 1) (revolved_patches q) still) by (apply revolved_ready with (n := 50%nat) (d := 1%nat); reflexivity).
  destruct (generated_meshes (falcon_made c0) h1 []) as (h2 & A & L & S & Q).
  - unfold h1. refine (ext_separate h _ _ [0; 1]%nat SP _ _ _); [reflexivity| |]; repeat constructor; cbn; lia.
  - cbn [falcon_made v_components flat_map]. unfold with_children. rewrite <- (Nat.add_0_r c0) at 2. rewrite !N1. cbn [falcon_comps nth_error c_kind rev_comp app].
    repeat constructor; cbn; lia.
  - intros i [<-|[<-|[]]]; [rewrite <- (Nat.add_0_r c0)|]; eauto.
  - reflexivity.
  - constructor.
  - exists h2. split; [exact A|]. split.
    { rewrite L. unfold h1, ext. cbn [comps]. rewrite app_length. reflexivity. }
    split; [|split].
    + intros k Hk. assert (exists c, nth_error (falcon_comps p q (length (dicts h))) k = Some c /\ c_ghost c = false /\ c_type c = "revolved"%string /\ c_name c = None) as (c & Ec & C1 & C2 & C3).
      { destruct k as [|[|k]]; [eexists; repeat split..|lia]. }
      rewrite <- N1 in Ec. destruct (S _ c Ec) as (c' & E' & SO). destruct (so_inv _ _ SO) as (O1 & _ & _ & _ & _ & _ & _ & _ & _ & O2 & O3).
      unfold ghost_at, type_at, tag_at. rewrite E', O2, O1, O3. auto.
    + rewrite <- (Nat.add_0_r c0) at 1. rewrite (Q (c0 + 0)%nat (revolved_patches p) still 99%nat (four gp) (fun x => x)).
      * reflexivity.
      * rewrite Nat.add_0_r. left. reflexivity.
      * exact R0.
      * eexists. split; [rewrite N1; reflexivity|]. repeat split.
      * discriminate.
      * apply four_values, Ep.
      * reflexivity.
      * apply still_total.
    + rewrite (Q (c0 + 1)%nat (revolved_patches q) still 49%nat (four gq) (fun x => x)).
      * reflexivity.
      * right. left. reflexivity.
      * exact R1.
      * eexists. split; [rewrite N1; reflexivity|]. repeat split.
      * discriminate.
      * apply four_values, Eq.
      * reflexivity.
      * apply still_total.
Qed.
