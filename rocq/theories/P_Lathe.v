(** C90: the volume of bodies of revolution. *)
From Coq Require Import Reals Lra ZArith String List Lia Bool.
From Verif Require Import Num NumR Py M_Vector SpecR3 M_Path M_Surface M_Mesh M_Component
  SpecPath SpecSurf SpecMesh SpecPrism SpecLathe L_Vector L_Line L_Mesh L_Component L_Prism L_Hangar L_Lathe P_Component.
Import ListNotations.
Local Open Scope R_scope.

Definition turned_mesh (n : nat) (line : path R) : res (list (tri R)) :=
  fresh_mesh (revolved_patches line) (ResInt (S n)) [] [] no_clustering.

Lemma turned_mesh_four n line g : evaluates01 line g -> turned_mesh n line = Ok (flat_map (patch_grid n) (four g)).
Proof.
  intros H. apply mesh_of_values; [|discriminate|apply four_values, H].
  unfold dkeys, revolved_patches. cbn. repeat constructor; cbn; intuition discriminate.
Qed.
Lemma turned_meshes n lines gs : Forall2 evaluates01 lines gs ->
  mapM (turned_mesh n) lines = Ok (map (fun g => flat_map (patch_grid n) (four g)) gs).
Proof.
  induction 1 as [|line g lines gs H _ IH]; [reflexivity|]. cbn [mapM map]. rewrite (turned_mesh_four n line g H). cbn [bind]. rewrite IH. reflexivity.
Qed.
Lemma turned_concat n gs : concat (map (fun g => flat_map (patch_grid n) (four g)) gs) = lathe_mesh n gs.
Proof.
  unfold lathe_mesh. induction gs as [|g gs IH]; [reflexivity|]. cbn [map concat flat_map]. rewrite flat_map_app, IH. reflexivity.
Qed.

(** C90: the meshes of RevolvedComponents whose profiles, in the plane z = 0,
    form a chain from the axis to the axis are together closed, at every common
    resolution; the enclosed volume is that of the frusta between the sampled
    points of the profiles, with the circle replaced by the regular polygon
    with four times the resolution many corners *)
Theorem C90_chain lines gs n : Forall2 evaluates01 lines gs -> closed_profile gs -> Forall planar gs ->
  exists ms, mapM (turned_mesh n) lines = Ok ms /\ watertight (concat ms) /\
    signed_volume (concat ms) = ngon (4 * S n) * fold_right Rplus 0 (map (frusta (S n)) gs).
Proof.
  intros E C P. eexists. split; [apply turned_meshes, E|]. rewrite turned_concat. split; [apply lathe_watertight, C|apply lathe_volume; assumption].
Qed.
(** C90: one profile *)
Theorem C90_volume line g n : evaluates01 line g -> on_axis (g 0) -> on_axis (g 1) -> planar g ->
  exists mesh, turned_mesh n line = Ok mesh /\ watertight mesh /\ signed_volume mesh = ngon (4 * S n) * frusta (S n) g.
Proof.
  intros E A0 A1 P. destruct (C90_chain [line] [g] n) as (ms & M & W & V).
  - constructor; [exact E|constructor].
  - split; [exact A0|]. split; [reflexivity|exact A1].
  - constructor; [exact P|constructor].
  - cbn [mapM] in M. destruct (turned_mesh n line) as [m|]; [|discriminate]. cbn [bind] in M. injection M as <-.
    exists m. split; [reflexivity|]. cbn [concat] in W, V. rewrite app_nil_r in W, V. split; [exact W|]. rewrite V. cbn [map fold_right]. ring.
Qed.
Lemma legs_closed ps : on_axis (hd origin ps) -> on_axis (last ps origin) -> closed_profile (map (fun l => straight (fst l) (snd l)) (legs ps)).
Proof.
  assert (S0 : forall p q, straight p q 0 = p) by (intros [a b c] [x y z]; unfold straight; apply vec_ext; cbn; ring).
  assert (S1 : forall p q, straight p q 1 = q) by (intros [a b c] [x y z]; unfold straight; apply vec_ext; cbn; ring).
  assert (J : forall ps p, on_axis (last (p :: ps) origin) -> joined_from p (map (fun l => straight (fst l) (snd l)) (legs (p :: ps)))).
  { clear ps. intros ps. induction ps as [|q ps IH]; intros p H; [exact H|]. cbn [legs map joined_from fst snd]. rewrite S0, S1.
    split; [reflexivity|]. apply IH. exact H. }
  destruct ps as [|p ps]; intros H0 H1; [exact I|]. specialize (J ps p H1). destruct ps as [|q ps]; [exact I|].
  cbn [legs map] in J |- *. unfold closed_profile. cbn [fst snd]. rewrite S0. split; [exact H0|]. exact J.
Qed.
Lemma legs_points ps l : In l (legs ps) -> In (fst l) ps /\ In (snd l) ps.
Proof.
  induction ps as [|p ps IH]; [intros []|]. destruct ps as [|q ps]; [intros []|]. cbn [legs]. intros [<-|H]; [cbn; auto|].
  destruct (IH H) as [A B]. split; right; assumption.
Qed.
(** C90: straight profiles through given points have, at every resolution, the
    volume of the exact cones times ngon / PI *)
Theorem C90_straight ps n : (forall p, In p ps -> vz p = 0) -> on_axis (hd origin ps) -> on_axis (last ps origin) ->
  exists ms, mapM (turned_mesh n) (map (fun l => Line (fst l) (snd l)) (legs ps)) = Ok ms /\ watertight (concat ms) /\
    signed_volume (concat ms) = ngon (4 * S n) * fold_right Rplus 0 (map (fun l => frustum (fst l) (snd l)) (legs ps)).
Proof.
  intros Z H0 H1.
  destruct (C90_chain (map (fun l => Line (fst l) (snd l)) (legs ps)) (map (fun l => straight (fst l) (snd l)) (legs ps)) n) as (ms & A & B & C).
  - induction (legs ps) as [|l k IH]; constructor; [|exact IH]. intros t _. rewrite line_lerp. reflexivity.
  - apply legs_closed; assumption.
  - rewrite Forall_map. apply Forall_forall. intros l Hl. destruct (legs_points _ _ Hl) as [I1 I2]. intros t _. unfold straight. cbn [vz].
    rewrite (Z _ I1), (Z _ I2). ring.
  - exists ms. split; [exact A|]. split; [exact B|]. rewrite C. f_equal. rewrite map_map. f_equal. apply map_ext. intros l. apply straight_frusta.
Qed.

(** C90: the factor of the circle is always too small and tends to PI *)
Theorem C90_factor n : 0 < ngon (4 * S n) < PI.
Proof. split; [apply ngon_pos|apply ngon_bound]; lia. Qed.
Theorem C90_limit : Un_cv (fun n => ngon (4 * S n)) PI.
Proof.
  intros eps He. pose proof PI_RGT_0 as HP.
  destruct (derivable_pt_lim_sin 0 (eps / PI)) as [[delta Hd] D]; [apply Rdiv_lt_0_compat; lra|]. cbn [pos] in D.
  destruct (archimed_cor1 (delta / PI)) as (N & HN & HN0); [apply Rdiv_lt_0_compat; lra|].
  exists N. intros n Hn. unfold ngon, R_dist.
  assert (P4 : 0 < INR (4 * S n)) by (apply lt_0_INR; lia).
  assert (I4 : INR (4 * S n) = 4 * INR (S n)) by (rewrite mult_INR; f_equal; cbn; ring).
  set (a := 2 * PI / INR (4 * S n)). assert (Ha : 0 < a) by (apply Rdiv_lt_0_compat; lra).
  assert (Hl : a < delta).
  { unfold a. rewrite I4. assert (PN : 0 < INR N) by (apply lt_0_INR; lia). assert (PS : 0 < INR (S n)) by (apply lt_0_INR; lia).
    assert (LE : INR N <= INR (S n)) by (apply le_INR; lia).
    apply (Rmult_lt_compat_r PI) in HN; [|lra]. unfold Rdiv in HN at 1. rewrite (Rmult_assoc delta), Rinv_l, Rmult_1_r in HN by lra.
    apply Rle_lt_trans with (/ INR N * PI); [|exact HN].
    apply Rle_trans with (/ INR (S n) * PI); [|apply Rmult_le_compat_r; [lra|]; apply Rinv_le_contravar; assumption].
    apply Rle_trans with (/ INR (S n) * (PI / 2)); [right; field; lra|].
    apply Rmult_le_compat_l; [left; apply Rinv_0_lt_compat; exact PS|lra]. }
  specialize (D a). rewrite Rplus_0_l, sin_0, cos_0, Rminus_0_r in D.
  specialize (D ltac:(lra) ltac:(rewrite Rabs_right; lra)).
  replace (INR (4 * S n) / 2 * sin a - PI) with (PI * (sin a / a - 1)) by (unfold a; field; lra).
  rewrite Rabs_mult, (Rabs_right PI) by lra. apply (Rmult_lt_compat_l PI) in D; [|lra].
  replace (PI * (eps / PI)) with eps in D by (field; lra). exact D.
Qed.
(** C90: drawn from the other end, the same profile turns the mesh inside out *)
Lemma frusta_back g n : frusta (S n) (fun t => g (1 - t)) = - frusta (S n) g.
Proof.
  assert (Hn : INR (S n) <> 0) by (apply not_0_INR; lia).
  unfold frusta. rewrite !fold_sumn, (sumn_rev (S n)).
  rewrite (sumn_ext (S n) _ (fun k => -1 * frustum (g (INR k / INR (S n))) (g (INR (S k) / INR (S n))))).
  - rewrite sumn_scale. ring.
  - intros k Hk.
    replace (1 - INR (S n - 1 - k) / INR (S n)) with (INR (S k) / INR (S n)).
    replace (1 - INR (S (S n - 1 - k)) / INR (S n)) with (INR k / INR (S n)).
    + unfold frustum. field.
    + replace (S (S n - 1 - k)) with (S n - k)%nat by lia. rewrite minus_INR by lia. field. exact Hn.
    + replace (S n - 1 - k)%nat with (S n - S k)%nat by lia. rewrite minus_INR by lia. field. exact Hn.
Qed.
Theorem C90_backwards line line' g n : evaluates01 line g -> evaluates01 line' (fun t => g (1 - t)) ->
  on_axis (g 0) -> on_axis (g 1) -> planar g ->
  exists mesh mesh', turned_mesh n line = Ok mesh /\ turned_mesh n line' = Ok mesh' /\ watertight mesh' /\
    signed_volume mesh' = - signed_volume mesh.
Proof.
  intros E E' A0 A1 P. destruct (C90_volume line g n E A0 A1 P) as (m & M & _ & V).
  destruct (C90_volume line' (fun t => g (1 - t)) n E') as (m' & M' & W' & V').
  - rewrite Rminus_0_r. exact A1.
  - rewrite Rminus_eq_0. exact A0.
  - intros t Ht. apply P. lra.
  - exists m, m'. split; [exact M|]. split; [exact M'|]. split; [exact W'|]. rewrite V, V', frusta_back. ring.
Qed.

(** a cone of height 3 and radius 1, drawn from its tip: the polygon's area; and
    the parabolic spindle of P_Component *)
Example C90_meets : let ps := [V3 0 0 0; V3 3 1 0; V3 3 0 0] in
  (forall p, In p ps -> vz p = 0) /\ on_axis (hd origin ps) /\ on_axis (last ps origin) /\
  fold_right Rplus 0 (map (fun l => frustum (fst l) (snd l)) (legs ps)) = 1 /\
  on_axis (spindle_at 0) /\ on_axis (spindle_at 1) /\ planar spindle_at.
Proof.
  cbv zeta. split; [intros p [<-|[<-|[<-|[]]]]; reflexivity|]. split; [split; reflexivity|]. split; [split; reflexivity|].
  split; [cbn; unfold frustum; cbn; field|]. unfold on_axis, planar, spindle_at. cbn. repeat split; ring.
Qed.

Print Assumptions C90_chain.
Print Assumptions C90_volume.
Print Assumptions C90_straight.
Print Assumptions C90_factor.
Print Assumptions C90_limit.
Print Assumptions C90_backwards.
