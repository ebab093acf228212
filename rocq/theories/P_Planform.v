(** C102: the thickness of a wing is needed over its planform only
    (wing.py:186-585, geometry.py:90-289). *)
From Coq Require Import Reals Lra String List Lia ZArith Bool FunctionalExtensionality.
From Verif Require Import Num NumR Py M_Vector SpecR3 M_Path M_Surface M_Geometry M_Component M_Common M_Wing
  SpecPath SpecPoly SpecSurf SpecWing SpecFin SpecHtv L_Vector L_Line L_Coons L_ArcLength L_Curves L_Ellipse L_Wing L_WingOk L_WingTotal L_WingLocal P_Wing.
Import ListNotations.
Local Open Scope R_scope.

(** the width of the leading edge is defined, and passes CoonsPatch's test of
    corners where the ellipse meets other edges *)
Definition edge_fits (w : wing R) (ft fb : R -> R -> R) : Prop :=
  (wing_flat w = true \/ (forall t, 0 <= t <= 1 -> exists k, wing_width w t = Ok k) /\
     exists k, wing_width w 0 = Ok k /\ small (half_h ft fb (vx (w_B0 w)) (vy (w_B0 w))) k) /\
  (w_close w = true -> exists k, wing_width w 1 = Ok k /\ small (half_h ft fb (vx (w_TT w)) (vy (w_TT w))) k).

(** C102: a wing whose thickness functions are defined for the x of its planform
    and nowhere else can be built, and every one of its patches can be
    evaluated on the whole unit square; other thickness functions that agree on
    the planform give the same surfaces *)
Theorem C102_planform bisect w g ft fb lo hi : in_interval bisect -> answers bisect -> planform w g lo hi ->
  vertical_on lo hi (w_top w) ft -> vertical_on lo hi (w_bot w) fb -> edge_fits w ft fb ->
  exists d, wing_patches bisect w = Ok d /\ (forall u, In u (dvals d) -> on_square u) /\
    forall top bot, vertical_on lo hi top ft -> vertical_on lo hi bot fb ->
      exists d2, wing_patches bisect (with_tf w top bot) = Ok d2 /\ same_entries d2 d.
Proof.
  intros Hi An (Hl & G0 & G1 & Bz & Fl & A0 & A1 & Lo & Hh & Mo & B1 & B2) Vt Vb (EF & CL).
  assert (In01 : forall t, 0 <= t <= 1 -> lo <= vx (g t) <= hi).
  { intros t Ht. pose proof (Mo 0 t ltac:(lra) ltac:(lra) ltac:(lra)) as M0. pose proof (Mo t 1 ltac:(lra) ltac:(lra) ltac:(lra)) as M1.
    rewrite G0 in M0. rewrite G1 in M1. lra. }
  set (w' := with_tf w (extended ft) (extended fb)).
  assert (exists t1, wing_t_B1 bisect w' = Ok t1) as [t1 T1].
  { unfold wing_t_B1. change (w_tB1 w') with (w_tB1 w). destruct (w_tB1 w) as [t|]; [eexists; reflexivity|].
    change (w_line w') with (w_line w). change (w_A1 w') with (w_A1 w). numR.
    destruct (An (fun t => let! p := p_call (w_line w) t in Ok (vx p - vx (w_A1 w))) (fun t => vx (g t) - vx (w_A1 w))) as [t Et].
    - intros t _. rewrite (Hl t). reflexivity.
    - rewrite G0, G1. lra.
    - rewrite Et. eexists; reflexivity. }
  assert (exists t2, wing_t_B2 w' t1 = Some t2) as [t2 T2].
  { unfold wing_t_B2. change (w_tB1 w') with (w_tB1 w). change (w_tB2 w') with (w_tB2 w). destruct (w_tB2 w); [|eexists; reflexivity].
    destruct (w_tB1 w); [eexists; reflexivity|]. destruct B2; congruence. }
  destruct (wing_ok bisect w' g ft fb Hl G0 G1 (extended_vertical ft) (extended_vertical fb) Bz Fl t1 t2 T1 T2) as [d' Ed'].
  { destruct EF as [EF|[_ EF]]; [left; exact EF|right; exact EF]. }
  { exact CL. }
  destruct (wing_local bisect Hi w g ft fb lo hi Hl G0 G1 B1 Vt Vb In01 Mo A0 ltac:(lra) d' Ed') as (d & Ed & Sd).
  exists d. split; [exact Ed|]. split.
  - apply (same_on_square d d' Sd). apply (wing_square bisect Hi w' g ft fb d' Hl G0 G1 (extended_vertical ft) (extended_vertical fb) B1 Ed').
    destruct EF as [EF|[EF _]]; [right; exact EF|left; exact EF].
  - intros top bot Vt2 Vb2.
    destruct (wing_local bisect Hi (with_tf w top bot) g ft fb lo hi Hl G0 G1 B1 Vt2 Vb2 In01 Mo A0 ltac:(cbn [with_tf w_A1]; lra) d' Ed') as (d2 & Ed2 & Sd2).
    exists d2. split; [exact Ed2|]. revert Sd2. unfold same_entries. generalize d2 as l. clear -Sd.
    induction Sd as [|a b l l' [K1 S1] _ IH]; intros l2 F; inversion F as [|x y m m' [K2 S2] F' X Y]; subst; constructor; auto.
    split; [congruence|]. intros r s Hr Hs. rewrite S1, S2 by assumption. reflexivity.
Qed.

(** C102: on the other hand, a wing whose top thickness function raises
    somewhere above the root chord A1 A0 is built without complaint, and fails
    when it is meshed *)
Theorem C102_undefined bisect w d g t e z : wing_patches bisect w = Ok d -> evaluates (w_line w) g -> g 0 = w_B0 w -> 0 <= t <= 1 ->
  z = vz (lerp t (w_A1 w) (w_A0 w)) ->
  w_top w (vx (lerp t (w_A1 w) (w_A0 w))) (vy (lerp t (w_A1 w) (w_A0 w))) (Some z) = Raise e ->
  exists u, In ("top_patch_0"%string, u) d /\ u t 0 = Raise e /\ ~ on_square u.
Proof.
  intros Hd Hl G0 Ht -> Ht'.
  destruct (wing_inv bisect w d Hd) as (t1 & t2 & B1 & f0 & f1 & p0 & p1 & tr & cl & E1 & E2 & _ & EB & (_ & _ & C2 & _) & ET & EC & ED).
  rewrite (Hl t1) in EB. injection EB as <-.
  pose proof (sub_evaluates (w_line w) g 0 t1 Hl) as S01.
  destruct (coons_surf _ _ _ _ _ _ _ _ f0 (sub_evaluates _ _ 1 0 S01) (line_evaluates _ _) (line_evaluates _ _) (line_evaluates _ _) C2)
    as (F1 & F2 & F3 & F4); rewrite ?lerp_0, ?lerp_1; auto.
  { f_equal. ring. } { rewrite <- G0. f_equal. ring. }
  exists (OffsetPatchFunction f0 (w_top w)).
  assert (X : OffsetPatchFunction f0 (w_top w) t 0 = Raise e).
  { unfold OffsetPatchFunction. first [rewrite F1|rewrite F2|rewrite F3|rewrite F4]. cbn [bind]. rewrite Ht'. reflexivity. }
  split; [rewrite ED; left; reflexivity|]. split; [exact X|]. intros K. specialize (K t 0 Ht ltac:(lra)). rewrite X in K. destruct K as [? K]; discriminate.
Qed.

(** ** a concrete wing *)
(** a root finder that takes the middle, and answers only if the ends differ in sign *)
Definition sign_bisect (f : R -> res R) (a b : R) : res R :=
  if Rleb a b then
    let! fa := f a in let! fb := f b in
    if Rleb fa 0 then if Rleb 0 fb then Ok ((a + b) / 2) else Raise ValueError else Raise ValueError
  else Raise ValueError.
Lemma sign_in : in_interval sign_bisect.
Proof.
  intros f a b t. unfold sign_bisect. destruct (Rleb a b) eqn:E; [|discriminate]. apply Rleb_true in E.
  destruct (f a) as [fa|]; [|discriminate]. destruct (f b) as [fb|]; [|discriminate]. cbn [bind].
  destruct (Rleb fa 0); [|discriminate]. destruct (Rleb 0 fb); [|discriminate]. intros K; injection K as <-. lra.
Qed.
Lemma sign_answers : answers sign_bisect.
Proof.
  intros f phi E [A B]. exists ((0 + 1) / 2). unfold sign_bisect. rewrite (proj2 (Rleb_true _ _)) by lra.
  rewrite !E by lra. cbn [bind]. rewrite (proj2 (Rleb_true _ _)) by exact A. rewrite (proj2 (Rleb_true _ _)) by exact B. reflexivity.
Qed.

(** thickness over 0 <= x <= hi only *)
Definition strip (hi h : R) : tfun R := fun x y z =>
  if Rleb 0 x then if Rleb x hi then Ok (V3 0 0 h) else Raise ValueError else Raise ValueError.
Definition strip_wing (hi : R) : wing R := with_tf (ex_wing "custom" None None true) (strip hi (- (1 / 20))) (strip hi (1 / 20)).
Lemma strip_vertical hi h : vertical_on 0 hi (strip hi h) (fun _ _ => h).
Proof. intros x y z H. unfold strip. rewrite !(proj2 (Rleb_true _ _)) by lra. reflexivity. Qed.

Example C102_planform_meets : in_interval sign_bisect /\ answers sign_bisect /\ planform (strip_wing 10) ex_g 0 10 /\
  vertical_on 0 10 (w_top (strip_wing 10)) ex_top /\ vertical_on 0 10 (w_bot (strip_wing 10)) ex_bot /\
  edge_fits (strip_wing 10) ex_top ex_bot /\ w_top (strip_wing 10) 11 0 None = Raise ValueError.
Proof.
  split; [exact sign_in|]. split; [exact sign_answers|].
  split; [|split; [apply strip_vertical|split; [apply strip_vertical|split]]].
  - destruct (ex_ordinary "custom" None None true) as (_ & A & B & C & _); [discriminate|].
    split; [exact A|]. split; [exact B|]. split; [exact C|]. split; [reflexivity|]. split; [reflexivity|].
    cbn. split; [lra|]. split; [lra|]. split; [lra|]. split; [lra|]. split; [|split; [discriminate|left; reflexivity]].
    intros t t' H1 H2 H3. unfold ex_g. cbn. lra.
  - split; [right; split|].
    + intros t Ht. destruct (default_width t Ht) as (k & E & _). exists k. exact E.
    + exists (1 / 100). split; [|exact ex_small]. unfold strip_wing; cbn. f_equal. field.
    + intros _. exists (1 / 100). split; [|exact ex_small]. unfold strip_wing; cbn. f_equal. field.
  - cbn. unfold strip. rewrite (proj2 (Rleb_true _ _)) by lra. destruct (Rleb 11 10) eqn:E; [|reflexivity]. apply Rleb_true in E. lra.
Qed.
(** top thickness known along the trailing edge x = 0 only *)
Definition edge_only : tfun R := fun x y z => if Req_EM_T x 0 then Ok (V3 0 0 (- (1 / 20))) else Raise ValueError.
Definition edge_wing : wing R := with_tf (ex_wing "flat" (Some (1 / 3)) None false) edge_only (uniform_thickness_function (1 / 10) "bot").
Example C102_undefined_meets : exists d, wing_patches sign_bisect edge_wing = Ok d /\ evaluates (w_line edge_wing) ex_g /\
  ex_g 0 = w_B0 edge_wing /\
  w_top edge_wing (vx (lerp (1 / 2) (w_A1 edge_wing) (w_A0 edge_wing))) (vy (lerp (1 / 2) (w_A1 edge_wing) (w_A0 edge_wing)))
    (Some (vz (lerp (1 / 2) (w_A1 edge_wing) (w_A0 edge_wing)))) = Raise ValueError.
Proof.
  destruct (ex_built "flat" (Some (1 / 3)) None false) as [d Ed]; [left; reflexivity|right; split; reflexivity|].
  destruct (ex_ordinary "flat" (Some (1 / 3)) None false) as (_ & A & B & _); [intros t K; injection K as <-; lra|].
  destruct (wing_inv mid_bisect _ d Ed) as (t1 & t2 & B1 & f0 & f1 & p0 & p1 & tr & cl & E1 & E2 & E3 & EB & (C0 & C1 & C2 & C3) & ET & EC & ED).
  assert (TE : wing_TE_top edge_wing = wing_TE_top (ex_wing "flat" (Some (1 / 3)) None false)).
  { unfold wing_TE_top, TrailingEdgePath. cbv zeta.
    lazymatch goal with |- mkPath ?a _ = mkPath ?b _ => assert (CE : a = b) end.
    { apply functional_extensionality. intros t. rewrite !(line_evaluates _ _ t). cbn [bind].
      unfold edge_wing, with_tf, ex_wing; cbn [w_A0 w_B0 w_top]. unfold edge_only. destruct (Req_EM_T _ 0) as [_|N].
      - unfold uniform_thickness_function; numR. cbn. f_equal. apply vec_ext; cbn; field.
      - exfalso. apply N. unfold lerp; cbn. ring. }
    rewrite CE. reflexivity. }
  assert (TR : wing_trailing_edge edge_wing = Ok tr).
  { rewrite <- ET. unfold wing_trailing_edge, wing_TE_mean. rewrite TE. reflexivity. }
  eexists. split; [|split; [exact A|split; [exact B|]]].
  - unfold wing_patches. assert (W1 : wing_t_B1 sign_bisect edge_wing = Ok t1) by exact E1.
    assert (W2 : wing_t_B2 edge_wing t1 = Some t2) by exact E2.
    rewrite W1. cbn [bind]. rewrite W2. unfold wing_planform. assert (W3 : String.eqb (lower (w_line_type edge_wing)) "bezier" = true) by exact E3.
    rewrite W3. assert (W4 : p_call (w_line edge_wing) t1 = Ok B1) by exact EB. rewrite W4. cbn [bind sub_to].
    lazymatch goal with |- context [CoonsPatch ?a ?b ?c ?d] => replace (CoonsPatch a b c d) with (Ok p0 : res (surf R)) by (symmetry; exact C0) end.
    cbn [bind].
    lazymatch goal with |- context [CoonsPatch ?a ?b ?c ?d] => replace (CoonsPatch a b c d) with (Ok p1 : res (surf R)) by (symmetry; exact C1) end.
    cbn [bind].
    lazymatch goal with |- context [CoonsPatch ?a ?b ?c ?d] => replace (CoonsPatch a b c d) with (Ok f0 : res (surf R)) by (symmetry; exact C2) end.
    cbn [bind].
    lazymatch goal with |- context [CoonsPatch ?a ?b ?c ?d] => replace (CoonsPatch a b c d) with (Ok f1 : res (surf R)) by (symmetry; exact C3) end.
    cbn [bind]. rewrite TR. cbn [bind]. change (w_close edge_wing) with false. cbn [bind]. reflexivity.
  - cbn. unfold edge_only. destruct (Req_EM_T _ 0) as [N|_]; [exfalso; lra|reflexivity].
Qed.
Print Assumptions C102_planform.
Print Assumptions C102_undefined.
