(** The patches of a generated component. *)
From Coq Require Import Reals Lra String List Arith Lia Bool ZArith.
From Verif Require Import Num NumR Py M_Vector M_Path M_Surface M_Geometry M_Mesh M_Component M_Vehicle
  SpecR3 SpecSurf SpecVehicle L_Vector L_Rigid L_Strings L_Component L_Composite L_Heap L_Reflect.
Import ListNotations.
Local Open Scope R_scope.

Lemma NoDup_app' {A} (l k : list A) : NoDup l -> NoDup k -> (forall a, In a l -> ~ In a k) -> NoDup (l ++ k).
Proof.
  intros H K D. induction H as [|a l N0 H IH]; [exact K|]. cbn. constructor.
  - intros I. apply in_app_or in I as [I|I]; [auto|]. apply (D a); [left; reflexivity|exact I].
  - apply IH. intros b I. apply D. right. exact I.
Qed.
Lemma NoDup_app_r' {A} (l k : list A) : NoDup (l ++ k) -> NoDup k.
Proof. induction l as [|a l IH]; cbn; [auto|]. intros H. inversion H; auto. Qed.

(** ** maps of dictionaries *)
Lemma moved_id u : moved (fun p => Ok p) u u.
Proof. intros r s. destruct (u r s); reflexivity. Qed.
Lemma moved_seq F G u v w : moved F u v -> moved G v w -> moved (and_then F G) u w.
Proof. intros A B r s. rewrite B, A. unfold and_then. destruct (u r s) as [p|e]; [|reflexivity]. destruct (F p); reflexivity. Qed.
Lemma moved_ext F G u v : (forall p, F p = G p) -> moved F u v -> moved G u v.
Proof. intros E A r s. rewrite A. destruct (u r s); auto. Qed.
Lemma relates_ext key F G d d' : (forall p, F p = G p) -> relates key F d d' -> relates key G d d'.
Proof.
  intros E H. unfold relates in *. induction H as [|a b d d' [K M0] _ IH]; constructor; auto.
  split; [auto|]. eapply moved_ext; eauto.
Qed.
Lemma relates_id d : relates same_key (fun p => Ok p) d d.
Proof. induction d; constructor; auto. split; [reflexivity|apply moved_id]. Qed.
Lemma relates_seq k1 k2 F G a b c : relates k1 F a b -> relates k2 G b c -> relates (fun k => k2 (k1 k)) (and_then F G) a c.
Proof.
  intros A. revert c. induction A as [|x y a b [K M0] _ IH]; intros c B; inversion B as [|y' z b' c' [K' M1] B' E1 E2]; subst; constructor.
  - split; [congruence|eapply moved_seq; eauto].
  - apply IH. exact B'.
Qed.
Lemma relates_dmap (f : surf R -> surf R) F d : (forall u, moved F u (f u)) -> relates same_key F d (dmap f d).
Proof. intros H. induction d as [|[k u] d IH]; constructor; auto. split; [reflexivity|apply H]. Qed.
Lemma relates_keys key F d d' : relates key F d d' -> dkeys d' = map key (dkeys d).
Proof. induction 1 as [|a b d d' [K _] _ IH]; [reflexivity|]. cbn. rewrite K. f_equal. exact IH. Qed.
Lemma in_order_app l k p : in_order (l ++ k) p = and_then (in_order l) (in_order k) p.
Proof.
  revert p. induction l as [|F l IH]; intros p; [reflexivity|].
  change (in_order ((F :: l) ++ k) p) with (and_then F (in_order (l ++ k)) p).
  change (in_order (F :: l)) with (and_then F (in_order l)).
  unfold and_then. destruct (F p) as [q|e]; [|reflexivity]. rewrite (IH q). reflexivity.
Qed.

(** ** the operations *)
Lemma lower_axis_id axis : is_axis axis -> lower_axis axis = axis.
Proof. intros [-> | [-> | ->]]; reflexivity. Qed.
Lemma rotate_relates a axis d : is_axis axis -> relates same_key (turned a axis) d (rotate_patches a axis d).
Proof.
  intros H. apply relates_dmap. intros u r s.
  pose proof (rotated_map u (a * (PI / 180)) axis origin) as K. rewrite (lower_axis_id axis H) in K. specialize (K H r s).
  unfold ndeg2rad. cbn [nmul ndiv npi nZ NumR]. unfold turned.
  change default_point with origin. destruct K as [K1 K2]. destruct (u r s) as [p|e]; [apply K1|apply K2]; reflexivity.
Qed.
Lemma displaced_patch f u : moved (displaced f) u (OffsetPatchFunction u f).
Proof.
  intros r s. unfold OffsetPatchFunction, displaced. destruct (u r s) as [p|e]; cbn [bind]; [|reflexivity].
  destruct (f (vx p) (vy p) (Some (vz p))) as [o|e]; cbn [bind]; [|reflexivity]. f_equal.
Qed.
Lemma translate_relates f d : relates same_key (displaced f) d (translate_patches f d).
Proof. apply relates_dmap. intros u. apply displaced_patch. Qed.
Lemma mirror_moved axis u : is_axis axis -> moved (mirrored_in axis) u (MirroredPatch u axis).
Proof.
  intros H r s. unfold MirroredPatch, mirrored_in. destruct (u r s) as [p|e]; cbn [bind]; [|reflexivity].
  rewrite (lower_axis_id axis H), (mirror_reflect axis p H). reflexivity.
Qed.
Lemma bent_patch b u : moved (bent b) u (CurvedPatch u (if along_x b then "x"%string else "y"%string) (Some (offset_of b)) (Some (slope_of b))).
Proof.
  intros r s. destruct (u r s) as [p|e] eqn:E.
  - unfold bent. destruct (offset_of b (vx p) (vy p)) as [o|e] eqn:EO.
    + destruct (slope_of b (vx p) (vy p)) as [m|e] eqn:ES.
      * destruct (along_x b); [apply curved_x|apply curved_y]; auto.
      * unfold CurvedPatch, CurvedPatch_call. rewrite E. cbn [bind]. rewrite EO. cbn [bind]. rewrite ES. reflexivity.
    + unfold CurvedPatch, CurvedPatch_call. rewrite E. cbn [bind]. rewrite EO. reflexivity.
  - unfold CurvedPatch, CurvedPatch_call. rewrite E. reflexivity.
Qed.
Lemma curve_relates bs d : relates same_key (in_order (map bent bs)) d (curve_patches (Some (map written_bend bs)) d).
Proof.
  unfold curve_patches. revert d. induction bs as [|b bs IH]; intros d; [apply relates_id|].
  cbn [map fold_left in_order fold_right]. unfold written_bend at 2.
  eapply (relates_seq same_key same_key); [|apply IH]. apply relates_dmap. intros u. apply bent_patch.
Qed.
Definition apply_motion (m : motion) : dict (surf R) -> dict (surf R) :=
  match m with
  | Turn a axis => rotate_patches a axis
  | Slide v => translate_patches (const_offset v)
  | Flow f => translate_patches f
  end.
Lemma motion_relates m d : motion_ok m -> relates same_key (motion_map m) d (apply_motion m d).
Proof.
  destruct m as [a axis|v|f]; intros H.
  - apply rotate_relates. exact H.
  - cbn [motion_map apply_motion].
    eapply relates_ext; [|apply translate_relates]. intros p. reflexivity.
  - apply translate_relates.
Qed.
Lemma motions_relates ms d : Forall motion_ok ms ->
  relates same_key (in_order (map motion_map ms)) d (fold_left (fun d m => apply_motion m d) ms d).
Proof.
  intros H. revert d. induction H as [|m ms Hm _ IH]; intros d; [apply relates_id|].
  cbn [map fold_left in_order fold_right]. eapply (relates_seq same_key same_key); [|apply IH]. apply motion_relates, Hm.
Qed.

Lemma does_motion i c0 m : does i c0 (apply_motion m) (call_method (written m) i).
Proof.
  destruct m as [a axis|v|f]; cbn [written apply_motion].
  - apply (does_on i c0 (fun _ => rotate_patches a axis)). reflexivity.
  - apply (does_on i c0 (fun _ => translate_patches (const_offset v))). reflexivity.
  - apply (does_on i c0 (fun _ => translate_patches f)). reflexivity.
Qed.
Lemma iterM_map {T} {N : Num T} {A B} (f : B -> M (T := T) unit) (g : A -> B) l h : iterM f (map g l) h = iterM (fun a => f (g a)) l h.
Proof. revert h. induction l as [|a l IH]; intros h; [reflexivity|]. cbn [map iterM]. unfold bindM. destruct (f (g a) h) as [h' [u|e]]; [apply IH|reflexivity]. Qed.
Lemma does_motions i c0 ms :
  does i c0 (fun d => fold_left (fun d m => apply_motion m d) ms d) (iterM (fun t => call_method t i) (map written ms)).
Proof.
  intros h c d V S. rewrite iterM_map.
  apply (does_iter i c0 apply_motion (fun m => call_method (written m) i) ms (fun m _ => does_motion i c0 m) h c d V S).
Qed.
Lemma does_transform i c0 ms : c_transformations c0 = map written ms ->
  does i c0 (fun d => fold_left (fun d m => apply_motion m d) ms d) (comp_transform i).
Proof.
  intros E h c d V S. destruct (view_inv _ _ _ _ V) as [EC _].
  destruct (so_inv c0 c S) as (_ & _ & _ & _ & _ & ET & _).
  unfold comp_transform, bindM, get_comp. rewrite EC, ET, E. apply (does_motions i c0 ms h c d V S).
Qed.

(** ** after generate_patches *)
Definition post_effect (c0 : comp R) (angle : R) (ms : list motion) (d : dict (surf R)) : dict (surf R) :=
  fold_left (fun d m => apply_motion m d) ms
    (reflect_patches (c_axis c0) (c_append c0) None
      (rotate_patches angle "y" (curve_patches (c_curvatures c0) (modify_patches (c_modifier c0) d)))).
Lemma does_post i c0 angle ms : c_transformations c0 = map written ms ->
  does i c0 (post_effect c0 angle ms) (post i angle).
Proof.
  intros E. unfold post, post_effect.
  apply (does_seq i c0 (modify_patches (c_modifier c0)) (fun d => fold_left (fun d m => apply_motion m d) ms
    (reflect_patches (c_axis c0) (c_append c0) None (rotate_patches angle "y" (curve_patches (c_curvatures c0) d))))).
  { apply (does_on i c0 (fun c => modify_patches (c_modifier c))). intros c S.
    destruct (so_inv c0 c S) as (_ & _ & _ & _ & _ & _ & EM & _). rewrite EM. reflexivity. }
  apply (does_seq i c0 (curve_patches (c_curvatures c0)) (fun d => fold_left (fun d m => apply_motion m d) ms
    (reflect_patches (c_axis c0) (c_append c0) None (rotate_patches angle "y" d)))).
  { apply (does_on i c0 (fun c => curve_patches (c_curvatures c))). intros c S.
    destruct (so_inv c0 c S) as (_ & _ & _ & EM & _). rewrite EM. reflexivity. }
  apply (does_seq i c0 (rotate_patches angle "y") (fun d => fold_left (fun d m => apply_motion m d) ms
    (reflect_patches (c_axis c0) (c_append c0) None d))).
  { apply (does_on i c0 (fun _ => rotate_patches angle "y")). reflexivity. }
  apply (does_seq i c0 (reflect_patches (c_axis c0) (c_append c0) None) (fun d => fold_left (fun d m => apply_motion m d) ms d)).
  { apply does_reflect. }
  apply does_transform, E.
Qed.

Lemma modify_relates f d : relates same_key (in_order (match f with Some f => [displaced f] | None => [] end)) d (modify_patches f d).
Proof.
  destruct f as [f|]; cbn [modify_patches]; [|apply relates_id].
  cbn [in_order fold_right]. eapply relates_ext; [|apply translate_relates]. intros p. unfold and_then. destruct (displaced f p); reflexivity.
Qed.
Lemma pre_relates c p angle d : planned c p ->
  relates same_key (in_order (before_reflection p angle)) d
    (rotate_patches angle "y" (curve_patches (c_curvatures c) (modify_patches (c_modifier c) d))).
Proof.
  intros (EM & EC & _). unfold before_reflection. rewrite EM.
  pose proof (modify_relates (p_modifier p) d) as R1. set (d1 := modify_patches _ d) in *. clearbody d1.
  assert (R2 : relates same_key (in_order (map bent (p_bends p))) d1 (curve_patches (c_curvatures c) d1)).
  { destruct EC as [-> | [-> ->]]; [apply curve_relates|apply relates_id]. }
  set (d2 := curve_patches _ d1) in *. clearbody d2.
  assert (R3 : relates same_key (turned angle "y") d2 (rotate_patches angle "y" d2)) by (apply rotate_relates; right; left; reflexivity).
  pose proof (relates_seq same_key same_key _ _ _ _ _ R1 (relates_seq same_key same_key _ _ _ _ _ R2 R3)) as R4.
  eapply relates_ext; [|exact R4].
  intros q. rewrite in_order_app. unfold and_then at 1 3.
  destruct (in_order (match p_modifier p with Some f => [displaced f] | None => [] end) q) as [q1|e]; [|reflexivity].
  rewrite in_order_app. unfold and_then.
  destruct (in_order (map bent (p_bends p)) q1) as [q2|e]; reflexivity.
Qed.
Lemma mirrored_relates axis d : is_axis axis ->
  relates mirror_key (mirrored_in axis) d (map (fun kp => (mirrored_key (fst kp), MirroredPatch (snd kp) axis)) d).
Proof. intros H. induction d as [|[k u] d IH]; constructor; auto. split; [reflexivity|apply mirror_moved, H]. Qed.

Lemma relates_app_r key F a b c : relates key F a (b ++ c) -> exists a1 a2, a = a1 ++ a2 /\ relates key F a1 b /\ relates key F a2 c.
Proof.
  revert a. induction b as [|x b IH]; intros a H.
  - exists [], a. split; [reflexivity|]. split; [constructor|exact H].
  - cbn in H. inversion H as [|y x' a' l P H' E1 E2]; subst. destruct (IH a' H') as (a1 & a2 & -> & A & B).
    exists (y :: a1), a2. split; [reflexivity|]. split; [constructor; auto|auto].
Qed.
Lemma relates_app_l key F a b c : relates key F (a ++ b) c -> exists c1 c2, c = c1 ++ c2 /\ relates key F a c1 /\ relates key F b c2.
Proof.
  revert c. induction a as [|x a IH]; intros c H.
  - exists [], c. split; [reflexivity|]. split; [constructor|exact H].
  - cbn in H. inversion H as [|y x' a' l P H' E1 E2]; subst. destruct (IH l H') as (c1 & c2 & -> & A & B).
    exists (x' :: c1), c2. split; [reflexivity|]. split; [constructor; auto|auto].
Qed.
Lemma plain_nodup g : plain_keys g -> NoDup (dkeys g ++ map mirror_key (dkeys g)).
Proof.
  intros [A B]. apply NoDup_app'; auto.
  - apply NoDup_map_inj; [exact mirrored_key_inj|exact A].
  - intros k I J. apply in_map_iff in J as (k' & <- & K). apply (B k' K I).
Qed.

Theorem finished_effect c p angle more g : planned c p -> plan_ok p -> Forall motion_ok more -> plain_keys g ->
  finished p angle more g (fold_left (fun d m => apply_motion m d) more (post_effect c angle (p_motions p) g)).
Proof.
  intros P [OA OM] OV K. unfold post_effect. rewrite <- fold_left_app.
  assert (AM : Forall motion_ok (p_motions p ++ more)) by (apply Forall_app; auto).
  pose proof (pre_relates c p angle g P) as R1.
  set (d1 := rotate_patches angle "y" _) in *. clearbody d1.
  destruct P as (_ & _ & EA & EP & _). rewrite EA, EP. unfold finished, after_reflection.
  destruct (p_axis p) as [axis|].
  - pose proof (OA axis eq_refl) as AX. unfold reflect_patches.
    set (mir := map _ d1).
    assert (R2 : relates mirror_key (mirrored_in axis) d1 mir) by (apply mirrored_relates, AX).
    assert (K1 : dkeys d1 = dkeys g). { rewrite (relates_keys _ _ _ _ R1). apply map_id. }
    assert (K2 : dkeys mir = map mirror_key (dkeys g)) by (rewrite (relates_keys _ _ _ _ R2), K1; reflexivity).
    rewrite dupdate_nil by (rewrite K2; eapply NoDup_app_r', plain_nodup, K).
    destruct (p_append p).
    + rewrite dupdate_nodup by (rewrite K1, K2; apply plain_nodup, K).
      pose proof (motions_relates _ (d1 ++ mir) AM) as R3.
      destruct (relates_app_l _ _ _ _ _ R3) as (e1 & e2 & -> & S1 & S2).
      exists e1, e2. split; [reflexivity|]. split.
      * eapply relates_ext; [|eapply (relates_seq same_key same_key); [exact R1|exact S1]].
        intros q. symmetry. apply in_order_app.
      * eapply relates_ext; [|eapply (relates_seq same_key mirror_key); [exact R1|eapply (relates_seq mirror_key same_key); [exact R2|exact S2]]].
        intros q. symmetry. rewrite in_order_app. reflexivity.
    + eapply relates_ext; [|eapply (relates_seq same_key mirror_key); [exact R1|eapply (relates_seq mirror_key same_key); [exact R2|apply motions_relates, AM]]].
      intros q. symmetry. rewrite in_order_app. reflexivity.
  - cbn [reflect_patches]. eapply relates_ext; [|eapply (relates_seq same_key same_key); [exact R1|apply motions_relates, AM]].
    intros q. symmetry. apply in_order_app.
Qed.
