(** C04, C11, C25, C80: vectors, paths and patches with identity. *)
From Coq Require Import Reals Lra List Lia Bool Arith.
From Verif Require Import Num NumR Py M_Vector SpecR3 M_Path M_Surface M_VecHeap SpecAlias SpecPath L_Vector L_Line L_Coons L_VecHeap.
Import ListNotations.

(** ** C04: changes of frame and their receiver *)
Section Frames.
  Context {T : Type} {N : Num T}.
  Notation heap := (vheap T).

  Theorem C04_in_place (h : heap) v n t1 t2 xv xn x1 x2 :
    nth_error h v = Some xv -> nth_error h n = Some xn -> nth_error h t1 = Some x1 -> nth_error h t2 = Some x2 ->
    exists h', h_to_local v n t1 t2 None h = (h', Ok v) /\
      only_changed h v (transform_to_local_frame xv xn x1 x2 None) h'.
  Proof.
    intros Ev En E1 E2. unfold h_to_local, vbind, vret.
    rewrite (read_some _ _ _ Ev), (read_some _ _ _ En), (read_some _ _ _ E1), (read_some _ _ _ E2).
    eexists. split; [reflexivity|]. split.
    - apply vput_same. exact (some_lt _ _ _ Ev).
    - intros k w Hk Ek. rewrite vput_other by exact Hk. exact Ek.
  Qed.

  Theorem C04_with_origin (h : heap) v n t1 t2 c xv xn x1 x2 xc :
    nth_error h v = Some xv -> nth_error h n = Some xn -> nth_error h t1 = Some x1 -> nth_error h t2 = Some x2 ->
    nth_error h c = Some xc ->
    exists h' l, h_to_local v n t1 t2 (Some c) h = (h', Ok l) /\ fresh h l /\ unchanged h h' /\
      nth_error h' l = Some (transform_to_local_frame xv xn x1 x2 (Some xc)).
  Proof.
    intros Ev En E1 E2 Ec. unfold h_to_local, isub, vbind, vret.
    rewrite (read_some _ _ _ Ev), (read_some _ _ _ Ec). unfold vnew.
    rewrite (read_some _ (length h) (vsub xv xc)) by (rewrite nth_error_app2, Nat.sub_diag by lia; reflexivity).
    rewrite (read_some _ _ _ (nth_app_some _ _ _ _ En)), (read_some _ _ _ (nth_app_some _ _ _ _ E1)), (read_some _ _ _ (nth_app_some _ _ _ _ E2)).
    unfold vwrite. rewrite vput_app_r, Nat.sub_diag by lia. eexists _, _. split; [reflexivity|].
    split; [apply nth_error_None; lia|]. split; [apply app_unchanged|].
    rewrite nth_error_app2, Nat.sub_diag by lia. reflexivity.
  Qed.

  (** the change to the global frame always overwrites its receiver *)
  Theorem C04_global (h : heap) v n t1 t2 c xv xn x1 x2 xc :
    nth_error h v = Some xv -> nth_error h n = Some xn -> nth_error h t1 = Some x1 -> nth_error h t2 = Some x2 ->
    match c, xc with Some c, Some xc => nth_error h c = Some xc | None, None => True | _, _ => False end ->
    exists h', h_to_global v n t1 t2 c h = (h', Ok v) /\
      only_changed h v (transform_to_global_frame xv xn x1 x2 xc) h'.
  Proof.
    intros Ev En E1 E2 Ec. unfold h_to_global, vbind, vret.
    rewrite (read_some _ _ _ Ev), (read_some _ _ _ En), (read_some _ _ _ E1), (read_some _ _ _ E2).
    destruct c, xc; try contradiction; [rewrite (read_some _ _ _ Ec)|];
    (eexists; split; [reflexivity|]; split;
      [apply vput_same; exact (some_lt _ _ _ Ev) | intros k w Hk Ek; rewrite vput_other by exact Hk; exact Ek]).
  Qed.
End Frames.

Local Open Scope R_scope.
(** receiver and frame vectors may even be the same object *)
Example C04_meets :
  let h := [V3 1 0 0; V3 0 1 0; V3 0 0 1; V3 5 6 7]%R : vheap R in
  (exists h', h_to_local 3%nat 0%nat 1%nat 2%nat None h = (h', Ok 3%nat) /\ only_changed h 3%nat (V3 5 6 7) h') /\
  (exists h' l, h_to_local 3%nat 0%nat 1%nat 2%nat (Some 0%nat) h = (h', Ok l) /\ fresh h l /\ unchanged h h' /\ nth_error h' l = Some (V3 4 6 7)) /\
  (exists h', h_to_local 0%nat 0%nat 1%nat 2%nat None h = (h', Ok 0%nat) /\ only_changed h 0%nat (V3 1 0 0) h').
Proof.
  cbv zeta. set (h := [_; _; _; _]). split; [|split].
  - destruct (C04_in_place h 3%nat 0%nat 1%nat 2%nat _ _ _ _ eq_refl eq_refl eq_refl eq_refl) as (h' & A & B).
    exists h'. split; [exact A|]. replace (V3 5 6 7) with (transform_to_local_frame (V3 5 6 7) (V3 1 0 0) (V3 0 1 0) (V3 0 0 1) None); [exact B|].
    unfold transform_to_local_frame, vdot; numR; cbn; apply vec_ext; cbn; ring.
  - destruct (C04_with_origin h 3%nat 0%nat 1%nat 2%nat 0%nat _ _ _ _ _ eq_refl eq_refl eq_refl eq_refl eq_refl) as (h' & l & A & B & C & D).
    exists h', l. repeat (split; [assumption|]). rewrite D. f_equal.
    unfold transform_to_local_frame, vsub, vdot; numR; cbn; apply vec_ext; cbn; ring.
  - destruct (C04_in_place h 0%nat 0%nat 1%nat 2%nat _ _ _ _ eq_refl eq_refl eq_refl eq_refl) as (h' & A & B).
    exists h'. split; [exact A|]. replace (V3 1 0 0) with (transform_to_local_frame (V3 1 0 0) (V3 1 0 0) (V3 0 1 0) (V3 0 0 1) None); [exact B|].
    unfold transform_to_local_frame, vdot; numR; cbn; apply vec_ext; cbn; ring.
Qed.

(** ** C11: evaluating a Polyline and its segments *)
(** a call returns the vector v *)
Definition returns {T} {N : Num T} (h : vheap T) (p : hpath T) (t : T) (h' : vheap T) (v : vec T) : Prop :=
  exists l, hcall p t h = (h', Ok l) /\ nth_error h' l = Some v.

(** as long as no Polyline of several segments starts with a path that hands
    out a stored vector, nothing is overwritten and the value is that of the
    value model *)
Theorem C11_harmless {T} {N : Num T} (h : vheap T) p t : separate p -> live h (refs p) ->
  match p_call (value_of h p) t with
  | Ok v => exists h', returns h p t h' v /\ unchanged h h'
  | Raise e => exists h', hcall p t h = (h', Raise e) /\ unchanged h h'
  end.
Proof.
  intros S L. pose proof (hcall_ok p S h t L) as K. unfold call_ok in K.
  destruct (hcall p t h) as [h' r] eqn:E. destruct K as (ext & -> & K).
  destruct r as [l|e], (p_call (value_of h p) t) as [v|e']; try contradiction.
  - exists (h ++ ext). split; [exists l; split; [exact E|exact (proj1 K)]|apply app_unchanged].
  - subst. exists (h ++ ext). split; [reflexivity|apply app_unchanged].
Qed.

(** otherwise the stored vector is multiplied by zero, and nothing else changes *)
Theorem C11_overwritten {T} {N : Num T} (h : vheap T) s0 s1 segs tv t b w h' r :
  Forall separate (s0 :: s1 :: segs) -> live h (refs (HPoly (s0 :: s1 :: segs) tv)) ->
  hands_out s0 b -> nth_error h b = Some w ->
  hcall (HPoly (s0 :: s1 :: segs) tv) t h = (h', r) ->
  only_changed h b (vscale w n0) h' /\
  forall t', returns h s0 t' h w /\ returns h' s0 t' h' (vscale w n0).
Proof.
  intros S L Hb Ew E. pose proof (overwrite s0 s1 segs tv h t b S Hb L) as K. cbv zeta in K.
  rewrite E in K. destruct K as (ext & -> & _). rewrite (look_some _ _ _ Ew).
  assert (O : only_changed h b (vscale w n0) (vput h b (vscale w n0) ++ ext)).
  { split.
    - apply nth_app_some, vput_same. exact (some_lt _ _ _ Ew).
    - intros k x Hk Ek. apply nth_app_some. rewrite vput_other by exact Hk. exact Ek. }
  split; [exact O|]. intros t'. split; exists b.
  - split; [apply hands_call; exact Hb|exact Ew].
  - split; [apply hands_call; exact Hb|exact (proj1 O)].
Qed.

Lemma scale_zero (w : pt) : vscale w 0 = V3 0 0 0.
Proof. unfold vscale; numR. apply vec_ext; cbn; ring. Qed.

(** with several segments, exactly when the first one hands out a stored
    vector that is not zero *)
Theorem C11_iff (h : vheap R) s0 s1 segs tv t h' r :
  Forall separate (s0 :: s1 :: segs) -> live h (refs (HPoly (s0 :: s1 :: segs) tv)) ->
  hcall (HPoly (s0 :: s1 :: segs) tv) t h = (h', r) ->
  (unchanged h h' <-> forall b w, hands_out s0 b -> nth_error h b = Some w -> w = V3 0 0 0).
Proof.
  intros S L E. split.
  - intros U b w Hb Ew. destruct (C11_overwritten h s0 s1 segs tv t b w h' r S L Hb Ew E) as [[O _] _].
    apply U in Ew. rewrite Ew in O. injection O as ->. apply scale_zero.
  - intros Z. destruct (hands_dec s0) as [[b Hb]|Hn].
    + assert (Lb : nth_error h b <> None).
      { pose proof (live_poly _ _ _ s0 L (or_introl eq_refl)) as L0. unfold live in L0. rewrite Forall_forall in L0.
        apply L0. exact (hands_ref _ _ Hb). }
      pose proof (live_some _ _ Lb) as Ew. pose proof (Z _ _ Hb Ew) as Zw.
      destruct (C11_overwritten h s0 s1 segs tv t b _ h' r S L Hb Ew E) as [[O1 O2] _].
      intros k w Ek. destruct (Nat.eq_dec k b) as [->|D]; [|exact (O2 k w D Ek)].
      rewrite Ew in Ek. injection Ek as <-. rewrite O1, Zw. f_equal. apply (scale_zero (V3 0 0 0)).
    + assert (Sp : separate (HPoly (s0 :: s1 :: segs) tv)).
      { constructor; [exact S|]. intros x y l b Q Hb. injection Q as -> _ _. apply Hn. eauto. }
      pose proof (hcall_ok _ Sp h t L) as K. unfold call_ok in K. rewrite E in K. destruct K as (ext & -> & _).
      apply app_unchanged.
Qed.

(** the damage is done by the first call: the second one returns the same *)
Theorem C11_second_call (h : vheap R) s0 s1 segs tv t h' v :
  Forall separate (s0 :: s1 :: segs) -> live h (refs (HPoly (s0 :: s1 :: segs) tv)) ->
  (exists b, hands_out s0 b) ->
  returns h (HPoly (s0 :: s1 :: segs) tv) t h' v ->
  exists h'', returns h' (HPoly (s0 :: s1 :: segs) tv) t h'' v /\ unchanged h' h''.
Proof.
  intros S L [b Hb] (l & E & El).
  pose proof (overwrite s0 s1 segs tv h t b S Hb L) as K. cbv zeta in K. rewrite E in K.
  change (@n0 R NumR) with 0 in K. rewrite scale_zero in K. set (h1 := vput h b (V3 0 0 0)) in *.
  destruct K as (ext & -> & K).
  assert (L1 : live (h1 ++ ext) (refs (HPoly (s0 :: s1 :: segs) tv))) by (apply live_app, live_put; exact L).
  assert (Lb : (b < length h)%nat).
  { pose proof (live_poly _ _ _ s0 L (or_introl eq_refl)) as L0. unfold live in L0. rewrite Forall_forall in L0.
    apply live_lt, L0. exact (hands_ref _ _ Hb). }
  assert (Eb : nth_error (h1 ++ ext) b = Some (V3 0 0 0)) by (apply nth_app_some, vput_same; exact Lb).
  pose proof (overwrite s0 s1 segs tv (h1 ++ ext) t b S Hb L1) as K2. cbv zeta in K2.
  rewrite (look_some _ _ _ Eb) in K2. change (@n0 R NumR) with 0 in K2. rewrite scale_zero in K2.
  pose proof (vput_id _ _ _ Eb) as Same.
  rewrite Same in K2. destruct (hcall _ t (h1 ++ ext)) as [h2 r2] eqn:E2. destruct K2 as (x & -> & K2).
  assert (V : map (value_of (h1 ++ ext)) (s0 :: s1 :: segs) = map (value_of h1) (s0 :: s1 :: segs)).
  { apply map_ext_in. intros s Hs. apply value_app, live_put. exact (live_poly _ _ _ _ L Hs). }
  rewrite V in K2. destruct (poly_loop _ _ _ _ _ _) as [u|e]; [|contradiction].
  destruct r2 as [l2|]; [|contradiction]. rewrite El in K. injection K as ->.
  exists ((h1 ++ ext) ++ x). split; [exists l2; auto|apply app_unchanged].
Qed.

(** a one-point Bezier in front of a line: breakpoints 0, 0, 1 *)
Example C11_meets :
  let h := [V3 1 2 3; V3 1 2 3; V3 4 5 6] : vheap R in
  let p := HPoly [HBezier [0%nat]; HLine 1%nat 2%nat] [0; 0; 1] in
  separate (HPoly [HLine 1%nat 2%nat; HBezier [0%nat]] [0; 1; 1]) /\
  Forall (separate (T := R)) [HBezier [0%nat]; HLine 1%nat 2%nat] /\ live h (refs p) /\ hands_out (T := R) (HBezier [0%nat]) 0%nat /\
  exists h' r, hcall p (1 / 2) h = (h', r) /\ ~ unchanged h h' /\
    exists v, returns h' (HBezier [0%nat]) 0 h' v /\ v <> V3 1 2 3.
Proof.
  cbv zeta. set (h := [_; _; _] : vheap R). set (p := HPoly [HBezier [0%nat]; HLine 1%nat 2%nat] [0; 0; 1]).
  assert (S : Forall separate [HBezier [0%nat]; HLine (T := R) 1%nat 2%nat]) by (repeat constructor).
  assert (L : live h (refs p)) by (repeat constructor; discriminate).
  split; [constructor; [repeat constructor|]; intros ? ? ? ? Q Hb; injection Q as <- _ _; inversion Hb|].
  split; [exact S|]. split; [exact L|]. split; [constructor|].
  destruct (hcall p (1 / 2) h) as [h' r] eqn:E. exists h', r. split; [reflexivity|].
  assert (N0 : V3 1 2 3 <> V3 0 0 0) by (intros Q; injection Q; intros; lra).
  split.
  - intros U. apply N0. exact (proj1 (C11_iff h _ _ [] _ _ h' r S L E) U 0%nat (V3 1 2 3) (ho_bezier 0%nat) eq_refl).
  - destruct (C11_overwritten h _ _ [] _ _ 0%nat (V3 1 2 3) h' r S L (ho_bezier 0%nat) eq_refl E) as [_ Q].
    exists (vscale (V3 1 2 3) 0). split; [exact (proj2 (Q 0))|]. rewrite scale_zero. auto.
Qed.

(** ** C25, C80: Coons patches *)
Section Patches.
  Context {T : Type} {N : Num T}.
  Notation heap := (vheap T).
  Definition edges (c : hcoons T) : list (hpath T) := [hc_north c; hc_east c; hc_south c; hc_west c].
  Definition coons_refs (c : hcoons T) : list ref :=
    (flat_map refs (edges c) ++ [hc_p00 c; hc_p10 c; hc_p11 c; hc_p01 c; hc_offset c])%list.
  (** evaluating the patch at (r, s) returns the vector v, and changes no old vector *)
  Definition patch_at (h : heap) (c : hcoons T) (r s : T) (v : vec T) : Prop :=
    exists h' l, hcoons_call c r s h = (h', Ok l) /\ nth_error h' l = Some v /\ unchanged h h'.

  Lemma live_edge (h : heap) c p : live h (coons_refs c) -> In p (edges c) -> live h (refs p).
  Proof.
    unfold live, coons_refs. rewrite !Forall_forall. intros H Hp l Hl. apply H, in_or_app. left. apply in_flat_map. eauto.
  Qed.
  Lemma live_rest (h : heap) c l : live h (coons_refs c) -> In l [hc_p00 c; hc_p10 c; hc_p11 c; hc_p01 c; hc_offset c] -> nth_error h l <> None.
  Proof. unfold live, coons_refs. rewrite !Forall_forall. intros H Hl. apply H, in_or_app. auto. Qed.

  Lemma coons_value' (h : heap) c r s : Forall separate (edges c) -> live h (coons_refs c) ->
    let (h', x) := hcoons_call c r s h in unchanged h h' /\
    match x, Coons_call (coons_of h c) r s with
    | Ok l, Ok v => nth_error h' l = Some v
    | Raise e, Raise e' => e = e'
    | _, _ => False
    end.
  Proof.
    intros S L. unfold edges in S. rewrite Forall_forall in S.
    pose proof (live_edge h c) as LE.
    assert (C : forall p t ext, In p (edges c) -> call_ok (h ++ ext) p t).
    { intros p t ext Hp. apply hcall_ok; [apply S; exact Hp|apply live_app, LE; assumption]. }
    assert (V : forall p ext, In p (edges c) -> value_of (h ++ ext) p = value_of h p).
    { intros p ext Hp. apply value_app, LE; assumption. }
    unfold Coons_call, coons_of; cbn [c_south c_north c_west c_east c_p00 c_p01 c_p10 c_p11 c_offset].
    unfold hcoons_call. unfold vbind at 1.
    pose proof (C (hc_south c) r [] ltac:(cbn; auto)) as K1. unfold call_ok in K1. rewrite app_nil_r in K1.
    destruct (hcall (hc_south c) r h) as [h1 r1]. destruct K1 as (x1 & -> & K1).
    destruct r1 as [a|e], (p_call (value_of h (hc_south c)) r) as [va|e']; try contradiction; cbn [bind].
    2:{ subst. split; [apply app_unchanged|reflexivity]. }
    pose proof (C (hc_north c) r x1 ltac:(cbn; auto)) as K2. unfold call_ok in K2. rewrite V in K2 by (cbn; auto).
    unfold vbind at 1. destruct (hcall (hc_north c) r (h ++ x1)) as [h2 r2]. destruct K2 as (x2 & -> & K2).
    destruct r2 as [b|e], (p_call (value_of h (hc_north c)) r) as [vb|e']; try contradiction; cbn [bind].
    2:{ subst. split; [rewrite <- app_assoc; apply app_unchanged|reflexivity]. }
    pose proof (C (hc_west c) s (x1 ++ x2)%list ltac:(cbn; auto)) as K3. unfold call_ok in K3. rewrite V in K3 by (cbn; auto).
    rewrite app_assoc in K3.
    unfold vbind at 1. destruct (hcall (hc_west c) s _) as [h3 r3]. destruct K3 as (x3 & -> & K3).
    destruct r3 as [d|e], (p_call (value_of h (hc_west c)) s) as [vd|e']; try contradiction; cbn [bind].
    2:{ subst. split; [rewrite <- !app_assoc; apply app_unchanged|reflexivity]. }
    pose proof (C (hc_east c) s ((x1 ++ x2) ++ x3)%list ltac:(cbn; auto)) as K4. unfold call_ok in K4. rewrite V in K4 by (cbn; auto).
    rewrite !app_assoc in K4.
    unfold vbind at 1. destruct (hcall (hc_east c) s _) as [h4 r4]. destruct K4 as (x4 & -> & K4).
    destruct r4 as [f|e], (p_call (value_of h (hc_east c)) s) as [vf|e']; try contradiction; cbn [bind].
    2:{ subst. split; [rewrite <- !app_assoc; apply app_unchanged|reflexivity]. }
    set (hh := (((h ++ x1) ++ x2) ++ x3) ++ x4).
    assert (Ha : nth_error hh a = Some va) by (apply nth_app_some, nth_app_some, nth_app_some, K1).
    assert (Hb : nth_error hh b = Some vb) by (apply nth_app_some, nth_app_some, K2).
    assert (Hd : nth_error hh d = Some vd) by (apply nth_app_some, K3).
    assert (Hf : nth_error hh f = Some vf) by (apply K4).
    assert (Hr : forall l, In l [hc_p00 c; hc_p10 c; hc_p11 c; hc_p01 c; hc_offset c] -> nth_error hh l = Some (look h l)).
    { intros l Hl. unfold hh. do 4 apply nth_app_some. apply live_some, (live_rest _ _ _ L Hl). }
    unfold vbind at 1.
    rewrite read_all_live.
    2:{ unfold live. repeat constructor; try congruence; rewrite Hr by (cbn; auto 10); discriminate. }
    cbn [map]. rewrite (look_some _ _ _ Ha), (look_some _ _ _ Hb), (look_some _ _ _ Hd), (look_some _ _ _ Hf).
    assert (Hr' : forall l, In l [hc_p00 c; hc_p10 c; hc_p11 c; hc_p01 c; hc_offset c] -> look hh l = look h l)
      by (intros l Hl; exact (look_some _ _ _ (Hr l Hl))).
    rewrite !Hr' by (cbn; auto 10).
    unfold vnew. split.
    - unfold hh. rewrite <- !app_assoc. apply app_unchanged.
    - rewrite nth_error_app2, Nat.sub_diag by lia. reflexivity.
  Qed.
  Lemma coons_value (h : heap) c r s : Forall separate (edges c) -> live h (coons_refs c) ->
    match Coons_call (coons_of h c) r s with
    | Ok v => patch_at h c r s v
    | Raise e => exists h', hcoons_call c r s h = (h', Raise e) /\ unchanged h h'
    end.
  Proof.
    intros S L. pose proof (coons_value' h c r s S L) as K. unfold patch_at.
    destruct (hcoons_call c r s h) as [h' [l|e]], (Coons_call (coons_of h c) r s); destruct K as [U K]; try contradiction.
    - eauto.
    - subst. eauto.
  Qed.


  Lemma coons_ext (h h' : heap) c : (forall l, In l (coons_refs c) -> look h' l = look h l) -> coons_of h' c = coons_of h c.
  Proof.
    intros H. unfold coons_of.
    assert (E : forall p, In p (edges c) -> value_of h' p = value_of h p).
    { intros p Hp. apply value_ext. intros l Hl. apply H. unfold coons_refs. apply in_or_app. left. apply in_flat_map. eauto. }
    rewrite !E by (cbn; auto).
    rewrite !H by (unfold coons_refs; apply in_or_app; right; cbn; auto 10). reflexivity.
  Qed.
  Lemma coons_shift (h x : heap) c : coons_of (h ++ x) (shift_coons (length h) c) = coons_of x c.
  Proof. unfold coons_of, shift_coons; cbn. rewrite !value_shift, !look_shift. reflexivity. Qed.
  Lemma coons_refs_shift k c : coons_refs (shift_coons k c) = map (shift k) (coons_refs c).
  Proof.
    unfold coons_refs, edges, shift_coons; cbn. rewrite !refs_shift, !map_app. reflexivity.
  Qed.
End Patches.

Definition moved (c : coons R) (o : pt) : coons R :=
  mkCoons (c_north c) (c_east c) (c_south c) (c_west c) (c_p00 c) (c_p10 c) (c_p11 c) (c_p01 c) o.
Lemma copy_moved (op : pt -> pt -> pt) (h : vheap R) c v x :
  Forall separate (edges c) -> live h (coons_refs c) -> nth_error h v = Some x ->
  exists h' c', vbind (deepcopy_coons c) (fun c => vbind (vbind (vread (hc_offset c)) (fun a => vbind (vread v) (fun w => vnew (op a w))))
      (fun o => vret (set_offset c o))) h = (h', Ok c') /\ unchanged h h' /\
    (forall l, In l (coons_refs c') -> fresh h l) /\
    forall r s p, patch_at h c r s p ->
      Coons_call (coons_of h c) r s = Ok p /\
      patch_at h' c r s p /\
      (forall k w q, nth_error h k <> None ->
         Coons_call (moved (coons_of h c) (op (c_offset (coons_of h c)) x)) r s = Ok q ->
         patch_at (vput h' k w) c' r s q).
Proof.
  intros S L Ex. pose proof (live_rest h c (hc_offset c) L ltac:(cbn; auto 10)) as Lo.
  unfold deepcopy_coons. unfold vbind at 1. cbn [shift_coons hc_offset].
  set (c1 := shift_coons (length h) c).
  unfold vbind at 1. unfold vbind at 1.
  assert (Eo : nth_error (h ++ h) (shift (length h) (hc_offset c)) = Some (look h (hc_offset c))).
  { unfold shift. rewrite nth_error_app2 by lia. rewrite Nat.add_comm, Nat.add_sub. apply live_some, Lo. }
  rewrite (read_some _ _ _ Eo). unfold vbind at 1. rewrite (read_some _ _ _ (nth_app_some _ _ _ _ Ex)).
  unfold vnew, vret. set (o := op (look h (hc_offset c)) x). set (h' := (h ++ h) ++ [o]).
  set (c' := set_offset c1 (length (h ++ h))).
  exists h', c'. split; [reflexivity|].
  assert (F : forall l, In l (coons_refs c') -> (length h <= l)%nat).
  { intros l Hl. unfold coons_refs in Hl. apply in_app_or in Hl.
    assert (Hl' : In l (coons_refs c1) \/ l = length (h ++ h)).
    { unfold coons_refs. destruct Hl as [Hl|Hl]; [left; apply in_or_app; left; exact Hl|].
      cbn in Hl. destruct Hl as [<- | [<- | [<- | [<- | [<- | []]]]]]; auto; left; apply in_or_app; right; cbn; auto 10. }
    destruct Hl' as [Hl'| ->]; [|rewrite app_length; lia].
    unfold c1 in Hl'. rewrite coons_refs_shift in Hl'. apply in_map_iff in Hl'. destruct Hl' as (k & <- & _). unfold shift. lia. }
  assert (U : unchanged h h') by (unfold h'; rewrite <- app_assoc; apply app_unchanged).
  split; [exact U|]. split; [intros l Hl; apply nth_error_None, F, Hl|].
  assert (V' : coons_of h' c = coons_of h c).
  { apply coons_ext. intros l Hl. unfold h'. rewrite <- app_assoc. apply look_app, live_lt.
    unfold live in L. rewrite Forall_forall in L. auto. }
  assert (V1 : coons_of h' c' = moved (coons_of h c) (op (c_offset (coons_of h c)) x)).
  { unfold c', set_offset, coons_of, moved; cbn.
    assert (A : forall p, In p (edges c) -> value_of h' (shift_path (length h) p) = value_of h p).
    { intros p Hp. unfold h'. rewrite <- app_assoc, value_shift. apply value_app. exact (live_edge h c p L Hp). }
    assert (B : forall l, In l [hc_p00 c; hc_p10 c; hc_p11 c; hc_p01 c; hc_offset c] -> look h' (shift (length h) l) = look h l).
    { intros l Hl. unfold h'. rewrite <- app_assoc, look_shift. apply look_app, live_lt, (live_rest h c l L Hl). }
    rewrite !A by (cbn; auto). rewrite !B by (cbn; auto 10). f_equal.
    apply look_some. unfold h'. rewrite nth_error_app2, Nat.sub_diag by lia. reflexivity. }
  assert (S1 : Forall separate (edges c')).
  { rewrite Forall_forall in *. intros p Hp. unfold edges, c', set_offset, c1, shift_coons in Hp; cbn in Hp.
    destruct Hp as [<- | [<- | [<- | [<- | []]]]]; apply separate_shift, S; cbn; auto. }
  assert (L' : live h' (coons_refs c)).
  { unfold h'. rewrite <- app_assoc. apply live_app, L. }
  assert (L1 : live h' (coons_refs c')).
  { unfold live. rewrite Forall_forall. intros l Hl. unfold coons_refs in Hl. apply in_app_or in Hl.
    assert (Hl' : In l (coons_refs c1) \/ l = length (h ++ h)).
    { unfold coons_refs. destruct Hl as [Hl|Hl]; [left; apply in_or_app; left; exact Hl|].
      cbn in Hl. destruct Hl as [<- | [<- | [<- | [<- | [<- | []]]]]]; auto; left; apply in_or_app; right; cbn; auto 10. }
    destruct Hl' as [Hl'| ->].
    - unfold c1 in Hl'. rewrite coons_refs_shift in Hl'. unfold h'. rewrite <- app_assoc.
      pose proof (live_shift h (h ++ [o]) _ (live_app h [o] _ L)) as Q. unfold live in Q. rewrite Forall_forall in Q. auto.
    - unfold h'. rewrite nth_error_app2, Nat.sub_diag by lia. discriminate. }
  intros r s p Hp.
  assert (Vp : Coons_call (coons_of h c) r s = Ok p).
  { pose proof (coons_value h c r s S L) as K. destruct Hp as (h2 & l & E & El & _).
    destruct (Coons_call (coons_of h c) r s) as [q|e].
    - destruct K as (h3 & l' & E' & El' & _). rewrite E in E'. injection E' as <- <-. congruence.
    - destruct K as (h3 & E' & _). congruence. }
  split; [exact Vp|]. split.
  - pose proof (coons_value h' c r s S L') as K. rewrite V', Vp in K. exact K.
  - intros k w q Hk Hq. apply live_lt in Hk.
    assert (V2 : coons_of (vput h' k w) c' = coons_of h' c').
    { apply coons_ext. intros l Hl. apply look_put_other. specialize (F l Hl). lia. }
    pose proof (coons_value (vput h' k w) c' r s S1 (live_put _ _ _ _ L1)) as K. rewrite V2, V1, Hq in K.
    exact K.
Qed.

(** + and - return a patch that shares nothing with what existed before; the
    operands keep their values *)
Theorem C25_copy (h : vheap R) c v x : Forall separate (edges c) -> live h (coons_refs c) -> nth_error h v = Some x ->
  (exists h' c', hcoons_add c v h = (h', Ok c') /\ unchanged h h' /\
    (forall l, In l (coons_refs c') -> fresh h l) /\
    forall r s p, patch_at h c r s p ->
      patch_at h' c r s p /\
      (forall k w, nth_error h k <> None -> patch_at (vput h' k w) c' r s (translate p x))) /\
  (exists h' c', hcoons_sub c v h = (h', Ok c') /\ unchanged h h' /\
    (forall l, In l (coons_refs c') -> fresh h l) /\
    forall r s p, patch_at h c r s p ->
      patch_at h' c r s p /\
      (forall k w, nth_error h k <> None -> patch_at (vput h' k w) c' r s (diff p x))).
Proof.
  intros S L Ex. split.
  - destruct (copy_moved vadd h c v x S L Ex) as (h' & c' & E & U & F & K). exists h', c'.
    split; [exact E|]. split; [exact U|]. split; [exact F|]. intros r s p Hp. destruct (K r s p Hp) as (V & A & B).
    split; [exact A|]. intros k w Hk. apply B; [exact Hk|]. exact (proj1 (coons_add_value (coons_of h c) x r s p V)).
  - destruct (copy_moved vsub h c v x S L Ex) as (h' & c' & E & U & F & K). exists h', c'.
    split; [exact E|]. split; [exact U|]. split; [exact F|]. intros r s p Hp. destruct (K r s p Hp) as (V & A & B).
    split; [exact A|]. intros k w Hk. apply B; [exact Hk|]. exact (proj1 (proj2 (coons_add_value (coons_of h c) x r s p V))).
Qed.

(** ** C80: a patch and the objects it was built from *)
Section Build.
  Context {T : Type} {N : Num T}.
  Notation heap := (vheap T).

  Lemma call_step (H0 ext : heap) p t : separate p -> live H0 (refs p) -> exists ext' r,
    hcall p t (H0 ++ ext) = (H0 ++ ext ++ ext', r)%list /\
    match r, p_call (value_of H0 p) t with
    | Ok l, Ok v => nth_error (H0 ++ ext ++ ext')%list l = Some v /\
        forall m, (m <= length H0)%nat -> (forall k, In k (refs p) -> (m <= k)%nat) -> (m <= l)%nat
    | Raise e, Raise e' => e = e'
    | _, _ => False
    end.
  Proof.
    intros S L. pose proof (hcall_ok p S (H0 ++ ext)%list t (live_app _ _ _ L)) as K. unfold call_ok in K.
    rewrite (value_app _ _ _ L) in K.
    destruct (hcall p t (H0 ++ ext)%list) as [h' r] eqn:E. destruct K as (x & -> & K).
    exists x, r. rewrite <- app_assoc in *. split; [reflexivity|].
    destruct r as [l|], (p_call (value_of H0 p) t); try contradiction; auto.
    destruct K as [K1 K2]. split; [exact K1|]. intros m Hm Hk. destruct K2 as [[b Hb]|K2].
    - assert (l = b) by (rewrite (hands_call _ _ _ _ Hb) in E; congruence). subst. apply Hk. exact (hands_ref _ _ Hb).
    - rewrite app_length in K2. lia.
  Qed.

  Lemma build (h : heap) n e s w o : Forall separate [n; e; s; w] -> Forall (fun p => live h (refs p)) [n; e; s; w] ->
    nth_error h o <> None ->
    let (h', r) := new_coons n e s w o h in unchanged h h' /\
    match r, Coons_edges (value_of h n) (value_of h e) (value_of h s) (value_of h w) (look h o) with
    | Ok c, Ok v => coons_of h' c = v /\ hc_offset c = o /\ live h' (coons_refs c) /\ Forall separate (edges c) /\
        forall l, In l (flat_map refs (edges c) ++ [hc_p00 c; hc_p10 c; hc_p11 c; hc_p01 c]) -> (length h <= l)%nat
    | Raise x, Raise x' => x = x'
    | _, _ => False
    end.
  Proof.
    intros S L Lo.
    inversion S as [|? ? Sn S1]; subst. inversion S1 as [|? ? Se S2]; subst. inversion S2 as [|? ? Ss S3]; subst. inversion S3 as [|? ? Sw _]; subst. clear S S1 S2 S3.
    inversion L as [|? ? Ln L1]; subst. inversion L1 as [|? ? Le L2]; subst. inversion L2 as [|? ? Ls L3]; subst. inversion L3 as [|? ? Lw _]; subst. clear L L1 L2 L3.
    unfold new_coons, deepcopy_path. unfold vbind at 1. set (n' := shift_path (length h) n).
    unfold vbind at 1. set (h1 := (h ++ h)%list). set (e' := shift_path (length h1) e).
    unfold vbind at 1. set (h2 := (h1 ++ h1)%list). set (s' := shift_path (length h2) s).
    unfold vbind at 1. set (h3 := (h2 ++ h2)%list). set (w' := shift_path (length h3) w).
    set (H := (h3 ++ h3)%list).
    assert (Q1 : exists y, H = (h ++ h ++ y)%list) by (eexists; unfold H, h3, h2, h1; rewrite <- !app_assoc; reflexivity).
    assert (Q2 : exists y, H = (h1 ++ h ++ y)%list) by (eexists; unfold H, h3, h2, h1; rewrite <- !app_assoc; reflexivity).
    assert (Q3 : exists y, H = (h2 ++ h ++ y)%list) by (eexists; unfold H, h3, h2, h1; rewrite <- !app_assoc; reflexivity).
    assert (Q4 : exists y, H = (h3 ++ h ++ y)%list) by (eexists; unfold H, h3, h2, h1; rewrite <- !app_assoc; reflexivity).
    assert (G : forall k p, (exists y, H = (k ++ h ++ y)%list) -> (length h <= length k)%nat -> separate p -> live h (refs p) ->
      separate (shift_path (length k) p) /\ live H (refs (shift_path (length k) p)) /\
      value_of H (shift_path (length k) p) = value_of h p /\ forall l, In l (refs (shift_path (length k) p)) -> (length h <= l)%nat).
    { intros k p [y Ey] Lk Sp Lp. split; [apply separate_shift; exact Sp|]. rewrite Ey. split; [|split].
      - rewrite refs_shift. apply live_shift, live_app, Lp.
      - rewrite value_shift. apply value_app, Lp.
      - intros l Hl. rewrite refs_shift in Hl. apply in_map_iff in Hl. destruct Hl as (x & <- & _). unfold shift. lia. }
    destruct (G h n Q1 (le_n _) Sn Ln) as (Sn' & Ln' & Vn & Fn).
    destruct (G h1 e Q2 ltac:(unfold h1; rewrite app_length; lia) Se Le) as (Se' & Le' & Ve & Fe).
    destruct (G h2 s Q3 ltac:(unfold h2, h1; rewrite !app_length; lia) Ss Ls) as (Ss' & Ls' & Vs & Fs).
    destruct (G h3 w Q4 ltac:(unfold h3, h2, h1; rewrite !app_length; lia) Sw Lw) as (Sw' & Lw' & Vw & Fw).
    fold n' in Sn', Ln', Vn, Fn. fold e' in Se', Le', Ve, Fe. fold s' in Ss', Ls', Vs, Fs. fold w' in Sw', Lw', Vw, Fw.
    assert (U : forall y, unchanged h (H ++ y)%list).
    { intros y. destruct Q1 as [z ->]. rewrite <- app_assoc. apply app_unchanged. }
    assert (LH : (length h <= length H)%nat) by (destruct Q1 as [z ->]; rewrite app_length; lia).
    assert (EO : look H o = look h o) by (destruct Q1 as [z ->]; apply look_app, live_lt, Lo).
    assert (LO : nth_error H o <> None) by (destruct Q1 as [z ->]; rewrite nth_error_app1 by (apply live_lt, Lo); exact Lo).
    clearbody H n' e' s' w'. clear h1 h2 h3 Q1 Q2 Q3 Q4 G.
    unfold Coons_edges. rewrite <- Vn, <- Ve, <- Vs, <- Vw.
    match goal with |- context[vbind (hcall s' n0) ?k H] =>
      replace (vbind (hcall s' n0) k H) with (vbind (hcall s' n0) k (H ++ [])%list) by (rewrite app_nil_r; reflexivity) end.
    Local Ltac step S L F :=
      match goal with |- context[vbind (hcall ?p ?t) _ (?H ++ ?y)%list] =>
        let x := fresh "x" in let r := fresh "r" in let E := fresh "E" in let K := fresh "K" in
        destruct (call_step H y p t S L) as (x & r & E & K); unfold vbind at 1; rewrite E; clear E;
        destruct r, (p_call (value_of H p) t); try contradiction; cbn [bind];
        [destruct K as [K ?]; rewrite <- ?app_assoc in K | subst; split; auto] end.
    step Ss' Ls' Fs. step Ss' Ls' Fs. step Sn' Ln' Fn. step Sn' Ln' Fn.
    step Sw' Lw' Fw. step Se' Le' Fe. step Sw' Lw' Fw. step Se' Le' Fe.
    rewrite <- !app_assoc.
    set (HH := (H ++ [] ++ x ++ x0 ++ x1 ++ x2 ++ x3 ++ x4 ++ x5 ++ x6)%list) in *.
    assert (P : forall y z l v, nth_error (H ++ y)%list l = Some v -> HH = ((H ++ y) ++ z)%list -> nth_error HH l = Some v).
    { intros y z l v E ->. apply nth_app_some, E. }
    assert (R0 : nth_error HH a = Some a0) by (eapply P; [exact K|unfold HH; rewrite <- !app_assoc; reflexivity]).
    assert (R1 : nth_error HH a1 = Some a2) by (eapply P; [exact K0|unfold HH; rewrite <- !app_assoc; reflexivity]).
    assert (R2 : nth_error HH a3 = Some a4) by (eapply P; [exact K1|unfold HH; rewrite <- !app_assoc; reflexivity]).
    assert (R3 : nth_error HH a5 = Some a6) by (eapply P; [exact K2|unfold HH; rewrite <- !app_assoc; reflexivity]).
    assert (R4 : nth_error HH a7 = Some a8) by (eapply P; [exact K3|unfold HH; rewrite <- !app_assoc; reflexivity]).
    assert (R5 : nth_error HH a9 = Some a10) by (eapply P; [exact K4|unfold HH; rewrite <- !app_assoc; reflexivity]).
    assert (R6 : nth_error HH a11 = Some a12) by (eapply P; [exact K5|unfold HH; rewrite <- !app_assoc; reflexivity]).
    assert (R7 : nth_error HH a13 = Some a14) by exact K6.
    assert (UH : unchanged h HH) by (unfold HH; rewrite <- ?app_assoc; apply U).
    assert (HE : exists y, HH = (H ++ y)%list) by (eexists; reflexivity).
    clearbody HH. clear K K0 K1 K2 K3 K4 K5 K6 P.
    unfold vbind at 1. rewrite (read_some _ _ _ R0). unfold vbind at 1. rewrite (read_some _ _ _ R4).
    destruct (negb (approximately_equal_vectors a0 a8)); [split; [exact UH|reflexivity]|].
    unfold vbind at 1. rewrite (read_some _ _ _ R1). unfold vbind at 1. rewrite (read_some _ _ _ R5).
    destruct (negb (approximately_equal_vectors a2 a10)); [split; [exact UH|reflexivity]|].
    unfold vbind at 1. rewrite (read_some _ _ _ R2). unfold vbind at 1. rewrite (read_some _ _ _ R6).
    destruct (negb (approximately_equal_vectors a4 a12)); [split; [exact UH|reflexivity]|].
    unfold vbind at 1. rewrite (read_some _ _ _ R3). unfold vbind at 1. rewrite (read_some _ _ _ R7).
    destruct (negb (approximately_equal_vectors a6 a14)); [split; [exact UH|reflexivity]|].
    unfold vret. split; [exact UH|]. destruct HE as [y ->].
    assert (Lc : live (H ++ y)%list (coons_refs (mkHCoons n' e' s' w' a a1 a5 a3 o))).
    { unfold live, coons_refs, edges; cbn [hc_north hc_east hc_south hc_west hc_p00 hc_p10 hc_p11 hc_p01 hc_offset flat_map].
      rewrite !Forall_app. repeat split.
      - apply live_app, Ln'. - apply live_app, Le'. - apply live_app, Ls'. - apply live_app, Lw'. - constructor.
      - repeat constructor; try congruence. rewrite nth_error_app1 by (apply live_lt, LO). exact LO. }
    split; [|split; [reflexivity|split; [exact Lc|split; [repeat constructor; assumption|]]]].
    - unfold coons_of; cbn [hc_north hc_east hc_south hc_west hc_p00 hc_p10 hc_p11 hc_p01 hc_offset].
      rewrite (value_app _ _ _ Ln'), (value_app _ _ _ Le'), (value_app _ _ _ Ls'), (value_app _ _ _ Lw').
      rewrite (look_some _ _ _ R0), (look_some _ _ _ R1), (look_some _ _ _ R2), (look_some _ _ _ R3).
      rewrite look_app by (apply live_lt, LO). rewrite EO. reflexivity.
    - intros l Hl. unfold edges in Hl; cbn in Hl. rewrite app_nil_r in Hl.
      rewrite !in_app_iff in Hl. cbn in Hl.
      destruct Hl as [[Hl|[Hl|[Hl|Hl]]]|[<- | [<- | [<- | [<- | []]]]]]; auto.
  Qed.
End Build.

(** building a patch changes nothing; afterwards only the offset vector is
    shared: changing any other vector that existed does not move the patch,
    changing the offset vector moves it along *)
Theorem C80_insulated (h h' : vheap R) n e s w o x c :
  Forall separate [n; e; s; w] -> Forall (fun p => live h (refs p)) [n; e; s; w] -> nth_error h o = Some x ->
  new_coons n e s w o h = (h', Ok c) ->
  unchanged h h' /\
  forall r t p, patch_at h' c r t p ->
    (forall k y, nth_error h k <> None -> k <> o -> patch_at (vput h' k y) c r t p) /\
    (forall y, patch_at (vput h' o y) c r t (translate (diff p x) y)).
Proof.
  intros S L Ex E. pose proof (build h n e s w o S L ltac:(congruence)) as K. rewrite E in K.
  destruct K as [U K]. split; [exact U|].
  destruct (Coons_edges _ _ _ _ _) as [v|] eqn:EC; [|contradiction].
  destruct K as (Ev & Eo & Lc & Sc & F).
  intros r t p Hp.
  assert (Vp : Coons_call (coons_of h' c) r t = Ok p).
  { pose proof (coons_value h' c r t Sc Lc) as K. destruct Hp as (h2 & l & E2 & El & _).
    destruct (Coons_call (coons_of h' c) r t) as [q|z].
    - destruct K as (h3 & l' & E' & El' & _). rewrite E2 in E'. injection E' as <- <-. congruence.
    - destruct K as (h3 & E' & _). congruence. }
  split.
  - intros k y Hk Hko. apply live_lt in Hk.
    assert (V2 : coons_of (vput h' k y) c = coons_of h' c).
    { apply coons_ext. intros l Hl. apply look_put_other. intros ->. unfold coons_refs in Hl.
      apply in_app_or in Hl. destruct Hl as [Hl|Hl].
      - specialize (F k (in_or_app _ _ _ (or_introl Hl))). lia.
      - cbn in Hl. rewrite Eo in Hl. destruct Hl as [Hl|[Hl|[Hl|[Hl|[Hl|[]]]]]]; [| | | |congruence].
        all: assert (Hk' : (length h <= k)%nat) by (apply F, in_or_app; right; rewrite <- Hl; cbn; auto); lia. }
    pose proof (coons_value (vput h' k y) c r t Sc (live_put _ _ _ _ Lc)) as K. rewrite V2, Vp in K. exact K.
  - intros y.
    assert (Lo : (o < length h)%nat) by exact (some_lt _ _ _ Ex).
    assert (Exo : look h' o = x) by (apply look_some; exact (U o x Ex)).
    pose proof (coons_value (vput h' o y) c r t Sc (live_put _ _ _ _ Lc)) as K.
    assert (V2 : coons_of (vput h' o y) c = Coons_add (Coons_sub (coons_of h' c) x) y).
    { assert (KE : forall l, In l (flat_map refs (edges c) ++ [hc_p00 c; hc_p10 c; hc_p11 c; hc_p01 c]) ->
        look (vput h' o y) l = look h' l).
      { intros l Hl. apply look_put_other. intros ->. specialize (F o Hl). lia. }
      unfold coons_of, Coons_add, Coons_sub.
      cbn [c_north c_east c_south c_west c_p00 c_p10 c_p11 c_p01 c_offset].
      assert (KV : forall q, In q (edges c) -> value_of (vput h' o y) q = value_of h' q).
      { intros q Hq. apply value_ext. intros l Hl. apply KE, in_or_app. left. apply in_flat_map. eauto. }
      rewrite !KV by (unfold edges; cbn; auto).
      rewrite !KE by (apply in_or_app; right; cbn; auto).
      rewrite Eo, Exo. f_equal.
      rewrite (look_some (vput h' o y) o y) by (apply vput_same; exact (some_lt _ _ _ (U o x Ex))).
      vunf. apply vec_ext; cbn; ring. }
    rewrite V2 in K. pose proof (proj1 (proj2 (coons_add_value _ x r t p Vp))) as V3'.
    rewrite (proj1 (coons_add_value _ y r t _ V3')) in K. exact K.
Qed.

(** the constructor succeeds exactly when the value-level constructor does *)
Theorem C80_construct {T} {N : Num T} (h h' : vheap T) n e s w o r :
  Forall separate [n; e; s; w] -> Forall (fun p => live h (refs p)) [n; e; s; w] -> nth_error h o <> None ->
  new_coons n e s w o h = (h', r) ->
  unchanged h h' /\ (is_ok r <-> is_ok (Coons_edges (value_of h n) (value_of h e) (value_of h s) (value_of h w) (look h o))).
Proof.
  intros S L Lo E. pose proof (build h n e s w o S L Lo) as K. rewrite E in K. destruct K as [U K].
  split; [exact U|]. unfold is_ok.
  destruct r as [c|x], (Coons_edges _ _ _ _ _) as [v|y]; try contradiction;
    split; intros [z Hz]; try discriminate; eauto.
Qed.

(** a Bezier or Line object holds copies of the points it was given *)
Theorem C80_points {T} {N : Num T} (h : vheap T) B : live h B ->
  exists h' p, new_bezier B h = (h', Ok p) /\ unchanged h h' /\ (forall l, In l (refs p) -> fresh h l) /\
    value_of h' p = Bezier (map (look h) B) /\
    forall k y, nth_error h k <> None -> value_of (vput h' k y) p = Bezier (map (look h) B).
Proof.
  intros L.
  assert (G : exists x ks, copy_all B h = (h ++ x, Ok ks)%list /\ (forall l, In l ks -> (length h <= l)%nat) /\
    map (look (h ++ x)) ks = map (look h) B).
  { assert (G : forall y, exists x ks, copy_all B (h ++ y) = (h ++ y ++ x, Ok ks)%list /\
      (forall l, In l ks -> (length h <= l < length (h ++ y ++ x))%nat) /\ map (look (h ++ y ++ x)) ks = map (look h) B).
    { induction B as [|b B IH]; intros y.
      - exists [], []. rewrite app_nil_r. repeat split; cbn; tauto.
      - inversion L as [|? ? Lb LB]; subst. specialize (IH LB (y ++ [look h b])%list). destruct IH as (x & ks & E & F & V).
        rewrite <- !app_assoc in *. cbn [app] in *.
        exists (look h b :: x), (length (h ++ y) :: ks). split; [|split].
        + cbn [copy_all]. unfold vbind, vcopy, vbind. rewrite (read_some _ _ _ (nth_app_some _ _ _ _ (live_some _ _ Lb))).
          unfold vnew. rewrite <- app_assoc. rewrite E. reflexivity.
        + intros l [<- |Hl]; [|apply F, Hl]. rewrite !app_length. cbn. lia.
        + cbn [map]. rewrite V. f_equal. apply look_some. rewrite app_assoc.
          rewrite nth_error_app2 by lia. rewrite Nat.sub_diag. reflexivity. }
    destruct (G []) as (x & ks & E & F & V). cbn [app] in *. rewrite app_nil_r in E. exists x, ks.
    split; [exact E|]. split; [intros l Hl; apply F, Hl|exact V]. }
  destruct G as (x & ks & E & F & V). exists (h ++ x)%list, (HBezier ks).
  split; [unfold new_bezier, vbind; rewrite E; reflexivity|]. split; [apply app_unchanged|].
  split; [intros l Hl; unfold fresh; apply nth_error_None, F, Hl|].
  split; [cbn; rewrite V; reflexivity|]. intros k y Hk. apply live_lt in Hk.
  rewrite value_ext with (h := (h ++ x)%list); [cbn; rewrite V; reflexivity|].
  intros l Hl. apply look_put_other. specialize (F l Hl). lia.
Qed.

Theorem C80_line {T} {N : Num T} (h : vheap T) a b x y : nth_error h a = Some x -> nth_error h b = Some y ->
  exists h' p, new_line a b h = (h', Ok p) /\ unchanged h h' /\ (forall l, In l (refs p) -> fresh h l) /\
    value_of h' p = Line x y /\
    forall k z, nth_error h k <> None -> value_of (vput h' k z) p = Line x y.
Proof.
  intros Ha Hb. exists ((h ++ [x]) ++ [y])%list, (HLine (length h) (length (h ++ [x]))).
  split; [|split; [|split; [|split]]].
  - unfold new_line, vbind, vcopy, vbind. rewrite (read_some _ _ _ Ha). unfold vnew at 1.
    rewrite (read_some _ _ _ (nth_app_some _ _ _ _ Hb)). reflexivity.
  - rewrite <- app_assoc. apply app_unchanged.
  - intros l [<- | [<- | []]]; unfold fresh; apply nth_error_None; rewrite ?app_length; cbn; lia.
  - cbn [value_of]. f_equal; apply look_some.
    + rewrite <- app_assoc. rewrite nth_error_app2 by lia. rewrite Nat.sub_diag. reflexivity.
    + rewrite nth_error_app2 by lia. rewrite Nat.sub_diag. reflexivity.
  - intros k z Hk. apply live_lt in Hk. cbn [value_of].
    rewrite !look_put_other by (rewrite ?app_length; cbn; lia).
    f_equal; apply look_some.
    + rewrite <- app_assoc. rewrite nth_error_app2 by lia. rewrite Nat.sub_diag. reflexivity.
    + rewrite nth_error_app2 by lia. rewrite Nat.sub_diag. reflexivity.
Qed.

(** a Polyline keeps its segments: it follows later changes of their points,
    but its breakpoints stay those of the time it was built *)
Theorem C80_polyline_shares {T} {N : Num T} (h h' : vheap T) segs q : new_polyline segs h = (h', Ok q) ->
  separate q -> live h (refs q) ->
  h' = h /\ refs q = flat_map refs segs /\
  exists tv, reset_breakpoints (map (value_of h) segs) = Ok tv /\
  forall k y t v, p_call (polyline_path (mkPoly (map (value_of (vput h k y)) segs) tv)) t = Ok v ->
    exists h2 l, hcall q t (vput h k y) = (h2, Ok l) /\ nth_error h2 l = Some v.
Proof.
  unfold new_polyline. intros E S L. destruct (reset_breakpoints _) as [tv|] eqn:EB; [|discriminate].
  cbn [bind] in E. injection E as <- <-. split; [reflexivity|]. split; [reflexivity|].
  exists tv. split; [reflexivity|]. intros k y t v Hv.
  pose proof (hcall_ok _ S (vput h k y) t (live_put _ _ _ _ L)) as K. unfold call_ok in K.
  cbn [value_of] in K. rewrite Hv in K. destruct (hcall _ t (vput h k y)) as [h2 [l|]];
    destruct K as (x & -> & K); [|contradiction]. exists (vput h k y ++ x)%list, l. split; [reflexivity|]. apply K.
Qed.

(** the unit square: built, displaced, and then disturbed *)
Example C80_meets :
  let h := [V3 0 0 0; V3 1 0 0; V3 1 1 0; V3 0 1 0; V3 0 0 0; V3 0 0 1] : vheap R in
  exists h1 c, new_coons (HLine 3%nat 2%nat) (HLine 1%nat 2%nat) (HLine 0%nat 1%nat) (HLine 0%nat 3%nat) 4%nat h = (h1, Ok c) /\
    (forall k y, (k < 4)%nat -> patch_at (vput h1 k y) c 0 0 (V3 0 0 0)) /\
    (forall y, patch_at (vput h1 4%nat y) c 0 0 y) /\
    exists h2 c', hcoons_add c 5%nat h1 = (h2, Ok c') /\
      (forall y, patch_at (vput h2 4%nat y) c' 0 0 (V3 0 0 1)).
Proof.
  cbv zeta. set (h := [_; _; _; _; _; _] : vheap R).
  assert (S : Forall separate [HLine 3%nat 2%nat; HLine 1%nat 2%nat; HLine 0%nat 1%nat; HLine (T := R) 0%nat 3%nat]) by (repeat constructor).
  assert (L : Forall (fun p => live h (refs p)) [HLine 3%nat 2%nat; HLine 1%nat 2%nat; HLine 0%nat 1%nat; HLine (T := R) 0%nat 3%nat])
    by (repeat constructor; discriminate).
  pose proof (build h _ _ _ _ 4%nat S L ltac:(discriminate)) as K.
  destruct (new_coons _ _ _ _ 4%nat h) as [h1 r] eqn:E. destruct K as [U K].
  destruct (coons_exact _ _ _ _ _ _ _ _ (line_evaluates (V3 0 1 0) (V3 1 1 0)) (line_evaluates (V3 1 0 0) (V3 1 1 0))
    (line_evaluates (V3 0 0 0) (V3 1 0 0)) (line_evaluates (V3 0 0 0) (V3 0 1 0)) (V3 0 0 0)) as (v & Ev & W & _).
  1-4: unfold lerp; apply vec_ext; cbn; ring.
  cbn in K. cbn in Ev. rewrite Ev in K. destruct r as [c|]; [|contradiction]. exists h1, c.
  destruct K as (Ec & Eo & Lc & Sc & _).
  split; [reflexivity|].
  assert (P : patch_at h1 c 0 0 (V3 0 0 0)).
  { pose proof (coons_value h1 c 0 0 Sc Lc) as Q. rewrite Ec, W in Q.
    replace (translate _ _) with (V3 0 0 0 : pt) in Q; [exact Q|]. unfold translate, lerp; apply vec_ext; cbn; ring. }
  destruct (C80_insulated h h1 _ _ _ _ 4%nat (V3 0 0 0) c S L eq_refl E) as [_ I].
  destruct (I 0 0 _ P) as [I1 I2].
  split; [intros k y Hk; apply I1; [|lia]; intros Q; apply nth_error_None in Q; cbn in Q; lia|].
  split; [intros y; specialize (I2 y); replace (translate _ y) with y in I2; [exact I2|];
    unfold translate, diff; apply vec_ext; cbn; ring|].
  destruct (C25_copy h1 c 5%nat (V3 0 0 1) Sc Lc (U 5%nat _ eq_refl)) as [(h2 & c' & E2 & U2 & _ & Q) _].
  exists h2, c'. split; [exact E2|]. intros y. destruct (Q 0 0 _ P) as [_ Q2].
  replace (V3 0 0 1 : pt) with (translate (V3 0 0 0) (V3 0 0 1)); [apply Q2|unfold translate; apply vec_ext; cbn; ring].
  rewrite (U 4%nat _ eq_refl). discriminate.
Qed.

Print Assumptions C04_in_place.
Print Assumptions C11_iff.
Print Assumptions C25_copy.
Print Assumptions C80_insulated.
Print Assumptions C80_polyline_shares.
