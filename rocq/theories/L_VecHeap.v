(** Lemmas about vectors, paths and patches with identity. *)
From Coq Require Import List Lia Bool Arith.
From Verif Require Import Num Py M_Vector M_Path M_Surface M_VecHeap SpecAlias.
Import ListNotations.

Section VecHeapLemmas.
  Context {T : Type} {N : Num T}.
  Notation heap := (vheap T).

  Section Induct.
    Variable P : hpath T -> Prop.
    Hypothesis H1 : forall a b, P (HLine a b).
    Hypothesis H2 : forall B, P (HBezier B).
    Hypothesis H3 : forall a b c, P (HArc a b c).
    Hypothesis H4 : forall segs tv, Forall P segs -> P (HPoly segs tv).
    Fixpoint hpath_ind' (p : hpath T) : P p :=
      match p with
      | HLine a b => H1 a b
      | HBezier B => H2 B
      | HArc a b c => H3 a b c
      | HPoly segs tv => H4 segs tv ((fix go l : Forall P l :=
          match l with [] => Forall_nil P | s :: l' => Forall_cons s (hpath_ind' s) (go l') end) segs)
      end.
  End Induct.

  (** ** the heap *)
  Lemma vput_length (h : heap) l v : length (vput h l v) = length h.
  Proof. revert l. induction h; intros [|l]; cbn; auto. Qed.
  Lemma vput_same (h : heap) l v : l < length h -> nth_error (vput h l v) l = Some v.
  Proof. revert l. induction h; intros [|l]; cbn; intros; try lia; auto. apply IHh. lia. Qed.
  Lemma vput_other (h : heap) l k v : k <> l -> nth_error (vput h l v) k = nth_error h k.
  Proof. revert l k. induction h; intros [|l] [|k]; cbn; intros; try reflexivity; try lia. apply IHh. lia. Qed.
  Lemma vput_app_r (h x : heap) l v : length h <= l -> vput (h ++ x) l v = h ++ vput x (l - length h) v.
  Proof.
    revert l. induction h; intros l H; cbn in *; [rewrite Nat.sub_0_r; reflexivity|].
    destruct l; [lia|]. cbn. f_equal. apply IHh. lia.
  Qed.
  Lemma vput_app_l (h x : heap) l v : l < length h -> vput (h ++ x) l v = vput h l v ++ x.
  Proof.
    revert l. induction h; intros l H; cbn in *; [lia|]. destruct l; [reflexivity|]. cbn. f_equal. apply IHh. lia.
  Qed.
  Lemma vput_id (h : heap) l v : nth_error h l = Some v -> vput h l v = h.
  Proof. revert l. induction h; intros [|l]; cbn; intros H; try discriminate; f_equal; [congruence|auto]. Qed.
  Lemma some_lt (h : heap) l v : nth_error h l = Some v -> l < length h.
  Proof. intros H. apply nth_error_Some. congruence. Qed.
  Lemma nth_app_some (h x : heap) l v : nth_error h l = Some v -> nth_error (h ++ x) l = Some v.
  Proof. intros H. rewrite nth_error_app1; [exact H|]. exact (some_lt _ _ _ H). Qed.
  Lemma app_unchanged (h x : heap) : unchanged h (h ++ x).
  Proof. intros l v. apply nth_app_some. Qed.
  Lemma look_some (h : heap) l v : nth_error h l = Some v -> look h l = v.
  Proof. intros H. unfold look. apply nth_error_nth. exact H. Qed.
  Lemma live_some (h : heap) l : nth_error h l <> None -> nth_error h l = Some (look h l).
  Proof. intros H. destruct (nth_error h l) as [v|] eqn:E; [|congruence]. f_equal. symmetry. exact (look_some _ _ _ E). Qed.
  Lemma live_lt (h : heap) l : nth_error h l <> None -> l < length h.
  Proof. apply nth_error_Some. Qed.
  Lemma look_app (h x : heap) l : l < length h -> look (h ++ x) l = look h l.
  Proof. intros H. unfold look. apply app_nth1. exact H. Qed.
  Lemma look_shift (h x : heap) l : look (h ++ x) (shift (length h) l) = look x l.
  Proof. unfold look, shift. rewrite app_nth2_plus. reflexivity. Qed.
  Lemma look_put_other (h : heap) l k v : l <> k -> look (vput h k v) l = look h l.
  Proof.
    intros H. unfold look. revert l k H. induction h; intros [|l] [|k] H; cbn; try reflexivity; try lia.
    apply IHh. lia.
  Qed.

  (** ** values depend only on the referenced vectors *)
  Lemma value_ext (h h' : heap) p : (forall l, In l (refs p) -> look h' l = look h l) -> value_of h' p = value_of h p.
  Proof.
    induction p as [a b|B|a b c|segs tv IH] using hpath_ind'; cbn [refs value_of]; intros H.
    - rewrite !H by (cbn; auto). reflexivity.
    - f_equal. apply map_ext_in. exact H.
    - rewrite !H by (cbn; auto). reflexivity.
    - f_equal. f_equal. apply map_ext_in. intros s Hs. rewrite Forall_forall in IH. apply IH; [exact Hs|].
      intros l Hl. apply H. apply in_flat_map. eauto.
  Qed.
  Lemma refs_shift k p : refs (T := T) (shift_path k p) = map (shift k) (refs p).
  Proof.
    induction p as [a b|B|a b c|segs tv IH] using hpath_ind'; cbn [refs shift_path]; try reflexivity.
    induction IH as [|s l Hs Hl IHl]; [reflexivity|]. cbn [map flat_map]. rewrite Hs, IHl, map_app. reflexivity.
  Qed.
  Lemma value_shift (h x : heap) p : value_of (h ++ x) (shift_path (length h) p) = value_of x p.
  Proof.
    induction p as [a b|B|a b c|segs tv IH] using hpath_ind'; cbn [shift_path value_of]; rewrite ?look_shift; try reflexivity.
    - f_equal. rewrite map_map. apply map_ext. intros l. apply look_shift.
    - f_equal. f_equal. rewrite map_map. apply map_ext_in. rewrite Forall_forall in IH. exact IH.
  Qed.
  Lemma value_app (h x : heap) p : live h (refs p) -> value_of (h ++ x) p = value_of h p.
  Proof.
    intros H. apply value_ext. intros l Hl. apply look_app, live_lt. unfold live in H. rewrite Forall_forall in H. auto.
  Qed.
  Lemma live_app (h x : heap) ls : live h ls -> live (h ++ x) ls.
  Proof.
    apply Forall_impl. intros l H. apply nth_error_Some. rewrite app_length. apply live_lt in H. lia.
  Qed.
  Lemma live_poly (h : heap) (segs : list (hpath T)) tv s : live h (refs (HPoly segs tv)) -> In s segs -> live h (refs s).
  Proof.
    unfold live. cbn [refs]. rewrite !Forall_forall. intros H Hs l Hl. apply H. apply in_flat_map. eauto.
  Qed.
  Lemma live_shift (h x : heap) ls : live x ls -> live (h ++ x) (map (shift (length h)) ls).
  Proof.
    unfold live. rewrite !Forall_forall. intros H l Hl. apply in_map_iff in Hl. destruct Hl as (k & <- & Hk).
    apply nth_error_Some. rewrite app_length. specialize (H k Hk). apply live_lt in H. unfold shift. lia.
  Qed.
  Lemma hands_shift k p b : hands_out (T := T) p b -> hands_out (shift_path k p) (shift k b).
  Proof. induction 1; cbn; constructor. assumption. Qed.
  Lemma hands_shift_inv k p b : hands_out (T := T) (shift_path k p) b -> exists c, hands_out p c.
  Proof.
    revert b. induction p as [a c|B|a c e|segs tv IH] using hpath_ind'; cbn [shift_path]; intros b H; inversion H.
    - destruct B as [|x [|]]; try discriminate. eexists; constructor.
    - destruct segs as [|x [|]]; try discriminate. cbn in H0. injection H0 as ->.
      pose proof (Forall_inv IH) as Hx. cbn beta in Hx.
      match goal with A : hands_out (shift_path k x) _ |- _ => destruct (Hx _ A) as [z Hz] end.
      exists z. constructor. exact Hz.
  Qed.
  Lemma separate_shift k p : separate (T := T) p -> separate (shift_path k p).
  Proof.
    induction p as [a c|B|a c e|segs tv IH] using hpath_ind'; cbn [shift_path]; intros H; constructor.
    - inversion H; subst. rewrite Forall_forall in *. intros s Hs. apply in_map_iff in Hs. destruct Hs as (s' & <- & Hs').
      apply IH; auto.
    - inversion H; subst. intros s0 s1 l b E Hb. destruct segs as [|x [|y z]]; try discriminate. cbn in E. injection E as <- _ _.
      destruct (hands_shift_inv _ _ _ Hb) as [c Hc]. exact (H3 x y z c eq_refl Hc).
  Qed.
  Lemma separate_poly segs tv s : separate (T := T) (HPoly segs tv) -> In s segs -> separate s.
  Proof. intros H Hs. inversion H; subst. rewrite Forall_forall in H2. auto. Qed.

  (** ** evaluation *)
  Lemma read_some (h : heap) l v : nth_error h l = Some v -> vread l h = (h, Ok v).
  Proof. intros H. unfold vread. rewrite H. reflexivity. Qed.
  Lemma read_live (h : heap) l : nth_error h l <> None -> vread l h = (h, Ok (look h l)).
  Proof. intros H. apply read_some, live_some, H. Qed.
  Lemma read_all_live (h : heap) ls : live h ls -> read_all ls h = (h, Ok (map (look h) ls)).
  Proof.
    induction 1 as [|l ls Hl Hls IH]; [reflexivity|]. cbn [read_all]. unfold vbind. rewrite (read_live _ _ Hl), IH. reflexivity.
  Qed.
  Lemma imul_ok (h : heap) l v k : nth_error h l = Some v -> imul l k h = (vput h l (vscale v k), Ok l).
  Proof. intros H. unfold imul, vbind. rewrite (read_some _ _ _ H). reflexivity. Qed.

  Lemma hands_call (h : heap) p b t : hands_out p b -> hcall p t h = (h, Ok b).
  Proof. induction 1; [reflexivity|]. cbn [hcall]. exact IHhands_out. Qed.
  Lemma hands_ref p b : hands_out (T := T) p b -> In b (refs p).
  Proof. induction 1; cbn; auto. rewrite app_nil_r. assumption. Qed.
  Lemma hands_value (h : heap) p b t : hands_out p b -> p_call (value_of h p) t = Ok (look h b).
  Proof. induction 1; [reflexivity|]. cbn. exact IHhands_out. Qed.
  Lemma hands_dec p : (exists b, hands_out (T := T) p b) \/ ~ exists b, hands_out (T := T) p b.
  Proof.
    induction p as [a c|B|a c e|segs tv IH] using hpath_ind'.
    - right. intros [b H]; inversion H.
    - destruct B as [|x [|]]; [right; intros [b H]; inversion H| |right; intros [b H]; inversion H].
      left; eexists; constructor.
    - right. intros [b H]; inversion H.
    - destruct segs as [|x [|]]; [right; intros [b H]; inversion H| |right; intros [b H]; inversion H].
      inversion IH; subst. destruct H1 as [[b Hb]|Hn]; [left; exists b; constructor; assumption|right].
      intros [b H]; inversion H; subst; eauto.
  Qed.

  (** what one evaluation does: old vectors stay, the result has the value of
      the path, and is a new vector unless the path hands out a stored one *)
  Definition call_ok (h : heap) (p : hpath T) (t : T) : Prop :=
    let (h', r) := hcall p t h in
    exists ext, h' = h ++ ext /\
    match r, p_call (value_of h p) t with
    | Ok l, Ok v => nth_error h' l = Some v /\ ((exists b, hands_out p b) \/ length h <= l)
    | Raise e, Raise e' => e = e'
    | _, _ => False
    end.

  Lemma new_ok (h : heap) (r : res (vec T)) :
    let (h', r') := vbind (vfail r) vnew h in
    exists ext, h' = h ++ ext /\
    match r', r with
    | Ok l, Ok v => nth_error h' l = Some v /\ length h <= l
    | Raise e, Raise e' => e = e'
    | _, _ => False
    end.
  Proof.
    unfold vbind, vfail. destruct r as [v|e].
    - cbn. exists [v]. split; [reflexivity|]. split; [|lia]. rewrite nth_error_app2, Nat.sub_diag by lia. reflexivity.
    - exists []. rewrite app_nil_r. auto.
  Qed.

  Lemma loop_ok (h0 : heap) t n segs :
    (forall s t' ext, In s segs -> call_ok (h0 ++ ext) s t') ->
    (forall s, In s segs -> live h0 (refs s)) ->
    forall i tv f w x, nth_error (h0 ++ x) f = Some w ->
    let (h', r) := hpoly_loop hcall t n i segs tv f (h0 ++ x) in
    exists ext, h' = h0 ++ ext /\
    match r, poly_loop t n i (map (value_of h0) segs) tv w with
    | Ok l, Ok v => nth_error h' l = Some v /\ (length h0 <= f -> length h0 <= l)
    | Raise e, Raise e' => e = e'
    | _, _ => False
    end.
  Proof.
    intros Hc Hl. induction segs as [|s segs IH]; intros i tv f w x Hf.
    - cbn. exists x. auto.
    - destruct tv as [|tl [|tu tv]]; [cbn; exists x; auto|cbn; exists x; auto|].
      cbn [hpoly_loop poly_loop map]. fold (hpoly_loop hcall t n).
      set (tt := ndiv (nsub t tl) (nsub tu tl)).
      pose proof (Hc s tt x (or_introl eq_refl)) as C. unfold call_ok in C.
      rewrite (value_app _ _ _ (Hl s (or_introl eq_refl))) in C.
      unfold vbind at 1. destruct (hcall s tt (h0 ++ x)) as [h1 r1]. destruct C as (ext & -> & C).
      destruct r1 as [q|e], (p_call (value_of h0 s) tt) as [v|e']; try contradiction; cbn [bind].
      2:{ rewrite <- app_assoc. eauto. }
      destruct C as [Hq _].
      unfold vbind at 1. rewrite (read_some _ _ _ Hq). unfold vbind at 1.
      rewrite (read_some _ _ w) by (rewrite <- app_assoc in *; rewrite app_assoc; apply nth_app_some; exact Hf).
      unfold vbind at 1. unfold vnew. rewrite <- !app_assoc. 
      match goal with |- context[hpoly_loop hcall t n (S i) segs (tu :: tv) ?g (h0 ++ ?y)] =>
        specialize (IH (fun s' t' e' H => Hc s' t' e' (or_intror H)) (fun s' H => Hl s' (or_intror H)) (S i) (tu :: tv) g) end.
      match goal with |- context[hpoly_loop hcall t n (S i) segs (tu :: tv) _ (h0 ++ ?y)] =>
        specialize (IH (vadd w (vscale v (if (if Nat.eqb i 0 then nleb tt n1
          else if Nat.eqb i (n - 1) then ngtb tt n0 else andb (ngtb tt n0) (nleb tt n1)) then n1 else n0))) y) end.
      assert (LL : length h0 <= length (h0 ++ x ++ ext)) by (rewrite app_length; lia).
      match type of IH with ?A -> _ => assert (HA : A) end.
      { rewrite !app_assoc. rewrite nth_error_app2 by (rewrite ?app_length; lia). rewrite !app_length. rewrite <- !Nat.add_assoc, Nat.sub_diag. reflexivity. }
      specialize (IH HA). destruct (hpoly_loop _ _ _ _ _ _ _ _) as [h' r]. destruct IH as (y & E & K). exists y. split; [exact E|].
      destruct r, (poly_loop _ _ _ _ _ _); auto. destruct K as [K1 K2]. split; [exact K1|]. intros _. apply K2. exact LL.
  Qed.

  Lemma hcall_ok p : separate p -> forall h t, live h (refs p) -> call_ok h p t.
  Proof.
    induction p as [a b|B|a b c|segs tv IH] using hpath_ind'; intros S h t L; unfold call_ok.
    - cbn [refs] in L. inversion L as [|? ? La L']; subst. inversion L' as [|? ? Lb L'']; subst.
      cbn [hcall value_of]. unfold vbind at 1. rewrite (read_live _ _ La). unfold vbind at 1. rewrite (read_live _ _ Lb).
      pose proof (new_ok h (p_call (Line (look h a) (look h b)) t)) as K.
      destruct (vbind _ _ h) as [h' r]. destruct K as (ext & E & K). exists ext. split; [exact E|].
      destruct r, (p_call _ t); try contradiction; auto. destruct K; auto.
    - destruct B as [|x [|y B]].
      + cbn. exists []. rewrite app_nil_r. auto.
      + cbn. exists []. rewrite app_nil_r. cbn [refs] in L. inversion L; subst. split; [reflexivity|]. split; [apply live_some; assumption|].
        left; eexists; constructor.
      + change (hcall (HBezier (x :: y :: B)) t h) with
          (vbind (read_all (x :: y :: B)) (fun B => vbind (vfail (Bezier_call B t)) vnew) h).
        cbn [refs] in L. unfold vbind at 1. rewrite (read_all_live _ _ L).
        change (p_call (value_of h (HBezier (x :: y :: B))) t) with (Bezier_call (map (look h) (x :: y :: B)) t).
        pose proof (new_ok h (Bezier_call (map (look h) (x :: y :: B)) t)) as K.
        destruct (vbind _ _ h) as [h' r]. destruct K as (ext & E & K). exists ext. split; [exact E|].
        destruct r, (Bezier_call _ t); try contradiction; auto. destruct K; auto.
    - cbn [refs] in L. inversion L as [|? ? La L']; subst. inversion L' as [|? ? Lb L'']; subst. inversion L'' as [|? ? Lc L3]; subst.
      cbn [hcall value_of]. unfold vbind at 1. rewrite (read_live _ _ La). unfold vbind at 1. rewrite (read_live _ _ Lb).
      unfold vbind at 1. rewrite (read_live _ _ Lc).
      pose proof (new_ok h (p_call (Arc (look h a) (look h b) (look h c)) t)) as K.
      destruct (vbind _ _ h) as [h' r]. destruct K as (ext & E & K). exists ext. split; [exact E|].
      destruct r, (p_call _ t); try contradiction; auto. destruct K; auto.
    - rewrite Forall_forall in IH.
      assert (C : forall s t' ext, In s segs -> call_ok (h ++ ext) s t').
      { intros s t' ext Hs. apply IH; [exact Hs|exact (separate_poly _ _ _ S Hs)|].
        apply live_app. exact (live_poly _ _ _ _ L Hs). }
      destruct segs as [|s0 [|s1 segs]].
      + cbn. exists []. rewrite app_nil_r. auto.
      + pose proof (C s0 t [] (or_introl eq_refl)) as K. unfold call_ok in K. rewrite app_nil_r in K.
        change (hcall (HPoly [s0] tv) t h) with (hcall s0 t h).
        change (p_call (value_of h (HPoly [s0] tv)) t) with (p_call (value_of h s0) t).
        destruct (hcall s0 t h) as [h' r]. destruct K as (ext & E & K). exists ext. split; [exact E|].
        destruct r, (p_call _ t); try contradiction; auto. destruct K as [K1 [[b K2]|K2]]; split; auto.
        left. exists b. constructor. exact K2.
      + set (l := s0 :: s1 :: segs) in *.
        pose proof (C s0 t [] (or_introl eq_refl)) as K. unfold call_ok in K. rewrite app_nil_r in K.
        change (hcall (HPoly l tv) t h) with
          (vbind (hcall s0 t) (fun f => vbind (imul f n0) (fun f => hpoly_loop hcall t (length l) 0 l tv f)) h).
        change (p_call (value_of h (HPoly l tv)) t) with
          (let! f := p_call (value_of h s0) t in poly_loop t (length (map (value_of h) l)) 0 (map (value_of h) l) tv (vscale f n0)).
        unfold vbind at 1. destruct (hcall s0 t h) as [h1 r1]. destruct K as (ext & -> & K).
        destruct r1 as [f|e], (p_call (value_of h s0) t) as [v|e']; try contradiction; cbn [bind].
        2:{ eauto. }
        destruct K as [Hf Ff].
        assert (Lf : length h <= f).
        { destruct Ff as [[b Hb]|]; [|assumption]. exfalso. inversion S; subst. exact (H2 s0 s1 segs b eq_refl Hb). }
        unfold vbind at 1. rewrite (imul_ok _ _ _ _ Hf). rewrite vput_app_r by exact Lf. rewrite map_length.
        pose proof (loop_ok h t (length l) l C (fun s Hs => live_poly _ _ _ _ L Hs) 0 tv f (vscale v n0)
          (vput ext (f - length h) (vscale v n0))) as K.
        assert (Hf' : nth_error (h ++ vput ext (f - length h) (vscale v n0)) f = Some (vscale v n0)).
        { rewrite <- vput_app_r by exact Lf. apply vput_same. exact (some_lt _ _ _ Hf). }
        specialize (K Hf'). destruct (hpoly_loop _ _ _ _ _ _ _ _) as [h' r]. destruct K as (x & E & K).
        exists x. split; [exact E|]. destruct r, (poly_loop _ _ _ _ _ _); try contradiction; auto.
        destruct K; auto.
  Qed.

  Lemma live_put (h : heap) k v ls : live h ls -> live (vput h k v) ls.
  Proof. apply Forall_impl. intros l H. apply nth_error_Some. rewrite vput_length. apply live_lt, H. Qed.

  (** a first segment that hands out a stored vector *)
  Lemma overwrite s0 s1 segs tv (h : heap) t b : Forall separate (s0 :: s1 :: segs) -> hands_out s0 b ->
    live h (refs (HPoly (s0 :: s1 :: segs) tv)) ->
    let h1 := vput h b (vscale (look h b) n0) in
    let (h', r) := hcall (HPoly (s0 :: s1 :: segs) tv) t h in
    exists ext, h' = h1 ++ ext /\
    match r, poly_loop t (S (S (length segs))) 0 (map (value_of h1) (s0 :: s1 :: segs)) tv (vscale (look h b) n0) with
    | Ok l, Ok v => nth_error h' l = Some v
    | Raise e, Raise e' => e = e'
    | _, _ => False
    end.
  Proof.
    intros S Hb L h1. set (l := s0 :: s1 :: segs) in *.
    change (hcall (HPoly l tv) t h) with
      (vbind (hcall s0 t) (fun f => vbind (imul f n0) (fun f => hpoly_loop hcall t (length l) 0 l tv f)) h).
    unfold vbind at 1. rewrite (hands_call h s0 b t Hb).
    assert (Lb : nth_error h b <> None).
    { pose proof (live_poly _ _ _ s0 L (or_introl eq_refl)) as L0. unfold live in L0. rewrite Forall_forall in L0.
      apply L0. exact (hands_ref _ _ Hb). }
    unfold vbind at 1. rewrite (imul_ok _ _ _ _ (live_some _ _ Lb)). fold h1.
    pose proof (loop_ok h1 t (length l) l) as K.
    assert (C : forall s t' ext, In s l -> call_ok (h1 ++ ext) s t').
    { intros s t' ext Hs. rewrite Forall_forall in S. apply hcall_ok; [auto|].
      apply live_app, live_put. exact (live_poly _ _ _ _ L Hs). }
    specialize (K C (fun s Hs => live_put _ _ _ _ (live_poly _ _ _ _ L Hs)) 0 tv b (vscale (look h b) n0) []).
    rewrite app_nil_r in K. specialize (K (vput_same _ _ _ (live_lt _ _ Lb))).
    cbn [length l] in K |- *. destruct (hpoly_loop _ _ _ _ _ _ _ _) as [h' r]. destruct K as (x & E & K).
    exists x. split; [exact E|]. destruct r, (poly_loop _ _ _ _ _ _); try contradiction; auto.
    destruct K; auto.
  Qed.
End VecHeapLemmas.
