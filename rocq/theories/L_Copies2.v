(** Deep copies of composites. *)
From Coq Require Import String List Arith Lia Bool ZArith Reals.
From Verif Require Import Num NumR Py M_Vector M_Path M_Surface M_Geometry M_Mesh M_Component M_Vehicle M_Copies SpecSurf SpecVehicle SpecHistory
  L_Strings L_Component L_Composite L_Heap L_Pipeline L_Generate L_Copies.
Import ListNotations.

Lemma calls_family i (l : list (comp_call R)) : forall h, no_sharing h -> step (fun k => In k (family h i)) h (call_all i l h).
Proof.
  induction l as [|o l IH]; intros h NS; [apply step_refl, NS|]. cbn [call_all fold_left].
  assert (S : step (fun k => In k (family h i)) h (call_comp i o h)).
  { destruct o as [t| |a|]; cbn [call_comp].
    - apply framed_call; [left; reflexivity|exact NS].
    - apply framed_generate_patches, NS.
    - apply framed_generate, NS.
    - apply framed_reset; [left; reflexivity|exact NS]. }
  eapply step_trans; [exact S|]. pose proof (IH (call_comp i o h) (proj1 S)) as Q. rewrite (step_family _ _ _ i S) in Q. exact Q.
Qed.

(** ** growing heaps *)
Definition grows (h h' : heap R) : Prop := (length (comps h) <= length (comps h'))%nat /\ (length (dicts h) <= length (dicts h'))%nat /\
  (forall k x, nth_error (comps h) k = Some x -> nth_error (comps h') k = Some x) /\ (forall k x, nth_error (dicts h) k = Some x -> nth_error (dicts h') k = Some x).
Lemma grows_refl h : grows h h.
Proof. repeat split; auto. Qed.
Lemma grows_trans a b c : grows a b -> grows b c -> grows a c.
Proof. intros (A1 & A2 & A3 & A4) (B1 & B2 & B3 & B4). split; [lia|]. split; [lia|]. split; auto. Qed.
Lemma grows_view h h' k x : grows h h' -> view h k = Some x -> view h' k = Some x.
Proof. intros (_ & _ & A & B) V. destruct x as [c d]. destruct (view_inv _ _ _ _ V) as [E F]. apply view_intro; auto. Qed.
Lemma new_object (h : heap R) c ds : no_sharing h -> (length (dicts h) <= c_patches c < length (dicts h) + length ds)%nat -> 
  no_sharing (mkHeap (dicts h ++ ds) (comps h ++ [c])) /\ grows h (mkHeap (dicts h ++ ds) (comps h ++ [c])).
Proof.
  intros [S1 S2] L. set (h1 := mkHeap _ _). split.
  - assert (Q : forall k x, nth_error (comps h1) k = Some x -> (k = length (comps h) /\ x = c) \/ (nth_error (comps h) k = Some x /\ c_patches x < length (dicts h))%nat).
    { intros k x Hx. cbn [h1 comps] in Hx. destruct (Nat.lt_ge_cases k (length (comps h))) as [Lk|Lk].
      - rewrite nth_error_app1 in Hx by exact Lk. right. split; [exact Hx|apply (S1 k x Hx)].
      - rewrite nth_error_app2 in Hx by exact Lk. destruct (k - length (comps h))%nat as [|q] eqn:EQ; [|destruct q; discriminate].
        cbn in Hx. injection Hx as <-. left. split; [lia|reflexivity]. }
    split.
    + intros k x Hx. cbn [h1 dicts]. rewrite app_length. destruct (Q k x Hx) as [[_ ->]|[_ Lx]]; lia.
    + intros k q x x' Hx Hx' NE. destruct (Q k x Hx) as [[-> ->]|[Hk Lk]], (Q q x' Hx') as [[-> ->]|[Hq Lq]]; try lia. apply (S2 k q x x' Hk Hq NE).
  - unfold grows, h1. cbn [comps dicts]. rewrite !app_length. split; [lia|]. split; [lia|]. split; intros; apply nth_app_old; assumption.
Qed.

(** b in h1 is the copy of a in h *)
Definition copy_in (h h1 : heap R) (a b : nat) : Prop := exists c d r, view h a = Some (c, d) /\ view h1 b = Some (set_patches c r, d).
Lemma copy_grows h h1 h2 a b : grows h1 h2 -> copy_in h h1 a b -> copy_in h h2 a b.
Proof. intros G (c & d & r & A & B). exists c, d, r. split; [exact A|]. exact (grows_view _ _ _ _ G B). Qed.
Definition own_object (h : heap R) (a : nat) : Prop := exists c d r g, view h a = Some (c, d) /\ c_kind c = Own r g.
Definition memo_ok (h0 h : heap R) (m : list (nat * nat)) : Prop :=
  (forall a b, copied m a = Some b -> (length (comps h0) <= b)%nat /\ copy_in h0 h a b) /\
  forall a a' b, copied m a = Some b -> copied m a' = Some b -> a = a'.
Lemma children_copied (h0 : heap R) : forall l m h, grows h0 h -> no_sharing h -> Forall (own_object h0) l -> memo_ok h0 h m ->
  exists h' f, copy_children m l h = (h', Ok (map f l)) /\ no_sharing h' /\ grows h h' /\
    (forall a, In a l \/ copied m a <> None -> (length (comps h0) <= f a)%nat /\ copy_in h0 h' a (f a)) /\
    (forall a a', In a l \/ copied m a <> None -> In a' l \/ copied m a' <> None -> f a = f a' -> a = a') /\
    forall a b, copied m a = Some b -> f a = b.
Proof.
  induction l as [|x l IH]; intros m h G NS FO MO.
  - exists h, (fun a => match copied m a with Some b => b | None => 0%nat end). split; [reflexivity|]. split; [exact NS|]. split; [apply grows_refl|]. destruct MO as [M1 M2]. split; [|split].
    + intros a [[]|H]. destruct (copied m a) as [b|] eqn:E; [|congruence]. exact (M1 a b E).
    + intros a a' [[]|H] [[]|H']. destruct (copied m a) as [b|] eqn:E; [|congruence]. destruct (copied m a') as [b'|] eqn:E'; [|congruence]. intros <-. exact (M2 a a' b E E').
    + intros a b E. rewrite E. reflexivity.
  - inversion FO as [|y l0 OX FO' EY]; subst. cbn [copy_children]. destruct (copied m x) as [b|] eqn:EX.
    + destruct (IH m h G NS FO' MO) as (h' & f & A & N' & G' & F1 & F2 & F3). exists h', f.
      split; [unfold bindM; rewrite A; unfold ret; cbn [map]; rewrite (F3 x b EX); reflexivity|]. split; [exact N'|]. split; [exact G'|].
      assert (W : forall a, In a (x :: l) \/ copied m a <> None -> In a l \/ copied m a <> None).
      { intros a [[<-|H]|H]; [right; congruence|left; exact H|right; exact H]. }
      split; [intros a H; apply F1, W, H|]. split; [intros a a' H H'; apply F2; apply W; assumption|exact F3].
    + destruct OX as (c & d & r & g & V & K). pose proof (grows_view _ _ _ _ G V) as V'. destruct (view_inv _ _ _ _ V') as [E F].
      set (h1 := mkHeap (dicts h ++ [d]) (comps h ++ [set_patches c (length (dicts h))])).
      assert (A : deepcopy_comp x h = (h1, Ok (length (comps h)))) by (unfold deepcopy_comp, bindM, get_comp, get_dict; rewrite E, K, F; reflexivity).
      destruct (new_object h (set_patches c (length (dicts h))) [d] NS) as [N1 G1]; [cbn; lia|]. fold h1 in N1, G1.
      assert (CI : copy_in h0 h1 x (length (comps h))).
      { exists c, d, (length (dicts h)). split; [exact V|]. apply view_intro; [apply nth_app_new|]. cbn. apply nth_app_new. }
      assert (MO' : memo_ok h0 h1 ((x, length (comps h)) :: m)).
      { destruct MO as [M1 M2].
        assert (LT : forall a, copied m a = Some (length (comps h)) -> False).
        { intros a Ha. destruct (M1 a _ Ha) as [_ (c' & d' & r' & _ & V1)]. destruct (view_inv _ _ _ _ V1) as [E1 _]. apply nth_some_lt in E1. lia. }
        split.
        - intros a b. cbn [copied]. destruct (Nat.eqb_spec x a) as [<-|NE].
          + intros H. injection H as <-. split; [exact (proj1 G)|exact CI].
          + intros H. destruct (M1 a b H) as [L1 C1]. split; [exact L1|exact (copy_grows _ _ _ _ _ G1 C1)].
        - intros a a' b. cbn [copied]. destruct (Nat.eqb_spec x a) as [<-|NE], (Nat.eqb_spec x a') as [<-|NE']; intros H H'; [reflexivity| | |exact (M2 a a' b H H')].
          + injection H as <-. destruct (LT a' H').
          + injection H' as <-. destruct (LT a H). }
      destruct (IH _ h1 (grows_trans _ _ _ G G1) N1 FO' MO') as (h' & f & B & N' & G' & F1 & F2 & F3). exists h', f.
      assert (FX : f x = length (comps h)) by (apply F3; cbn [copied]; rewrite Nat.eqb_refl; reflexivity).
      split; [unfold bindM; rewrite A, B; unfold ret; cbn [map]; rewrite FX; reflexivity|]. split; [exact N'|]. split; [exact (grows_trans _ _ _ G1 G')|].
      assert (W : forall a, In a (x :: l) \/ copied m a <> None -> In a l \/ copied ((x, length (comps h)) :: m) a <> None).
      { intros a H. cbn [copied]. destruct (Nat.eqb_spec x a) as [<-|NE]; [right; discriminate|]. destruct H as [[H|H]|H]; [congruence|left; exact H|right; exact H]. }
      split; [intros a H; apply F1, W, H|]. split; [intros a a' H H'; apply F2; apply W; assumption|].
      intros a b H. apply F3. cbn [copied]. destruct (Nat.eqb_spec x a) as [<-|NE]; [congruence|exact H].
Qed.

(** ** the whole composite *)
Theorem composite_copied (h : heap R) i c l : separate h -> nth_error (comps h) i = Some c -> c_kind c = Composite l -> Forall (own_object h) l ->
  exists h1 j f r, deepcopy_any i h = (h1, Ok j) /\ no_sharing h1 /\ grows h h1 /\ j = (length (comps h1) - 1)%nat /\ (length (comps h) <= j)%nat /\
    view h1 j = option_map (fun cd => (set_kind (set_patches (fst cd) r) (Composite (map f l)), snd cd)) (view h i) /\ view h i <> None /\
    (forall a, In a l -> (length (comps h) <= f a < j)%nat /\ copy_in h h1 a (f a)) /\ forall a a', In a l -> In a' l -> f a = f a' -> a = a'.
Proof.
  intros SP E K FO. apply separate_ns in SP. destruct (view_total h i c SP E) as [d V]. destruct (view_inv _ _ _ _ V) as [_ F].
  destruct (children_copied h l [] h (grows_refl h) SP FO) as (h2 & f & A & N2 & G2 & F1 & F2 & _).
  { split; intros; discriminate. }
  set (r := length (dicts h2)). set (h1 := mkHeap (dicts h2 ++ [d]) (comps h2 ++ [set_kind (set_patches c r) (Composite (map f l))])).
  destruct (new_object h2 (set_kind (set_patches c r) (Composite (map f l))) [d] N2) as [N1 G1]; [cbn; lia|]. fold h1 in N1, G1.
  exists h1, (length (comps h2)), f, r. split.
  { unfold deepcopy_any, bindM at 1, get_comp. rewrite E, K. unfold bindM. rewrite A. unfold get_dict. destruct G2 as (_ & _ & _ & Gd). rewrite (Gd _ _ F). reflexivity. }
  split; [exact N1|]. split; [exact (grows_trans _ _ _ G2 G1)|]. split; [cbn [h1 comps]; rewrite app_length; cbn; lia|]. split; [exact (proj1 G2)|]. split; [|split; [|split]].
  - rewrite V. cbn [option_map fst snd]. apply view_intro; [apply nth_app_new|]. cbn. apply nth_app_new.
  - rewrite V. discriminate.
  - intros a Ha. destruct (F1 a (or_introl Ha)) as [L C]. split; [|exact (copy_grows _ _ _ _ _ G1 C)]. destruct C as (c' & d' & r' & _ & V'). destruct (view_inv _ _ _ _ V') as [E' _]. apply nth_some_lt in E'. lia.
  - intros a a' Ha Ha'. apply F2; left; assumption.
Qed.

(** calls on the copy or its children and calls on the original or its children *)
Theorem composite_independent (h : heap R) i c l : separate h -> nth_error (comps h) i = Some c -> c_kind c = Composite l -> Forall (own_object h) l ->
  exists h1 j f, deepcopy_any i h = (h1, Ok j) /\ separate h1 /\ with_children h1 j = j :: map f l /\
    (forall a, In a (i :: l) -> (a < length (comps h))%nat) /\ (forall b, In b (j :: map f l) -> (length (comps h) <= b)%nat) /\
    (forall a a', In a l -> In a' l -> f a = f a' -> a = a') /\ ~ In j (map f l) /\
    (exists r, nth_error (comps h1) j = Some (set_kind (set_patches c r) (Composite (map f l)))) /\ patches_at h1 j = patches_at h i /\
    (forall a, In a l -> exists ca r, nth_error (comps h) a = Some ca /\ nth_error (comps h1) (f a) = Some (set_patches ca r) /\ patches_at h1 (f a) = patches_at h a) /\
    (forall g, builds h i g -> builds h1 j g) /\
    (forall b calls k, In b (j :: map f l) -> (k < length (comps h))%nat ->
       nth_error (comps (call_all b calls h1)) k = nth_error (comps h) k /\ patches_at (call_all b calls h1) k = patches_at h k) /\
    forall a calls b, In a (i :: l) -> In b (j :: map f l) ->
       nth_error (comps (call_all a calls h1)) b = nth_error (comps h1) b /\ patches_at (call_all a calls h1) b = patches_at h1 b.
Proof.
  intros SP E K FO. destruct (composite_copied h i c l SP E K FO) as (h1 & j & f & r & A & N1 & G & J & Lj & Vj & Vi & CO & INJ).
  destruct (view h i) as [[c0 d]|] eqn:Ev; [|congruence]. destruct (view_inv _ _ _ _ Ev) as [E0 _]. rewrite E in E0. injection E0 as <-. cbn [option_map fst snd] in Vj. clear Vi.
  destruct (view_inv _ _ _ _ Vj) as [Ej _].
  assert (OLD : forall k, (k < length (comps h))%nat -> exists x, view h k = Some x /\ view h1 k = Some x).
  { intros k Lk. apply nth_error_Some in Lk. destruct (nth_error (comps h) k) as [x|] eqn:Ek; [|congruence]. destruct (view_total h k x (proj1 (separate_ns h) SP) Ek) as [dx Vx]. exists (x, dx). split; [exact Vx|exact (grows_view _ _ _ _ G Vx)]. }
  assert (LO : forall a, In a (i :: l) -> (a < length (comps h))%nat).
  { intros a [<-|Ha]; [apply (nth_some_lt _ _ _ E)|]. rewrite Forall_forall in FO. destruct (FO a Ha) as (ca & da & ra & ga & Va & _). destruct (view_inv _ _ _ _ Va) as [Ea _]. apply (nth_some_lt _ _ _ Ea). }
  assert (LN : forall b, In b (j :: map f l) -> (length (comps h) <= b)%nat).
  { intros b [<-|Hb]; [exact Lj|]. apply in_map_iff in Hb as (a & <- & Ha). apply (CO a Ha). }
  assert (CP : forall a, In a l -> exists ca da r, view h a = Some (ca, da) /\ view h1 (f a) = Some (set_patches ca r, da)) by (intros a Ha; exact (proj2 (CO a Ha))).
  assert (SAME : forall (hx : heap R) k x, view hx k = Some x -> forall hy, view hy k = Some x -> nth_error (comps hx) k = nth_error (comps hy) k /\ patches_at hx k = patches_at hy k).
  { intros hx k [cx dx] Vx hy Vy. destruct (view_inv _ _ _ _ Vx) as [-> _]. destruct (view_inv _ _ _ _ Vy) as [-> _]. split; [reflexivity|]. rewrite (patches_view _ _ _ _ Vx), (patches_view _ _ _ _ Vy). reflexivity. }
  assert (FJ : family h1 j = j :: map f l) by (unfold family; rewrite Ej; reflexivity).
  assert (FB : forall b, In b (map f l) -> family h1 b = [b]).
  { intros b Hb. apply in_map_iff in Hb as (a & <- & Ha). rewrite Forall_forall in FO. destruct (FO a Ha) as (ca & da & ra & ga & Va & Ka). destruct (CP a Ha) as (ca' & da' & r' & Va' & Vb). rewrite Va in Va'. injection Va' as <- <-.
    destruct (view_inv _ _ _ _ Vb) as [Eb _]. unfold family. rewrite Eb. cbn [set_patches c_kind]. rewrite Ka. reflexivity. }
  assert (FA : forall a, In a (i :: l) -> forall k, In k (family h1 a) -> (k < length (comps h))%nat).
  { intros a Ha k Hk. destruct G as (_ & _ & Gc & _). unfold family in Hk. destruct Ha as [<-|Ha].
    - rewrite (Gc _ _ E), K in Hk. apply LO, Hk.
    - rewrite Forall_forall in FO. destruct (FO a Ha) as (ca & da & ra & ga & Va & Ka). destruct (view_inv _ _ _ _ Va) as [Ea _]. rewrite (Gc _ _ Ea), Ka in Hk. destruct Hk as [<-|[]]. apply (nth_some_lt _ _ _ Ea). }
  exists h1, j, f. split; [exact A|]. split; [apply separate_ns, N1|]. split; [rewrite with_children_family; exact FJ|]. split; [exact LO|]. split; [exact LN|]. split; [exact INJ|].
  split. { intros Hj. apply in_map_iff in Hj as (a & Ea & Ha). destruct (CO a Ha) as [L _]. lia. }
  split; [exists r; exact Ej|]. split; [rewrite (patches_view _ _ _ _ Vj), (patches_view _ _ _ _ Ev); reflexivity|]. split; [|split; [|split]].
  - intros a Ha. destruct (CP a Ha) as (ca & da & r' & Va & Vb). exists ca, r'. destruct (view_inv _ _ _ _ Va) as [Ea _]. destruct (view_inv _ _ _ _ Vb) as [Eb _].
    split; [exact Ea|]. split; [exact Eb|]. rewrite (patches_view _ _ _ _ Va), (patches_view _ _ _ _ Vb). reflexivity.
  - intros g [(c' & rp & rr & rs & E' & K' & _)|(c' & ch & gs & E' & K' & F2 & ->)]; rewrite E in E'; injection E' as <-; rewrite K in K'; [discriminate|]. injection K' as <-.
    right. eexists _, (map f l), gs. split; [exact Ej|]. split; [reflexivity|]. split; [|reflexivity].
    assert (X : forall l' gs, (forall a, In a l' -> In a l) -> Forall2 (builds_own h) l' gs -> Forall2 (builds_own h1) (map f l') gs); [|apply X; auto].
    clear - CP. intros l' gs IN F2. induction F2 as [|a g l' gs (ca & rp & rr & rs & Ea & Ka & ND & D) _ IH]; cbn [map]; constructor; [|apply IH; intros; apply IN; right; assumption].
    destruct (CP a (IN a (or_introl eq_refl))) as (ca' & da & r' & Va & Vb). destruct (view_inv _ _ _ _ Va) as [Ea' _]. rewrite Ea in Ea'. injection Ea' as <-. destruct (view_inv _ _ _ _ Vb) as [Eb _].
    eexists _, rp, rr, rs. split; [exact Eb|]. split; [exact Ka|]. split; [exact ND|]. destruct D as [D|D]; [left; exact D|right]. rewrite (patches_view _ _ _ _ Va) in D. rewrite (patches_view _ _ _ _ Vb). exact D.
  - intros b calls k Hb Lk. destruct (calls_family b calls h1 N1) as (_ & _ & W & _). destruct (OLD k Lk) as (x & V0 & V1).
    apply (SAME _ k x); [|exact V0]. rewrite W; [exact V1|]. intros I. assert (In k (j :: map f l)).
    { destruct Hb as [<-|Hb]; [rewrite FJ in I; exact I|]. rewrite (FB b Hb) in I. destruct I as [<-|[]]. right. exact Hb. }
    specialize (LN k H). lia.
  - intros a calls b Ha Hb. destruct (calls_family a calls h1 N1) as (_ & _ & W & _).
    assert (Vb : exists x, view h1 b = Some x).
    { destruct Hb as [<-|Hb]; [eauto|]. apply in_map_iff in Hb as (a' & <- & Ha'). destruct (CP a' Ha') as (ca & da & r' & _ & Vb). eauto. }
    destruct Vb as [x Vb]. apply (SAME _ b x); [|exact Vb]. rewrite W; [exact Vb|]. intros I. pose proof (FA a Ha b I). specialize (LN b Hb). lia.
Qed.
