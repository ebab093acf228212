(** C66: parametric generators. *)
From Coq Require Import String Reals Lra List Lia Bool Arith.
From Verif Require Import Num NumR Py M_Vector SpecR3 M_Mesh M_VecHeap M_Sens SpecSens M_Gen L_Component L_Sens L_Study P_Sens P_Study.
Import ListNotations.

Lemma generator_init_get {A} (kw : dict A) : forall self k, NoDup (dkeys kw) ->
  dget (generator_init kw self) k = match dget kw k with Some v => Some v | None => dget self k end.
Proof.
  unfold generator_init. induction kw as [|[q v] kw IH]; intros self k Nd; [reflexivity|]. inversion Nd; subst. cbn [fold_left dget fst snd].
  rewrite IH by assumption. rewrite dget_dset. destruct (String.eqb_spec k q) as [->|_].
  - destruct (dget kw q) as [w|] eqn:E; [|reflexivity]. exfalso. apply H1. apply dget_in in E. apply (in_map fst) in E. exact E.
  - reflexivity.
Qed.

(** only assignments, then Generator.__init__ *)
Definition defaults_then_super {A} (defs : list (string * (attrs A -> res A))) : list (stmt A) :=
  (map (fun d => SetAttr (fst d) (snd d)) defs ++ [SuperInit])%list.

Lemma run_defs {A} mro (kw : dict A) defs : forall self,
  run_init mro kw (defaults_then_super defs) self =
  let! s := run_init mro [] (defaults_then_super defs) self in Ok (generator_init kw s).
Proof.
  unfold defaults_then_super. induction defs as [|[k e] defs IH]; intros self; cbn; [reflexivity|].
  destruct (e (getattr mro self)) as [v|x]; cbn; [apply IH|reflexivity].
Qed.

Section Keywords.
  Context {A V : Type}.
  Variables (classes : list (dict A)) (defs : list (string * (attrs A -> res A))) (create : attrs A -> res V) (call : A -> res V).
  Let g := mkGen classes (defaults_then_super defs) create.

  (** *** C66: an attribute of the object has the value of the keyword of that
      name if there is one, and otherwise the value it has in an object created
      without keywords -- also when its default is computed from one that the
      keywords replace *)
  Theorem C66_attributes kw : NoDup (dkeys kw) -> ~ In "self"%string (dkeys kw) ->
    (forall e, instantiate g [] = Raise e -> instantiate g kw = Raise e) /\
    (forall self0, instantiate g [] = Ok self0 -> exists self, instantiate g kw = Ok self /\
       forall k, getattr classes self k = match dget kw k with Some v => Ok v | None => getattr classes self0 k end).
  Proof using.
    intros Nd Ns. unfold instantiate. cbn [dkeys map existsb g_classes g_init g].
    destruct (existsb (String.eqb "self") (dkeys kw)) eqn:E.
    { exfalso. apply existsb_exists in E. destruct E as (x & Hx & Q). apply String.eqb_eq in Q. subst. contradiction. }
    rewrite (run_defs classes kw). split.
    - intros e H. rewrite H. reflexivity.
    - intros self0 H. rewrite H. cbn. eexists. split; [reflexivity|]. intros k. unfold getattr. rewrite generator_init_get by exact Nd.
      destruct (dget kw k); reflexivity.
  Qed.

  (** *** C66: an attribute that neither the keywords nor the __init__ set is that
      of the first class in resolution order that has it; one that no class has
      raises AttributeError *)
  Theorem C66_inherited kw self k before c after v : NoDup (dkeys kw) -> instantiate g kw = Ok self ->
    ~ In k (dkeys kw) -> (forall self0, instantiate g [] = Ok self0 -> dget self0 k = None) ->
    (classes = (before ++ c :: after)%list -> Forall (fun b => ~ In k (dkeys b)) before -> dget c k = Some v ->
       getattr classes self k = Ok v) /\
    (Forall (fun b => ~ In k (dkeys b)) classes -> getattr classes self k = Raise AttributeError).
  Proof using.
    intros Nd I Nk No.
    assert (Ns : ~ In "self"%string (dkeys kw)).
    { intros H. unfold instantiate in I. replace (existsb (String.eqb "self") (dkeys kw)) with true in I; [discriminate|].
      symmetry. apply existsb_exists. exists "self"%string. split; [exact H|reflexivity]. }
    destruct (C66_attributes kw Nd Ns) as [A0 B].
    destruct (instantiate g []) as [self0|e] eqn:E0; [|rewrite (A0 e eq_refl) in I; discriminate].
    destruct (B self0 eq_refl) as (self' & E & G). rewrite E in I. injection I as ->. rewrite G.
    assert (D0 : forall (d : dict A) q, ~ In q (dkeys d) -> dget d q = None).
    { intros d q H. destruct (dget d q) as [w|] eqn:Ed; [|reflexivity]. exfalso. apply H. apply dget_in in Ed. apply (in_map fst) in Ed. exact Ed. }
    rewrite (D0 kw k Nk). unfold getattr. rewrite (No self0 eq_refl). clear -D0. split.
    - intros -> F Ec. induction F as [|b before Hb _ IH]; cbn [app class_attr]; [rewrite Ec; reflexivity|]. rewrite (D0 b k Hb). exact IH.
    - intros F. clear -F D0. induction F as [|b l Hb _ IH]; cbn [class_attr]; [reflexivity|]. rewrite (D0 b k Hb). exact IH.
  Qed.

  (** *** C66: a keyword called self is rejected; one called create_instance
      hides the method *)
  Theorem C66_reserved kw v : NoDup (dkeys kw) ->
    (In "self"%string (dkeys kw) -> make_vehicle call g kw = Raise TypeError) /\
    (~ In "self"%string (dkeys kw) -> dget kw "create_instance" = Some v -> is_ok (instantiate g []) -> make_vehicle call g kw = call v).
  Proof using.
    intros Nd. unfold make_vehicle, instantiate, g. cbn [g_classes g_init]. split.
    - intros H. assert (E : existsb (String.eqb "self") (dkeys kw) = true) by (apply existsb_exists; exists "self"%string; split; [exact H|reflexivity]).
      rewrite E. reflexivity.
    - intros H Hv [s0 E0]. destruct (existsb (String.eqb "self") (dkeys kw)) eqn:E.
      { exfalso. apply existsb_exists in E. destruct E as (x & Hx & Q). apply String.eqb_eq in Q. subst. contradiction. }
      rewrite (run_defs classes kw). cbn in E0. rewrite E0. cbn [bind]. unfold create_instance.
      rewrite generator_init_get, Hv by exact Nd. reflexivity.
  Qed.

  (** *** C66: a keyword that no attribute read by create_instance is named after
      is accepted and changes nothing *)
  Theorem C66_unread (reads : list string) kw kw' :
    (forall f f' : attrs A, (forall k, In k reads -> f k = f' k) -> create f = create f') ->
    NoDup (dkeys kw) -> NoDup (dkeys kw') ->
    (forall k, In k ("create_instance" :: reads)%string -> dget kw k = dget kw' k) ->
    (In "self"%string (dkeys kw) <-> In "self"%string (dkeys kw')) ->
    make_vehicle call g kw = make_vehicle call g kw'.
  Proof using.
    intros Hc N1 N2 Hk Hs. unfold make_vehicle, instantiate, g. cbn [g_classes g_init].
    assert (E : existsb (String.eqb "self") (dkeys kw) = existsb (String.eqb "self") (dkeys kw')).
    { assert (B : forall l : list string, existsb (String.eqb "self") l = true <-> In "self"%string l).
      { intros l. rewrite existsb_exists. split; [intros (x & Hx & Q); apply String.eqb_eq in Q; subst; exact Hx|intros H; exists "self"%string; auto]. }
      pose proof (B (dkeys kw)). pose proof (B (dkeys kw')).
      destruct (existsb (String.eqb "self") (dkeys kw)), (existsb (String.eqb "self") (dkeys kw')); auto; intuition congruence. }
    rewrite E. destruct (existsb (String.eqb "self") (dkeys kw')); [reflexivity|].
    rewrite (run_defs classes kw), (run_defs classes kw').
    destruct (run_init classes [] (defaults_then_super defs) []) as [s0|x]; [|reflexivity]. cbn [bind]. unfold create_instance.
    rewrite !generator_init_get by assumption. rewrite (Hk "create_instance"%string) by (left; reflexivity).
    destruct (match dget kw' "create_instance" with Some v => Some v | None => dget s0 "create_instance" end); [reflexivity|].
    cbn [g_create g_classes]. apply Hc. intros k Hr. unfold getattr. rewrite !generator_init_get by assumption.
    rewrite (Hk k) by (right; exact Hr). reflexivity.
  Qed.
End Keywords.

(** *** C66: assignments made after the call of Generator.__init__ override the
    keywords *)
Theorem C66_late {A V} (classes : list (dict A)) (pre : list (string * (attrs A -> res A))) k v (create : attrs A -> res V) kw self :
  instantiate (mkGen classes (defaults_then_super pre ++ [SetAttr k (fun _ => Ok v)])%list create) kw = Ok self ->
  getattr classes self k = Ok v.
Proof.
  unfold instantiate. cbn [g_classes g_init]. destruct (existsb _ _); [discriminate|].
  assert (G : forall b s, run_init classes kw (b ++ [SetAttr k (fun _ => Ok v)])%list s = Ok self -> getattr classes self k = Ok v).
  { induction b as [|[q e|] b IH]; intros s; cbn.
    - intros [= <-]. unfold getattr. rewrite dget_dset, String.eqb_refl. reflexivity.
    - destruct (e (getattr classes s)); cbn; [apply IH|discriminate].
    - apply IH. }
  apply G.
Qed.

Lemma changed_at_get {A} p (f : A -> A) (D : dict A) k : k <> p -> dget (changed_at p f D) k = dget D k.
Proof.
  intros Ne. induction D as [|[q v] D IH]; [reflexivity|]. cbn. destruct (String.eqb_spec q p) as [->|_]; cbn.
  - destruct (String.eqb_spec k p) as [->|_]; [contradiction|exact IH].
  - destruct (String.eqb k q); [reflexivity|exact IH].
Qed.
Lemma changed_at_keys {A} p (f : A -> A) (D : dict A) : dkeys (changed_at p f D) = dkeys D.
Proof. induction D as [|[q v] D IH]; [reflexivity|]. cbn. destruct (String.eqb q p); cbn; f_equal; exact IH. Qed.
Lemma dkeys_app {A} (a b : dict A) : dkeys (a ++ b)%list = (dkeys a ++ dkeys b)%list.
Proof. unfold dkeys. apply map_app. Qed.
Lemma dget_app_l {A} (a b c : dict A) k : dget a k = dget b k -> dget (a ++ c)%list k = dget (b ++ c)%list k.
Proof.
  assert (G : forall (a b : dict A), dget (a ++ b)%list k = match dget a k with Some v => Some v | None => dget b k end).
  { clear. induction a as [|[q v] a IH]; intros b; [reflexivity|]. cbn. destruct (String.eqb k q); [reflexivity|apply IH]. }
  intros E. rewrite !G, E. reflexivity.
Qed.

Lemma NoDup_front {A} (a b : list A) : NoDup (a ++ b)%list -> NoDup a.
Proof. induction a as [|x a IH]; cbn; intros H; constructor; inversion H; subst; [intros Q; apply H2, in_or_app; auto|auto]. Qed.

(** *** C66: consequently a sensitivity study for a parameter that
    create_instance does not read (a misspelt one, say) succeeds if it succeeds
    for the others, and reports zero for every vertex (the step is assumed
    non-zero because the quotient 0/0 of the code is NaN) *)
Theorem C66_study (classes : list (dict (pval R))) defs create call reads s d D o pert s' out p x c t :
  let g := mkGen classes (defaults_then_super defs) create in
  (forall f f' : attrs (pval R), (forall k, In k reads -> f k = f' k) -> create f = create f') ->
  nth_error (s_dicts s) d = Some D -> NoDup (dkeys (D ++ o)%list) -> numbers D ->
  In (p, PNum x) D -> ~ In p ("create_instance" :: "self" :: reads)%string -> (x * pert <> 0)%R ->
  (forall kw i, make_vehicle call g kw = Ok i -> NoDup (dkeys (i_meshes i))) ->
  dvdp (fun kw h => (h, make_vehicle call g kw)) d o pert s = (s', Ok out) ->
  (exists ts, dget (o_sens out) p = Some ts /\ (dget ts c = Some t -> forall r, In r t -> r_sens r = V3 0%R 0%R 0%R)).
Proof.
  intros g Hc E Nd Nu Hp Hr Hx Hm Run.
  assert (ND : NoDup (dkeys D)) by (rewrite dkeys_app in Nd; apply (NoDup_front _ _ Nd)).
  assert (Dj : disjoint_keys D o).
  { intros k H1 H2. rewrite dkeys_app in Nd. clear -Nd H1 H2. induction (dkeys D) as [|a l IH]; [destruct H2|].
    cbn in Nd. inversion Nd; subst. destruct H2 as [->|H2]; [apply H3, in_or_app; auto|auto]. }
  destruct (C61_tables _ s d D o pert s' out E ND Nu Dj Run) as (nominal & En & Ek & F). cbn [snd] in En.
  assert (Hs : In p (dkeys (o_sens out))) by (rewrite Ek; apply (in_map fst) in Hp; exact Hp).
  destruct (dget (o_sens out) p) as [ts|] eqn:Et.
  2:{ exfalso. apply (proj1 (dget_none _ _) Et), Hs. }
  exists ts. split; [reflexivity|]. intros Hc0 r Hrow. apply dget_in in Et.
  assert (Q : exists call0 : dict (pval R) * vheap R, (exists x0 inst, In (p, PNum x0) D /\ fst call0 = (changed_at p (times_factor pert) D ++ o)%list /\
     make_vehicle call g (fst call0) = Ok inst /\
     Forall2 (fun cm ct => fst cm = fst ct /\ exists m, dget (i_meshes inst) (fst cm) = Some m /\
            compare_meshes (snd cm) m (nsub (nmul x0 (nadd n1 (ndiv pert (nZ 100)))) x0) = Ok (snd ct)) (i_meshes nominal) ts)).
  { clear -F Et. induction F as [|c0 pt cs ps H _ IH]; [destruct Et|]. destruct Et as [->|Et]; [|apply IH, Et].
    exists c0. destruct H as (x0 & inst & A & B & C & D0). exists x0, inst. auto. }
  destruct Q as (call0 & x0 & inst & Hx0 & Ec & Ei & F2).
  assert (inst = nominal).
  { rewrite Ec in Ei. rewrite (C66_unread classes defs create call reads _ (D ++ o)%list Hc) in Ei.
    - change (make_vehicle call g (D ++ o)%list = Ok inst) in Ei. congruence.
    - rewrite dkeys_app, changed_at_keys, <- dkeys_app. exact Nd.
    - exact Nd.
    - intros k Hk. apply dget_app_l, changed_at_get. intros ->. apply Hr. destruct Hk as [Hk|Hk]; [left; exact Hk|right; right; exact Hk].
    - rewrite !dkeys_app, changed_at_keys. tauto. }
  subst inst. pose proof (Hm _ _ En) as Nm.
  assert (Q : exists m m', In (c, m) (i_meshes nominal) /\ dget (i_meshes nominal) c = Some m' /\
     compare_meshes m m' (nsub (nmul x0 (nadd n1 (ndiv pert (nZ 100)))) x0) = Ok t).
  { clear -F2 Hc0. revert F2. generalize (i_meshes nominal) at 2 3. intros lm F2. induction F2 as [|cm ct l1 l2 (A & m & B & C) _ IH]; [discriminate|].
    destruct cm as [cn cm], ct as [tn tt]. cbn in *. subst tn. destruct (String.eqb_spec c cn) as [->|_].
    - injection Hc0 as ->. exists cm, m. auto.
    - destruct (IH Hc0) as (m1 & m2 & ? & ? & ?). exists m1, m2. auto. }
  destruct Q as (m & m' & Hm1 & Hm2 & Ecmp). rewrite (dget_nodup _ _ _ Nm Hm1) in Hm2. injection Hm2 as <-.
  destruct (C62_rows m m (nsub (nmul x0 (nadd n1 (ndiv pert (nZ 100)))) x0) eq_refl) as (rows & Erows & _ & _ & Vr & _).
  rewrite Erows in Ecmp. injection Ecmp as <-. destruct (Vr r Hrow) as (_ & _ & _ & Sx).
  assert (Z : forall a, SpecSens.along a (r_sens r) = 0%R).
  { intros a. rewrite Sx. rewrite Rminus_diag_eq by reflexivity. apply Rmult_0_l. }
  destruct (r_sens r) as [vx0 vy0 vz0]. pose proof (Z AX). pose proof (Z AY). pose proof (Z AZ). cbn in *. subst. reflexivity.
Qed.

(** the waverider of the hangar (waverider.py 115-165, three of its
    attributes): widening the body leaves the control point u2x, whose default
    is a sixth of the width, where it was *)
Example C66_meets :
  let defs := [("width"%string, fun _ : attrs R => Ok (35 / 100)%R);
    ("u2x"%string, fun self => let! w := self "width"%string in Ok (w / 2 / 3)%R); ("u1y"%string, fun _ => Ok (1 / 10)%R)] in
  let g := mkGen (A := R) [[("zero_offset"%string, 1%R)]; [("zero_offset"%string, 2%R)]] (defaults_then_super defs) (fun self => self "u2x"%string) in
  exists self, instantiate g [("width"%string, 1%R)] = Ok self /\
    getattr (g_classes g) self "width"%string = Ok 1%R /\ getattr (g_classes g) self "u2x"%string = Ok (35 / 100 / 2 / 3)%R /\
    getattr (g_classes g) self "zero_offset"%string = Ok 1%R /\ getattr (g_classes g) self "span"%string = Raise AttributeError.
Proof.
  intros defs g.
  destruct (C66_attributes (V := R) [[("zero_offset"%string, 1%R)]; [("zero_offset"%string, 2%R)]] defs (fun self => self "u2x"%string) [("width"%string, 1%R)]) as [_ H].
  - repeat constructor. intros [].
  - intros [Q|[]]. discriminate.
  - destruct (H _ eq_refl) as (self & E & G). exists self. split; [exact E|]. cbn [g_classes g]. rewrite !G. repeat split.
Qed.

Print Assumptions C66_attributes.
Print Assumptions C66_inherited.
Print Assumptions C66_reserved.
Print Assumptions C66_unread.
Print Assumptions C66_late.
Print Assumptions C66_study.
