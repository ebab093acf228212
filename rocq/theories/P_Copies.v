(** C115: copies of composites (components/component.py:160-172). *)
From Coq Require Import Reals Lra ZArith String List Lia.
From Verif Require Import Num NumR Py M_Vector SpecR3 M_Path M_Surface M_Geometry M_Mesh M_Component M_Vehicle M_Copies
  SpecSurf SpecVehicle SpecAdd SpecHistory L_Heap L_Pipeline L_Generate L_Copies L_Copies2 P_Vehicle.
Import ListNotations.
Local Open Scope R_scope.

(** an object that makes its own patches *)
Definition simple (h : heap R) (a : nat) : Prop := exists ca r g, nth_error (comps h) a = Some ca /\ c_kind ca = Own r g.
Lemma simple_own h a : separate h -> simple h a -> own_object h a.
Proof.
  intros SP (ca & r & g & E & K). apply separate_ns in SP. destruct (view_total h a ca SP E) as [d V]. exists ca, d, r, g. auto.
Qed.
(** b in h1 has the options, caches and patches of a in h, but a dictionary of its own *)
Definition copy_of (h h1 : heap R) (a b : nat) : Prop :=
  exists c r, nth_error (comps h) a = Some c /\ nth_error (comps h1) b = Some (set_patches c r) /\ patches_at h1 b = patches_at h a.

(** C115: a deep copy of a composite has copies of the children, the same child
    twice being one child twice again; nothing that is done to the copy or to
    its children is seen by any object there was before, and nothing that is done
    to the original or to its children is seen by the copy *)
Theorem C115_deep (h : heap R) i c l : separate h -> nth_error (comps h) i = Some c -> c_kind c = Composite l -> Forall (simple h) l ->
  exists h1 j f, deepcopy_any i h = (h1, Ok j) /\ separate h1 /\
    (forall b, In b (j :: map f l) -> (length (comps h) <= b)%nat) /\ ~ In j (map f l) /\ (forall a a', In a l -> In a' l -> f a = f a' -> a = a') /\
    (exists r, nth_error (comps h1) j = Some (set_kind (set_patches c r) (Composite (map f l)))) /\ patches_at h1 j = patches_at h i /\
    (forall a, In a l -> copy_of h h1 a (f a)) /\
    (forall b calls k, In b (j :: map f l) -> (k < length (comps h))%nat ->
       nth_error (comps (call_all b calls h1)) k = nth_error (comps h) k /\ patches_at (call_all b calls h1) k = patches_at h k) /\
    forall a calls b, In a (i :: l) -> In b (j :: map f l) ->
       nth_error (comps (call_all a calls h1)) b = nth_error (comps h1) b /\ patches_at (call_all a calls h1) b = patches_at h1 b.
Proof.
  intros SP E K FO. assert (FO' : Forall (own_object h) l) by (eapply Forall_impl; [|exact FO]; intros a; apply simple_own, SP).
  destruct (composite_independent h i c l SP E K FO') as (h1 & j & f & A & S1 & _ & _ & LN & INJ & NJ & EJ & PJ & CP & _ & W1 & W2).
  exists h1, j, f. repeat (split; [first [exact A|exact S1|exact LN|exact NJ|exact INJ|exact EJ|exact PJ|exact CP|exact W1]|]). exact W2.
Qed.

(** C115: what the copy generates is what the original would generate, and the
    original keeps what it has *)
Theorem C115_regenerated (h : heap R) i c l g : separate h -> nth_error (comps h) i = Some c -> c_kind c = Composite l -> Forall (simple h) l -> NoDup l -> builds h i g ->
  exists h1 j h2, deepcopy_any i h = (h1, Ok j) /\ generate_patches j h1 = (h2, Ok tt) /\ patches_at h2 j = Some g /\
    forall k, (k < length (comps h))%nat -> nth_error (comps h2) k = nth_error (comps h) k /\ patches_at h2 k = patches_at h k.
Proof.
  intros SP E K FO ND B. assert (FO' : Forall (own_object h) l) by (eapply Forall_impl; [|exact FO]; intros a; apply simple_own, SP).
  destruct (composite_independent h i c l SP E K FO') as (h1 & j & f & A & S1 & FJ & _ & _ & INJ & NJ & (r & EJ) & _ & _ & BB & W1 & _).
  apply separate_ns in S1. destruct (patches_built h1 j g (set_kind (set_patches c r) (Composite (map f l))) S1) as (h2 & c2 & G & V & _); [| |exact EJ|].
  - rewrite <- with_children_family, FJ. constructor; [exact NJ|]. clear - INJ ND. induction ND as [|a l NA ND IH]; cbn [map]; constructor.
    + intros I. apply in_map_iff in I as (a' & Ea & Ha). apply NA. rewrite <- (INJ a' a); [exact Ha|right; exact Ha|left; reflexivity|exact Ea].
    + apply IH. intros a1 a2 H1 H2. apply INJ; right; assumption.
  - apply builds_gives; [apply BB, B|exact S1].
  - exists h1, j, h2. split; [exact A|]. split; [exact G|]. split; [exact (patches_view _ _ _ _ V)|]. intros k Lk.
    pose proof (W1 j [Regenerate] k (or_introl eq_refl) Lk) as W. cbn [call_all fold_left call_comp] in W. rewrite G in W. exact W.
Qed.

(** C115: a shallow copy of a composite has the children of the original *)
Theorem C115_shallow (h : heap R) i c l : nth_error (comps h) i = Some c -> c_kind c = Composite l ->
  exists h1 j, copy_comp i h = (h1, Ok j) /\ j <> i /\ with_children h1 j = j :: l /\ with_children h1 i = i :: l /\ patches_at h1 j = patches_at h i.
Proof.
  intros E K. exists (mkHeap (dicts h) (comps h ++ [c])), (length (comps h)). pose proof (nth_app_new (comps h) c) as N. pose proof (nth_app_old (comps h) [c] i c E) as O.
  split; [unfold copy_comp, bindM, get_comp; rewrite E; reflexivity|]. split; [apply nth_some_lt in E; lia|].
  unfold with_children, patches_at. cbn [comps dicts]. rewrite N, O, E, K. auto.
Qed.

(** a composite of two parts, and one that has the same part twice *)
Definition shop : heap R := mkHeap [[]; []; []; []] [part "swept" false [("s"%string, sheet 4)] 0 None None false; part "swept" true [("s"%string, sheet 5)] 1 None None false; pair_of [0; 1]%nat 2; pair_of [1; 1]%nat 3].
Example C115_meets : separate shop /\ nth_error (comps shop) 2 = Some (pair_of [0; 1]%nat 2) /\ Forall (simple shop) [0; 1]%nat /\ NoDup [0; 1]%nat /\
  builds shop 2 [("s_0", sheet 4); ("s_1", sheet 5)]%string /\ Forall (simple shop) [1; 1]%nat.
Proof.
  assert (S0 : simple shop 0) by (eexists _, _, _; split; reflexivity). assert (S1 : simple shop 1) by (eexists _, _, _; split; reflexivity).
  split; [eapply separate_by; [reflexivity| |]; cbn; repeat constructor; cbn; intuition discriminate|]. split; [reflexivity|]. split; [auto|].
  split; [repeat constructor; cbn; intuition discriminate|]. split; [|auto].
  right. eexists _, [0; 1]%nat, [[("s"%string, sheet 4)]; [("s"%string, sheet 5)]]. split; [reflexivity|]. split; [reflexivity|]. split; [|reflexivity].
  constructor; [|constructor; [|constructor]].
  - eexists _, _, _, _. split; [reflexivity|]. split; [reflexivity|]. split; [repeat constructor; intros []|right; reflexivity].
  - eexists _, _, _, _. split; [reflexivity|]. split; [reflexivity|]. split; [repeat constructor; intros []|left; reflexivity].
Qed.
(** the same part twice is copied once *)
Example C115_repeated : option_map c_kind (nth_error (comps (fst (deepcopy_any 3 shop))) 5) = Some (Composite [4; 4]%nat).
Proof. reflexivity. Qed.

Print Assumptions C115_deep.
Print Assumptions C115_regenerated.
Print Assumptions C115_shallow.
