(** Composite components in the heap: merged patches, and options of children. *)
From Coq Require Import String List Arith Lia Bool ZArith Reals.
From Verif Require Import Num NumR Py M_Vector M_Path M_Surface M_Geometry M_Mesh M_Component M_Vehicle SpecVehicle SpecHistory
  L_Strings L_Component L_Composite L_Heap L_Pipeline L_Generate.
Import ListNotations.

Lemma tagged_all_nodup gs : Forall (fun d : dict (surf R) => NoDup (dkeys d)) gs -> merged_patches gs = joined 0 gs.
Proof. intros H. rewrite merged_tagged by exact H. apply tagged_joined. Qed.

(** C57 *)
Theorem composite_patches (h : heap R) i c children gs : separate h -> NoDup (with_children h i) ->
  nth_error (comps h) i = Some c -> c_kind c = Composite children -> Forall2 (builds_own h) children gs ->
  exists h' d, generate_patches i h = (h', Ok tt) /\ patches_at h' i = Some d /\
    length d = fold_right Nat.add 0%nat (map (@length _) gs) /\
    (forall k ix u, dget d (k ++ "_" ++ str_nat ix)%string = Some u <-> exists g, nth_error gs ix = Some g /\ dget g k = Some u) /\
    (forall s, In s (dkeys d) -> exists k ix g, s = (k ++ "_" ++ str_nat ix)%string /\ nth_error gs ix = Some g /\ In k (dkeys g)).
Proof.
  intros SP ND E K FB. apply separate_ns in SP. rewrite with_children_family in ND.
  assert (NK : Forall (fun d : dict (surf R) => NoDup (dkeys d)) gs).
  { clear - FB. induction FB as [|j g chs gs B _ IH]; constructor; [|exact IH]. destruct B as (c & r & rr & rs & _ & _ & H & _). exact H. }
  assert (G : gives h i (joined 0 gs)).
  { apply builds_gives; [|exact SP]. right. exists c, children, gs. auto. }
  destruct (patches_built h i (joined 0 gs) c SP ND G E) as (h' & c' & A & V & _). exists h', (joined 0 gs).
  split; [exact A|]. split; [eapply patches_view, V|]. rewrite <- (tagged_all_nodup gs NK). split; [apply merged_length, NK|]. split.
  - intros k ix u. apply (merged_get gs k ix u NK).
  - intros s I. destruct (merged_only gs s NK I) as (ix & g & k & A1 & A2 & A3). exists k, ix, g. auto.
Qed.

Section Agree.
  Context {T : Type} {N : Num T}.
  Notation heap := (heap T).
  Notation comp := (comp T).
  Notation M := (M (T := T)).

  Definition core (c : comp) := (c_type c, c_kind c, c_patches c, c_res_r c, c_res_s c, c_resolution c, c_surfaces c, c_mesh c).
  Definition agree (j : nat) (h h' : heap) : Prop :=
    dicts h' = dicts h /\ map core (comps h') = map core (comps h) /\ nth_error (comps h') j = nth_error (comps h) j.
  Definition respects {A} (j : nat) (m : M A) : Prop := forall h h', agree j h h' -> agree j (fst (m h)) (fst (m h')) /\ snd (m h') = snd (m h).

  Lemma agree_refl j h : agree j h h. Proof. repeat split. Qed.
  Lemma agree_trans j a b c : agree j a b -> agree j b c -> agree j a c.
  Proof. intros (A & B & C) (D & E & F). repeat split; congruence. Qed.
  Lemma agree_nth j h h' k : agree j h h' -> option_map core (nth_error (comps h') k) = option_map core (nth_error (comps h) k).
  Proof. intros (_ & B & _). rewrite <- !nth_error_map, B. reflexivity. Qed.
  Lemma resp_bind {A B} j (m : M A) (k : A -> M B) : respects j m -> (forall a, respects j (k a)) -> respects j (bindM m k).
  Proof.
    intros Hm Hk h h' AG. unfold bindM. destruct (Hm h h' AG) as [A1 A2].
    destruct (m h) as [h1 r1], (m h') as [h2 r2]. cbn [fst snd] in *. subst r2. destruct r1 as [a|e]; [apply (Hk a h1 h2 A1)|auto].
  Qed.
  Lemma resp_ret {A} j (a : A) : respects j (ret a). Proof. intros h h' H. auto. Qed.
  Lemma resp_throw {A} j e : respects j (throw (A := A) e). Proof. intros h h' H. auto. Qed.
  Lemma resp_lift {A} j (r : res A) : respects j (lift r). Proof. intros h h' H. auto. Qed.
  Lemma resp_iter {A} j (f : A -> M unit) l : (forall a, respects j (f a)) -> respects j (iterM f l).
  Proof. intros H. induction l as [|a l IH]; cbn [iterM]; [apply resp_ret|]. apply resp_bind; [apply H|]. intros _. exact IH. Qed.
  Lemma resp_get j : respects j (get_comp j).
  Proof. intros h h' AG. pose proof AG as (_ & _ & E). unfold get_comp. rewrite E. destruct (nth_error (comps h) j); auto. Qed.
  Lemma resp_getd j r : respects j (get_dict r).
  Proof. intros h h' AG. pose proof AG as (E & _). unfold get_dict. rewrite E. destruct (nth_error (dicts h) r); auto. Qed.
  Lemma resp_putd j r d : respects j (put_dict r d).
  Proof. intros h h' (E & A & B). unfold put_dict. cbn [fst snd]. rewrite E. repeat split; auto. Qed.
  Lemma map_list_set {A B} (f : A -> B) l i a : map f (list_set l i a) = list_set (map f l) i (f a).
  Proof. revert i. induction l as [|x l IH]; intros [|i]; cbn; [reflexivity|reflexivity|reflexivity|]. rewrite IH. reflexivity. Qed.
  Lemma nth_list_set_eq {A} (l l' : list A) i j a a' : nth_error l' j = nth_error l j -> length l' = length l -> (i = j -> a' = a) ->
    nth_error (list_set l' i a') j = nth_error (list_set l i a) j.
  Proof.
    intros E L K. destruct (Nat.eq_dec i j) as [->|NE].
    - destruct (Nat.lt_ge_cases j (length l)) as [H|H].
      + rewrite !list_set_same by lia. rewrite K; reflexivity.
      + rewrite !(proj2 (nth_error_None _ _)); [reflexivity| |]; rewrite list_set_length; lia.
    - rewrite !list_set_other by auto. exact E.
  Qed.
  Lemma agree_len j h h' : agree j h h' -> length (comps h') = length (comps h).
  Proof. intros (_ & B & _). apply (f_equal (@length _)) in B. rewrite !map_length in B. exact B. Qed.
  Lemma agree_put j h h' i c c' : agree j h h' -> core c' = core c -> (i = j -> c' = c) ->
    agree j (mkHeap (dicts h) (list_set (comps h) i c)) (mkHeap (dicts h') (list_set (comps h') i c')).
  Proof.
    intros AG E K. pose proof (agree_len j h h' AG) as L. destruct AG as (D & A & B). split; [exact D|]. cbn [comps]. split.
    - rewrite !map_list_set, A, E. reflexivity.
    - apply nth_list_set_eq; auto.
  Qed.
  Lemma agree_new j h h' d : agree j h h' -> agree j (mkHeap (dicts h ++ [d]) (comps h)) (mkHeap (dicts h' ++ [d]) (comps h')).
  Proof. intros (D & A & B). split; [cbn; rewrite D; reflexivity|auto]. Qed.
  Lemma resp_rebind j i d : respects j (rebind_patches i d).
  Proof.
    intros h h' AG. pose proof (agree_nth j h h' i AG) as C. unfold rebind_patches, bindM, get_comp.
    destruct (nth_error (comps h) i) as [c|] eqn:E, (nth_error (comps h') i) as [c'|] eqn:E'; try discriminate; [|auto].
    assert (CC : core c' = core c) by (cbn [option_map] in C; congruence). clear C. rename CC into C. unfold new_dict, put_comp. cbn [fst snd dicts comps]. split; [|reflexivity].
    pose proof AG as (D & _ & B).
    apply (agree_put j (mkHeap (dicts h ++ [d]) (comps h)) (mkHeap (dicts h' ++ [d]) (comps h')) i).
    - apply agree_new, AG.
    - rewrite D. destruct c, c'. unfold core in *. cbn in *. congruence.
    - intros ->. rewrite D. rewrite E, E' in B. congruence.
  Qed.
  Lemma resp_on j i (f : comp -> dict (surf T) -> dict (surf T)) : (i = j \/ forall c c', f c = f c') -> respects j (on_patches f i).
  Proof.
    intros K h h' AG. pose proof (agree_nth j h h' i AG) as C. unfold on_patches, bindM, get_comp.
    pose proof AG as (D & _ & B).
    destruct (nth_error (comps h) i) as [c|] eqn:E, (nth_error (comps h') i) as [c'|] eqn:E'; try discriminate; [|auto].
    assert (CC : core c' = core c) by (cbn [option_map] in C; congruence). clear C. rename CC into C. assert (P : c_patches c' = c_patches c) by (unfold core in C; congruence).
    unfold get_dict. rewrite D, P. destruct (nth_error (dicts h) (c_patches c)) as [d|]; [|auto].
    assert (FF : f c' = f c). { destruct K as [->|K]; [rewrite E, E' in B; congruence|apply K]. }
    rewrite FF. exact (resp_putd j (c_patches c) (f c d) h h' AG).
  Qed.
  Lemma resp_own j i : respects j (generate_own i).
  Proof.
    intros h h' AG. pose proof (agree_nth j h h' i AG) as C. unfold generate_own.
    assert (G : forall (k : comp -> M unit) (x : heap), bindM (get_comp i) k x = match nth_error (comps x) i with Some y => k y x | None => (x, Raise RuntimeError) end).
    { intros k x. unfold bindM, get_comp. destruct (nth_error (comps x) i); reflexivity. }
    rewrite !G. clear G.
    pose proof AG as (D & _ & B).
    destruct (nth_error (comps h) i) as [c|] eqn:E, (nth_error (comps h') i) as [c'|] eqn:E'; try discriminate; [|auto].
    assert (CC : core c' = core c) by (cbn [option_map] in C; congruence). clear C. rename CC into C. assert (P : c_kind c' = c_kind c /\ c_res_r c' = c_res_r c /\ c_res_s c' = c_res_s c) by (unfold core in C; repeat split; congruence).
    destruct P as (P1 & P2 & P3). rewrite P1, P2, P3. destruct (c_kind c) as [rep gen|]; [|auto].
    unfold bindM, lift. destruct gen as [[[d rr] rs]|e]; [|auto]. unfold put_comp. 
    set (h1 := mkHeap (dicts h) (list_set (comps h) i (set_res c (dupdate (c_res_r c) rr) (dupdate (c_res_s c) rs)))).
    set (h2 := mkHeap (dicts h') (list_set (comps h') i (set_res c' (dupdate (c_res_r c) rr) (dupdate (c_res_s c) rs)))).
    assert (A1 : agree j h1 h2).
    { apply agree_put; [exact AG| |].
      - destruct c, c'. unfold core in *. cbn in *. congruence.
      - intros ->. rewrite E, E' in B. congruence. }
    destruct rep; [apply (resp_rebind j i d h1 h2 A1)|]. refine (resp_on j i _ _ h1 h2 A1). right. reflexivity.
  Qed.
  Lemma resp_patches_of j i : respects j (patches_of i).
  Proof.
    intros h h' AG. pose proof (agree_nth j h h' i AG) as C. unfold patches_of, bindM, get_comp. pose proof AG as (D & _).
    destruct (nth_error (comps h) i) as [c|], (nth_error (comps h') i) as [c'|]; try discriminate; [|auto].
    assert (CC : core c' = core c) by (cbn [option_map] in C; congruence). clear C. rename CC into C. assert (P : c_patches c' = c_patches c) by (unfold core in C; congruence).
    unfold get_dict. rewrite D, P. destruct (nth_error (dicts h) (c_patches c)); auto.
  Qed.
  Lemma resp_all j l : respects j (all_patches l).
  Proof.
    induction l as [|i l IH]; cbn [all_patches]; [apply resp_ret|]. apply resp_bind; [apply resp_patches_of|]. intros d.
    apply resp_bind; [exact IH|]. intros ds. apply resp_ret.
  Qed.
  Lemma resp_generate_patches j : respects j (generate_patches j).
  Proof.
    apply resp_bind; [apply resp_get|]. intros c. destruct (c_kind c) as [rep gen|chs]; [apply resp_own|].
    apply resp_bind; [apply resp_iter; intros; apply resp_own|]. intros _.
    apply resp_bind; [apply resp_all|]. intros ds. apply resp_rebind.
  Qed.
  Lemma resp_reflect j ax : respects j (comp_reflect ax j).
  Proof.
    apply resp_bind; [apply resp_get|]. intros c. apply resp_bind; [apply resp_getd|]. intros d.
    destruct (c_axis c), ax; try (destruct (c_append c); [apply resp_putd|apply resp_rebind]). apply resp_ret.
  Qed.
  Lemma resp_call j t : respects j (call_method t j).
  Proof.
    destruct t as [name args]. unfold call_method.
    repeat match goal with |- respects _ (if ?b then _ else _) => destruct b end;
    repeat match goal with
    | |- respects _ (match ?a with _ => _ end) => destruct a
    | |- respects _ (throw _) => apply resp_throw
    | |- respects _ (comp_reflect _ _) => apply resp_reflect
    | |- respects _ _ => apply resp_on; left; reflexivity
    end.
  Qed.
  Lemma resp_generate j angle : respects j (generate_component angle j).
  Proof.
    apply resp_bind; [apply resp_generate_patches|]. intros _.
    repeat (apply resp_bind; [first [apply resp_on; left; reflexivity|apply resp_reflect]|intros _]).
    apply resp_bind; [apply resp_get|]. intros c. apply resp_iter. intros. apply resp_call.
  Qed.

  (** adding a child with other options *)
  Lemma add_child j i a a' h h' c : nth_error (comps h) j = Some c -> c_type c = "composite"%string -> agree j h h' ->
    agree j (fst (composite_add j i a h)) (fst (composite_add j i a' h')) /\ snd (composite_add j i a' h') = snd (composite_add j i a h) /\
    exists c1, nth_error (comps (fst (composite_add j i a h))) j = Some c1 /\ c_type c1 = "composite"%string.
  Proof.
    intros E ET AG. pose proof (agree_nth j h h' i AG) as C. pose proof AG as (D & _ & B). rewrite E in B.
    unfold composite_add, bindM, get_comp. rewrite E, B.
    destruct (nth_error (comps h) i) as [x|] eqn:Ei, (nth_error (comps h') i) as [x'|] eqn:Ei'; try discriminate;
      [|cbn [fst snd]; split; [exact AG|split; [reflexivity|exists c; auto]]].
    assert (CC : core x' = core x) by (cbn [option_map] in C; congruence). clear C. rename CC into C. assert (P : c_type x' = c_type x) by (unfold core in C; congruence).
    destruct (c_kind c) as [rep gen|chs]; [unfold throw; cbn [fst snd]; split; [exact AG|split; [reflexivity|exists c; auto]]|].
    rewrite P. destruct (str_in (c_type x) composite_allowable) eqn:EA; [|unfold throw; cbn [fst snd]; split; [exact AG|split; [reflexivity|exists c; auto]]].
    assert (NE : i <> j). { intros ->. assert (x = c) as -> by congruence. rewrite ET in EA. discriminate. }
    unfold put_comp. cbn [comps dicts]. rewrite !list_set_other by auto. rewrite E, B. cbn [fst snd]. split; [|split; [reflexivity|]].
    - match goal with |- agree j {| dicts := _; comps := list_set ?x _ ?b |} {| dicts := _; comps := list_set ?x' _ _ |} =>
        apply (agree_put j (mkHeap (dicts h) x) (mkHeap (dicts h') x') j b b) end; auto.
      apply agree_put; [exact AG| |congruence].
      destruct (a_clustering a), (a_clustering a'); destruct x, x'; unfold core in *; cbn in *; congruence.
    - cbn [comps]. eexists. split; [apply list_set_same; rewrite list_set_length; eapply nth_some_lt, E|]. exact ET.
  Qed.
  Lemma add_children_agree j l : forall l' h h' c, map fst l' = map fst l -> nth_error (comps h) j = Some c -> c_type c = "composite"%string ->
    agree j h h' -> agree j (add_children j l h) (add_children j l' h').
  Proof.
    induction l as [|[i a] l IH]; intros [|[i' a'] l'] h h' c EL E ET AG; try discriminate; [exact AG|].
    cbn in EL. injection EL as -> EL. cbn [add_children]. destruct (add_child j i a a' h h' c E ET AG) as (A & _ & c1 & E1 & ET1).
    apply (IH l' _ _ c1); auto.
  Qed.
End Agree.

(** C58 *)
Theorem child_options_ignored {T} {N : Num T} j (l l' : list (nat * add_args T)) (h : heap T) c angle :
  map fst l' = map fst l -> nth_error (comps h) j = Some c -> c_type c = "composite"%string ->
  let r1 := generate_component angle j (add_children j l h) in
  let r2 := generate_component angle j (add_children j l' h) in
  snd r2 = snd r1 /\ dicts (fst r2) = dicts (fst r1) /\ nth_error (comps (fst r2)) j = nth_error (comps (fst r1)) j.
Proof.
  intros EL E ET. cbn zeta. pose proof (add_children_agree j l l' h h c EL E ET (agree_refl j h)) as AG.
  destruct (resp_generate j angle _ _ AG) as [(A & _ & B) C]. auto.
Qed.
