(** Inertial analysis: totals, centre of gravity, moments of inertia. *)
From Coq Require Import Reals String List Arith Lia Lra Bool ZArith Permutation.
From Verif Require Import Num NumR Py M_Vector M_Path M_Surface M_Geometry M_Mesh M_Component M_Vehicle M_Inertia
  SpecR3 SpecFiles SpecInertia L_Heap L_Cache L_Files.
Import ListNotations.

Lemma Forall2_impl {A B} (P Q : A -> B -> Prop) l l' : (forall a b, P a b -> Q a b) -> Forall2 P l l' -> Forall2 Q l l'.
Proof. intros H. induction 1; constructor; auto. Qed.

Section Rows.
  Context {T : Type} {N : Num T}.
  Notation heap := (heap T).
  Variable mp : list (tri T) -> T -> T * T * vec T * mat T.
  Variable areas : list (tri T) -> list T.
  Variable densities : dict T.
  Notation fig := (figures mp areas densities).

  Lemma fig_stable (h h' : heap) nc c : (forall j, mesh_of h' j = mesh_of h j) -> fig h nc c -> fig h' nc c.
  Proof. intros S (m & rho & A & B). exists m, rho. rewrite S. auto. Qed.

  Lemma mesh_ok (h : heap) i m : mesh_of h i = Ok m -> exists h', comp_mesh i h = (h', Ok m) /\ (forall j, mesh_of h' j = mesh_of h j).
  Proof.
    unfold mesh_of at 1. destruct (comp_mesh i h) as [h' r] eqn:E. cbn [snd]. intros ->.
    exists h'. split; [reflexivity|]. intros j. eapply mesh_stable, E.
  Qed.
  Lemma measure_ok (h : heap) nc c : fig h nc c -> exists h', measure mp areas densities nc h = (h', Ok c) /\ (forall j, mesh_of h' j = mesh_of h j).
  Proof.
    intros (m & rho & A & B & C & D). destruct (mesh_ok h _ m A) as (h1 & E1 & S1).
    assert (A1 : mesh_of h1 (snd nc) = Ok m) by (rewrite S1; exact A).
    destruct (mesh_ok h1 _ m A1) as (h2 & E2 & S2).
    exists h2. split; [|intros j; rewrite S2, S1; reflexivity].
    unfold measure, bindM. rewrite E1, B, C, E2. unfold ret. do 2 f_equal.
    change (accumulate (fun x => x) (areas m)) with (fold_left nadd (areas m) n0). rewrite <- D. destruct c; reflexivity.
  Qed.
  Lemma measure_raise (h : heap) nc e : mesh_of h (snd nc) = Raise e -> exists h', measure mp areas densities nc h = (h', Raise e).
  Proof.
    unfold mesh_of. intros A. unfold measure, bindM. destruct (comp_mesh (snd nc) h) as [h' r]. cbn [snd] in A. subst r. exists h'. reflexivity.
  Qed.
  Lemma measure_key (h : heap) nc : is_ok (mesh_of h (snd nc)) -> dget densities (fst nc) = None -> exists h', measure mp areas densities nc h = (h', Raise KeyError).
  Proof.
    intros [m A] B. destruct (mesh_ok h _ m A) as (h1 & E1 & _). unfold measure, bindM. rewrite E1, B. exists h1. reflexivity.
  Qed.

  Lemma measure_all_ok l : forall (h : heap), Forall (fun nc => exists c, fig h nc c) l ->
    exists h' cs, measure_all mp areas densities l h = (h', Ok cs) /\ (forall j, mesh_of h' j = mesh_of h j) /\
      Forall2 (fun nc kc => fst kc = fst nc /\ fig h nc (snd kc)) l cs.
  Proof.
    induction l as [|nc l IH]; intros h H; cbn [measure_all].
    - exists h, []. split; [reflexivity|]. split; [auto|constructor].
    - inversion H as [|x y [c Hc] Hl]; subst. destruct (measure_ok h nc c Hc) as (h1 & E1 & S1).
      assert (Hl1 : Forall (fun nc => exists c, fig h1 nc c) l).
      { eapply Forall_impl; [|exact Hl]. intros a [b Hb]. exists b. eapply fig_stable; eauto. }
      destruct (IH h1 Hl1) as (h2 & cs & E2 & S2 & F2). unfold bindM. rewrite E1, E2. unfold ret.
      exists h2, ((fst nc, c) :: cs). split; [reflexivity|]. split; [intros j; rewrite S2, S1; reflexivity|].
      constructor; [auto|]. eapply Forall2_impl; [|exact F2]. cbn. intros a b [P Q]. split; [auto|].
      eapply fig_stable; [|exact Q]. intros j. symmetry. apply S1.
  Qed.
  Lemma measure_all_fails pre nc post : forall (h : heap) e, Forall (fun nc => exists c, fig h nc c) pre ->
    (mesh_of h (snd nc) = Raise e \/ is_ok (mesh_of h (snd nc)) /\ dget densities (fst nc) = None /\ e = KeyError) ->
    exists h', measure_all mp areas densities (pre ++ nc :: post) h = (h', Raise e).
  Proof.
    induction pre as [|a pre IH]; intros h e H F; cbn [measure_all app].
    - assert (exists h', measure mp areas densities nc h = (h', Raise e)) as (h' & E).
      { destruct F as [F | (F & G & ->)]; [eapply measure_raise, F|apply measure_key; auto]. }
      exists h'. unfold bindM. rewrite E. reflexivity.
    - inversion H as [|x y [c Hc] Hl]; subst. destruct (measure_ok h a c Hc) as (h1 & E1 & S1).
      destruct (IH h1 e) as (h' & E2).
      + eapply Forall_impl; [|exact Hl]. intros b [d Hd]. exists d. eapply fig_stable; eauto.
      + rewrite S1. exact F.
      + exists h'. unfold bindM. rewrite E1, E2. reflexivity.
  Qed.
  Lemma figures_fun (h : heap) nc c c' : fig h nc c -> fig h nc c' -> c = c'.
  Proof.
    intros (m & r & A & B & C & D) (m' & r' & A' & B' & C' & D').
    rewrite A in A'. injection A' as <-. rewrite B in B'. injection B' as <-. rewrite C in C'. destruct c, c'. cbn in *. congruence.
  Qed.
  Lemma assess_ok (v : vehicle T) (h : heap) : v_generated v = true ->
    Forall (fun nc => exists c, fig h nc c) (v_named v) ->
    exists h' cs, assess mp areas v densities h = (h', v, let! p := composite_properties (map snd cs) in Ok (p, cs)) /\
      Forall2 (fun nc kc => fst kc = fst nc /\ fig h nc (snd kc)) (v_named v) cs.
  Proof.
    intros G H. destruct (measure_all_ok (v_named v) h H) as (h' & cs & E & _ & F).
    exists h', cs. split; [|exact F]. unfold assess. rewrite G, E. reflexivity.
  Qed.
  Lemma assess_fails (v : vehicle T) (h : heap) pre nc post e : v_generated v = true -> v_named v = pre ++ nc :: post ->
    Forall (fun nc => exists c, fig h nc c) pre ->
    (mesh_of h (snd nc) = Raise e \/ is_ok (mesh_of h (snd nc)) /\ dget densities (fst nc) = None /\ e = KeyError) ->
    exists h', assess mp areas v densities h = (h', v, Raise e).
  Proof.
    intros G L H F. destruct (measure_all_fails pre nc post h e H F) as (h' & E).
    exists h'. unfold assess. rewrite G, L, E. reflexivity.
  Qed.
  Lemma assess_inv (v v' : vehicle T) (h h' : heap) P cs : assess mp areas v densities h = (h', v', Ok (P, cs)) ->
    composite_properties (map snd cs) = Ok P.
  Proof.
    unfold assess. destruct (if v_generated v then (h, v, Ok tt) else generate v h) as [[h1 v1] [u|e]]; [|discriminate].
    destruct (measure_all mp areas densities (v_named v1) h1) as [h2 [cs2|e]]; [|discriminate].
    destruct (composite_properties (map snd cs2)) eqn:E; [|discriminate]. cbn. intros H. injection H as <- <- <- <-. exact E.
  Qed.
End Rows.

Local Open Scope R_scope.

Lemma rsum_ext {A} (f g : A -> R) l : (forall a, In a l -> f a = g a) -> rsum f l = rsum g l.
Proof. induction l as [|a l IH]; cbn; intros H; [auto|]. rewrite IH by auto. rewrite H by auto. auto. Qed.
Lemma rsum_plus {A} (f g : A -> R) l : rsum (fun a => f a + g a) l = rsum f l + rsum g l.
Proof. induction l as [|a l IH]; cbn; [lra|]. rewrite IH. lra. Qed.
Lemma rsum_scal {A} k (f : A -> R) l : rsum (fun a => k * f a) l = k * rsum f l.
Proof. induction l as [|a l IH]; cbn; [lra|]. rewrite IH. lra. Qed.
Lemma rsum_app {A} (f : A -> R) l l' : rsum f (l ++ l') = rsum f l + rsum f l'.
Proof. induction l as [|a l IH]; cbn; [lra|]. rewrite IH. lra. Qed.
Lemma rsum_map {A B} (f : B -> R) (g : A -> B) l : rsum f (map g l) = rsum (fun a => f (g a)) l.
Proof. induction l as [|a l IH]; cbn; [lra|]. rewrite IH. lra. Qed.
Lemma rsum_concat {A} (f : A -> R) ls : rsum f (concat ls) = rsum (rsum f) ls.
Proof. induction ls as [|l ls IH]; cbn; [lra|]. rewrite rsum_app, IH. lra. Qed.
Lemma rsum_perm {A} (f : A -> R) l l' : Permutation l l' -> rsum f l = rsum f l'.
Proof. induction 1; cbn; lra. Qed.
Lemma rsum_le {A} (f g : A -> R) l : (forall a, In a l -> f a <= g a) -> rsum f l <= rsum g l.
Proof.
  induction l as [|a l IH]; cbn; intros H; [lra|]. assert (f a <= g a) by auto. assert (rsum f l <= rsum g l) by auto. lra.
Qed.
Lemma rsum_pos {A} (f : A -> R) l : l <> [] -> (forall a, In a l -> 0 < f a) -> 0 < rsum f l.
Proof.
  destruct l as [|a l]; [congruence|]. intros _ H. cbn. assert (0 < f a) by (apply H; left; auto).
  assert (rsum (fun _ => 0) l <= rsum f l) by (apply rsum_le; intros b Hb; left; apply H; right; auto).
  assert (rsum (fun _ => 0) l = 0) by (clear; induction l; cbn; lra). lra.
Qed.
Lemma rsum_zero {A} (f : A -> R) l : (forall a, In a l -> 0 <= f a) -> rsum f l = 0 -> forall a, In a l -> f a = 0.
Proof.
  induction l as [|b l IH]; cbn; intros H Z a; [tauto|].
  assert (0 <= f b) by auto. assert (rsum (fun _ => 0) l <= rsum f l) by (apply rsum_le; auto).
  assert (rsum (fun _ : A => 0) l = 0) by (clear; induction l; cbn; lra).
  intros [<- | Ha]; [lra|]. apply IH; auto; lra.
Qed.

Lemma accumulate_rsum {A} (f : A -> R) l : accumulate f l = rsum f l.
Proof.
  unfold accumulate. numR. enough (G : forall k, fold_left (fun acc a => acc + f a) l k = k + rsum f l) by (rewrite G; lra).
  induction l as [|a l IH]; intros k; cbn; [lra|]. rewrite IH. lra.
Qed.
Lemma moments_rsum l k i : (i < 3)%nat ->
  coord i (fold_left (fun acc (c : measures R) => vadd acc (times (m_mass c) (m_cog c))) l k) = coord i k + rsum (fun c => m_mass c * coord i (m_cog c)) l.
Proof.
  intros Hi. revert k. induction l as [|c l IH]; intros k; cbn [fold_left rsum]; [lra|]. rewrite IH.
  destruct i as [|[|[|i]]]; [| | |lia]; cbn; lra.
Qed.
Lemma cog_formula l i : (i < 3)%nat -> coord i (composite_cog l) = / rsum m_mass l * rsum (fun c => m_mass c * coord i (m_cog c)) l.
Proof.
  intros Hi. unfold composite_cog. rewrite accumulate_rsum. pose proof (moments_rsum l vzero i Hi) as K.
  assert (Z : coord i (vzero (T := R)) = 0) by (destruct i as [|[|[|i]]]; [| | |lia]; reflexivity). rewrite Z in K.
  set (w := fold_left _ l _) in *. rewrite <- (Rplus_0_l (rsum (fun c => _ * coord i _) l)), <- K.
  destruct i as [|[|[|i]]]; [| | |lia]; cbn [coord times vx vy vz]; numR; unfold Rdiv; ring.
Qed.
Lemma inertia_formula l i j : (i < 3)%nat -> (j < 3)%nat ->
  entry i j (composite_inertia l) =
  rsum (fun c => entry i j (m_inertia c) + m_mass c * ((coord j (m_cog c) - coord j (composite_cog l)) * (coord j (m_cog c) - coord j (composite_cog l)))) l.
Proof.
  intros Hi Hj. unfold composite_inertia. generalize (composite_cog l). intros g.
  assert (Z : entry i j (mzero (T := R)) = 0).
  { destruct i as [|[|[|i]]]; [| | |lia]; destruct j as [|[|[|j]]]; try lia; reflexivity. }
  enough (G : forall k, entry i j (fold_left (fun acc c => madd acc (shifted g c)) l k) = entry i j k +
     rsum (fun c => entry i j (m_inertia c) + m_mass c * ((coord j (m_cog c) - coord j g) * (coord j (m_cog c) - coord j g))) l)
    by (rewrite G, Z; lra).
  clear Z. induction l as [|c l IH]; intros k; cbn [fold_left rsum]; [lra|]. rewrite IH.
  assert (E : entry i j (madd k (shifted g c)) = entry i j k + (entry i j (m_inertia c) + m_mass c * ((coord j (m_cog c) - coord j g) * (coord j (m_cog c) - coord j g)))).
  { destruct i as [|[|[|i]]]; [| | |lia]; destruct j as [|[|[|j]]]; try lia; cbn; ring. }
  rewrite E. lra.
Qed.

Lemma composite_inv l P : composite_properties l = Ok P -> l <> [] /\
  p_mass P = rsum m_mass l /\ p_volume P = rsum m_volume l /\ p_area P = rsum m_area l /\
  p_cog P = composite_cog l /\ p_moi P = composite_inertia l.
Proof.
  destruct l as [|c l]; [discriminate|]. intros H. injection H as <-. split; [discriminate|].
  cbn [p_mass p_volume p_area p_cog p_moi]. rewrite !accumulate_rsum. auto.
Qed.
Lemma composite_ok l : l <> [] -> exists P, composite_properties (T := R) l = Ok P.
Proof. destruct l; [congruence|]. intros _. eexists. reflexivity. Qed.

Lemma mean_spec l P i : composite_properties l = Ok P -> p_mass P <> 0 -> (i < 3)%nat ->
  p_mass P * coord i (p_cog P) = rsum (fun c => m_mass c * coord i (m_cog c)) l.
Proof.
  intros H NZ Hi. destruct (composite_inv l P H) as (_ & A & _ & _ & B & _). rewrite B, cog_formula by auto. rewrite A in *. field. exact NZ.
Qed.

Lemma vec_eq (a b : vec R) : (forall i, (i < 3)%nat -> coord i a = coord i b) -> a = b.
Proof.
  intros H. pose proof (H 0%nat ltac:(lia)). pose proof (H 1%nat ltac:(lia)). pose proof (H 2%nat ltac:(lia)).
  destruct a, b; cbn in *; subst; reflexivity.
Qed.
Lemma mat_eq (a b : mat R) : (forall i j, (i < 3)%nat -> (j < 3)%nat -> entry i j a = entry i j b) -> a = b.
Proof.
  intros H. destruct a as [a0 a1 a2], b as [b0 b1 b2]. f_equal; apply vec_eq; intros j Hj.
  - apply (H 0%nat j); lia.
  - apply (H 1%nat j); lia.
  - apply (H 2%nat j); lia.
Qed.

Lemma properties_perm l l' P P' : Permutation l l' -> composite_properties (T := R) l = Ok P -> composite_properties l' = Ok P' -> P = P'.
Proof.
  intros Q H H'. destruct (composite_inv l P H) as (_ & A & B & C & D & E). destruct (composite_inv l' P' H') as (_ & A' & B' & C' & D' & E').
  assert (G : composite_cog l = composite_cog l').
  { apply vec_eq. intros i Hi. rewrite !cog_formula by auto. rewrite (rsum_perm _ l l' Q), (rsum_perm _ l l' Q). reflexivity. }
  assert (K : composite_inertia l = composite_inertia l').
  { apply mat_eq. intros i j Hi Hj. rewrite !inertia_formula by auto. rewrite G. apply rsum_perm, Q. }
  rewrite (rsum_perm _ l l' Q) in A. rewrite (rsum_perm _ l l' Q) in B. rewrite (rsum_perm _ l l' Q) in C.
  destruct P, P'; cbn in *; congruence.
Qed.

Lemma hull_spec l P n a b : composite_properties l = Ok P -> (forall c, In c l -> 0 < m_mass c) ->
  (forall c, In c l -> a <= inner n (m_cog c) <= b) -> a <= inner n (p_cog P) <= b.
Proof.
  intros H Pos Hab. destruct (composite_inv l P H) as (NE & A & _). assert (M : 0 < p_mass P) by (rewrite A; apply rsum_pos; auto).
  assert (E : p_mass P * inner n (p_cog P) = rsum (fun c => m_mass c * inner n (m_cog c)) l).
  { unfold inner. pose proof (mean_spec l P 0 H) as M0. pose proof (mean_spec l P 1 H) as M1. pose proof (mean_spec l P 2 H) as M2.
    cbn [coord] in *.
    rewrite (rsum_ext _ (fun c => vx n * (m_mass c * vx (m_cog c)) + vy n * (m_mass c * vy (m_cog c)) + vz n * (m_mass c * vz (m_cog c)))) by (intros; ring).
    rewrite !rsum_plus, !rsum_scal, <- M0, <- M1, <- M2 by (try lra; lia). ring. }
  assert (L : a * p_mass P <= p_mass P * inner n (p_cog P)).
  { rewrite E, A, <- rsum_scal. apply rsum_le. intros c Hc. specialize (Pos c Hc). specialize (Hab c Hc). nra. }
  assert (U : p_mass P * inner n (p_cog P) <= b * p_mass P).
  { rewrite E, A, <- rsum_scal. apply rsum_le. intros c Hc. specialize (Pos c Hc). specialize (Hab c Hc). nra. }
  split; nra.
Qed.

Lemma shift_spec d l : forall l' P P', Forall2 (fun c c' => m_mass c' = m_mass c /\ m_cog c' = translate (m_cog c) d) l l' ->
  composite_properties l = Ok P -> composite_properties l' = Ok P' -> p_mass P <> 0 ->
  p_mass P' = p_mass P /\ p_cog P' = translate (p_cog P) d.
Proof.
  intros l' P P' F H H' NZ.
  assert (S : rsum m_mass l' = rsum m_mass l /\ forall i, (i < 3)%nat ->
      rsum (fun c => m_mass c * coord i (m_cog c)) l' = rsum (fun c => m_mass c * coord i (m_cog c)) l + coord i d * rsum m_mass l).
  { clear -F. induction F as [|c c' l l' [M C] F [IH1 IH2]]; cbn [rsum]; [split; intros; lra|].
    split; [rewrite IH1, M; lra|]. intros i Hi. rewrite IH2, M, C by auto. destruct i as [|[|[|i]]]; [| | |lia]; cbn; ring. }
  destruct S as [S1 S2]. destruct (composite_inv l P H) as (_ & A & _). destruct (composite_inv l' P' H') as (_ & A' & _).
  assert (EM : p_mass P' = p_mass P) by congruence. split; [exact EM|].
  apply vec_eq. intros i Hi. assert (NZ' : p_mass P' <> 0) by (rewrite EM; exact NZ).
  pose proof (mean_spec l' P' i H' NZ' Hi) as K'. pose proof (mean_spec l P i H NZ Hi) as K. rewrite S2, <- K, <- A, EM in K' by auto.
  assert (coord i (translate (p_cog P) d) = coord i (p_cog P) + coord i d) by (destruct i as [|[|[|i]]]; [| | |lia]; reflexivity).
  rewrite H0. apply Rmult_eq_reg_l with (p_mass P); [|exact NZ]. rewrite K'. ring.
Qed.

(** Huygens and Steiner: moments about another point *)
Lemma moment_shift b c g i j : centre b c -> (i < 3)%nat -> (j < 3)%nat ->
  moment b g i j = moment b c i j + body_mass b * ((if Nat.eqb i j then sqdist c g else 0) - (coord i c - coord i g) * (coord j c - coord j g)).
Proof.
  intros C Hi Hj. unfold moment.
  set (K := fun k => rsum (fun mp : R * vec R => fst mp * coord k (snd mp)) b).
  assert (CK : forall k, (k < 3)%nat -> K k = body_mass b * coord k c) by (intros; symmetry; apply C; auto).
  assert (E : forall mp : R * vec R, fst mp * ((if Nat.eqb i j then sqdist (snd mp) g else 0) - (coord i (snd mp) - coord i g) * (coord j (snd mp) - coord j g)) =
     fst mp * ((if Nat.eqb i j then sqdist (snd mp) c else 0) - (coord i (snd mp) - coord i c) * (coord j (snd mp) - coord j c))
     + (fst mp * (if Nat.eqb i j then coord 0 g * coord 0 g - coord 0 c * coord 0 c + coord 1 g * coord 1 g - coord 1 c * coord 1 c + coord 2 g * coord 2 g - coord 2 c * coord 2 c else 0)
        + (if Nat.eqb i j then 2 * (coord 0 c - coord 0 g) * (fst mp * coord 0 (snd mp)) + 2 * (coord 1 c - coord 1 g) * (fst mp * coord 1 (snd mp)) + 2 * (coord 2 c - coord 2 g) * (fst mp * coord 2 (snd mp)) else 0)
        + (fst mp * (coord i c * coord j c - coord i g * coord j g) + (coord j g - coord j c) * (fst mp * coord i (snd mp)) + (coord i g - coord i c) * (fst mp * coord j (snd mp))))).
  { intros mp. destruct (Nat.eqb i j); unfold sqdist; cbn [coord]; ring. }
  rewrite (rsum_ext _ _ b (fun mp _ => E mp)). rewrite !rsum_plus.
  rewrite (rsum_ext (fun a : R * vec R => fst a * (coord i c * coord j c - coord i g * coord j g)) (fun a => (coord i c * coord j c - coord i g * coord j g) * fst a)) by (intros; ring).
  rewrite !rsum_scal. fold (body_mass b). fold (K i). fold (K j). rewrite (CK i Hi), (CK j Hj).
  destruct (Nat.eqb i j) eqn:IJ.
  - apply Nat.eqb_eq in IJ. subst j.
    rewrite (rsum_ext (fun a : R * vec R => fst a * (coord 0 g * coord 0 g - coord 0 c * coord 0 c + coord 1 g * coord 1 g - coord 1 c * coord 1 c + coord 2 g * coord 2 g - coord 2 c * coord 2 c))
       (fun a => (coord 0 g * coord 0 g - coord 0 c * coord 0 c + coord 1 g * coord 1 g - coord 1 c * coord 1 c + coord 2 g * coord 2 g - coord 2 c * coord 2 c) * fst a)) by (intros; ring).
    rewrite !rsum_plus, !rsum_scal. fold (body_mass b). fold (K 0%nat). fold (K 1%nat). fold (K 2%nat). rewrite !CK by lia.
    unfold sqdist. cbn [coord]. ring.
  - rewrite (rsum_ext (fun a : R * vec R => fst a * 0) (fun a => 0 * fst a)) by (intros; ring). rewrite rsum_scal.
    assert (rsum (fun _ : R * vec R => 0) b = 0) by (clear; induction b; cbn; lra). rewrite H. ring.
Qed.

(** the centre of a body made of bodies *)
Lemma centre_unique b c c' : body_mass b <> 0 -> centre b c -> centre b c' -> c = c'.
Proof.
  intros NZ C C'. apply vec_eq. intros i Hi. specialize (C i Hi). specialize (C' i Hi).
  apply Rmult_eq_reg_l with (body_mass b); [lra|exact NZ].
Qed.
Lemma describes_mass l bs : Forall2 describes l bs -> rsum m_mass l = body_mass (concat bs) /\
  forall i, (i < 3)%nat -> rsum (fun c => m_mass c * coord i (m_cog c)) l = rsum (fun mp : R * vec R => fst mp * coord i (snd mp)) (concat bs).
Proof.
  unfold body_mass. induction 1 as [|c b l bs (_ & _ & M & C & _) F [IH1 IH2]]; cbn [rsum concat]; [auto|].
  rewrite rsum_app. split; [rewrite IH1, M; reflexivity|]. intros i Hi. rewrite rsum_app, IH2, M, C by auto. reflexivity.
Qed.
Lemma describes_positive l bs : Forall2 describes l bs -> forall c, In c l -> 0 < m_mass c.
Proof.
  induction 1 as [|c b l bs (NE & Pos & M & _) F IH]; intros x; [intros []|]. intros [<- | Hx]; [|auto].
  rewrite M. apply rsum_pos; [exact NE|]. rewrite Forall_forall in Pos. exact Pos.
Qed.
Lemma composite_centre l bs P : Forall2 describes l bs -> composite_properties l = Ok P -> centre (concat bs) (p_cog P) /\ p_mass P = body_mass (concat bs) /\ 0 < p_mass P.
Proof.
  intros F H. destruct (composite_inv l P H) as (NE & A & _). destruct (describes_mass l bs F) as [D1 D2].
  assert (Pos : 0 < p_mass P) by (rewrite A; apply rsum_pos; [exact NE|eapply describes_positive, F]).
  split; [|split; [congruence|exact Pos]]. intros i Hi. rewrite <- D1, <- A, <- D2 by auto. apply mean_spec; auto. lra.
Qed.

Definition off (g : vec R) (c : measures R) i : R := coord i (m_cog c) - coord i g.
Lemma true_moment l bs g i j : Forall2 describes l bs -> (i < 3)%nat -> (j < 3)%nat ->
  moment (concat bs) g i j = rsum (fun c => entry i j (m_inertia c) + m_mass c * ((if Nat.eqb i j then sqdist (m_cog c) g else 0) - off g c i * off g c j)) l.
Proof.
  intros F Hi Hj. unfold moment. induction F as [|c b l bs (_ & _ & M & C & I) F IH]; cbn [concat rsum]; [reflexivity|].
  rewrite rsum_app, IH, I, M by auto. f_equal. exact (moment_shift b (m_cog c) g i j C Hi Hj).
Qed.
Lemma trace_deficit l bs P : Forall2 describes l bs -> composite_properties l = Ok P ->
  entry 0 0 (p_moi P) + entry 1 1 (p_moi P) + entry 2 2 (p_moi P) =
  moment (concat bs) (p_cog P) 0 0 + moment (concat bs) (p_cog P) 1 1 + moment (concat bs) (p_cog P) 2 2 - rsum (fun c => m_mass c * sqdist (m_cog c) (p_cog P)) l.
Proof.
  intros F H. destruct (composite_inv l P H) as (_ & _ & _ & _ & G & I). rewrite I, G, !inertia_formula by lia.
  rewrite !(true_moment l bs) by (auto; lia). unfold off. cbn [Nat.eqb].
  clear. set (g := composite_cog l). clearbody g. induction l as [|c l IH]; cbn [rsum]; [lra|].
  unfold sqdist in *. cbn [coord] in *. lra.
Qed.
Lemma moi_iff l bs P : Forall2 describes l bs -> composite_properties l = Ok P ->
  ((forall i j, (i < 3)%nat -> (j < 3)%nat -> entry i j (p_moi P) = moment (concat bs) (p_cog P) i j) <->
   (forall c, In c l -> m_cog c = p_cog P)).
Proof.
  intros F H. split.
  - intros E c Hc. pose proof (trace_deficit l bs P F H) as D. rewrite !E in D by lia.
    assert (Z : rsum (fun c => m_mass c * sqdist (m_cog c) (p_cog P)) l = 0) by lra.
    pose proof (describes_positive l bs F) as Pos.
    assert (S : forall x y : R, 0 <= (x - y) * (x - y)) by (intros; apply Rle_0_sqr).
    assert (SQ : forall a b, 0 <= sqdist a b) by (intros a b; unfold sqdist; pose proof (S (vx a) (vx b)); pose proof (S (vy a) (vy b)); pose proof (S (vz a) (vz b)); lra).
    pose proof (rsum_zero _ l (fun a Ha => Rmult_le_pos _ _ (Rlt_le _ _ (Pos a Ha)) (SQ (m_cog a) (p_cog P))) Z c Hc) as Q.
    assert (Q0 : sqdist (m_cog c) (p_cog P) = 0).
    { apply Rmult_integral in Q. destruct Q as [Q | Q]; [pose proof (Pos c Hc); lra|exact Q]. }
    unfold sqdist in Q0. pose proof (S (vx (m_cog c)) (vx (p_cog P))) as Sx. pose proof (S (vy (m_cog c)) (vy (p_cog P))) as Sy. pose proof (S (vz (m_cog c)) (vz (p_cog P))) as Sz.
    assert (forall x y, (x - y) * (x - y) = 0 -> x = y) as EQ by (intros x y K; apply Rmult_integral in K; lra).
    apply vec_eq. intros i Hi. destruct i as [|[|[|i]]]; [| | |lia]; cbn [coord]; apply EQ; lra.
  - intros E i j Hi Hj. destruct (composite_inv l P H) as (_ & _ & _ & _ & G & I).
    rewrite I, inertia_formula by auto. rewrite (true_moment l bs) by auto. rewrite <- G. apply rsum_ext. intros c Hc.
    rewrite (E c Hc). f_equal. unfold off. rewrite (E c Hc). unfold sqdist. destruct (Nat.eqb i j); ring.
Qed.
Lemma moi_asymmetry l bs P i j : Forall2 describes l bs -> composite_properties l = Ok P -> (i < 3)%nat -> (j < 3)%nat ->
  entry i j (p_moi P) - entry j i (p_moi P) = rsum (fun c => m_mass c * ((coord j (m_cog c) - coord j (p_cog P)) ^ 2 - (coord i (m_cog c) - coord i (p_cog P)) ^ 2)) l.
Proof.
  intros F H Hi Hj. destruct (composite_inv l P H) as (_ & _ & _ & _ & G & I). rewrite I, G, !inertia_formula by auto.
  set (g := composite_cog l). clearbody g. clear G I H. induction F as [|c b l bs (_ & _ & M & C & S) F IH]; cbn [rsum]; [lra|].
  assert (entry i j (m_inertia c) = entry j i (m_inertia c)).
  { rewrite !S by auto. unfold moment. apply rsum_ext. intros mp _. rewrite (Nat.eqb_sym j i). ring. }
  lra.
Qed.
