(** C59, C60, C78: inertial analysis of a vehicle. *)
From Coq Require Import Reals String List Arith Lia Lra Bool ZArith Permutation.
From Verif Require Import Num NumR Py M_Vector M_Path M_Surface M_Geometry M_Mesh M_Component M_Vehicle M_Inertia
  SpecR3 SpecAdd SpecFiles SpecInertia L_Component L_Adds L_Inertia P_Vehicle.
Import ListNotations.
Local Open Scope R_scope.

Notation massprops := (list (tri R) -> R -> R * R * vec R * mat R).

(** ** C59: totals.  With the mesh and the density of every named component
    available, the figures of the vehicle are the sums over the name table and
    the centre of gravity is the mass-weighted mean. *)
Theorem C59_totals (mp : massprops) areas (v : vehicle R) densities (h : heap R) :
  v_generated v = true -> v_named v <> [] ->
  Forall (fun nc => exists c, figures mp areas densities h nc c) (v_named v) ->
  exists h' P cs, assess mp areas v densities h = (h', v, Ok (P, cs)) /\
    analyse mp areas v densities h = (h', v, Ok (p_volume P, p_mass P, p_cog P, p_moi P)) /\
    Forall2 (fun nc kc => fst kc = fst nc /\ figures mp areas densities h nc (snd kc)) (v_named v) cs /\
    p_mass P = rsum (fun kc => m_mass (snd kc)) cs /\
    p_volume P = rsum (fun kc => m_volume (snd kc)) cs /\
    p_area P = rsum (fun kc => m_area (snd kc)) cs /\
    (p_mass P <> 0 -> forall i, (i < 3)%nat ->
       p_mass P * coord i (p_cog P) = rsum (fun kc => m_mass (snd kc) * coord i (m_cog (snd kc))) cs).
Proof.
  intros G NE H. destruct (assess_ok mp areas densities v h G H) as (h' & cs & E & F).
  assert (L : map snd cs <> []).
  { intros K. apply map_eq_nil in K. subst cs. inversion F. congruence. }
  destruct (composite_ok (map snd cs) L) as (P & EP). rewrite EP in E. cbn [bind] in E.
  destruct (composite_inv _ P EP) as (_ & A & B & C & _). rewrite rsum_map in A, B, C.
  exists h', P, cs. split; [exact E|]. split; [unfold analyse; rewrite E; reflexivity|]. split; [exact F|].
  repeat split; auto. intros NZ i Hi. rewrite (mean_spec _ P i EP NZ Hi), rsum_map. reflexivity.
Qed.

(** the first component without mesh or density stops the analysis, and an
    empty vehicle divides by zero *)
Theorem C59_failures {T} {N : Num T} mp areas (v : vehicle T) densities (h : heap T) : v_generated v = true ->
  (forall pre nc post, v_named v = pre ++ nc :: post ->
     Forall (fun nc => exists c, figures mp areas densities h nc c) pre ->
     (forall e, mesh_of h (snd nc) = Raise e -> snd (assess mp areas v densities h) = Raise e) /\
     (is_ok (mesh_of h (snd nc)) -> dget densities (fst nc) = None -> snd (assess mp areas v densities h) = Raise KeyError)) /\
  (v_named v = [] -> assess mp areas v densities h = (h, v, Raise ZeroDivisionError)).
Proof.
  intros G. split.
  - intros pre nc post L F. split.
    + intros e K. destruct (assess_fails mp areas densities v h pre nc post e G L F (or_introl K)) as (h' & E). rewrite E. reflexivity.
    + intros K D. destruct (assess_fails mp areas densities v h pre nc post KeyError G L F (or_intror (conj K (conj D eq_refl)))) as (h' & E). rewrite E. reflexivity.
  - intros L. unfold assess. rewrite G, L. reflexivity.
Qed.

(** a vehicle that is not generated is generated first *)
Theorem C59_generates_first {T} {N : Num T} mp areas (v : vehicle T) densities (h : heap T) : v_generated v = false ->
  (forall h1 v1, generate v h = (h1, v1, Ok tt) -> assess mp areas v densities h = assess mp areas v1 densities h1 /\ v_generated v1 = true) /\
  (forall h1 v1 e, generate v h = (h1, v1, Raise e) -> assess mp areas v densities h = (h1, v1, Raise e)).
Proof.
  intros G. split.
  - intros h1 v1 E.
    assert (K : v_generated v1 = true).
    { revert E. unfold generate. destruct (iterM _ _ _) as [h2 [u|e]]; [|discriminate].
      destruct (v_transformations (mark_generated v)) as [|t ts]; [intros K; injection K as <- <-; reflexivity|].
      destruct (transform_vehicle _ _ h2) as [h3 r]. intros K. injection K as <- <- _. reflexivity. }
    split; [|exact K]. unfold assess. rewrite G, E, K. reflexivity.
  - intros h1 v1 e E. unfold assess. rewrite G, E. reflexivity.
Qed.

(** positive masses: the centre of gravity is in the convex hull of those of
    the components (it satisfies every linear inequality they all satisfy) *)
Theorem C59_hull (mp : massprops) areas (v v' : vehicle R) densities (h h' : heap R) P cs :
  assess mp areas v densities h = (h', v', Ok (P, cs)) -> Forall (fun kc => 0 < m_mass (snd kc)) cs ->
  forall n a b, Forall (fun kc => a <= inner n (m_cog (snd kc)) <= b) cs -> a <= inner n (p_cog P) <= b.
Proof.
  intros E Pos n a b Hab. rewrite Forall_forall in Pos, Hab. apply (hull_spec (map snd cs) P n a b (assess_inv _ _ _ _ _ _ _ _ _ E)).
  - intros c Hc. apply in_map_iff in Hc. destruct Hc as (kc & <- & Hk). auto.
  - intros c Hc. apply in_map_iff in Hc. destruct Hc as (kc & <- & Hk). auto.
Qed.

(** moving every component by d moves the centre of gravity by d *)
Theorem C59_translation (mp : massprops) areas (v v' w w' : vehicle R) densities densities' (h h' k k' : heap R) P Q cs ds d :
  assess mp areas v densities h = (h', v', Ok (P, cs)) -> assess mp areas w densities' k = (k', w', Ok (Q, ds)) ->
  Forall2 (fun c c' => m_mass (snd c') = m_mass (snd c) /\ m_cog (snd c') = translate (m_cog (snd c)) d) cs ds ->
  p_mass P <> 0 -> p_mass Q = p_mass P /\ p_cog Q = translate (p_cog P) d.
Proof.
  intros E E' F. apply (shift_spec d (map snd cs) (map snd ds)).
  - clear E E'. induction F; constructor; auto.
  - eapply assess_inv, E.
  - eapply assess_inv, E'.
Qed.

(** the order of the name table is irrelevant *)
Theorem C59_order (mp : massprops) areas (v w v' w' : vehicle R) densities (h h' k' : heap R) P Q cs ds :
  v_generated v = true -> v_generated w = true -> Permutation (v_named v) (v_named w) ->
  assess mp areas v densities h = (h', v', Ok (P, cs)) -> assess mp areas w densities h = (k', w', Ok (Q, ds)) ->
  P = Q.
Proof.
  intros G G' PM E E'.
  assert (ROWS : forall (u u' : vehicle R) (g : heap R) S es, v_generated u = true -> assess mp areas u densities h = (g, u', Ok (S, es)) ->
     Forall (fun nc => exists c, figures mp areas densities h nc c) (v_named u)).
  { clear. intros u u' g S es G E. apply Forall_forall. intros nc Hnc. apply in_split in Hnc. destruct Hnc as (pre & post & L).
    assert (F : forall l1 l2, v_named u = l1 ++ l2 -> Forall (fun nc => exists c, figures mp areas densities h nc c) l1).
    { induction l1 as [|x l1 IH] using rev_ind; intros l2 L'; [constructor|].
      rewrite <- app_assoc in L'. pose proof (IH _ L') as Fl. apply Forall_app. split; [exact Fl|]. constructor; [|constructor].
      cbn [app] in L'.
      destruct (mesh_of h (snd x)) as [m|e] eqn:EM.
      - destruct (dget densities (fst x)) as [rho|] eqn:ED.
        + destruct (mp m rho) as [[[vol mass] cog] I] eqn:EQ. exists (mkMeasures vol mass cog I (fold_left nadd (areas m) n0)). exists m, rho. auto.
        + destruct (assess_fails mp areas densities u h l1 x l2 KeyError G L' Fl (or_intror (conj (ex_intro _ m EM) (conj ED eq_refl)))) as (h2 & E2). congruence.
      - destruct (assess_fails mp areas densities u h l1 x l2 e G L' Fl (or_introl EM)) as (h2 & E2). congruence. }
    specialize (F (pre ++ [nc]) post). rewrite <- app_assoc in F. specialize (F L). apply Forall_app in F. destruct F as [_ F]. inversion F. assumption. }
  pose proof (ROWS v v' h' P cs G E) as R1. pose proof (ROWS w w' k' Q ds G' E') as R2.
  destruct (assess_ok mp areas densities v h G R1) as (h2 & cs2 & E2 & F2). destruct (assess_ok mp areas densities w h G' R2) as (h3 & cs3 & E3 & F3).
  pose proof (assess_inv _ _ _ _ _ _ _ _ _ E) as C1. pose proof (assess_inv _ _ _ _ _ _ _ _ _ E') as C2.
  assert (cs2 = cs) as -> by (rewrite E in E2; destruct (composite_properties (map snd cs2)); cbn in E2; congruence).
  assert (cs3 = ds) as -> by (rewrite E' in E3; destruct (composite_properties (map snd cs3)); cbn in E3; congruence).
  apply (properties_perm (map snd cs) (map snd ds) P Q); auto.
  clear - PM F2 F3. revert cs ds F2 F3.
  assert (FUN : forall (l : dict nat) a b, Forall2 (fun nc kc => fst kc = fst nc /\ figures mp areas densities h nc (snd kc)) l a ->
      Forall2 (fun nc kc => fst kc = fst nc /\ figures mp areas densities h nc (snd kc)) l b -> map snd a = map snd b).
  { intros l a b Fa. revert b. induction Fa as [|nc kc l a [_ X] Fa IH]; intros b Fb; inversion Fb as [|x0 y0 z0 w0 [_ Y] Fb']; subst; [reflexivity|].
    cbn [map]. f_equal; [eapply figures_fun; eauto|auto]. }
  induction PM as [|x l l' PM IH|x y l|l1 l2 l3 PM1 IH1 PM2 IH2]; intros cs ds Fc Fd.
  - inversion Fc. inversion Fd. constructor.
  - inversion Fc as [|x1 y1 z1 w1 [_ X] Fc']; subst. inversion Fd as [|x2 y2 z2 w2 [_ Y] Fd']; subst. cbn [map].
    rewrite (figures_fun _ _ _ _ _ _ _ X Y). constructor. auto.
  - inversion Fc as [|x1 y1 z1 w1 [_ X] Fc']; subst. inversion Fc' as [|x2 y2 z2 w2 [_ Y] Fc'']; subst.
    inversion Fd as [|x3 y3 z3 w3 [_ X'] Fd']; subst. inversion Fd' as [|x4 y4 z4 w4 [_ Y'] Fd'']; subst. cbn [map].
    rewrite (figures_fun _ _ _ _ _ _ _ X Y'), (figures_fun _ _ _ _ _ _ _ X' Y), (FUN _ _ _ Fc'' Fd''). constructor.
  - assert (exists es, Forall2 (fun nc kc => fst kc = fst nc /\ figures mp areas densities h nc (snd kc)) l2 es) as [es Fe].
    { clear - PM1 Fc. assert (Forall (fun nc => exists kc : string * measures R, fst kc = fst nc /\ figures mp areas densities h nc (snd kc)) l2) as K.
      { rewrite <- PM1. clear PM1. induction Fc; constructor; eauto. }
      clear PM1. induction K as [|nc l [kc Hk] K [es IH]]; [exists []; constructor|]. exists (kc :: es). constructor; auto. }
    exact (perm_trans (IH1 cs es Fc Fe) (IH2 es ds Fe Fd)).
Qed.

(** a vehicle whose analysis succeeds: the wing of the hangar under two names *)
Definition two_names : vehicle R := mkVehicle [0]%nat "v" 0 1%Z true [] [] [("a", 0); ("b", 0)]%nat%string [].
(* point masses: mass 1 at (rho, 0, 0) *)
Definition pointwise : massprops := fun _ rho => (1, 1, V3 rho 0 0, M3 (V3 0 0 0) (V3 0 0 0) (V3 0 0 0)).
Definition two_densities : dict R := [("a", 1); ("b", 3)]%string.
Lemma two_figures : Forall (fun nc => exists c, figures pointwise (fun _ => []) two_densities hangar nc c) (v_named two_names).
Proof.
  destruct C53_meets as (h' & t & m & E). assert (K : mesh_of hangar 0 = Ok (t :: m)) by (unfold mesh_of; rewrite E; reflexivity).
  repeat constructor; eexists (mkMeasures _ _ _ _ _), (t :: m), _; (split; [exact K|]); (split; [reflexivity|]); (split; reflexivity).
Qed.
Example C59_meets : exists h' P cs, assess pointwise (fun _ => []) two_names two_densities hangar = (h', two_names, Ok (P, cs)) /\
  map fst cs = ["a"; "b"]%string /\ p_mass P = 2 /\ vx (p_cog P) = 2 /\ map (fun kc => vx (m_cog (snd kc))) cs = [1; 3].
Proof.
  destruct (C59_totals pointwise (fun _ => []) two_names two_densities hangar eq_refl ltac:(discriminate) two_figures) as (h' & P & cs & E & _ & F & A & _ & _ & G).
  exists h', P, cs. split; [exact E|].
  inversion F as [|x1 [n1 c1] z1 w1 [N1 X] F1]; subst. inversion F1 as [|x2 [n2 c2] z2 w2 [N2 Y] F2]; subst. inversion F2; subst.
  destruct X as (m1 & r1 & _ & D1 & M1 & _). destruct Y as (m2 & r2 & _ & D2 & M2 & _). cbn in D1, D2, N1, N2. injection D1 as <-. injection D2 as <-. subst.
  cbn [map fst snd]. cbn [snd] in M1, M2. unfold pointwise in M1, M2. injection M1 as A1 A2 A3 A4. injection M2 as B1 B2 B3 B4.
  cbn [rsum snd] in A, G. rewrite <- A2, <- B2 in A. rewrite <- A3, <- B3. cbn [vx].
  split; [reflexivity|]. split; [lra|]. split; [|reflexivity].
  assert (NZ : p_mass P <> 0) by lra. specialize (G NZ 0%nat ltac:(lia)). rewrite A, <- A2, <- B2, <- A3, <- B3 in G. cbn [coord vx] in G. lra.
Qed.
Print Assumptions C59_totals.
Print Assumptions C59_failures.
Print Assumptions C59_generates_first.
Print Assumptions C59_hull.
Print Assumptions C59_translation.
Print Assumptions C59_order.

(** ** C60: the composite moment of inertia.  When the figures of the components
    are those of rigid bodies, the reported tensor is the true one (that of all
    bodies together, about the reported centre of gravity) if and only if the
    components have the same centre of gravity. *)
Theorem C60_iff (mp : massprops) areas (v v' : vehicle R) densities (h h' : heap R) P cs bodies :
  assess mp areas v densities h = (h', v', Ok (P, cs)) -> Forall2 describes (map snd cs) bodies ->
  centre (concat bodies) (p_cog P) /\
  ((forall i j, (i < 3)%nat -> (j < 3)%nat -> entry i j (p_moi P) = moment (concat bodies) (p_cog P) i j) <->
   Forall (fun kc => m_cog (snd kc) = p_cog P) cs).
Proof.
  intros E F. pose proof (assess_inv _ _ _ _ _ _ _ _ _ E) as C. split; [eapply composite_centre; eauto|].
  rewrite (moi_iff _ bodies P F C), Forall_forall. split.
  - intros H kc Hk. apply H. apply in_map. exact Hk.
  - intros H c Hc. apply in_map_iff in Hc. destruct Hc as (kc & <- & Hk). auto.
Qed.

(** the trace is too small by the sum of m r^2, and the tensor is asymmetric *)
Theorem C60_error (mp : massprops) areas (v v' : vehicle R) densities (h h' : heap R) P cs bodies :
  assess mp areas v densities h = (h', v', Ok (P, cs)) -> Forall2 describes (map snd cs) bodies ->
  entry 0 0 (p_moi P) + entry 1 1 (p_moi P) + entry 2 2 (p_moi P) =
    moment (concat bodies) (p_cog P) 0 0 + moment (concat bodies) (p_cog P) 1 1 + moment (concat bodies) (p_cog P) 2 2
    - rsum (fun kc => m_mass (snd kc) * sqdist (m_cog (snd kc)) (p_cog P)) cs /\
  forall i j, (i < 3)%nat -> (j < 3)%nat ->
    entry i j (p_moi P) - entry j i (p_moi P) =
    rsum (fun kc => m_mass (snd kc) * ((coord j (m_cog (snd kc)) - coord j (p_cog P)) ^ 2 - (coord i (m_cog (snd kc)) - coord i (p_cog P)) ^ 2)) cs.
Proof.
  intros E F. pose proof (assess_inv _ _ _ _ _ _ _ _ _ E) as C. split.
  - rewrite (trace_deficit _ bodies P F C), rsum_map. reflexivity.
  - intros i j Hi Hj. rewrite (moi_asymmetry _ bodies P i j F C Hi Hj), rsum_map. reflexivity.
Qed.

Example C60_meets : exists h' P cs bodies, assess pointwise (fun _ => []) two_names two_densities hangar = (h', two_names, Ok (P, cs)) /\
  Forall2 describes (map snd cs) bodies /\ ~ Forall (fun kc => m_cog (snd kc) = p_cog P) cs.
Proof.
  destruct (C59_totals pointwise (fun _ => []) two_names two_densities hangar eq_refl ltac:(discriminate) two_figures) as (h' & P & cs & E & _ & F & _).
  exists h', P, cs, [[(1, V3 1 0 0)]; [(1, V3 3 0 0)]]. split; [exact E|].
  inversion F as [|x1 [n1 c1] z1 w1 [N1 X] F1]; subst. inversion F1 as [|x2 [n2 c2] z2 w2 [N2 Y] F2]; subst. inversion F2; subst.
  destruct X as (m1 & r1 & _ & D1 & M1 & _). destruct Y as (m2 & r2 & _ & D2 & M2 & _). cbn in D1, D2. injection D1 as <-. injection D2 as <-.
  cbn [map snd]. cbn [snd] in M1, M2. unfold pointwise in M1, M2. injection M1 as A1 A2 A3 A4. injection M2 as B1 B2 B3 B4.
  split.
  - assert (K : forall (c : measures R) x, m_mass c = 1 -> m_cog c = V3 x 0 0 -> m_inertia c = M3 (V3 0 0 0) (V3 0 0 0) (V3 0 0 0) -> describes c [(1, V3 x 0 0)]).
    { intros c x K1 K2 K3. unfold describes, centre, moment, body_mass. rewrite K1, K2, K3. cbn [rsum fst snd].
      split; [discriminate|]. split; [repeat constructor; cbn; lra|]. split; [lra|]. split; [intros; lra|].
      intros i j Hi Hj. unfold sqdist. destruct i as [|[|[|i]]]; [| | |lia]; destruct j as [|[|[|j]]]; try lia; cbn; ring. }
    constructor; [apply K; congruence|]. constructor; [apply K; congruence|constructor].
  - intros K. inversion K as [|x y K1 K']; subst. inversion K' as [|x y K2 _]; subst. cbn [snd] in K1, K2. rewrite <- K2, <- A3, <- B3 in K1.
    injection K1. lra.
Qed.
Print Assumptions C60_iff.
Print Assumptions C60_error.

(** ** C78: get_non_ghost_components lists exactly the named components that are
    not ghosts, in order; the analysis, in contrast, covers ghosts too (C59
    ranges over the whole name table). *)
Lemma non_ghost_filter {T} {N : Num T} (v : vehicle T) (h : heap T) : NoDup (map fst (v_named v)) ->
  non_ghost v h = filter (fun nc => negb (ghost_at h (snd nc))) (v_named v).
Proof.
  intros ND. unfold non_ghost.
  enough (G : forall acc, NoDup (map fst acc ++ map fst (v_named v)) -> fold_left (fun acc nc => match nth_error (comps h) (snd nc) with
                             | Some c => if c_ghost c then acc else dset acc (fst nc) (snd nc)
                             | None => acc end) (v_named v) acc = acc ++ filter (fun nc => negb (ghost_at h (snd nc))) (v_named v)).
  { apply (G []). exact ND. }
  clear ND. induction (v_named v) as [|[n i] l IH]; intros acc ND; cbn [fold_left filter snd fst]; [rewrite app_nil_r; reflexivity|].
  assert (ND' : NoDup (map fst acc ++ map fst l)) by (cbn [map] in ND; eapply NoDup_remove_1, ND).
  unfold ghost_at at 1. destruct (nth_error (comps h) i) as [c|]; [|cbn [negb]; auto].
  destruct (c_ghost c); cbn [negb]; [auto|].
  rewrite dset_new.
  - rewrite IH; [rewrite <- app_assoc; reflexivity|]. rewrite map_app, <- app_assoc. exact ND.
  - cbn [map] in ND. pose proof (NoDup_remove_2 _ _ _ ND) as K. intros Q. apply K. apply in_or_app. left. exact Q.
Qed.
Lemma adds_keys {T} {N : Num T} calls : forall (v : vehicle T) (h : heap T), NoDup (map fst (v_named v)) -> NoDup (map fst (v_named (snd (adds v calls h)))).
Proof.
  induction calls as [|[i a] calls IH]; intros v h ND; cbn [adds]; [exact ND|].
  unfold add_component. destruct (nth_error (comps h) i) as [c|]; [|apply IH; exact ND].
  destruct (str_in (c_type c) allowable); [|apply IH; exact ND].
  apply IH. cbn [v_named]. apply (dset_keys_nodup (v_named v)). exact ND.
Qed.
Theorem C78_non_ghosts {T} {N : Num T} calls (h0 h : heap T) : let v := snd (adds new_vehicle calls h0) in
  non_ghost v h = filter (fun nc => negb (ghost_at h (snd nc))) (v_named v).
Proof. intros v. apply non_ghost_filter. apply adds_keys. constructor. Qed.
Example C78_meets : let '(h, v) := adds new_vehicle [(3, mkAdd None None true None None None None true); (4, default_add)]%nat garage in
  map fst (v_named v) = ["swept_1"; "swept_2"]%string /\ map fst (non_ghost v h) = ["swept_2"]%string.
Proof. split; reflexivity. Qed.
Print Assumptions C78_non_ghosts.
