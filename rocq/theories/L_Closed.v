(** Pointwise maps of patches and the edges of their meshes. *)
From Coq Require Import String Reals Lra ZArith List Permutation Lia Bool.
From Verif Require Import Num NumR Py M_Vector SpecR3 M_Path M_Surface M_Geometry M_Mesh M_Component M_Vehicle
  SpecPath SpecSurf SpecMesh SpecComp SpecVehicle SpecFiles SpecHangar SpecClosed L_Vector L_Edges L_Mesh L_Component
  L_Heap L_Pipeline L_Generate L_Cache L_Hangar.
Import ListNotations.
Local Open Scope R_scope.

Lemma ok_inj {A} (a b : A) : Ok a = Ok b -> a = b.
Proof. intros H. injection H as H. exact H. Qed.
(** a map that may fail, as a total one *)
Definition totally (F : pmap) (p : pt) : pt := match F p with Ok q => q | Raise _ => p end.
Definition on_edge (f : pt -> pt) (e : edge pt) : edge pt := (f (fst e), f (snd e)).

Lemma flips_on f l : flips (map (on_edge f) l) = map (on_edge f) (flips l).
Proof. unfold flips. rewrite !map_map. reflexivity. Qed.
Lemma balanced_on f l : balanced l -> balanced (map (on_edge f) l).
Proof. unfold balanced. intros H. rewrite flips_on. apply Permutation_map, H. Qed.
Lemma map_inj_on {A B} (f : A -> B) : forall l k, (forall a b, In a l -> In b k -> f a = f b -> a = b) -> map f l = map f k -> l = k.
Proof.
  induction l as [|a l IH]; intros [|b k] H E; try discriminate E; [reflexivity|]. cbn [map] in E. injection E as E1 E2.
  f_equal; [apply H; cbn; auto|]. apply IH; [|exact E2]. intros x y Hx Hy. apply H; cbn; auto.
Qed.
Lemma balanced_off f (P : pt -> Prop) l : (forall a b, P a -> P b -> f a = f b -> a = b) -> (forall e, In e l -> P (fst e) /\ P (snd e)) ->
  balanced (map (on_edge f) l) -> balanced l.
Proof.
  unfold balanced. intros I H B. rewrite flips_on in B. apply Permutation_map_inv in B as (k & E & Q).
  assert (l = k) as <-; [|symmetry; exact Q].
  assert (HF : forall e, In e (flips l) -> P (fst e) /\ P (snd e)).
  { intros e He. apply in_map_iff in He as (x & <- & Hx). destruct (H x Hx). split; assumption. }
  apply (map_inj_on (on_edge f)); [|exact E]. intros [a1 a2] [b1 b2] Ha Hb Q'. injection Q' as Q1 Q2.
  destruct (H _ Ha) as [P1 P2]. destruct (HF (b1, b2)) as [P3 P4]; [eapply Permutation_in; [symmetry; exact Q|exact Hb]|].
  cbn [fst snd] in *. f_equal; apply I; assumption.
Qed.

(** up to opposite pairs, the edges of m' are the images of those of m *)
Definition redrawn (f : pt -> pt) (m m' : list (tri R)) : Prop := length m' = length m /\
  exists l, reduces (mesh_edges m) l /\ reduces (mesh_edges m') (map (on_edge f) l) /\ forall e, In e l -> vertex_of m (fst e) /\ vertex_of m (snd e).
Lemma vertex_l a b q : vertex_of a q -> vertex_of (a ++ b) q.
Proof. intros (t & I & H). exists t. split; [apply in_or_app; left; exact I|exact H]. Qed.
Lemma vertex_r a b q : vertex_of b q -> vertex_of (a ++ b) q.
Proof. intros (t & I & H). exists t. split; [apply in_or_app; right; exact I|exact H]. Qed.
Lemma redrawn_nil f : redrawn f [] [].
Proof. split; [reflexivity|]. exists []. split; [apply reduces_refl|]. split; [apply reduces_refl|intros e []]. Qed.
Lemma redrawn_app f a a' b b' : redrawn f a a' -> redrawn f b b' -> redrawn f (a ++ b) (a' ++ b').
Proof.
  intros (L1 & l & A1 & A2 & A3) (L2 & k & B1 & B2 & B3). split; [rewrite !app_length; lia|]. exists (l ++ k). rewrite !mesh_edges_app, map_app.
  split; [apply reduces_app; assumption|]. split; [apply reduces_app; assumption|].
  intros e He. apply in_app_or in He as [He|He]; [destruct (A3 e He); split; apply vertex_l; assumption|destruct (B3 e He); split; apply vertex_r; assumption].
Qed.
Lemma redrawn_closed f m m' : redrawn f m m' -> watertight m -> watertight m'.
Proof.
  intros (_ & l & A & B & _) W. unfold watertight in *. rewrite (reduces_balanced _ _ B). apply balanced_on. rewrite <- (reduces_balanced _ _ A). exact W.
Qed.
Lemma redrawn_iff f m m' : (forall a b, vertex_of m a -> vertex_of m b -> f a = f b -> a = b) -> redrawn f m m' -> (watertight m' <-> watertight m).
Proof.
  intros I H. split; [|apply redrawn_closed with f, H]. destruct H as (_ & l & A & B & V). unfold watertight. rewrite (reduces_balanced _ _ A), (reduces_balanced _ _ B).
  apply (balanced_off f (vertex_of m)); assumption.
Qed.

Lemma cell_edges (a b c d e : pt) :
  reduces (mesh_edges [Tri a b e; Tri b d e; Tri d c e; Tri c a e]) [(a, b); (b, d); (d, c); (c, a)].
Proof.
  exists ([(a, e); (b, e); (d, e); (c, e)] ++ flips [(a, e); (b, e); (d, e); (c, e)]). split; [apply paired_pair|].
  cbv [mesh_edges flat_map tri_edges t0 t1 t2 app flips flip map fst snd]. perm_solve.
Qed.
Lemma store_id (p : pt) : store_vertex false p = p.
Proof. unfold store_vertex. destruct p. cbn. rewrite Rmult_1_l. reflexivity. Qed.

Lemma defined_app F a b : defined_on F (a ++ b) <-> defined_on F a /\ defined_on F b.
Proof.
  split.
  - intros H. split; intros q V; apply H; [apply vertex_l|apply vertex_r]; exact V.
  - intros [H1 H2] q (t & I & V). apply in_app_or in I as [I|I]; [apply H1|apply H2]; exists t; auto.
Qed.

Section Moved.
  Variables (F : pmap) (u u' : surf R).
  Hypothesis HM : moved F u u'.
  Lemma cell_moved rl sl i j t : cell_triangles u false rl sl i j = Ok t -> defined_on F t ->
    exists t', cell_triangles u' false rl sl i j = Ok t' /\ redrawn (totally F) t t'.
  Proof using HM.
    unfold cell_triangles. destruct (py_nth rl i) as [ri|]; [|discriminate]. cbn [bind]. destruct (py_nth sl j) as [sj|]; [|discriminate]. cbn [bind].
    rewrite !HM. destruct (u ri sj) as [a|]; [|discriminate]. cbn [bind].
    destruct (py_nth rl (i + 1)) as [ri1|]; [|discriminate]. cbn [bind]. rewrite !HM. destruct (u ri1 sj) as [b|]; [|discriminate]. cbn [bind].
    destruct (py_nth sl (j + 1)) as [sj1|]; [|discriminate]. cbn [bind]. rewrite !HM. destruct (u ri sj1) as [c|]; [|discriminate]. cbn [bind].
    destruct (u ri1 sj1) as [d|]; [|discriminate]. cbn [bind].
    intros E. apply ok_inj in E. subst t. rewrite !store_id. intros D.
    assert (V : forall q, In q [a; b; c; d] -> vertex_of [Tri a b (cell_centre a b c d); Tri b d (cell_centre a b c d); Tri d c (cell_centre a b c d); Tri c a (cell_centre a b c d)] q).
    { intros q [<-|[<-|[<-|[<-|[]]]]].
      - eexists. split; [left; reflexivity|left; reflexivity].
      - eexists. split; [left; reflexivity|right; left; reflexivity].
      - eexists. split; [do 3 right; left; reflexivity|left; reflexivity].
      - eexists. split; [do 2 right; left; reflexivity|left; reflexivity]. }
    destruct (D a (V a ltac:(cbn; tauto))) as (a' & Ea). destruct (D b (V b ltac:(cbn; tauto))) as (b' & Eb).
    destruct (D c (V c ltac:(cbn; tauto))) as (c' & Ec). destruct (D d (V d ltac:(cbn; tauto))) as (d' & Ed).
    rewrite Ea, Eb, Ec, Ed. cbn [bind]. eexists. split; [reflexivity|]. rewrite !store_id. split; [reflexivity|].
    exists [(a, b); (b, d); (d, c); (c, a)]. split; [apply cell_edges|]. split.
    - cbn [map on_edge fst snd]. unfold on_edge, totally. cbn [fst snd]. rewrite Ea, Eb, Ec, Ed. apply cell_edges.
    - intros e [<-|[<-|[<-|[<-|[]]]]]; split; apply V; cbn; tauto.
  Qed.
End Moved.

Lemma mapM_redrawn {A} F (f f' : A -> res (list (tri R))) : (forall x t, f x = Ok t -> defined_on F t -> exists t', f' x = Ok t' /\ redrawn (totally F) t t') ->
  forall l ts, mapM f l = Ok ts -> defined_on F (concat ts) -> exists ts', mapM f' l = Ok ts' /\ redrawn (totally F) (concat ts) (concat ts').
Proof.
  intros H. induction l as [|x l IH]; intros ts E D; cbn [mapM] in *.
  - apply ok_inj in E. subst ts. exists []. split; [reflexivity|apply redrawn_nil].
  - destruct (f x) as [t|] eqn:Ex; [|discriminate]. cbn [bind] in E. destruct (mapM f l) as [r|]; [|discriminate]. cbn [bind] in E. apply ok_inj in E. subst ts.
    cbn [concat] in *. apply defined_app in D as [D1 D2]. destruct (H x t Ex D1) as (t' & E' & R1). destruct (IH r eq_refl D2) as (r' & Er & R2).
    rewrite E'. cbn [bind]. rewrite Er. cbn [bind]. exists (t' :: r'). split; [reflexivity|]. cbn [concat]. apply redrawn_app; assumption.
Qed.

Lemma patch_moved F u u' c n k m : moved F u u' -> mesh_patch c u n k = Ok m -> defined_on F m ->
  exists m', mesh_patch c u' n k = Ok m' /\ redrawn (totally F) m m'.
Proof.
  intros HM. unfold mesh_patch, surfce_to_stl. destruct (vertex_list _ _ _ _) as [rl|]; [|discriminate]. cbn [bind].
  destruct (vertex_list _ _ _ _) as [sl|]; [|discriminate]. cbn [bind]. unfold mesh_cells.
  destruct (mapM _ (seq 0 n)) as [rows|] eqn:E; [|discriminate]. cbn [bind]. intros Em D. apply ok_inj in Em. subst m.
  assert (ROW : forall i t, (let! cells := mapM (cell_triangles u false rl sl i) (seq 0 k) in Ok (concat cells)) = Ok t -> defined_on F t ->
    exists t', (let! cells := mapM (cell_triangles u' false rl sl i) (seq 0 k) in Ok (concat cells)) = Ok t' /\ redrawn (totally F) t t').
  { intros i t Et Dt. destruct (mapM (cell_triangles u false rl sl i) (seq 0 k)) as [cells|] eqn:Ec; [|discriminate]. cbn [bind] in Et. apply ok_inj in Et. subst t.
    destruct (mapM_redrawn F _ (cell_triangles u' false rl sl i) (fun j t => cell_moved F u u' HM rl sl i j t) _ _ Ec Dt) as (cs & E1 & E2).
    rewrite E1. cbn [bind]. eauto. }
  destruct (mapM_redrawn F _ _ ROW _ _ E D) as (rows' & E1 & E2). rewrite E1. cbn [bind]. eauto.
Qed.

(** what an integer resolution makes of a dictionary *)
Lemma fresh_int (d : dict (surf R)) n rr rs c m : NoDup (dkeys d) -> fresh_mesh d (ResInt n) rr rs c = Ok m ->
  d <> [] /\ exists ms, mapM (fun u => mesh_patch c u n n) (dvals d) = Ok ms /\ m = concat ms.
Proof.
  intros ND. unfold fresh_mesh, component_surface. destruct d as [|kp d]; [discriminate|]. set (dd := kp :: d) in *. cbn [case_list bind].
  destruct (mapM _ _) as [r|] eqn:E; [|discriminate]. cbn [bind]. intros H. apply ok_inj in H. subst m. split; [discriminate|].
  pose proof (surface_cases _ _ _ E) as K. rewrite map_map in K. rewrite dupdate_nil by (rewrite <- K; exact ND).
  exists (dvals r). split; [|reflexivity]. rewrite mapM_map in E. clear - E. revert r E. generalize dd. clear dd.
  induction dd as [|[k u] dd IH]; intros r E; cbn [mapM fst snd] in E; [apply ok_inj in E; subst r; reflexivity|].
  destruct (mesh_patch c u n n) as [t|] eqn:Et; [|discriminate]. cbn [bind] in E. destruct (mapM _ dd) as [r'|]; [|discriminate]. cbn [bind] in E. apply ok_inj in E. subst r.
  cbn [dvals map snd mapM]. rewrite Et. cbn [bind]. change (map snd dd) with (dvals dd). rewrite (IH r' eq_refl). reflexivity.
Qed.
Lemma int_fresh (d : dict (surf R)) n rr rs c ms : NoDup (dkeys d) -> d <> [] -> mapM (fun u => mesh_patch c u n n) (dvals d) = Ok ms ->
  fresh_mesh d (ResInt n) rr rs c = Ok (concat ms).
Proof. intros ND NE E. apply fresh_mesh_int; [exact NE|exact ND|]. apply mapM_inv, E. Qed.

Lemma values_moved key F (d d' : dict (surf R)) c n : relates key F d d' -> forall ms, mapM (fun u => mesh_patch c u n n) (dvals d) = Ok ms -> defined_on F (concat ms) ->
  exists ms', mapM (fun u => mesh_patch c u n n) (dvals d') = Ok ms' /\ redrawn (totally F) (concat ms) (concat ms').
Proof.
  induction 1 as [|[k u] [k' u'] d d' [_ M] _ IH]; intros ms E D; cbn [dvals map snd mapM fst] in *.
  - apply ok_inj in E. subst ms. exists []. split; [reflexivity|apply redrawn_nil].
  - destruct (mesh_patch c u n n) as [t|] eqn:Et; [|discriminate]. cbn [bind] in E. change (map snd d) with (dvals d) in E.
    destruct (mapM _ (dvals d)) as [r|] eqn:Er; [|discriminate]. cbn [bind] in E. apply ok_inj in E. subst ms. cbn [concat] in *. apply defined_app in D as [D1 D2].
    destruct (patch_moved F u u' c n n t M Et D1) as (t' & E' & R1). destruct (IH r eq_refl D2) as (r' & Er' & R2).
    rewrite E'. cbn [bind]. change (map snd d') with (dvals d'). rewrite Er'. cbn [bind]. exists (t' :: r'). split; [reflexivity|]. apply redrawn_app; assumption.
Qed.

(** a dictionary finished with the options p *)
Theorem finished_mesh p angle more g d c n rr rs m : plain_keys g -> finished p angle more g d ->
  fresh_mesh g (ResInt n) [] [] c = Ok m ->
  match p_axis p with
  | None => defined_on (straight p angle more) m -> exists m', fresh_mesh d (ResInt n) rr rs c = Ok m' /\ redrawn (totally (straight p angle more)) m m'
  | Some axis => defined_on (folded p axis angle more) m -> (p_append p = true -> defined_on (straight p angle more) m) ->
      exists m2, redrawn (totally (folded p axis angle more)) m m2 /\
        if p_append p then exists m1, fresh_mesh d (ResInt n) rr rs c = Ok (m1 ++ m2) /\ redrawn (totally (straight p angle more)) m m1
        else fresh_mesh d (ResInt n) rr rs c = Ok m2
  end.
Proof.
  intros PK FI E. destruct (fresh_int g n [] [] c m (proj1 PK) E) as (NE & ms & Em & ->). pose proof (plain_nodup g PK) as ND.
  assert (NN : forall key F d', relates key F g d' -> d' <> []) by (intros key F d' H ->; inversion H; congruence).
  unfold finished in FI. fold (straight p angle more) in FI. destruct (p_axis p) as [axis|].
  - intros D2 D1. fold (folded p axis angle more) in FI. destruct (p_append p).
    + destruct FI as (d1 & d2 & -> & Q1 & Q2). destruct (values_moved _ _ _ _ c n Q1 ms Em (D1 eq_refl)) as (a & A1 & A2). destruct (values_moved _ _ _ _ c n Q2 ms Em D2) as (b & B1 & B2).
      exists (concat b). split; [exact B2|]. exists (concat a). split; [|exact A2]. rewrite <- concat_app. apply int_fresh.
      * unfold dkeys. rewrite map_app. change (map fst d1) with (dkeys d1). change (map fst d2) with (dkeys d2).
        rewrite (L_Hangar.relates_keys _ _ _ _ Q1), (L_Hangar.relates_keys _ _ _ _ Q2). unfold same_key. rewrite map_id. exact ND.
      * intros Z. apply app_eq_nil in Z as [Z _]. exact (NN _ _ _ Q1 Z).
      * unfold dvals. rewrite map_app. fold (dvals d1) (dvals d2). clear - A1 B1. revert a A1. induction (dvals d1) as [|x l IH]; intros a A1; cbn [mapM app] in *.
        -- apply ok_inj in A1. subst a. exact B1.
        -- destruct (mesh_patch c x n n); [|discriminate]. cbn [bind] in *. destruct (mapM _ l) as [r|]; [|discriminate]. cbn [bind] in A1. apply ok_inj in A1. subst a.
           rewrite (IH r eq_refl). reflexivity.
    + destruct (values_moved _ _ _ _ c n FI ms Em D2) as (b & B1 & B2). exists (concat b). split; [exact B2|]. apply int_fresh; [|exact (NN _ _ _ FI)|exact B1].
      rewrite (L_Hangar.relates_keys _ _ _ _ FI). apply L_Pipeline.NoDup_app_r' in ND. exact ND.
  - intros D. destruct (values_moved _ _ _ _ c n FI ms Em D) as (b & B1 & B2). exists (concat b). split; [|exact B2]. apply int_fresh; [|exact (NN _ _ _ FI)|exact B1].
    rewrite (L_Hangar.relates_keys _ _ _ _ FI). unfold same_key. rewrite map_id. apply PK.
Qed.
