(** Lemmas about append_sensitivities_to_tri. *)
From Coq Require Import String Ascii Reals Lra List Lia Bool Arith ZArith.
From Verif Require Import Num NumR Py M_Vector SpecR3 M_Path M_Surface M_Mesh M_VecHeap M_Sens SpecSens L_Mesh L_Strings.
Import ListNotations.

Lemma Forall2_nth_error_l {A B} (P : A -> B -> Prop) l l' : Forall2 P l l' ->
  forall i a, nth_error l i = Some a -> exists b, nth_error l' i = Some b /\ P a b.
Proof.
  induction 1 as [|a b l l' H _ IH]; intros i x E; [destruct i; discriminate|]. destruct i as [|i].
  - injection E as ->. exists b. split; [reflexivity|exact H].
  - apply IH, E.
Qed.
Lemma Forall2_nth_intro {A B} (P : A -> B -> Prop) l : forall l', length l = length l' ->
  (forall i a b, nth_error l i = Some a -> nth_error l' i = Some b -> P a b) -> Forall2 P l l'.
Proof.
  induction l as [|a l IH]; intros [|b l'] E H; try discriminate; constructor.
  - apply (H 0 a b); reflexivity.
  - apply IH; [injection E as E; exact E|]. intros i. apply (H (S i)).
Qed.

Lemma Forall2_weaken {A B} (P Q : A -> B -> Prop) l l' : (forall a b, P a b -> Q a b) -> Forall2 P l l' -> Forall2 Q l l'.
Proof. intros H. induction 1; constructor; auto. Qed.

Lemma Forall2_same_length {A B} (P : A -> B -> Prop) l l' : Forall2 P l l' -> length l = length l'.
Proof. induction 1; cbn; congruence. Qed.

Lemma Forall2_two {A B} (P : A -> B -> Prop) a b l : Forall2 P [a; b] l -> exists x y, l = [x; y] /\ P a x /\ P b y.
Proof. intros H. inversion H as [|? x ? l' H1 H2]; subst. inversion H2 as [|? y ? l'' H3 H4]; subst. inversion H4; subst. eauto. Qed.

Section Generic.
  Context {T : Type} {N : Num T}.

  Lemma mem_iff k l : mem k l = true <-> In k l.
  Proof.
    unfold mem. rewrite existsb_exists. split.
    - intros (x & Hx & E). apply String.eqb_eq in E. subst. exact Hx.
    - intros H. exists k. split; [exact H|apply String.eqb_refl].
  Qed.
  Lemma concat_same (a b : table T) : t_cols a = t_cols b -> concat_tables a b = mkTable (t_cols a) (t_rows a ++ t_rows b).
  Proof.
    intros E. unfold concat_tables. f_equal. rewrite <- E.
    assert (H : forall l, (forall c, In c l -> In c (t_cols a)) -> filter (fun c => negb (mem c (t_cols a))) l = []).
    { induction l as [|c l IH]; intros H; [reflexivity|]. cbn. rewrite (proj2 (mem_iff c _)) by (apply H; cbn; auto). cbn.
      apply IH. intros; apply H; cbn; auto. }
    rewrite H by auto. apply app_nil_r.
  Qed.
  Lemma concat_none (b : table T) : concat_tables no_table b = b.
  Proof.
    unfold concat_tables, no_table. cbn [t_cols t_rows app]. destruct b as [c r]. cbn. f_equal.
    induction c as [|a c IH]; [reflexivity|]. cbn. rewrite IH. reflexivity.
  Qed.
  Lemma fold_concat cols ts : forall t, t_cols t = cols -> Forall (fun t : table T => t_cols t = cols) ts ->
    fold_left concat_tables ts t = mkTable cols (t_rows t ++ flat_map t_rows ts).
  Proof.
    induction ts as [|u ts IH]; intros t E F; cbn [fold_left flat_map].
    - rewrite app_nil_r. subst. destruct t; reflexivity.
    - inversion F; subst. rewrite concat_same by congruence. rewrite IH; [cbn; rewrite app_assoc; reflexivity|reflexivity|assumption].
  Qed.
  Lemma concat_all cols ts : ts <> [] -> Forall (fun t : table T => t_cols t = cols) ts ->
    fold_left concat_tables ts no_table = mkTable cols (flat_map t_rows ts).
  Proof.
    destruct ts as [|t ts]; [contradiction|]. intros _ F. inversion F; subst. cbn [fold_left]. rewrite concat_none.
    rewrite (fold_concat (t_cols t)); auto.
  Qed.
  Lemma mapM_all {A B} (f : A -> res B) l r : Forall2 (fun a b => f a = Ok b) l r -> mapM f l = Ok r.
  Proof. induction 1 as [|a b l r H _ IH]; [reflexivity|]. cbn. rewrite H. cbn. rewrite IH. reflexivity. Qed.

  (* lines of three numbers *)
  Definition triples (lines : list (list T)) : list (vec T) :=
    flat_map (fun l => match l with [x; y; z] => [V3 x y z] | _ => [] end) lines.
  Lemma read_points_ok (lines : list (list T)) : lines = [] \/ (Forall (fun l => length l <= 3) lines /\ Exists (fun l => length l = 3) lines) ->
    read_points lines = Ok (triples lines).
  Proof.
    intros [-> |[F X]]; [reflexivity|]. unfold read_points.
    assert (E : fold_right Nat.max 0 (map (@List.length T) lines) = 3).
    { apply Nat.le_antisymm.
      - clear X. induction F as [|l ls H _ IH]; cbn; [lia|]. lia.
      - clear F. induction X as [l ls H|l ls _ IH]; cbn; lia. }
    rewrite E. destruct lines; reflexivity.
  Qed.
  Lemma read_points_raise (lines : list (list T)) : lines <> [] -> ~ (Forall (fun l => length l <= 3) lines /\ Exists (fun l => length l = 3) lines) ->
    read_points lines = Raise ValueError.
  Proof.
    intros Ne H. unfold read_points. destruct lines as [|l0 ls0] eqn:El; [contradiction|]. rewrite <- El in *. clear l0 ls0 El Ne.
    destruct (Nat.eqb_spec (fold_right Nat.max 0 (map (@List.length T) lines)) 3) as [E|E]; [|reflexivity]. exfalso. apply H. clear H.
    split.
    - apply Forall_forall. intros l Hl. rewrite <- E. clear E. induction lines as [|a ls IH]; [destruct Hl|]. cbn.
      destruct Hl as [->|Hl]; [lia|]. specialize (IH Hl). lia.
    - assert (G : forall ls n, n <> 0 -> fold_right Nat.max 0 (map (@List.length T) ls) = n -> Exists (fun l => length l = n) ls).
      { induction ls as [|a ls IH]; cbn; intros n Hn Q; [congruence|].
        destruct (Nat.max_spec (length a) (fold_right Nat.max 0 (map (@List.length T) ls))) as [[_ M]|[_ M]]; rewrite M in Q.
        - right. apply IH; assumption.
        - left. exact Q. }
      apply G; [lia|exact E].
  Qed.

  (* run_append on tables with the same columns *)
  Definition line_of (cols : list string) (pd : vec T * option (list (option T))) : dict T :=
    (cells xyz (Some (fst pd)) ++
     flat_map (fun cv => match snd cv with Some v => [(fst cv, v)] | None => [] end)
       (combine cols match snd pd with Some l => l | None => map (fun _ => Some n0) cols end))%list.
  Definition data_of (tol rtol : T) (cols : list string) (ts : list (table T)) : vec T -> option (list (option T)) :=
    point_data tol rtol cols (flat_map t_rows ts).
  Definition is_match (d : option (list (option T))) : bool := match d with Some _ => true | None => false end.

  Lemma params_in (p : string) : forall ks, In p ks -> In p (distinct [] ks) .
  Proof.
    assert (G : forall ks seen, In p ks -> ~ In p seen -> In p (distinct seen ks)).
    { induction ks as [|k ks IH]; intros seen H Hs; [destruct H|]. cbn.
      destruct (mem k seen) eqn:E.
      - apply IH; [|exact Hs]. destruct H as [->|H]; [|exact H]. exfalso. apply Hs, mem_iff, E.
      - destruct H as [->|H]; [left; reflexivity|]. destruct (string_dec k p) as [->|Ne]; [left; reflexivity|].
        right. apply IH; [exact H|]. rewrite in_app_iff. intros [Q|[Q|[]]]; auto. }
    intros ks H. apply G; auto.
  Qed.
  Lemma distinct_id ks : NoDup ks -> distinct [] ks = ks.
  Proof.
    assert (G : forall ks seen, NoDup ks -> (forall k, In k ks -> ~ In k seen) -> distinct seen ks = ks).
    { clear ks. induction ks as [|k ks IH]; intros seen Nd H; [reflexivity|]. inversion Nd; subst. cbn.
      destruct (mem k seen) eqn:E; [exfalso; apply (H k); [cbn; auto|apply mem_iff, E]|].
      f_equal. apply IH; [assumption|]. intros q Hq. rewrite in_app_iff. intros [Q|[<- |[]]]; [|contradiction].
      apply (H q); cbn; auto. }
    intros Nd. apply G; auto.
  Qed.
  Lemma dget_param (params : list string) ds p : In p params -> exists ls, dlookup (param_data (T := T) params ds) p = Ok ls.
  Proof.
    intros H. apply params_in in H. unfold param_data. revert H. generalize (distinct [] params) as ks. clear params.
    intros ks. generalize 0 as a. induction ks as [|k ks IH]; intros a H; [destruct H|]. cbn [length seq combine map].
    unfold dlookup. cbn [dget fst snd]. destruct (String.eqb_spec p k) as [->|Ne]; [eauto|].
    destruct H as [H|H]; [congruence|]. apply IH, H.
  Qed.

  Lemma combine_id {A B} (f : A -> B) l : combine l (map f l) = map (fun a => (a, f a)) l.
  Proof. induction l as [|a l IH]; [reflexivity|]. cbn. f_equal. exact IH. Qed.
  Lemma run_append_ok read names lines rest tol rtol combined cols ts : ts <> [] ->
    Forall2 (fun n t => read n = Ok t) names ts -> Forall (fun t : table T => t_cols t = (xyz ++ cols)%list) ts ->
    read_points lines = Ok (triples lines) -> triples lines <> [] ->
    exists els, run_append read names (EPoints lines :: rest) tol rtol combined =
      Ok (mkApp (ndiv (nnat (length (filter is_match (map (data_of tol rtol cols ts) (triples lines))))) (nnat (length (triples lines))))
                (combined, mkTable (xyz ++ cols) (map (fun p => line_of cols (p, data_of tol rtol cols ts p)) (triples lines)))
                ((EPoints lines :: rest) ++ els))%list /\
      mapM (fun p => let! ls := dlookup (param_data (parameters_of cols) (map (data_of tol rtol cols ts) (triples lines))) p in
             Ok (EData (p ++ "_sens") ls)) (parameters_of cols) = Ok els.
  Proof.
    intros Nt F2 F RP Np. unfold run_append. rewrite RP. cbn [bind]. unfold load.
    rewrite (mapM_all _ _ _ F2). cbn [bind]. rewrite (concat_all (xyz ++ cols) ts Nt F). cbn [t_cols t_rows].
    assert (X : forallb (fun c => mem c (xyz ++ cols)%list) xyz = true) by reflexivity.
    rewrite X. cbn [skipn xyz app].
    assert (P : exists els, mapM (fun p => let! ls := dlookup (param_data (parameters_of cols) (map (data_of tol rtol cols ts) (triples lines))) p in
             Ok (EData (p ++ "_sens") ls)) (parameters_of cols) = Ok els).
    { assert (G : forall l, (forall p, In p l -> In p (parameters_of cols)) -> exists els,
        mapM (fun p => let! ls := dlookup (param_data (parameters_of cols) (map (data_of tol rtol cols ts) (triples lines))) p in
             Ok (EData (p ++ "_sens") ls)) l = Ok els).
      { induction l as [|p l IH]; intros H; [exists []; reflexivity|]. cbn [mapM].
        destruct (dget_param (parameters_of cols) (map (data_of tol rtol cols ts) (triples lines)) p) as [ls E]; [apply H; cbn; auto|].
        rewrite E. cbn [bind]. destruct IH as [els E']; [intros; apply H; cbn; auto|]. rewrite E'. cbn. eauto. }
      apply G. auto. }
    destruct P as [els P]. exists els. split; [|exact P].
    destruct (triples lines) as [|p0 ps] eqn:Et; [contradiction|]. cbn [negb].
    unfold data_of in *. change (fun d : option (list (option T)) => match d with Some _ => true | None => false end) with is_match.
    rewrite P. cbn [bind]. do 3 f_equal. f_equal.
    rewrite combine_id, map_map. reflexivity.
  Qed.
End Generic.

(** parsing of column names *)
Lemma last_piece_spec n : forall s best, String.length s <= n ->
  (~ occurs "dxd" s /\ last_piece s best = best) \/
  (exists u, s = (u ++ "dxd" ++ last_piece s best)%string /\ ~ occurs "dxd" (last_piece s best)).
Proof.
  induction n as [|n IH]; intros s best H.
  - destruct s; [|cbn in H; lia]. left. split; [|reflexivity]. intros (u & v & E). destruct u; discriminate.
  - destruct s as [|a s1]; [left; split; [intros (u & v & E); destruct u; discriminate|reflexivity]|].
    assert (S1 : (~ occurs "dxd" s1 -> (forall v, String a s1 <> ("dxd" ++ v)%string) -> ~ occurs "dxd" (String a s1))).
    { intros H1 H2 (u & v & E). destruct u as [|b u]; [apply (H2 v), E|]. cbn in E. injection E as -> E. apply H1. exists u, v. exact E. }
    assert (Step : (forall v, String a s1 <> ("dxd" ++ v)%string) -> last_piece (String a s1) best = last_piece s1 best ->
      (~ occurs "dxd" (String a s1) /\ last_piece (String a s1) best = best) \/
      (exists u, String a s1 = (u ++ "dxd" ++ last_piece (String a s1) best)%string /\ ~ occurs "dxd" (last_piece (String a s1) best))).
    { intros H1 E. rewrite E. destruct (IH s1 best ltac:(cbn in H; lia)) as [[A B]|(u & A & B)].
      - left. split; [apply S1; assumption|exact B].
      - right. exists (String a u). split; [cbn; f_equal; exact A|exact B]. }
    destruct s1 as [|b [|c s3]].
    + left. split; [|reflexivity]. intros (u & v & E). destruct u as [|? u]; [discriminate|]. destruct u; discriminate.
    + left. split; [|reflexivity]. intros (u & v & E). destruct u as [|? [|? u]]; try discriminate. destruct u; discriminate.
    + destruct (Ascii.eqb a "d" && Ascii.eqb b "x" && Ascii.eqb c "d") eqn:Eb.
      * apply andb_true_iff in Eb. destruct Eb as [Eb Ec]. apply andb_true_iff in Eb. destruct Eb as [Ea Eb].
        apply Ascii.eqb_eq in Ea, Eb, Ec. subst. right.
        change (last_piece (String "d" (String "x" (String "d" s3))) best) with (last_piece s3 s3).
        destruct (IH s3 s3 ltac:(cbn in H; lia)) as [[A B]|(u & A & B)].
        -- exists EmptyString. rewrite B. split; [reflexivity|exact A].
        -- exists (String "d" (String "x" (String "d" u))). split; [cbn; do 3 f_equal; exact A|exact B].
      * apply Step.
        -- intros v E. injection E as -> -> -> _. discriminate.
        -- change (last_piece (String a (String b (String c s3))) best) with
             (if Ascii.eqb a "d" && Ascii.eqb b "x" && Ascii.eqb c "d" then last_piece s3 s3 else last_piece (String b (String c s3)) best).
           rewrite Eb. reflexivity.
Qed.

Lemma name_of p :
  let q := last_piece ("dxd" ++ p)%string ("dxd" ++ p)%string in
  (~ occurs "dxd" q /\ (exists u, ("dxd" ++ p = u ++ "dxd" ++ q)%string)) /\ (q = p <-> ~ occurs "dxd" p).
Proof.
  intros q. change q with (last_piece p p). clear q. destruct (last_piece_spec _ p p (le_n _)) as [[A B]|(u & A & B)].
  - rewrite B. split; [split; [exact A|exists EmptyString; reflexivity]|tauto].
  - split; [split; [exact B|exists ("dxd" ++ u)%string; rewrite app_assoc_s, <- A; reflexivity]|].
    split; [intros E; rewrite E in B; exact B|]. intros H. exfalso. apply H. exists u, (last_piece p p). exact A.
Qed.

Lemma parameters_of_sens ps : parameters_of (flat_map sens_cols ps) = map (fun p => last_piece p p) ps.
Proof. induction ps as [|p ps IH]; [reflexivity|]. cbn [flat_map sens_cols app parameters_of map]. f_equal. exact IH. Qed.

Section Lines.
  Context {T : Type} {N : Num T}.
  Lemma line_of_xyz (cols : list string) (p : vec T) d :
    dget (line_of cols (p, d)) "x" = Some (vx p) /\ dget (line_of cols (p, d)) "y" = Some (vy p) /\ dget (line_of cols (p, d)) "z" = Some (vz p).
  Proof. repeat split. Qed.
  Lemma dget_cells (cols : list string) (f : string -> option T) c : In c cols ->
    dget (flat_map (fun cv => match snd cv with Some v => [(fst cv, v)] | None => [] end) (combine cols (map f cols))) c = f c.
  Proof.
    rewrite combine_id. intros H.
    assert (G : forall cols, dget (flat_map (fun cv : string * option T => match snd cv with Some v => [(fst cv, v)] | None => [] end)
       (map (fun a => (a, f a)) cols)) c = if in_dec string_dec c cols then f c else None).
    { clear. induction cols as [|a cols IH]; [reflexivity|]. cbn [map flat_map fst snd].
      destruct (f a) as [v|] eqn:E; cbn [app dget].
      - destruct (String.eqb_spec c a) as [->|Ne].
        + destruct (in_dec string_dec a (a :: cols)) as [_|n]; [symmetry; exact E|exfalso; apply n; cbn; auto].
        + rewrite IH. destruct (in_dec string_dec c cols) as [i|n], (in_dec string_dec c (a :: cols)) as [i'|n']; try reflexivity.
          * exfalso; apply n'; cbn; auto. * exfalso. destruct i' as [<- |i']; auto.
      - rewrite IH. destruct (in_dec string_dec c cols) as [i|n], (in_dec string_dec c (a :: cols)) as [i'|n']; try reflexivity.
        + exfalso; apply n'; cbn; auto. + destruct i' as [<- |i']; [symmetry; exact E|contradiction]. }
    rewrite G. destruct (in_dec string_dec c cols); [reflexivity|contradiction].
  Qed.
  Lemma line_of_data (cols : list string) (p : vec T) (f : string -> option T) c : In c cols -> ~ In c xyz ->
    dget (line_of cols (p, Some (map f cols))) c = f c.
  Proof.
    intros H Nx. unfold line_of. cbn [fst snd cells xyz app dget].
    destruct (String.eqb_spec c "x") as [->|_]; [exfalso; apply Nx; cbn; auto|].
    destruct (String.eqb_spec c "y") as [->|_]; [exfalso; apply Nx; cbn; auto|].
    destruct (String.eqb_spec c "z") as [->|_]; [exfalso; apply Nx; cbn; auto|]. apply dget_cells, H.
  Qed.
  Lemma line_of_none (cols : list string) (p : vec T) c : In c cols -> ~ In c xyz ->
    dget (line_of cols (p, None)) c = Some n0.
  Proof.
    intros H Nx. unfold line_of. cbn [fst snd cells xyz app dget].
    destruct (String.eqb_spec c "x") as [->|_]; [exfalso; apply Nx; cbn; auto|].
    destruct (String.eqb_spec c "y") as [->|_]; [exfalso; apply Nx; cbn; auto|].
    destruct (String.eqb_spec c "z") as [->|_]; [exfalso; apply Nx; cbn; auto|].
    exact (dget_cells cols (fun _ => Some n0) c H).
  Qed.
  Lemma find_first {A} (f : A -> bool) l1 r l2 : f r = true -> (forall q, In q l1 -> f q = false) -> find f (l1 ++ r :: l2) = Some r.
  Proof.
    intros E. induction l1 as [|a l1 IH]; intros H; cbn; [rewrite E; reflexivity|]. rewrite (H a) by (cbn; auto). apply IH.
    intros; apply H; cbn; auto.
  Qed.
  Lemma find_split {A} (f : A -> bool) l r : find f l = Some r ->
    exists l1 l2, l = (l1 ++ r :: l2)%list /\ f r = true /\ forall q, In q l1 -> f q = false.
  Proof.
    induction l as [|a l IH]; [discriminate|]. cbn. destruct (f a) eqn:E.
    - intros [= <-]. exists [], l. repeat split; auto. intros ? [].
    - intros H. destruct (IH H) as (l1 & l2 & -> & F & G). exists (a :: l1), l2. repeat split; auto. intros q [<- |Hq]; auto.
  Qed.
  (* the text of the k-th parameter *)
  Lemma param_data_at (ps : list string) ds k p : NoDup ps -> nth_error ps k = Some p ->
    dlookup (param_data (T := T) ps ds) p = Ok (map (fun d => data_line d k) ds).
  Proof.
    intros Nd Hk. unfold param_data. rewrite distinct_id by exact Nd.
    assert (G : forall ps a k, NoDup ps -> nth_error ps k = Some p ->
      dlookup (map (fun ik => (snd ik, map (fun d => data_line (T := T) d (fst ik)) ds)) (combine (seq a (length ps)) ps)) p
      = Ok (map (fun d => data_line d (a + k)) ds)).
    { clear. induction ps as [|q ps IH]; intros a k Nd H; [destruct k; discriminate|]. inversion Nd; subst.
      unfold dlookup. cbn [length seq combine map dget fst snd]. destruct k as [|k].
      - injection H as ->. rewrite String.eqb_refl, Nat.add_0_r. reflexivity.
      - cbn in H. destruct (String.eqb_spec p q) as [->|Ne]; [exfalso; eauto using nth_error_In|].
        rewrite Nat.add_succ_r. apply (IH (S a) k); assumption. }
    apply (G ps 0 k Nd Hk).
  Qed.
End Lines.
