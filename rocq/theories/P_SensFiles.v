(** C101: the files written by SensitivityStudy.to_csv (utilities.py:448-537). *)
From Coq Require Import String Ascii List Arith Bool ZArith Reals.
From Verif Require Import Num NumR Py M_Vector M_Mesh M_VecHeap M_Sens M_Output M_SensOut SpecSens SpecOutput SpecSensOut
  L_Strings L_Output L_Component L_Study L_SensOut P_Study P_SensOut.
Import ListNotations.
Local Open Scope nat_scope.
Local Open Scope string_scope.

Lemma last_dget {A} (l d : dict A) s : dget (dupdate d l) s = match last_write l s with Some c => Some c | None => dget d s end.
Proof.
  revert d. induction l as [|[k a] l IH]; intros d; [reflexivity|]. unfold dupdate. cbn [fold_left fst snd].
  change (fold_left _ l (dset d k a)) with (dupdate (dset d k a) l). rewrite IH. cbn [last_write].
  destruct (last_write l s); [reflexivity|]. rewrite dget_dset. destruct (String.eqb s k); reflexivity.
Qed.
Lemma ends_spec s : ends_with_slash s = true -> exists a, s = a ++ "/".
Proof.
  induction s as [|c s IH]; [discriminate|]. cbn [ends_with_slash]. destruct s as [|c' s].
  - intros E. apply Ascii.eqb_eq in E. subst. exists "". reflexivity.
  - intros E. destruct (IH E) as (a & ->). exists (String c a). reflexivity.
Qed.
Lemma join_inside D f : D <> "" -> (forall a, D <> a ++ "/") -> plain f -> f <> "" -> path_join D f = inside D f.
Proof.
  intros ND NS P NF. unfold path_join, inside. destruct f as [|c f]; [congruence|]. destruct (Ascii.eqb_spec c "/") as [->|]; [destruct (P "" f eq_refl)|].
  destruct (String.eqb_spec D ""); [congruence|]. destruct (ends_with_slash D) eqn:E; [|reflexivity].
  destruct (ends_spec D E) as (a & ->). destruct (NS a eq_refl).
Qed.
Lemma inside_not_slash D f : plain f -> f <> "" -> forall a, inside D f <> a ++ "/".
Proof.
  intros P NF a E. assert (Q : ends_with_slash f = true).
  { rewrite <- (ends_app D f NF). assert (Z : ends_with_slash (inside D f) = true) by (rewrite E, ends_app by discriminate; reflexivity).
    unfold inside in Z. rewrite ends_app in Z by discriminate. rewrite ends_app by exact NF.
    change ("/" ++ f) with (String "/" f) in Z. cbn [ends_with_slash] in Z. destruct f; [congruence|exact Z]. }
  destruct (ends_spec f Q) as (b & ->). destruct (P b "" eq_refl).
Qed.
Lemma inside_not_empty D f : inside D f <> "".
Proof. unfold inside. destruct D; discriminate. Qed.

Section Files.
  Context {T : Type} {N : Num T}.
  Lemma shows_content (t : M_Sens.table T) : shows (csv_content t) t.
  Proof using.
    eexists. split; [reflexivity|]. induction (t_rows t) as [|r l IH]; cbn; constructor; [|exact IH].
    clear IH. induction (t_cols t) as [|k cs IHc]; cbn; constructor; [reflexivity|exact IHc].
  Qed.
  Lemma property_content (s : dict (dict T)) : by_property s (property_csv s).
  Proof using.
    eexists. split; [reflexivity|]. split.
    - intros p ps rest ->. rewrite map_map. cbn [snd fst]. apply map_id.
    - intros k line I. apply in_map_iff in I. destruct I as (k' & Q & _). injection Q as -> <-. clear.
      induction s as [|kv s IH]; cbn; constructor; auto.
  Qed.
  Definition both (s : dict (dict (list T))) : Prop :=
    forall p v, In (p, v) s -> plain p /\ exists cog moi, dget v "cog" = Some cog /\ dget v "moi" = Some moi.
  Lemma vectors_names (s : dict (dict (list T))) : both s -> forall f c, In (f, c) (vectors s) -> plain f /\ f <> "".
  Proof using.
    intros B f c I. unfold vectors in I. apply in_flat_map in I. destruct I as ([p v] & I1 & I2).
    destruct (B p v I1) as (P & cog & moi & E1 & E2). cbn [fst snd] in I2. rewrite E1, E2 in I2.
    destruct I2 as [Q|[Q|[]]]; injection Q as <- _; (split; [apply plain_app; [exact P|apply plain_has; reflexivity]|destruct p; discriminate]).
  Qed.
  Lemma arrays_writes S (s : dict (dict (list T))) : S <> "" -> (forall a, S <> a ++ "/") -> both s ->
    arrays S s = map to_file (into S (vectors s)).
  Proof using.
    intros NE NS B. unfold arrays, vectors, into. induction s as [|[p v] s IH]; [reflexivity|]. cbn [flat_map].
    rewrite !map_app, <- IH by (intros q w I; apply B; right; exact I). clear IH. f_equal.
    destruct (B p v (or_introl eq_refl)) as (P & cog & moi & E1 & E2). cbn [fst snd map app]. unfold dlookup. rewrite E1, E2.
    assert (PA : forall x, has "/" x = false -> plain (p ++ x)) by (intros x Hx; apply plain_app; [exact P|apply plain_has, Hx]).
    rewrite !join_inside by (first [exact NE|exact NS|apply PA; reflexivity|destruct p; discriminate]).
    reflexivity.
  Qed.
  (** two phases: the tables of the components, then the scalar results *)
  Lemma run_files D (l : list (string * content T)) dirs F : D <> "" -> dget F D = None -> In D dirs \/ writable dirs D ->
    (forall f c, In (f, c) l -> plain f /\ ~ In (inside D f) dirs) ->
    run_fops (ensure_dir D :: map to_file (into D l)) (mkFs dirs F) = (mkFs (grown dirs D) (dupdate F (into D l)), Ok tt).
  Proof using.
    intros ND NF W H. cbn [run_fops]. rewrite ensured by assumption. apply run_writes.
    intros p c I. unfold into in I. apply in_map_iff in I. destruct I as ([f c'] & Q & I). injection Q as <- <-. cbn [fst].
    destruct (H f c' I) as [P NI]. apply writable_split; [exact P|]. split; [|right; apply grown_in].
    rewrite grown_other. intros [I'|E]; [destruct (NI I')|]. exact (self_longer D f (eq_sym E)).
  Qed.
End Files.

Section Study.
  Context {T : Type} {N : Num T}.
  Variables (cwd fn : string) (out : outputs T) (outdir : option string) (dirs : list string) (F : dict (content T)).
  Let D := match outdir with Some d => d | None => cwd end.
  Let S := inside D "scalar_sensitivities".
  (** the tables of the components and of their union, under their names *)
  Variable ws : list (string * M_Sens.table T).
  Hypothesis TABLES : to_csv (dkeys (o_sens out)) fn (Some (o_combined out)) = Ok ws.
  (** the directory is given without a slash at its end, and either is there or can be made *)
  Hypothesis ND : D <> "".
  Hypothesis NS : forall a, D <> a ++ "/".
  Hypothesis NF : dget F D = None.
  Hypothesis DIR : In D dirs \/ writable dirs D.
  (** the names of the components have no slash, and no file has the name of a directory *)
  Hypothesis NAMES : forall f t, In (f, t) ws -> plain f /\ f <> "" /\ f <> "scalar_sensitivities" /\ ~ In (inside D f) dirs.
  Hypothesis SF : dget F S = None.
  Hypothesis SD : forall f, ~ In (inside S f) dirs.

  Let l1 := map (fun ft => (fst ft, csv_content (snd ft))) ws.
  Let ops1 := ensure_dir D :: map to_file (into D l1).
  Let d1 := grown dirs D.
  Let F1 := dupdate F (into D l1).
  Lemma first_phase : run_fops ops1 (mkFs dirs F) = (mkFs d1 F1, Ok tt).
  Proof using ND NF DIR NAMES.
    apply run_files; auto. intros f c I. unfold l1 in I. apply in_map_iff in I. destruct I as ([f' t] & Q & I). injection Q as <- <-.
    destruct (NAMES f' t I) as (A & _ & _ & B). auto.
  Qed.
  Lemma scalar_plain : plain "scalar_sensitivities".
  Proof using. apply plain_has. reflexivity. Qed.
  Lemma not_file : dget F1 S = None.
  Proof using SF NAMES.
    unfold F1. rewrite last_dget. assert (K : last_write (into D l1) S = None); [|rewrite K; exact SF].
    unfold l1, S, into. clear -NAMES. induction ws as [|[f t] l IH]; [reflexivity|]. cbn [map last_write fst snd].
    rewrite IH by (intros g u I; apply (NAMES g u); right; exact I). destruct (String.eqb_spec (inside D "scalar_sensitivities") (inside D f)) as [E|]; [|reflexivity].
    destruct (NAMES f t (or_introl eq_refl)) as (_ & _ & NE & _). unfold inside in E. apply app_inj_l in E. injection E as <-. congruence.
  Qed.
  Lemma scalar_dir : In S d1 \/ writable d1 S.
  Proof using.
    destruct (in_list_dec S d1) as [I|NI]; [auto|]. right. apply writable_split; [exact scalar_plain|]. split; [exact NI|]. right. apply grown_in.
  Qed.
  Lemma ops_eq : (ensure_dir D :: map (fun ft => write_file (path_join D (fst ft)) (csv_content (snd ft)))
        (map (fun kv => ((fst kv ++ "_sensitivity.csv")%string, csv_table (dkeys (o_sens out)) (snd kv))) (o_combined out)) ++
      [write_file (path_join D fn) (csv_content (fold_left concat_tables (map snd (map (fun kv => ((fst kv ++ "_sensitivity.csv")%string, csv_table (dkeys (o_sens out)) (snd kv))) (o_combined out))) no_table))])%list = ops1 /\
      path_join D fn = inside D fn.
  Proof using F TABLES ND NS NAMES.
    unfold to_csv in TABLES. injection TABLES as <-. set (ts := map _ (o_combined out)) in *. clearbody ts.
    assert (J : path_join D fn = inside D fn).
    { edestruct (NAMES fn) as (A & B & _); [apply in_or_app; right; left; reflexivity|]. apply join_inside; auto. }
    split; [|exact J]. unfold ops1, l1, into. rewrite !map_app. f_equal. f_equal; [|cbn; rewrite J; reflexivity].
    rewrite !map_map. apply map_ext_in. intros [f t] I. destruct (NAMES f t (in_or_app _ _ _ (or_introl I))) as (A & B & _).
    unfold to_file. cbn [fst snd]. rewrite join_inside; auto.
  Qed.
  Lemma S_join f : plain f -> f <> "" -> path_join S f = inside S f.
  Proof using. intros P NE. apply join_inside; auto; [apply inside_not_empty|]. apply inside_not_slash; [exact scalar_plain|discriminate]. Qed.
  Lemma free_inside d f : with_dir d1 S d -> ~ In (inside S f) d.
  Proof using SD.
    assert (K : ~ In (inside S f) d1).
    { unfold d1. rewrite grown_other. intros [I|E]; [exact (SD f I)|]. unfold S, inside in E. rewrite app_assoc_s in E. exact (self_longer _ _ (eq_sym E)). }
    intros [[_ ->]|[_ ->]]; [exact K|]. rewrite in_app_iff. intros [I|[E|[]]]; [exact (K I)|]. exact (self_longer _ _ E).
  Qed.
  Lemma second_writes d (l : list (string * content T)) G : with_dir d1 S d -> (forall f c, In (f, c) l -> plain f) ->
    run_fops (map to_file (into S l)) (mkFs d G) = (mkFs d (dupdate G (into S l)), Ok tt).
  Proof using SD.
    intros W H. apply run_writes. intros p c I. unfold into in I. apply in_map_iff in I. destruct I as ([f c'] & Q & I). injection Q as <- <-. cbn [fst].
    apply writable_split; [exact (H f c' I)|]. split; [apply free_inside, W|]. right. destruct W as [[I' ->]|[_ ->]]; [exact I'|apply in_app_iff; right; left; reflexivity].
  Qed.

  (** C101: what to_csv writes *)
  Theorem C101_files volmass : (o_scalar out <> [] -> volmass_csv (o_volmass out) = Ok volmass) -> both (o_scalar out) ->
    exists dirs1 dirs' F' tables scalars,
      to_csv_files cwd fn (Some out) outdir (mkFs dirs F) = (mkFs dirs' F', Ok (inside D fn)) /\
      Forall2 (fun ft fc => fst fc = fst ft /\ shows (snd fc) (snd ft)) ws tables /\ scalar_files out volmass scalars /\
      with_dir dirs D dirs1 /\ (scalars = [] -> dirs' = dirs1) /\ (scalars <> [] -> with_dir dirs1 S dirs') /\
      forall p, dget F' p = match last_write (into D tables ++ into S scalars)%list p with Some c => Some c | None => dget F p end.
  Proof using TABLES ND NS NF DIR NAMES SF SD.
    intros VM BO. unfold to_csv_files. fold D.
    destruct ops_eq as [OE J].
    set (named := match o_props out with [] => [] | s => [("property_sensitivity.csv", property_csv s)] end).
    set (vols := match o_scalar out with [] => [] | s => ("volmass_sensitivity.csv", volmass) :: vectors s end).
    assert (JS : path_join D "scalar_sensitivities" = S) by (apply join_inside; auto; [exact scalar_plain|discriminate]).
    assert (NV : forall f c, In (f, c) vols -> plain f).
    { intros f c I. unfold vols in I. destruct (o_scalar out) as [|kv s] eqn:EO; [destruct I|]. destruct I as [Q|I]; [injection Q as <- _; apply plain_has; reflexivity|].
      apply (vectors_names _ BO f c I). }
    assert (NN : forall f c, In (f, c) named -> plain f).
    { intros f c I. unfold named in I. destruct (o_props out); [destruct I|]. destruct I as [Q|[]]. injection Q as <- _. apply plain_has. reflexivity. }
    exists d1, (match (vols ++ named)%list with [] => d1 | _ => grown d1 S end), (dupdate F1 (into S (vols ++ named))), l1, (vols ++ named)%list.
    split.
    2:{ split; [|split; [|split; [apply grown_with|split; [|split]]]].
        - unfold l1. clear. induction ws as [|[f t] l IH]; cbn; constructor; [|exact IH]. split; [reflexivity|apply shows_content].
        - exists named. split; [intros E; unfold named; rewrite E; reflexivity|]. split; [|reflexivity].
          intros NE. unfold named. destruct (o_props out) as [|kv s] eqn:EP; [congruence|]. eexists. split; [reflexivity|]. apply property_content.
        - intros ->. reflexivity.
        - intros NE. destruct (vols ++ named)%list; [congruence|]. apply grown_with.
        - intros p. rewrite <- last_dget, dupdate_app. reflexivity. }
    match goal with |- match run_fops ?o ?f with _ => _ end = _ => assert (R : run_fops o f =
        (mkFs (match (vols ++ named)%list with [] => d1 | _ => grown d1 S end) (dupdate F1 (into S (vols ++ named))), Ok tt)) end.
    2:{ rewrite R, J. reflexivity. }
    assert (AA : forall (a : fop T) A x B, (a :: A ++ [x] ++ B = (a :: A ++ [x]) ++ B)%list) by (intros; cbn [app]; rewrite <- app_assoc; reflexivity).
    rewrite AA. refine (eq_trans (f_equal (fun o => run_fops (o ++ _)%list (mkFs dirs F)) OE) _). cbv beta.
    rewrite run_app, first_phase. rewrite JS. rewrite run_app.
    assert (P1 : run_fops (match o_scalar out with
           | [] => []
           | s => [ensure_dir S; (fun fs => match volmass_csv (o_volmass out) with
                                              | Ok c => write_file (path_join S "volmass_sensitivity.csv") c fs
                                              | Raise e => (fs, Raise e)
                                              end)] ++ arrays S s
           end)%list (mkFs d1 F1) = (mkFs (match vols with [] => d1 | _ => grown d1 S end) (dupdate F1 (into S vols)), Ok tt)).
    { unfold vols. destruct (o_scalar out) as [|kv s] eqn:EO; [reflexivity|]. rewrite (VM ltac:(discriminate)).
      cbn [app run_fops]. rewrite ensured; [|exact not_file|exact scalar_dir].
      rewrite arrays_writes; [|apply inside_not_empty|apply inside_not_slash; [exact scalar_plain|discriminate]|exact BO].
      rewrite S_join by (first [apply plain_has; reflexivity|discriminate]).
      pose proof (second_writes (grown d1 S) (("volmass_sensitivity.csv", volmass) :: vectors (kv :: s)) F1 (grown_with _ _)) as SW.
      unfold vols in NV. specialize (SW NV). cbn [into map run_fops] in SW. exact SW. }
    etransitivity; [refine (f_equal (fun x => match x with (fs, Ok _) => _ fs | (fs, Raise e) => (fs, Raise e) end) P1)|]. cbv beta iota.
    assert (NFS : dget (dupdate F1 (into S vols)) S = None).
    { rewrite last_dget. assert (K : last_write (into S vols) S = None); [|rewrite K; exact not_file]. clear. induction vols as [|[f c] l IH]; [reflexivity|].
      cbn [into map last_write fst snd]. unfold into in IH. rewrite IH. destruct (String.eqb_spec S (inside S f)) as [E|]; [|reflexivity]. destruct (self_longer _ _ E). }
    assert (GG : grown (grown d1 S) S = grown d1 S).
    { destruct (grown_with (grown d1 S) S) as [[_ E]|[NI _]]; [exact E|]. destruct (NI (grown_in _ _)). }
    unfold into. rewrite map_app. fold (into S vols) (into S named). rewrite dupdate_app.
    unfold named in *. destruct (o_props out) as [|kv s] eqn:EP.
    { cbn [run_fops into map app]. rewrite app_nil_r. reflexivity. }
    cbn [app run_fops]. rewrite ensured; [|exact NFS|].
    2:{ destruct vols; [exact scalar_dir|left; apply grown_in]. }
    rewrite S_join by (first [apply plain_has; reflexivity|discriminate]).
    assert (GD : grown match vols with [] => d1 | _ => grown d1 S end S = grown d1 S) by (destruct vols; [reflexivity|exact GG]). rewrite GD.
    pose proof (second_writes (grown d1 S) _ (dupdate F1 (into S vols)) (grown_with _ _) NN) as SW. cbn [into map run_fops] in SW. 
    assert (GE : forall x, match (vols ++ [x])%list with [] => d1 | _ => grown d1 S end = grown d1 S) by (intros x; destruct vols; reflexivity). rewrite GE.
    exact SW.
  Qed.

  (** C101: if the table of mass, volume and area cannot be made, to_csv raises
      after the tables of the components: the directory of the scalar results
      is there without any new file, also without the properties *)
  Theorem C101_half_written e : o_scalar out <> [] -> volmass_csv (o_volmass out) = Raise e ->
    exists dirs1 dirs' F' tables,
      to_csv_files cwd fn (Some out) outdir (mkFs dirs F) = (mkFs dirs' F', Raise e) /\
      Forall2 (fun ft fc => fst fc = fst ft /\ shows (snd fc) (snd ft)) ws tables /\
      with_dir dirs D dirs1 /\ with_dir dirs1 S dirs' /\
      forall p, dget F' p = match last_write (into D tables) p with Some c => Some c | None => dget F p end.
  Proof using TABLES ND NS NF DIR NAMES SF.
    intros NE VM. unfold to_csv_files. fold D. destruct ops_eq as [OE J].
    assert (JS : path_join D "scalar_sensitivities" = S) by (apply join_inside; auto; [exact scalar_plain|discriminate]).
    exists d1, (grown d1 S), F1, l1. split.
    2:{ split; [|split; [apply grown_with|split; [apply grown_with|]]].
        - unfold l1. clear. induction ws as [|[f t] l IH]; cbn; constructor; [|exact IH]. split; [reflexivity|apply shows_content].
        - intros p. rewrite <- last_dget. reflexivity. }
    match goal with |- match run_fops ?o ?f with _ => _ end = _ => assert (R : run_fops o f = (mkFs (grown d1 S) F1, Raise e)) end.
    2:{ rewrite R. reflexivity. }
    assert (AA : forall (a : fop T) A x B, (a :: A ++ [x] ++ B = (a :: A ++ [x]) ++ B)%list) by (intros; cbn [app]; rewrite <- app_assoc; reflexivity).
    rewrite AA. refine (eq_trans (f_equal (fun o => run_fops (o ++ _)%list (mkFs dirs F)) OE) _). cbv beta.
    rewrite run_app, first_phase. rewrite JS. destruct (o_scalar out) as [|kv s]; [congruence|]. rewrite VM.
    cbn [app run_fops]. rewrite ensured; [reflexivity|exact not_file|exact scalar_dir].
  Qed.
End Study.

Section More.
  Context {T : Type} {N : Num T}.
  (** C101: nothing is written before the sensitivities are there, nor into a
      directory whose parent directory is missing *)
  Theorem C101_nothing cwd fn (study : option (outputs T)) outdir dirs F :
    let D := match outdir with Some d => d | None => cwd end in
    study = None \/ (~ In D dirs /\ dget F D = None /\ exists a b, D = inside a b /\ plain b /\ a <> "" /\ ~ In a dirs) ->
    exists e, to_csv_files cwd fn study outdir (mkFs dirs F) = (mkFs dirs F, Raise e).
  Proof using.
    cbv zeta. intros [-> |(ND & NF & a & b & E & P & NA & NI)]; [eexists; reflexivity|]. destruct study as [out|]; [|eexists; reflexivity].
    unfold to_csv_files. set (D := match outdir with Some d => d | None => cwd end) in *. clearbody D. cbn [run_fops].
    assert (K : ensure_dir D (mkFs dirs F) = (mkFs dirs F, Raise OSError)).
    { unfold ensure_dir, path_exists. cbn [fs_files]. rewrite NF, orb_false_r. destruct (is_dir (mkFs dirs F) D) eqn:ED.
      - apply is_dir_in in ED. contradiction.
      - unfold mkdir, path_exists. cbn [fs_files]. rewrite NF, ED. cbn [orb].
        destruct (in_dir (mkFs dirs F) D && negb false)%bool eqn:O; [|reflexivity]. exfalso. rewrite <- ED in O. apply openable in O.
        rewrite E in O. apply writable_split in O; [|exact P]. destruct O as [_ [O|O]]; contradiction. }
    rewrite K. eexists. reflexivity.
  Qed.

  Variable construct : dict (pval T) -> VM T (instance T).
  (** C101: property_sensitivity.csv of a study has the properties of the
      nominal vehicle as lines, with the difference quotients of the vehicles
      built for the parameters *)
  Theorem C101_properties s d D o pert s' out : nth_error (s_dicts s) d = Some D -> NoDup (dkeys D) -> numbers D -> disjoint_keys D o -> D <> [] ->
    dvdp construct d o pert s = (s', Ok out) ->
    forall nominal c, snd (construct (D ++ o)%list (s_vecs s)) = Ok nominal -> i_props nominal <> [] -> NoDup (dkeys (i_props nominal)) ->
    by_property (o_props out) c ->
    let instances := tl (calls construct (arguments D o pert) (s_vecs s)) in
    let step x := nsub (nmul x (nadd n1 (ndiv pert (nZ 100%Z)))) x in
    exists rows, c = NamedCsv (dkeys D) rows /\ map fst rows = dkeys (i_props nominal) /\
      forall k line, In (k, line) rows -> exists x, dget (i_props nominal) k = Some x /\
        Forall2 (fun cell call => exists p y inst w, built_for construct D o pert call p y inst /\ dget (i_props inst) k = Some w /\
                                    cell = Some (ndiv (nsub w x) (step y))) line instances.
  Proof using.
    intros E Nd Nu Dj ND R nominal c En NP NK BP instances step.
    destruct (C61_scalars construct s d D o pert s' out E Nd Nu Dj R) as (nominal' & En' & V). rewrite En in En'. injection En' as <-.
    cbv zeta in V. fold instances in V. fold step in V. destruct V as (_ & V & _). destruct (V NP) as [KD F2]. clear V.
    destruct BP as (rows & -> & B1 & B2). exists rows. split; [rewrite KD; reflexivity|].
    assert (KP : forall a b, Forall2 (fun kv ks : string * T => fst kv = fst ks /\ True) a b -> dkeys b = dkeys a).
    { clear. intros a b F. induction F as [|x y a b [H _] _ IH]; [reflexivity|]. unfold dkeys in *. cbn. congruence. }
    assert (W : forall y (inst : instance T) a b, Forall2 (fun kv ks => fst kv = fst ks /\ exists w, dget (i_props inst) (fst kv) = Some w /\
              neqb (step y) n0 = false /\ snd ks = ndiv (nsub w (snd kv)) (step y)) a b -> Forall2 (fun kv ks : string * T => fst kv = fst ks /\ True) a b).
    { clear. intros y inst a b F. induction F as [|kv ks a b [H _] _ IH]; constructor; auto. }
    assert (KR : map fst rows = dkeys (i_props nominal)).
    { destruct (o_props out) as [|[p ps] rest] eqn:EO; [destruct D; [congruence|discriminate]|]. rewrite (B1 p ps rest eq_refl).
      inversion F2 as [|call ? cs ? (y & inst & _ & H) _]; subst. apply KP, (W y inst), H. }
    split; [exact KR|]. intros k line I.
    assert (IK : In k (dkeys (i_props nominal))) by (rewrite <- KR; exact (in_map fst _ _ I)).
    unfold dkeys in IK. apply in_map_iff in IK. destruct IK as ([k' x] & Q & IK). cbn in Q. subst k'.
    assert (DG : dget (i_props nominal) k = Some x) by (apply dget_nodup; assumption).
    exists x. split; [exact DG|]. specialize (B2 k line I). clear -F2 B2 DG NK IK.
    revert line B2. induction F2 as [|call ps cs l (y & inst & BF & H) _ IH]; intros line B2; inversion B2 as [|cell ? line' ? EC B2']; subst; constructor; [|apply IH, B2'].
    exists (fst ps), y, inst.
    assert (Z : exists w, dget (i_props inst) k = Some w /\ dget (snd ps) k = Some (ndiv (nsub w x) (step y))).
    { clear -H IK NK. induction H as [|[k1 x1] [k2 x2] a b [E1 (w & W1 & W2 & W3)] _ IH]; [destruct IK|]. cbn in E1, W1, W3. subst k2 x2.
      inversion NK as [|? ? NI NK']; subst. destruct IK as [Q|IK].
      - injection Q as -> ->. exists w. split; [exact W1|]. cbn. rewrite String.eqb_refl. reflexivity.
      - destruct (IH NK' IK) as (w' & A & B). exists w'. split; [exact A|]. cbn. destruct (String.eqb_spec k k1) as [->|]; [|exact B].
        destruct NI. exact (in_map fst _ _ IK). }
    destruct Z as (w & Z1 & Z2). exists w. split; [exact BF|]. split; [exact Z1|]. exact Z2.
  Qed.
End More.

Section Examples.
  Local Open Scope R_scope.
  Local Open Scope string_scope.
  Let tables : dict (ntable R) := [("w", [("body", (Some 1, Some 2, Some 3)); ("vehicle", (Some 1, Some 2, Some 3))])].
  Let study (t : dict (ntable R)) : outputs R :=
    mkOut [("w", [])] [("w", [("cog", [1; 0; 0]); ("moi", [0; 0; 0; 0; 0; 0; 0; 0; 0])])] [("w", [("range", 4)])] t [("body", [])].
  (** a study of one parameter, written to a new directory *)
  Example C101_meets : exists ws F', to_csv ["w"] "all.csv" (Some (o_combined (study tables))) = Ok ws /\
    to_csv_files "/home" "all.csv" (Some (study tables)) (Some "out") (mkFs ["/home"] []) =
      (mkFs ["/home"; "out"; "out/scalar_sensitivities"] F', Ok "out/all.csv") /\
    dkeys F' = ["out/body_sensitivity.csv"; "out/all.csv"; "out/scalar_sensitivities/volmass_sensitivity.csv"; "out/scalar_sensitivities/w_cog_sensitivity.txt";
                "out/scalar_sensitivities/w_moi_sensitivity.txt"; "out/scalar_sensitivities/property_sensitivity.csv"] /\
    (forall f t, In (f, t) ws -> plain f /\ f <> "" /\ f <> "scalar_sensitivities" /\ ~ In (inside "out" f) ["/home"]) /\
    (exists volmass, volmass_csv (o_volmass (study tables)) = Ok volmass) /\ both (o_scalar (study tables)) /\ writable ["/home"] "out" /\ plain "body".
  Proof.
    eexists _, _. split; [reflexivity|]. split; [reflexivity|]. split; [reflexivity|]. split.
    { intros f t [Q|[Q|[]]]; injection Q as <- _; (split; [apply plain_has; reflexivity|]); (split; [discriminate|]); (split; [discriminate|]); intros [Q|[]]; discriminate. }
    split; [eexists; reflexivity|]. split; [|split].
    - intros p v [Q|[]]. injection Q as <- <-. split; [apply plain_has; reflexivity|]. eexists _, _. split; reflexivity.
    - apply plain_writable; [apply plain_has; reflexivity|]. intros [Q|[]]; discriminate.
    - apply plain_has. reflexivity.
  Qed.
  (** the vehicle of a second parameter has one more component *)
  Example C101_half_written_meets : let t := (tables ++ [("l", [("body", (Some 0, Some 0, Some 1)); ("fin", (None, None, None)); ("vehicle", (Some 0, Some 0, Some 1))])])%list in
    volmass_csv (o_volmass (study t)) = Raise ValueError /\
    exists F', to_csv_files "/home" "all.csv" (Some (study t)) (Some "out") (mkFs ["/home"] []) =
      (mkFs ["/home"; "out"; "out/scalar_sensitivities"] F', Raise ValueError) /\ dkeys F' = ["out/body_sensitivity.csv"; "out/all.csv"].
  Proof. cbv zeta. split; [reflexivity|]. eexists. split; reflexivity. Qed.
  Example C101_nothing_meets : ~ In "a/b" ["/home"] /\ "a/b" = inside "a" "b" /\ plain "b" /\ ~ In "a" ["/home"].
  Proof. split; [intros [Q|[]]; discriminate|]. split; [reflexivity|]. split; [apply plain_has; reflexivity|]. intros [Q|[]]; discriminate. Qed.
  Example C101_properties_meets : exists c, by_property [("w", [("range", 4); ("drag", 5)]); ("l", [("range", 1); ("drag", 0)])] c /\
    c = NamedCsv ["w"; "l"] [("range", [Some 4; Some 1]); ("drag", [Some 5; Some 0])].
  Proof. eexists. split; [apply property_content|]. reflexivity. Qed.
End Examples.

Print Assumptions C101_files.
Print Assumptions C101_half_written.
Print Assumptions C101_nothing.
Print Assumptions C101_properties.
