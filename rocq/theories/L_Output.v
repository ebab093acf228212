(** The files of Vehicle.to_stl and the results of the analysis. *)
From Coq Require Import String Ascii List Arith Lia Bool ZArith.
From Verif Require Import Num Py M_Vector M_Path M_Surface M_Geometry M_Mesh M_Component M_Vehicle M_Inertia M_Output
  SpecAdd SpecFiles SpecInertia SpecOutput L_Strings L_Component L_Heap L_Cache L_Adds L_Files L_Inertia.
Import ListNotations.
Local Open Scope string_scope.

(** ** paths *)
Lemma has_split s : has "/" s = true -> exists a b, s = a ++ "/" ++ b /\ has "/" b = false.
Proof.
  induction s as [|c s IH]; cbn [has]; [discriminate|]. intros H. destruct (has "/" s) eqn:E.
  - destruct (IH eq_refl) as (a & b & -> & Hb). exists (String c a), b. auto.
  - rewrite orb_false_r in H. apply Ascii.eqb_eq in H. subst c. exists "", s. auto.
Qed.
Lemma plain_has s : plain s <-> has "/" s = false.
Proof.
  split.
  - intros H. destruct (has "/" s) eqn:E; [|reflexivity]. destruct (has_split s E) as (a & b & -> & _). destruct (H a b eq_refl).
  - intros H a b ->. rewrite has_app in H. cbn in H. rewrite orb_true_r in H. discriminate.
Qed.
Lemma parent_plain s : has "/" s = false -> parent s = None.
Proof.
  induction s as [|c s IH]; [reflexivity|]. cbn [has parent]. intros H. apply orb_false_iff in H as [H1 H2].
  rewrite (IH H2), Ascii.eqb_sym, H1. reflexivity.
Qed.
Lemma parent_split a b : has "/" b = false -> parent (a ++ "/" ++ b) = Some a.
Proof.
  intros H. induction a as [|c a IH]; cbn [append parent].
  - rewrite (parent_plain b H). reflexivity.
  - cbn [append] in IH. rewrite IH. reflexivity.
Qed.
Lemma ends_app a b : b <> "" -> ends_with_slash (a ++ b) = ends_with_slash b.
Proof.
  intros NE. induction a as [|c a IH]; [reflexivity|]. cbn [append ends_with_slash]. rewrite IH.
  destruct (a ++ b) eqn:E; [|reflexivity]. apply (f_equal String.length) in E. rewrite length_app_s in E.
  destruct b; [congruence|]. cbn in E. lia.
Qed.
Fixpoint last_char (s : string) : option ascii :=
  match s with EmptyString => None | String a EmptyString => Some a | String _ s' => last_char s' end.
Lemma last_app a b : b <> "" -> last_char (a ++ b) = last_char b.
Proof.
  intros NE. induction a as [|c a IH]; [reflexivity|]. cbn [append last_char]. rewrite IH.
  destruct (a ++ b) eqn:E; [|reflexivity]. apply (f_equal String.length) in E. rewrite length_app_s in E.
  destruct b; [congruence|]. cbn in E. lia.
Qed.

Definition grown (dirs : list string) (d : string) : list string := if existsb (String.eqb d) dirs then dirs else (dirs ++ [d])%list.
Lemma grown_in dirs d : In d (grown dirs d).
Proof.
  unfold grown. destruct (existsb (String.eqb d) dirs) eqn:E.
  - apply existsb_exists in E as (x & I & E). apply String.eqb_eq in E. subst. exact I.
  - apply in_app_iff. right. left. reflexivity.
Qed.
Lemma grown_with dirs d : with_dir dirs d (grown dirs d).
Proof.
  unfold with_dir, grown. destruct (existsb (String.eqb d) dirs) eqn:E.
  - left. split; [|reflexivity]. apply existsb_exists in E as (x & I & E). apply String.eqb_eq in E. subst. exact I.
  - right. split; [|reflexivity]. intros I. rewrite <- not_true_iff_false in E. apply E. apply existsb_exists. exists d. split; [exact I|apply String.eqb_refl].
Qed.
Lemma grown_other dirs d p : In p (grown dirs d) <-> In p dirs \/ p = d.
Proof.
  unfold grown. destruct (existsb (String.eqb d) dirs) eqn:E.
  - split; [auto|]. intros [I | ->]; [exact I|]. apply existsb_exists in E as (x & I & E). apply String.eqb_eq in E. subst. exact I.
  - rewrite in_app_iff. cbn. intuition.
Qed.

Section Paths.
  Context {T : Type} {N : Num T}.
  Lemma is_dir_in (fs : fsys T) p : is_dir fs p = true <-> In p (fs_dirs fs).
  Proof.
    unfold is_dir. rewrite existsb_exists. split.
    - intros (x & I & E). apply String.eqb_eq in E. subst. exact I.
    - intros I. exists p. split; [exact I|apply String.eqb_refl].
  Qed.
  Lemma openable (fs : fsys T) p : (in_dir fs p && negb (is_dir fs p))%bool = true <-> writable (fs_dirs fs) p.
  Proof.
    rewrite andb_true_iff, negb_true_iff, <- not_true_iff_false, is_dir_in. unfold writable, in_dir.
    assert (K : match parent p with None => true | Some "" => true | Some d => is_dir fs d end = true <->
                (forall d b, p = d ++ "/" ++ b -> plain b -> d = "" \/ In d (fs_dirs fs))).
    { destruct (has "/" p) eqn:E.
      - destruct (has_split p E) as (a & b & -> & Hb). rewrite (parent_split a b Hb). split.
        + intros H d b' Ep Pb. cbn [append] in Ep. apply split_last in Ep as [<- <-]; [|exact Hb|apply plain_has, Pb].
          destruct a as [|c a]; [left; reflexivity|]. right. apply is_dir_in, H.
        + intros H. destruct (H a b eq_refl (proj2 (plain_has b) Hb)) as [-> | I]; [reflexivity|]. destruct a; [reflexivity|]. apply is_dir_in, I.
      - rewrite (parent_plain p E). split; [|reflexivity]. intros _ d b -> _. rewrite has_app in E. cbn in E. rewrite orb_true_r in E. discriminate. }
    rewrite K. tauto.
  Qed.
  Lemma writes (fs : fsys T) p c : writable (fs_dirs fs) p ->
    write_file p c fs = (mkFs (fs_dirs fs) (dset (fs_files fs) p c), Ok tt).
  Proof. intros W. unfold write_file. rewrite (proj2 (openable fs p) W). reflexivity. Qed.
  Lemma writes_not (fs : fsys T) p c : ~ writable (fs_dirs fs) p -> write_file p c fs = (fs, Raise OSError).
  Proof.
    intros W. unfold write_file. destruct (in_dir fs p && negb (is_dir fs p))%bool eqn:E; [|reflexivity].
    destruct W. apply (openable fs p), E.
  Qed.

  (** ** the STL files *)
  Lemma stl_phase (v : vehicle T) prefix dirs l : forall (h : heap T) types before F, counts h types before ->
    (forall i, In i l -> (i < List.length (comps h))%nat) ->
    (forall i, In i l -> ghost_at h i = false -> is_ok (mesh_of h i)) ->
    (forall f i, In (f, i) (files v prefix h before l) -> writable dirs f) ->
    exists m h', (forall f i, In (f, i) (files v prefix h before l) -> mesh_of h i = Ok (m i)) /\ labels h h' /\
      write_components v prefix l types h (mkFs dirs F) =
        (h', mkFs dirs (dupdate F (map (fun fi => (fst fi, Stl (m (snd fi)))) (files v prefix h before l))), Ok tt).
  Proof.
    induction l as [|i l IH]; intros h types before F C IN OK W.
    - exists (fun _ => []), h. split; [intros f j []|]. split; [intros j; reflexivity|]. reflexivity.
    - cbn [write_components files] in *. assert (Li := IN i (or_introl eq_refl)). apply nth_error_Some in Li.
      destruct (nth_error (comps h) i) as [c|] eqn:E; [|congruence]. clear Li.
      assert (ET : type_at h i = c_type c) by (unfold type_at; rewrite E; reflexivity).
      assert (EG : ghost_at h i = c_ghost c) by (unfold ghost_at; rewrite E; reflexivity).
      rewrite (stl_name_spec v prefix h i c _ E), (C (c_type c)), <- ET.
      unfold write_component. rewrite E. rewrite EG in W |- *. destruct (c_ghost c); cbn [app] in *.
      + destruct (IH h (dset types (type_at h i) (earlier h (type_at h i) before + 1)) (before ++ [i])%list F) as (m & h' & H).
        { apply counts_next, C. } { intros j Hj. apply IN. right. exact Hj. } { intros j Hj. apply OK. right. exact Hj. } { exact W. }
        exists m, h'. exact H.
      + set (name := file_name v prefix h (earlier h (type_at h i) before) i) in *.
        destruct (OK i (or_introl eq_refl) EG) as (m1 & M1). destruct (comp_mesh i h) as [h1 r1] eqn:EM.
        assert (r1 = Ok m1) by (unfold mesh_of in M1; rewrite EM in M1; exact M1). subst r1.
        rewrite writes by (apply (W name i); left; reflexivity). cbn [fs_dirs fs_files].
        assert (L1 : labels h h1). { intros k. pose proof (iso_mesh i h) as O. rewrite EM in O. apply (only_options i k _ _ O). }
        assert (MS : forall k, mesh_of h1 k = mesh_of h k) by (intros k; apply (mesh_stable k i h h1 m1 EM)).
        assert (LL : List.length (comps h1) = List.length (comps h)).
        { assert (Q : forall k, (k < List.length (comps h1) <-> k < List.length (comps h))%nat).
          { intros k. rewrite <- !nth_error_Some. specialize (L1 k). destruct (nth_error (comps h1) k), (nth_error (comps h) k); cbn in L1; try discriminate; split; congruence. }
          pose proof (Q (List.length (comps h1))). pose proof (Q (List.length (comps h))). lia. }
        destruct (IH h1 (dset types (type_at h i) (earlier h (type_at h i) before + 1)) (before ++ [i])%list (dset F name (Stl m1))) as (m & h' & P1 & P2 & P3).
        { intros t. rewrite (counts_next h types before i C t). unfold earlier. f_equal. apply filter_ext. intros j.
          rewrite (labels_type _ _ _ L1). reflexivity. }
        { intros j Hj. rewrite LL. apply IN. right. exact Hj. }
        { intros j Hj. rewrite (labels_ghost _ _ _ L1), MS. apply OK. right. exact Hj. }
        { intros f j. rewrite (labels_files h h1 _ _ _ L1). intros Hf. apply (W f j). right. exact Hf. }
        rewrite (labels_files h h1 _ _ _ L1) in P1, P3. exists (fun k => if Nat.eqb k i then m1 else m k), h'.
        assert (MM : forall f k, In (f, k) (files v prefix h (before ++ [i])%list l) -> (if Nat.eqb k i then m1 else m k) = m k).
        { intros f k Hk. destruct (Nat.eqb_spec k i) as [->|]; [|reflexivity]. specialize (P1 f i Hk). rewrite MS, M1 in P1. congruence. }
        split; [|split].
        * intros f k [H|H]; [injection H as <- <-; rewrite Nat.eqb_refl; exact M1|]. rewrite (MM f k H). rewrite <- MS. apply (P1 f k H).
        * intros k. rewrite P2. apply L1.
        * rewrite P3. do 3 f_equal. cbn [map fst snd]. rewrite Nat.eqb_refl. unfold dupdate. cbn [fold_left]. f_equal.
          apply map_ext_in. intros [f k] Hk. cbn. rewrite (MM f k Hk). reflexivity.
  Qed.
  (** the first file that cannot be opened *)
  Lemma stl_stops (v : vehicle T) prefix dirs l : forall (h : heap T) types before F f i rest, counts h types before ->
    (forall i, In i l -> (i < List.length (comps h))%nat) ->
    files v prefix h before l = (f, i) :: rest -> is_ok (mesh_of h i) -> ~ writable dirs f ->
    exists h', write_components v prefix l types h (mkFs dirs F) = (h', mkFs dirs F, Raise OSError).
  Proof.
    induction l as [|j l IH]; intros h types before F f i rest C IN FL OK W; [discriminate|].
    cbn [write_components files] in *. assert (Li := IN j (or_introl eq_refl)). apply nth_error_Some in Li.
    destruct (nth_error (comps h) j) as [c|] eqn:E; [|congruence]. clear Li.
    assert (ET : type_at h j = c_type c) by (unfold type_at; rewrite E; reflexivity).
    assert (EG : ghost_at h j = c_ghost c) by (unfold ghost_at; rewrite E; reflexivity).
    rewrite (stl_name_spec v prefix h j c _ E), (C (c_type c)), <- ET.
    unfold write_component. rewrite E. rewrite EG in FL. destruct (c_ghost c); cbn [app] in *.
    - apply (IH h _ (before ++ [j])%list F f i rest); auto; [apply counts_next, C|]. intros k Hk. apply IN. right. exact Hk.
    - injection FL as Ef Ei _. subst i. destruct OK as (m & M1). unfold mesh_of in M1. destruct (comp_mesh j h) as [h1 r1]. cbn in M1. subst r1.
      rewrite writes_not by (rewrite Ef; exact W). eauto.
  Qed.

  (** ** dictionaries *)
  Lemma dget_dupdate {A} (l d : dict A) s : NoDup (dkeys l) ->
    dget (dupdate d l) s = match dget l s with Some c => Some c | None => dget d s end.
  Proof.
    revert d. induction l as [|[k a] l IH]; intros d ND; [reflexivity|]. cbn [dkeys map fst] in ND. inversion ND as [|? ? NI ND']; subst.
    unfold dupdate. cbn [fold_left fst snd]. change (fold_left _ l (dset d k a)) with (dupdate (dset d k a) l). rewrite IH by exact ND'.
    cbn [dget]. destruct (String.eqb_spec s k) as [->|NE].
    - assert (G : dget l k = None).
      { destruct (dget l k) as [b|] eqn:G; [|reflexivity]. exfalso. apply NI. clear -G. induction l as [|[k' b'] l IH]; [discriminate|].
        cbn in G |- *. destruct (String.eqb_spec k k') as [->|]; auto. }
      rewrite G, dget_dset, String.eqb_refl. reflexivity.
    - destruct (dget l s); [reflexivity|]. rewrite dget_dset. destruct (String.eqb_spec s k); [congruence|reflexivity].
  Qed.
  Lemma dupdate_app {A} (d a b : dict A) : dupdate d (a ++ b)%list = dupdate (dupdate d a) b.
  Proof. unfold dupdate. apply fold_left_app. Qed.

  (** ** the result files *)
  Definition to_file (pc : string * content T) : fop T := write_file (fst pc) (snd pc).
  Lemma run_app (a b : list (fop T)) fs : run_fops (a ++ b)%list fs =
    match run_fops a fs with (fs, Ok _) => run_fops b fs | (fs, Raise e) => (fs, Raise e) end.
  Proof.
    revert fs. induction a as [|f a IH]; intros fs; [reflexivity|]. cbn [run_fops app]. destruct (f fs) as [fs' [[]|e]]; [apply IH|reflexivity].
  Qed.
  Lemma run_writes dirs (l : list (string * content T)) : forall F, (forall p c, In (p, c) l -> writable dirs p) ->
    run_fops (map to_file l) (mkFs dirs F) = (mkFs dirs (dupdate F l), Ok tt).
  Proof.
    induction l as [|[p c] l IH]; intros F W; [reflexivity|]. cbn [map run_fops]. unfold to_file at 1. cbn [fst snd].
    rewrite writes by (apply (W p c); left; reflexivity). cbn [fs_dirs fs_files].
    rewrite IH by (intros q d Hq; apply (W q d); right; exact Hq). reflexivity.
  Qed.
  Lemma ensured dirs (F : dict (content T)) d : dget F d = None -> In d dirs \/ writable dirs d ->
    ensure_dir d (mkFs dirs F) = (mkFs (grown dirs d) F, Ok tt).
  Proof.
    intros NF W. unfold ensure_dir, path_exists. cbn [fs_files]. rewrite NF, orb_false_r. unfold grown.
    change (existsb (String.eqb d) dirs) with (is_dir (mkFs dirs F) d). destruct (is_dir (mkFs dirs F) d) eqn:E; [reflexivity|].
    unfold mkdir, path_exists. cbn [fs_files]. rewrite NF, E. cbn [orb].
    destruct W as [I|W]; [exfalso; apply is_dir_in with (fs := mkFs dirs F) in I; congruence|].
    apply (openable (mkFs dirs F) d) in W. rewrite E in W. cbn [negb] in W |- *. rewrite W. reflexivity.
  Qed.
  Lemma exists_dir dirs (F : dict (content T)) d : In d dirs -> ensure_dir d (mkFs dirs F) = (mkFs dirs F, Ok tt).
  Proof. intros I. unfold ensure_dir, path_exists. apply (is_dir_in (mkFs dirs F)) in I. rewrite I. reflexivity. Qed.

  Variable r : results T.
  Variable P : string.
  Let Q := folder P.
  Let at_ (x : string) : string := path_join Q x.

  Lemma phase_ok dirs (F : dict (content T)) rest : consistent r -> has_results r -> dget F Q = None -> In Q dirs \/ writable dirs Q ->
    (forall p c, In (p, c) (result_files r P at_) -> writable (grown dirs Q) p) ->
    run_fops (write_analysis r P ++ write_properties r P ++ rest)%list (mkFs dirs F) =
    run_fops rest (mkFs (grown dirs Q) (dupdate F (result_files r P at_))).
  Proof.
    intros CO HR NF W WR. unfold consistent, has_results in CO, HR. unfold write_analysis, write_properties. unfold result_files in *.
    destruct (r_analysis r) as [[[[vol mass] cog] moi]|].
    - destruct (r_volmass r) as [t|]; [|destruct CO; [discriminate|reflexivity]]. rewrite run_app.
      change (run_fops [ensure_dir (P ++ "_properties"); _; _; _] (mkFs dirs F)) with
        (match ensure_dir Q (mkFs dirs F) with
         | (fs, Ok _) => run_fops (map to_file [(at_ (P ++ "_volmass.csv"), VolMass t); (at_ (P ++ "_cog.txt"), Cog cog); (at_ (P ++ "_moi.txt"), Moi moi)]) fs
         | (fs, Raise e) => (fs, Raise e) end).
      rewrite (ensured dirs F Q NF W). rewrite run_writes by (intros p c Hp; apply (WR p c); apply in_app_iff; left; exact Hp).
      rewrite dupdate_app. destruct (r_properties r) as [|x d]; [reflexivity|]. cbn [app]. cbn [run_fops].
      change (P ++ "_properties") with Q. rewrite exists_dir by apply grown_in.
      rewrite writes by (cbn [fs_dirs]; apply (WR (at_ (P ++ "_properties.csv")) (Props (x :: d))); apply in_app_iff; right; left; reflexivity).
      reflexivity.
    - cbn [app]. destruct (r_properties r) as [|x d]; [destruct HR; congruence|]. cbn [app run_fops].
      change (P ++ "_properties") with Q. rewrite (ensured dirs F Q NF W).
      rewrite writes by (cbn [fs_dirs]; apply (WR (at_ (P ++ "_properties.csv")) (Props (x :: d))); left; reflexivity).
      reflexivity.
  Qed.
  Lemma phase_none fs rest : ~ has_results r ->
    run_fops (write_analysis r P ++ write_properties r P ++ rest)%list fs = run_fops rest fs.
  Proof.
    intros NR. unfold has_results in NR. unfold write_analysis, write_properties.
    destruct (r_analysis r) as [a|]; [destruct NR; left; discriminate|]. destruct (r_properties r); [reflexivity|]. destruct NR. right. discriminate.
  Qed.
  Lemma phase_fails dirs (F : dict (content T)) rest : consistent r -> has_results r -> dget F Q = None -> In Q dirs \/ writable dirs Q ->
    (forall x, In x suffixes -> ~ writable (grown dirs Q) (at_ (P ++ x))) ->
    run_fops (write_analysis r P ++ write_properties r P ++ rest)%list (mkFs dirs F) = (mkFs (grown dirs Q) F, Raise OSError).
  Proof.
    intros CO HR NF W WR. unfold consistent, has_results in CO, HR. unfold write_analysis, write_properties.
    destruct (r_analysis r) as [[[[vol mass] cog] moi]|].
    - destruct (r_volmass r) as [t|]; [|destruct CO; [discriminate|reflexivity]]. cbn [app run_fops].
      change (P ++ "_properties") with Q. rewrite (ensured dirs F Q NF W).
      rewrite writes_not by (cbn [fs_dirs]; apply WR; left; reflexivity). reflexivity.
    - cbn [app]. destruct (r_properties r) as [|x d]; [destruct HR; congruence|]. cbn [app run_fops].
      change (P ++ "_properties") with Q. rewrite (ensured dirs F Q NF W).
      rewrite writes_not by (cbn [fs_dirs]; apply WR; right; right; right; left; reflexivity). reflexivity.
  Qed.
  Lemma result_keys (f : string -> string) : (forall x y, f (P ++ x) = f (P ++ y) -> x = y) -> NoDup (dkeys (result_files r P f)).
  Proof.
    intros J. unfold result_files.
    assert (D : forall x y, x <> y -> f (P ++ x) <> f (P ++ y)) by (intros x y NE E; apply NE, J, E).
    destruct (r_analysis r) as [[[[vol mass] cog] moi]|], (r_volmass r) as [t|], (r_properties r) as [|x d];
      cbn [app dkeys map fst]; repeat constructor; cbn [In]; intros H;
      repeat match goal with H : _ \/ _ |- _ => destruct H as [H|H] end; try contradiction;
      revert H; apply D; discriminate.
  Qed.
  Lemma result_at (f : string -> string) p c : In (p, c) (result_files r P f) -> exists x, In x suffixes /\ p = f (P ++ x).
  Proof.
    unfold result_files, suffixes. intros H. apply in_app_iff in H as [H|H].
    - destruct (r_analysis r) as [[[[vol mass] cog] moi]|]; [|destruct H]. destruct (r_volmass r); [|destruct H].
      destruct H as [H|[H|[H|[]]]]; injection H as <- _; eexists; (split; [|reflexivity]); cbn; auto.
    - destruct (r_properties r); [destruct H|]. destruct H as [H|[]]; injection H as <- _. eexists; (split; [|reflexivity]); cbn; auto 6.
  Qed.
End Paths.

(** ** to_stl as a whole *)
Section Whole.
  Context {T : Type} {N : Num T}.
  Variable merge_stls : list string -> string -> fsys T -> fsys T * res unit.

  Definition merge_ops (v : vehicle T) (h : heap T) (merge : merge_arg) (P : string) : list (fop T) :=
    match merge with
    | MBool false | MList [] => []
    | MList _ => [fun fs => (fs, Raise NotImplementedError)]
    | MBool true => [merge_stls (merge_requests v h) P]
    end.
  Lemma stem_prefix (v : vehicle T) prefix : (if truthy prefix then or_else prefix "" else v_name v) = stem v prefix.
  Proof. destruct prefix as [[|c p]|]; reflexivity. Qed.
  Definition stl_files (v : vehicle T) prefix (h : heap T) (m : nat -> list (tri T)) : dict (content T) :=
    map (fun fi => (fst fi, Stl (m (snd fi)))) (files v prefix h [] (v_components v)).
  Lemma whole (v : vehicle T) r prefix h dirs F : can_write v prefix h dirs ->
    exists m h', (forall f i, In (f, i) (files v prefix h [] (v_components v)) -> mesh_of h i = Ok (m i)) /\ labels h h' /\
      forall merge, to_stl_full merge_stls v r prefix merge h (mkFs dirs F) =
        let '(fs, g) := run_fops (write_analysis r (stem v prefix) ++ write_properties r (stem v prefix) ++ merge_ops v h' merge (stem v prefix))%list
                                 (mkFs dirs (dupdate F (stl_files v prefix h m))) in (h', fs, g).
  Proof.
    intros (IN & OK & W).
    destruct (stl_phase v prefix dirs (v_components v) h [] [] F) as (m & h' & A & B & C); auto.
    { intros t. reflexivity. }
    exists m, h'. split; [exact A|]. split; [exact B|]. intros merge. unfold to_stl_full. rewrite C, stem_prefix. reflexivity.
  Qed.
  Lemma holds_ok (v : vehicle T) prefix h m F extra : NoDup (dkeys extra) ->
    (forall f i, In (f, i) (files v prefix h [] (v_components v)) -> mesh_of h i = Ok (m i)) ->
    holds v prefix h F (dupdate (dupdate F (stl_files v prefix h m)) extra) extra.
  Proof.
    intros ND M s. rewrite dget_dupdate by exact ND. destruct (dget extra s) as [c|]; [reflexivity|].
    unfold stl_files. rewrite (last_named_map (fun i => Stl (m i))). destruct (last_named _ s) as [i|] eqn:E; [|reflexivity].
    apply last_named_in in E. exists (m i). split; [apply (M s i E)|reflexivity].
  Qed.
  Lemma stl_suffix (v : vehicle T) prefix h no i : exists p, file_name v prefix h no i = p ++ ".stl".
  Proof.
    unfold file_name. destruct (text prefix) as [p|], (text (tag_at h i)) as [n|].
    - exists (p ++ "-" ++ n). rewrite !app_assoc_s. reflexivity.
    - exists (p ++ "-" ++ type_at h i ++ "-" ++ str_nat no). rewrite !app_assoc_s. reflexivity.
    - exists n. reflexivity.
    - exists (v_name v ++ "-" ++ type_at h i ++ "-" ++ str_nat no). rewrite !app_assoc_s. reflexivity.
  Qed.
  Lemma folder_free (v : vehicle T) prefix h m F P : dget F (folder P) = None -> dget (dupdate F (stl_files v prefix h m)) (folder P) = None.
  Proof.
    intros H. unfold stl_files. rewrite (last_named_map (fun i => Stl (m i))). destruct (last_named _ (folder P)) as [i|] eqn:E; [|exact H].
    exfalso. apply last_named_in, files_in in E. destruct E as (_ & _ & no & E). destruct (stl_suffix v prefix h no i) as (p & Ep).
    rewrite Ep in E. apply (f_equal last_char) in E. unfold folder in E. rewrite !last_app in E by discriminate. discriminate.
  Qed.
End Whole.

Lemma join_relative P x : (forall y, P ++ x <> String "/" y) -> P ++ x <> "" -> path_join (folder P) (P ++ x) = folder P ++ "/" ++ P ++ x.
Proof.
  intros NA NE. unfold path_join. destruct (P ++ x) as [|c s] eqn:E; [congruence|].
  destruct (Ascii.eqb_spec c "/") as [->|]; [destruct (NA s eq_refl)|].
  assert (Z : (String.eqb (folder P) "" || ends_with_slash (folder P))%bool = false).
  { unfold folder. rewrite ends_app by discriminate. cbn [ends_with_slash]. rewrite orb_false_r. destruct P; reflexivity. }
  rewrite Z. reflexivity.
Qed.
Lemma join_absolute P x : (exists y, P = String "/" y) -> path_join (folder P) (P ++ x) = P ++ x.
Proof. intros (y & ->). reflexivity. Qed.
Lemma self_longer (a b : string) : a <> a ++ "/" ++ b.
Proof. intros E. apply (f_equal String.length) in E. rewrite length_app_s in E. cbn in E. lia. Qed.
Lemma plain_writable dirs p : plain p -> (~ In p dirs <-> writable dirs p).
Proof. intros H. unfold writable. split; [|tauto]. intros NI. split; [exact NI|]. intros d b ->. destruct (H d b eq_refl). Qed.
Lemma plain_app a b : plain a -> plain b -> plain (a ++ b).
Proof. rewrite !plain_has. intros A B. rewrite has_app, A, B. reflexivity. Qed.
Lemma suffix_plain x : In x suffixes -> plain x /\ x <> "".
Proof. intros [<-|[<-|[<-|[<-|[]]]]]; (split; [apply plain_has; reflexivity|discriminate]). Qed.
Lemma in_list_dec (p : string) l : In p l \/ ~ In p l.
Proof. destruct (in_dec String.string_dec p l); auto. Qed.
Lemma writable_split dirs d b : plain b -> (writable dirs (d ++ "/" ++ b) <-> ~ In (d ++ "/" ++ b) dirs /\ (d = "" \/ In d dirs)).
Proof.
  intros PB. unfold writable. split; intros [A B]; (split; [exact A|]).
  - apply (B d b eq_refl PB).
  - intros d' b' E PB'. cbn [append] in E. apply split_last in E as [<- <-]; [exact B| |]; apply plain_has; assumption.
Qed.
