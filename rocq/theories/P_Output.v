(** C97, C98: everything Vehicle.to_stl writes, and where the results in it
    come from (vehicle.py:200-243, 268-281, 304-486). *)
From Coq Require Import String Ascii List Arith Lia Bool ZArith Reals.
From Verif Require Import Num NumR Py M_Vector SpecR3 M_Path M_Surface M_Geometry M_Mesh M_Component M_Vehicle M_Inertia M_Output
  SpecAdd SpecFiles SpecInertia SpecOutput L_Strings L_Component L_Files L_Inertia L_Adds L_Output P_Vehicle P_Inertia M_Hangar SpecComp SpecVehicle SpecPair L_Pair P_Pair.
Import ListNotations.
Local Open Scope string_scope.

Section Output.
  Context {T : Type} {N : Num T}.
  Variable merge_stls : list string -> string -> fsys T -> fsys T * res unit.
  Notation to_stl := (to_stl_full merge_stls).

  (** C97: without results only the STL files are written *)
  Theorem C97_nothing (v : vehicle T) r prefix h dirs F : can_write v prefix h dirs -> ~ has_results r ->
    exists h' F', to_stl v r prefix (MBool false) h (mkFs dirs F) = (h', mkFs dirs F', Ok tt) /\
      holds v prefix h F F' [].
  Proof using.
    intros CW NR. destruct (whole merge_stls v r prefix h dirs F CW) as (m & h' & A & _ & B).
    exists h', (dupdate F (stl_files v prefix h m)). rewrite (B (MBool false)), phase_none by exact NR. split; [reflexivity|].
    apply (holds_ok v prefix h m F []); [constructor|exact A].
  Qed.

  (** C97: with a prefix (or vehicle name) P without a slash the results go
      into the directory P_properties, which is made if it is missing *)
  Theorem C97_plain (v : vehicle T) r prefix h dirs F : let P := stem v prefix in
    can_write v prefix h dirs -> has_results r -> consistent r -> plain P -> dget F (folder P) = None ->
    (forall x, In x suffixes -> ~ In (folder P ++ "/" ++ P ++ x) dirs) ->
    exists h' dirs' F', to_stl v r prefix (MBool false) h (mkFs dirs F) = (h', mkFs dirs' F', Ok tt) /\
      with_dir dirs (folder P) dirs' /\
      holds v prefix h F F' (result_files r P (fun x => folder P ++ "/" ++ x)).
  Proof using.
    intros P CW HR CO PL NF NX. destruct (whole merge_stls v r prefix h dirs F CW) as (m & h' & A & _ & B).
    assert (J : forall x, In x suffixes -> path_join (folder P) (P ++ x) = folder P ++ "/" ++ P ++ x).
    { intros x Hx. destruct (suffix_plain x Hx) as [Px Ex]. apply join_relative.
      - intros y E. apply (plain_app _ _ PL Px "" y). exact E.
      - intros E. apply (f_equal String.length) in E. rewrite length_app_s in E. destruct x; [congruence|]. cbn in E. lia. }
    assert (RF : result_files r P (fun x => path_join (folder P) x) = result_files r P (fun x => folder P ++ "/" ++ x)).
    { unfold result_files. rewrite !J by (unfold suffixes; cbn; auto 6). reflexivity. }
    exists h', (grown dirs (folder P)), (dupdate (dupdate F (stl_files v prefix h m)) (result_files r P (fun x => folder P ++ "/" ++ x))).
    fold P in B. rewrite (B (MBool false)), phase_ok; auto.
    - rewrite RF. split; [reflexivity|]. split; [apply grown_with|]. apply holds_ok; [|exact A].
      apply result_keys. intros x y E. do 3 apply app_inj_l in E. exact E.
    - apply folder_free, NF.
    - destruct (in_list_dec (folder P) dirs) as [I|NI]; [left; exact I|]. right. apply plain_writable; [|exact NI].
      apply plain_app; [exact PL|]. apply plain_has. reflexivity.
    - rewrite RF. intros p c I. destruct (result_at r P _ p c I) as (x & Hx & ->). destruct (suffix_plain x Hx) as [Px _].
      apply writable_split; [apply plain_app; assumption|]. split; [|right; apply grown_in].
      rewrite grown_other. intros [K|K]; [apply (NX x Hx K)|]. apply (self_longer (folder P) (P ++ x)). symmetry. exact K.
  Qed.

  (** C97: with a prefix in another directory, d/b, the results are meant for
      d/b_properties/d: unless that directory exists, to_stl raises after
      writing the STL files and making the empty directory d/b_properties *)
  Theorem C97_nested (v : vehicle T) r prefix h dirs F d b : let P := stem v prefix in
    can_write v prefix h dirs -> has_results r -> consistent r -> dget F (folder P) = None ->
    P = d ++ "/" ++ b -> plain b -> d <> "" -> (forall x, d <> "/" ++ x) -> In d dirs ->
    (forall x, In x suffixes -> ~ In (folder P ++ "/" ++ P ++ x) dirs) ->
    exists h' dirs' F' g, to_stl v r prefix (MBool false) h (mkFs dirs F) = (h', mkFs dirs' F', g) /\
      with_dir dirs (folder P) dirs' /\
      (In (folder P ++ "/" ++ d) dirs -> g = Ok tt /\ holds v prefix h F F' (result_files r P (fun x => folder P ++ "/" ++ x))) /\
      (~ In (folder P ++ "/" ++ d) dirs -> g = Raise OSError /\ holds v prefix h F F' []).
  Proof using.
    intros P CW HR CO NF EP PB ND NA DI NX. destruct (whole merge_stls v r prefix h dirs F CW) as (m & h' & A & _ & B).
    assert (J : forall x, In x suffixes -> path_join (folder P) (P ++ x) = folder P ++ "/" ++ P ++ x).
    { intros x Hx. rewrite EP. destruct d as [|c d']; [congruence|]. apply join_relative; [|discriminate].
      intros y E. cbn in E. injection E as -> _. apply (NA d'). reflexivity. }
    assert (JW : forall x, In x suffixes -> (writable (grown dirs (folder P)) (folder P ++ "/" ++ P ++ x) <-> In (folder P ++ "/" ++ d) dirs)).
    { intros x Hx. destruct (suffix_plain x Hx) as [Px _].
      assert (Es : folder P ++ "/" ++ P ++ x = (folder P ++ "/" ++ d) ++ "/" ++ (b ++ x)).
      { rewrite EP at 2. rewrite !app_assoc_s. reflexivity. }
      rewrite Es, writable_split by (apply plain_app; assumption). rewrite <- Es, !grown_other. split.
      - intros [_ [K|[K|K]]]; [|exact K|].
        + apply (f_equal String.length) in K. rewrite !length_app_s in K. cbn in K. lia.
        + destruct (self_longer (folder P) d). symmetry. exact K.
      - intros I. split; [|auto]. intros [K|K]; [apply (NX x Hx K)|]. apply (self_longer (folder P) (P ++ x)). symmetry. exact K. }
    assert (RF : result_files r P (fun x => path_join (folder P) x) = result_files r P (fun x => folder P ++ "/" ++ x)).
    { unfold result_files. rewrite !J by (unfold suffixes; cbn; auto 6). reflexivity. }
    assert (FW : In (folder P) dirs \/ writable dirs (folder P)).
    { destruct (in_list_dec (folder P) dirs) as [I|NI]; [left; exact I|]. right. unfold folder in *. rewrite EP in *.
      rewrite app_assoc_s in NI |- *. rewrite app_assoc_s in NI |- *. apply writable_split; [apply plain_app; [exact PB|apply plain_has; reflexivity]|]. auto. }
    assert (FF : dget (dupdate F (stl_files v prefix h m)) (folder P) = None) by (apply folder_free, NF).
    fold P in B. destruct (in_list_dec (folder P ++ "/" ++ d) dirs) as [I|NI].
    - exists h', (grown dirs (folder P)), (dupdate (dupdate F (stl_files v prefix h m)) (result_files r P (fun x => folder P ++ "/" ++ x))), (Ok tt).
      rewrite (B (MBool false)), phase_ok; auto.
      + rewrite RF. split; [reflexivity|]. split; [apply grown_with|]. split; [|contradiction]. intros _. split; [reflexivity|]. apply holds_ok; [|exact A].
        apply result_keys. intros x y E. do 3 apply app_inj_l in E. exact E.
      + rewrite RF. intros p c K. destruct (result_at r P _ p c K) as (x & Hx & ->). apply JW; assumption.
    - exists h', (grown dirs (folder P)), (dupdate F (stl_files v prefix h m)), (Raise OSError).
      rewrite (B (MBool false)), phase_fails; auto.
      + split; [reflexivity|]. split; [apply grown_with|]. split; [contradiction|]. intros _. split; [reflexivity|].
        apply (holds_ok v prefix h m F []); [constructor|exact A].
      + intros x Hx W. rewrite J in W by exact Hx. apply NI, (JW x Hx), W.
  Qed.

  (** C97: with an absolute prefix the directory is made but the result files
      are put beside it *)
  Theorem C97_absolute (v : vehicle T) r prefix h dirs F d b : let P := stem v prefix in
    can_write v prefix h dirs -> has_results r -> consistent r -> dget F (folder P) = None ->
    P = d ++ "/" ++ b -> plain b -> d = "" \/ (In d dirs /\ exists x, d = "/" ++ x) ->
    (forall x, In x suffixes -> ~ In (P ++ x) dirs) ->
    exists h' dirs' F', to_stl v r prefix (MBool false) h (mkFs dirs F) = (h', mkFs dirs' F', Ok tt) /\
      with_dir dirs (folder P) dirs' /\
      holds v prefix h F F' (result_files r P (fun x => x)).
  Proof using.
    intros P CW HR CO NF EP PB DI NX. destruct (whole merge_stls v r prefix h dirs F CW) as (m & h' & A & _ & B).
    assert (AB : exists y, P = String "/" y).
    { rewrite EP. destruct DI as [-> | [_ (x & ->)]]; eexists; reflexivity. }
    assert (RF : result_files r P (fun x => path_join (folder P) x) = result_files r P (fun x => x)).
    { unfold result_files. rewrite !join_absolute by exact AB. reflexivity. }
    assert (DW : d = "" \/ In d dirs) by tauto.
    exists h', (grown dirs (folder P)), (dupdate (dupdate F (stl_files v prefix h m)) (result_files r P (fun x => x))).
    fold P in B. rewrite (B (MBool false)), phase_ok; auto.
    - rewrite RF. split; [reflexivity|]. split; [apply grown_with|]. apply holds_ok; [|exact A].
      apply result_keys. intros x y E. apply app_inj_l in E. exact E.
    - apply folder_free, NF.
    - destruct (in_list_dec (folder P) dirs) as [I|NI]; [left; exact I|]. right. unfold folder in *. rewrite EP in *.
      rewrite app_assoc_s in NI |- *. rewrite app_assoc_s in NI |- *. apply writable_split; [apply plain_app; [exact PB|apply plain_has; reflexivity]|]. auto.
    - rewrite RF. intros p c I. destruct (result_at r P _ p c I) as (x & Hx & ->). destruct (suffix_plain x Hx) as [Px _].
      assert (Es : P ++ x = d ++ "/" ++ (b ++ x)) by (rewrite EP, !app_assoc_s; reflexivity). rewrite Es.
      apply writable_split; [apply plain_app; assumption|]. rewrite <- Es, !grown_other. split; [|tauto].
      intros [K|K]; [apply (NX x Hx K)|]. unfold folder in K. apply app_inj_l in K. subst x. cbn in Hx. intuition discriminate.
  Qed.

  (** C97: if the first file cannot be opened nothing is written at all *)
  Theorem C97_unopened (v : vehicle T) r prefix merge h dirs F f i rest :
    (forall i, In i (v_components v) -> (i < List.length (comps h))%nat) ->
    files v prefix h [] (v_components v) = (f, i) :: rest -> is_ok (mesh_of h i) -> ~ writable dirs f ->
    exists h', to_stl v r prefix merge h (mkFs dirs F) = (h', mkFs dirs F, Raise OSError).
  Proof using.
    intros IN FL OK W. destruct (stl_stops v prefix dirs (v_components v) h [] [] F f i rest) as (h' & E); auto.
    { intros t. reflexivity. }
    exists h'. unfold to_stl_full. rewrite E. reflexivity.
  Qed.

  (** C97: a list of components to merge is refused only after all files have
      been written; merge=True hands the requested names to PyMesh *)
  Theorem C97_merge (v : vehicle T) r prefix h fs h' fs' : to_stl v r prefix (MBool false) h fs = (h', fs', Ok tt) ->
    (forall n l, to_stl v r prefix (MList (n :: l)) h fs = (h', fs', Raise NotImplementedError)) /\
    to_stl v r prefix (MList []) h fs = (h', fs', Ok tt) /\
    to_stl v r prefix (MBool true) h fs =
      let '(fs'', g) := merge_stls (merge_requests v h') (stem v prefix) fs' in (h', fs'', g).
  Proof using.
    unfold to_stl_full. destruct (write_components v prefix (v_components v) [] h fs) as [[h1 fs1] [[]|e]]; [|discriminate].
    rewrite stem_prefix. rewrite app_nil_r.
    assert (RA : forall rest, run_fops (write_analysis r (stem v prefix) ++ write_properties r (stem v prefix) ++ rest)%list fs1 =
      match run_fops (write_analysis r (stem v prefix) ++ write_properties r (stem v prefix))%list fs1 with
      | (fs, Ok _) => run_fops rest fs | (fs, Raise e) => (fs, Raise e) end).
    { intros rest. rewrite app_assoc. apply run_app. }
    destruct (run_fops (write_analysis r (stem v prefix) ++ write_properties r (stem v prefix))%list fs1) as [fs2 g] eqn:E.
    intros H. injection H as <- <- ->. split; [|split].
    - intros n l. rewrite RA. reflexivity.
    - reflexivity.
    - rewrite RA. cbn [run_fops]. destruct (merge_stls (merge_requests v h1) (stem v prefix) fs2) as [fs3 [[]|e]]; reflexivity.
  Qed.
End Output.

Lemma list_eq_dec_nil {A} (a : list A) : a = [] \/ exists a' z, a = (a' ++ [z])%list.
Proof. destruct a as [|x a] using rev_ind; [left; reflexivity|right; eauto]. Qed.
Section Calls.
  Context {T : Type} {N : Num T}.
  Variable mp : list (tri T) -> T -> T * T * vec T * mat T.
  Variable areas : list (tri T) -> list T.

  (** the state after a call, whether or not it raises *)
  Definition state : Type := heap T * vehicle T * results T.
  Definition step (s : state) (c : call T) : state :=
    let '(h, v, r) := s in
    match c with
    | Densities d => (h, v, analyse_after_generating d r)
    | Property k x => (h, v, add_property k x r)
    | Generate => fst (generate_full mp areas v r h)
    | Analyse d => fst (analyse_full mp areas v r d h)
    | Transform ts => (fst (transform_vehicle v ts h), v, r)
    end.
  Definition steps (s : state) (l : list (call T)) : state := fold_left step l s.

  Lemma analysed_volmass v r d h h' r' a : analyse_generated mp areas v r d h = (h', r', a) ->
    r_analysis r' = r_analysis r /\ r_on_generation r' = r_on_generation r /\ r_properties r' = r_properties r /\
    (r_volmass r <> None -> r_volmass r' <> None) /\ (is_ok a -> r_volmass r' <> None).
  Proof using.
    unfold analyse_generated. destruct (measure_all mp areas d (v_named v) h) as [h1 [cs|e]].
    - destruct (composite_properties (map snd cs)) as [p|e]; intros H; injection H as <- <- <-; cbn; repeat split; auto; try discriminate.
      intros [x K]. discriminate.
    - intros H; injection H as <- <- <-. repeat split; auto. intros [x K]. discriminate.
  Qed.
  Lemma generated_full v r h h' v' r' g : generate_full mp areas v r h = (h', v', r', g) ->
    r_properties r' = r_properties r /\ r_on_generation r' = r_on_generation r /\
    (r_on_generation r = None -> r' = r) /\ (consistent r -> consistent r').
  Proof using.
    unfold generate_full. destruct (generate v h) as [[h1 v1] [[]|e]].
    2:{ intros H. injection H as <- <- <- <-. auto. }
    destruct (r_on_generation r) as [[|x d]|] eqn:E.
    - intros H. injection H as <- <- <- <-. rewrite E. auto.
    - destruct (analyse_generated mp areas v1 r (x :: d) h1) as [[h2 r2] a] eqn:EA. apply analysed_volmass in EA as (A & B & C & D & G).
      destruct a as [a|e]; intros H; injection H as <- <- <- <-.
      + cbn. rewrite B, C, E. repeat split; auto; try discriminate. intros _ _. apply G. exists a. reflexivity.
      + rewrite B, C, E. repeat split; auto; try discriminate. unfold consistent. rewrite A. auto.
    - intros H. injection H as <- <- <- <-. rewrite E. auto.
  Qed.

  (** C98: after any calls whatsoever the results of an analysis come with the
      table that goes with to_stl, so that to_stl never stops for want of it *)
  Theorem C98_consistent calls h v : let '(_, _, r) := steps (h, v, new_results) calls in consistent r.
  Proof using.
    assert (K : forall calls s, consistent (snd s) -> consistent (snd (steps s calls))).
    { clear. induction calls as [|c calls IH]; intros [[h v] r] CO; [exact CO|]. cbn [steps fold_left]. apply IH. cbn [snd] in CO. destruct c as [d|k x| |d|ts]; cbn [step snd]; auto.
      - destruct (generate_full mp areas v r h) as [[[h' v'] r'] g] eqn:E. cbn. apply (generated_full _ _ _ _ _ _ _ E), CO.
      - unfold analyse_full. destruct (v_generated v).
        + destruct (analyse_generated mp areas v r d h) as [[h' r'] a] eqn:E. cbn. apply analysed_volmass in E as (A & _ & _ & D & _).
          unfold consistent. rewrite A. auto.
        + destruct (generate_full mp areas v r h) as [[[h' v'] r'] g] eqn:E. apply generated_full in E as (_ & _ & _ & CG). specialize (CG CO).
          destruct g as [[]|e]; [|exact CG]. destruct (analyse_generated mp areas v' r' d h') as [[h2 r2] a] eqn:E. cbn. apply analysed_volmass in E as (A & _ & _ & D & _).
          unfold consistent. rewrite A. auto. }
    specialize (K calls (h, v, new_results)). destruct (steps (h, v, new_results) calls) as [[h' v'] r]. apply K. intros H. destruct H. reflexivity.
  Qed.

  (** C98: unless densities were given to analyse_after_generating, to_stl
      writes no analysis, however often analyse() was called *)
  Theorem C98_explicit_analysis_not_saved calls h v P f : (forall d, ~ In (Densities d) calls) ->
    let '(_, _, r) := steps (h, v, new_results) calls in
    forall p c, In (p, c) (result_files r P f) -> exists d, c = Props d.
  Proof using.
    intros ND.
    assert (K : forall calls s, (forall d, ~ In (Densities d) calls) -> r_on_generation (snd s) = None -> r_analysis (snd s) = None -> r_analysis (snd (steps s calls)) = None).
    { clear. induction calls as [|c calls IH]; intros [[h v] r] ND OG RA; [exact RA|]. cbn [steps fold_left]. cbn [snd] in OG, RA.
      assert (K : r_on_generation (snd (step (h, v, r) c)) = None /\ r_analysis (snd (step (h, v, r) c)) = None).
      { destruct c as [d|k x| |d|ts]; cbn [step snd]; auto.
        - destruct (ND d). left. reflexivity.
        - destruct (generate_full mp areas v r h) as [[[h' v'] r'] g] eqn:E. cbn. apply generated_full in E as (_ & A & B & _). rewrite (B OG). auto.
        - unfold analyse_full. destruct (v_generated v).
          + destruct (analyse_generated mp areas v r d h) as [[h' r'] a] eqn:E. cbn. apply analysed_volmass in E as (A & B & _). rewrite A, B. auto.
          + destruct (generate_full mp areas v r h) as [[[h' v'] r'] g] eqn:E. apply generated_full in E as (_ & _ & B & _). rewrite (B OG).
            destruct g as [[]|e]; [|cbn; auto]. destruct (analyse_generated mp areas v' r d h') as [[h2 r2] a] eqn:E. cbn. apply analysed_volmass in E as (A & B' & _). rewrite A, B'. auto. }
      apply IH; [|apply K|apply K]. intros d I. apply (ND d). right. exact I. }
    specialize (K calls (h, v, new_results) ND eq_refl eq_refl). destruct (steps (h, v, new_results) calls) as [[h' v'] r]. cbn [snd] in K.
    intros p c. unfold result_files. rewrite K. cbn [app]. destruct (r_properties r) as [|x d]; [intros []|]. intros [H|[]]. injection H as _ <-. eauto.
  Qed.

  (** C98: the properties to_stl writes are the values last given to
      add_property, one for each name, whatever else was called in between *)
  Theorem C98_properties calls h v : let '(_, _, r) := steps (h, v, new_results) calls in
    NoDup (dkeys (r_properties r)) /\ forall k x, dget (r_properties r) k = Some x <-> last_given calls k x.
  Proof using.
    assert (K : forall s c, r_properties (snd (step s c)) = match c with Property k x => dset (r_properties (snd s)) k x | _ => r_properties (snd s) end).
    { intros [[h0 v0] r] [d|k x| |d|ts]; cbn [step snd]; auto.
      - destruct (generate_full mp areas v0 r h0) as [[[h' v'] r'] g] eqn:E. apply (generated_full _ _ _ _ _ _ _ E).
      - unfold analyse_full. destruct (v_generated v0).
        + destruct (analyse_generated mp areas v0 r d h0) as [[h' r'] a] eqn:E. apply (analysed_volmass _ _ _ _ _ _ _ E).
        + destruct (generate_full mp areas v0 r h0) as [[[h' v'] r'] g] eqn:E. apply generated_full in E as (A & _).
          destruct g as [[]|e]; [|exact A]. destruct (analyse_generated mp areas v' r' d h') as [[h2 r2] a] eqn:E. apply analysed_volmass in E as (_ & _ & B & _).
          cbn. congruence. }
    assert (Q : NoDup (dkeys (r_properties (snd (steps (h, v, new_results) calls)))) /\
      forall k x, dget (r_properties (snd (steps (h, v, new_results) calls))) k = Some x <-> last_given calls k x).
    { induction calls as [|c calls [IH1 IH2]] using rev_ind.
      - split; [constructor|]. intros k x. split; [discriminate|]. intros (b & a & H & _). destruct b; discriminate.
      - unfold steps in *. rewrite fold_left_app. cbn [fold_left]. rewrite K. set (s := fold_left step calls (h, v, new_results)) in *.
        assert (SNOC : forall k x, last_given (calls ++ [c])%list k x <-> c = Property k x \/ ((forall y, c <> Property k y) /\ last_given calls k x)).
        { intros k x. split.
          - intros (b & a & H & NI). destruct (list_eq_dec_nil a) as [->|(a' & z & ->)].
            + left. apply app_inj_tail in H. apply H.
            + right. rewrite app_comm_cons, app_assoc in H. apply app_inj_tail in H. destruct H as [-> ->]. split.
              * intros y ->. apply (NI y), in_or_app. right. left. reflexivity.
              * exists b, a'. split; [reflexivity|]. intros y I. apply (NI y), in_or_app. left. exact I.
          - intros [-> |[NC (b & a & -> & NI)]].
            + exists calls, []. split; [reflexivity|]. intros y [].
            + exists b, (a ++ [c])%list. split; [rewrite <- app_assoc; reflexivity|]. intros y I. apply in_app_or in I. destruct I as [I|[I|[]]]; [exact (NI y I)|exact (NC y I)]. }
        destruct c as [d|k0 x0| |d|ts]; try (split; [exact IH1|]; intros k x; rewrite SNOC, IH2; split; [intros H; right; split; [discriminate|exact H]|intros [H|[_ H]]; [discriminate|exact H]]).
        split; [apply L_Adds.dset_keys_nodup, IH1|]. intros k x. rewrite SNOC, dget_dset. destruct (String.eqb_spec k k0) as [-> |NE].
        + split; [intros H; injection H as <-; left; reflexivity|]. intros [H|[H _]]; [injection H as <-; reflexivity|]. destruct (H x0). reflexivity.
        + rewrite IH2. split; [intros H; right; split; [intros y E; injection E as E _; congruence|exact H]|]. intros [H|[_ H]]; [injection H as E _; congruence|exact H]. }
    destruct (steps (h, v, new_results) calls) as [[h' v'] r]. exact Q.
  Qed.

  (** C98: transforming the vehicle or adding properties after the analysis
      does not touch the saved results: to_stl writes the new meshes with the
      old centre of gravity and moments of inertia *)
  Theorem C98_transform_keeps calls h v r : (forall c, In c calls -> (exists ts, c = Transform ts) \/ exists k x, c = Property k x) ->
    let '(_, v', r') := steps (h, v, r) calls in
    v' = v /\ r_analysis r' = r_analysis r /\ r_volmass r' = r_volmass r.
  Proof using.
    intros H. assert (K : forall calls s, (forall c, In c calls -> (exists ts, c = Transform ts) \/ exists k x, c = Property k x) ->
      snd (fst (steps s calls)) = snd (fst s) /\ r_analysis (snd (steps s calls)) = r_analysis (snd s) /\ r_volmass (snd (steps s calls)) = r_volmass (snd s)).
    { clear. induction calls as [|c calls IH]; intros s H; [auto|]. cbn [steps fold_left]. fold (steps (step s c) calls).
      destruct (IH (step s c)) as (A & B & C); [intros c' I; apply H; right; exact I|]. rewrite A, B, C. destruct s as [[h v] r].
      destruct (H c (or_introl eq_refl)) as [(ts & ->)|(k & x & ->)]; cbn; auto. }
    specialize (K calls (h, v, r) H). destruct (steps (h, v, r) calls) as [[h' v'] r']. exact K.
  Qed.

  (** C98: if the analysis fails, generate() raises although the vehicle is
      generated and can be written without results *)
  Theorem C98_failed v r h h1 v1 d h2 r2 e : generate v h = (h1, v1, Ok tt) -> r_on_generation r = Some d -> d <> [] ->
    analyse_generated mp areas v1 r d h1 = (h2, r2, Raise e) ->
    generate_full mp areas v r h = (h2, v1, r, Raise e) /\ v_generated v1 = true.
  Proof using.
    intros G D NE A. split.
    - unfold generate_full. rewrite G, D. destruct d; [congruence|]. rewrite A.
      unfold analyse_generated in A. destruct (measure_all mp areas _ (v_named v1) h1) as [h3 [cs|e']]; [destruct (composite_properties (map snd cs)); [discriminate|]|];
        injection A as <- <- <-; reflexivity.
    - unfold generate in G. destruct (iterM (generate_component (v_angle v)) (v_components v) h) as [h3 [[]|e']]; [|discriminate].
      destruct (v_transformations (mark_generated v)); [injection G as _ <-; reflexivity|].
      destruct (transform_vehicle _ _ h3) as [h4 [[]|e']]; [|discriminate]. injection G as _ <-. reflexivity.
  Qed.
End Calls.

Local Open Scope R_scope.
(** what one line of the table is *)
Definition row_of mp areas densities (h : heap R) (nc : string * nat) (row : string * (R * R * R)) : Prop :=
  fst row = fst nc /\ exists c, figures mp areas densities h nc c /\ snd row = (m_mass c, m_volume c, m_area c).
(** the table lists the named components in order and their totals *)
Definition table_of mp areas densities (h : heap R) (v : vehicle R) (t : table R) : Prop :=
  exists rows, t = (rows ++ [("vehicle"%string, (rsum (fun x => fst (fst (snd x))) rows, rsum (fun x => snd (fst (snd x))) rows, rsum (fun x => snd (snd x)) rows))])%list /\
    Forall2 (row_of mp areas densities h) (v_named v) rows.
(** the analysis of the meshes of h *)
Definition analysis_of mp areas densities (h : heap R) (v : vehicle R) (a : R * R * vec R * mat R) : Prop :=
  exists h', analyse mp areas v densities h = (h', v, Ok a).

Lemma analysed mp areas (v : vehicle R) r d (h : heap R) : v_named v <> [] ->
  Forall (fun nc => exists c, figures mp areas d h nc c) (v_named v) ->
  exists h' t vol mass cog moi, analyse_generated mp areas v r d h = (h', set_volmass r t, Ok (vol, mass, cog, moi)) /\
    table_of mp areas d h v t /\ (forall j, mesh_of h' j = mesh_of h j) /\
    (v_generated v = true -> analysis_of mp areas d h v (vol, mass, cog, moi)) /\
    exists area, last t (""%string, (0, 0, 0)) = ("vehicle"%string, (mass, vol, area)).
Proof.
  intros NE FG. destruct (measure_all_ok mp areas d (v_named v) h FG) as (h' & cs & E & MS & FF).
  assert (L : map snd cs <> []). { intros K. apply map_eq_nil in K. subst cs. inversion FF. congruence. }
  destruct (composite_ok (map snd cs) L) as (P & EP).
  exists h', (summary P cs), (p_volume P), (p_mass P), (p_cog P), (p_moi P).
  split; [unfold analyse_generated; rewrite E, EP; reflexivity|]. split; [|split; [exact MS|split]].
  - exists (map (fun kc => (fst kc, (m_mass (snd kc), m_volume (snd kc), m_area (snd kc)))) cs). split.
    + unfold summary. destruct (composite_inv _ P EP) as (_ & A & B & C & _). rewrite A, B, C, !rsum_map. reflexivity.
    + clear -FF. induction FF as [|nc kc l l' [A B] FF IH]; cbn [map]; constructor; auto. split; [exact A|]. exists (snd kc). auto.
  - intros G. exists h'. unfold analyse, assess. rewrite G, E, EP. reflexivity.
  - exists (p_area P). unfold summary. rewrite last_last. reflexivity.
Qed.

(** C98: analyse() of a generated vehicle returns the figures of the meshes and
    keeps the table that belongs to them; the saved analysis stays as it was.
    The last line of the table is the sum of the others *)
Theorem C98_table mp areas (v : vehicle R) r d (h : heap R) : v_generated v = true -> v_named v <> [] ->
  Forall (fun nc => exists c, figures mp areas d h nc c) (v_named v) ->
  exists h' r' t vol mass cog moi area, analyse_full mp areas v r d h = (h', v, r', Ok (vol, mass, cog, moi)) /\
    analysis_of mp areas d h v (vol, mass, cog, moi) /\
    r_volmass r' = Some t /\ table_of mp areas d h v t /\ last t (""%string, (0, 0, 0)) = ("vehicle"%string, (mass, vol, area)) /\
    r_analysis r' = r_analysis r /\ r_properties r' = r_properties r.
Proof.
  intros G NE FG. destruct (analysed mp areas v r d h NE FG) as (h' & t & vol & mass & cog & moi & A & B & _ & C & area & D).
  exists h', (set_volmass r t), t, vol, mass, cog, moi, area. unfold analyse_full. rewrite G, A.
  split; [reflexivity|]. split; [apply C, G|]. split; [reflexivity|]. split; [exact B|]. split; [exact D|]. split; reflexivity.
Qed.

(** C98: generate() with densities d1 and then analyse(d2): to_stl writes the
    table for d2 next to the centre of gravity and moments of inertia for d1 *)
Theorem C98_mixed mp areas (v v1 : vehicle R) r d1 d2 (h h1 : heap R) P f : generate v h = (h1, v1, Ok tt) ->
  r_on_generation r = Some d1 -> d1 <> [] -> v_named v1 <> [] ->
  Forall (fun nc => exists c, figures mp areas d1 h1 nc c) (v_named v1) ->
  Forall (fun nc => exists c, figures mp areas d2 h1 nc c) (v_named v1) ->
  exists h2 r2 h3 r3 a1 a2 t2, generate_full mp areas v r h = (h2, v1, r2, Ok tt) /\
    analyse_full mp areas v1 r2 d2 h2 = (h3, v1, r3, Ok a2) /\
    analysis_of mp areas d1 h1 v1 a1 /\ analysis_of mp areas d2 h1 v1 a2 /\ table_of mp areas d2 h1 v1 t2 /\
    result_files r3 P f =
      ([(f (P ++ "_volmass.csv")%string, VolMass t2); (f (P ++ "_cog.txt")%string, Cog (snd (fst a1))); (f (P ++ "_moi.txt")%string, Moi (snd a1))]
       ++ match r_properties r with [] => [] | d => [(f (P ++ "_properties.csv")%string, Props d)] end)%list.
Proof.
  intros G OG N1 NE F1 F2.
  assert (GV : v_generated v1 = true).
  { unfold generate in G. destruct (iterM (generate_component (v_angle v)) (v_components v) h) as [h3 [[]|e']]; [|discriminate].
    destruct (v_transformations (mark_generated v)); [injection G as _ <-; reflexivity|].
    destruct (transform_vehicle _ _ h3) as [h4 [[]|e']]; [|discriminate]. injection G as _ <-. reflexivity. }
  destruct (analysed mp areas v1 r d1 h1 NE F1) as (h2 & t1 & vol1 & mass1 & cog1 & moi1 & A1 & B1 & M1 & C1 & _).
  set (r2 := set_analysis (set_volmass r t1) (vol1, mass1, cog1, moi1)).
  assert (F2' : Forall (fun nc => exists c, figures mp areas d2 h2 nc c) (v_named v1)).
  { eapply Forall_impl; [|exact F2]. intros nc (c & Hc). exists c. eapply fig_stable; [exact M1|exact Hc]. }
  destruct (analysed mp areas v1 r2 d2 h2 NE F2') as (h3 & t2 & vol2 & mass2 & cog2 & moi2 & A2 & B2 & M2 & C2 & _).
  exists h2, r2, h3, (set_volmass r2 t2), (vol1, mass1, cog1, moi1), (vol2, mass2, cog2, moi2), t2.
  split. { unfold generate_full. rewrite G, OG. destruct d1 as [|x d1]; [congruence|]. rewrite A1. reflexivity. }
  split. { unfold analyse_full. rewrite GV, A2. reflexivity. }
  split; [apply C1, GV|].
  assert (B2' : table_of mp areas d2 h1 v1 t2).
  { destruct B2 as (rows & E & FF). exists rows. split; [exact E|]. eapply Forall2_impl; [|exact FF].
    intros nc row (X & c & Y & Z). split; [exact X|]. exists c. split; [|exact Z]. eapply fig_stable; [|exact Y]. intros j. symmetry. apply M1. }
  split; [|split; [exact B2'|reflexivity]].
  destruct (analysed mp areas v1 r2 d2 h1 NE F2) as (h4 & t4 & vol4 & mass4 & cog4 & moi4 & A4 & B4 & M4 & C4 & _).
  specialize (C4 GV). destruct C4 as (h5 & C4). specialize (C2 GV). destruct C2 as (h6 & C2).
  exists h5. rewrite C4. do 2 f_equal.
  destruct (assess_ok mp areas d2 v1 h1 GV F2) as (h7 & cs & E7 & FF7).
  destruct (assess_ok mp areas d2 v1 h2 GV F2') as (h8 & cs' & E8 & FF8).
  assert (EC : map snd cs' = map snd cs).
  { clear -FF7 FF8 M1. revert cs' FF8. induction FF7 as [|nc kc l l' [A B] FF IH]; intros cs' FF8; inversion FF8 as [|? kc' ? l'' [A' B'] FF8']; subst; [reflexivity|].
    cbn [map]. f_equal; [|apply IH, FF8']. eapply figures_fun; [|exact B]. eapply fig_stable; [|exact B']. intros j. symmetry. apply M1. }
  unfold analyse in C4, C2. rewrite E7 in C4. rewrite E8, EC in C2.
  destruct (composite_properties (map snd cs)) as [Q|e]; [|discriminate]. cbn [bind fst] in C4, C2. congruence.
Qed.

(** a vehicle of one swept component with all kinds of results, in a tree
    with the directories out, out/w_properties/out and /tmp *)
Definition some_results : results R :=
  mkResults (Some two_densities) (Some (1, 2, V3 0 0 0, M3 (V3 0 0 0) (V3 0 0 0) (V3 0 0 0)))
    (Some [("vehicle"%string, (2, 1, 3))]) [("span"%string, 4)].
Definition some_dirs : list string := ["out"; "w2"; "/tmp"; "out/w2_properties"; "out/w2_properties/out"]%string.
Lemma hangar_can_write prefix f : files two_names prefix hangar [] [0%nat] = [(f, 0%nat)] -> writable some_dirs f ->
  can_write two_names prefix hangar some_dirs.
Proof.
  intros E W. split; [|split].
  - intros i [<-|[]]. cbn. lia.
  - intros i [<-|[]] _. destruct C53_meets as (h' & t & m & K). exists (t :: m). unfold mesh_of. rewrite K. reflexivity.
  - cbn [v_components two_names]. rewrite E. intros g i [H|[]]. injection H as <- _. exact W.
Qed.
Lemma some_writable p : (in_dir (mkFs (T := R) some_dirs []) p && negb (is_dir (mkFs (T := R) some_dirs []) p))%bool = true -> writable some_dirs p.
Proof. apply (openable (mkFs (T := R) some_dirs []) p). Qed.
Example C97_meets : consistent some_results /\ has_results some_results /\
  (stem two_names None = "v" /\ plain "v" /\ can_write two_names None hangar some_dirs /\
   forall x, In x suffixes -> ~ In ("v_properties/v" ++ x) some_dirs)%string /\
  (let P := stem two_names (Some "out/w") in P = "out" ++ "/" ++ "w" /\ plain "w" /\ "out" <> "" /\ (forall x, "out" <> "/" ++ x) /\ In "out" some_dirs /\
   can_write two_names (Some "out/w") hangar some_dirs /\ ~ In (folder P ++ "/" ++ "out") some_dirs /\
   forall x, In x suffixes -> ~ In (folder P ++ "/" ++ P ++ x) some_dirs)%string /\
  (let P := stem two_names (Some "out/w2") in can_write two_names (Some "out/w2") hangar some_dirs /\ In (folder P ++ "/" ++ "out") some_dirs)%string /\
  (let P := stem two_names (Some "/tmp/w") in P = "/tmp" ++ "/" ++ "w" /\ can_write two_names (Some "/tmp/w") hangar some_dirs /\
   In "/tmp" some_dirs /\ forall x, In x suffixes -> ~ In (P ++ x) some_dirs)%string /\
  (exists f, files two_names (Some "no/w") hangar [] [0%nat] = [(f, 0%nat)] /\ ~ writable some_dirs f)%string.
Proof.
  split; [intros _; discriminate|]. split; [left; discriminate|].
  split; [|split; [|split; [|split]]].
  - split; [reflexivity|]. split; [apply plain_has; reflexivity|]. split; [eapply hangar_can_write; [reflexivity|apply some_writable; reflexivity]|].
    intros x [<-|[<-|[<-|[<-|[]]]]]; cbn; intuition discriminate.
  - split; [reflexivity|]. split; [apply plain_has; reflexivity|]. split; [discriminate|]. split; [discriminate|]. split; [left; reflexivity|].
    split; [eapply hangar_can_write; [reflexivity|apply some_writable; reflexivity]|].
    split; [cbn; intuition discriminate|]. intros x [<-|[<-|[<-|[<-|[]]]]]; cbn; intuition discriminate.
  - split; [eapply hangar_can_write; [reflexivity|apply some_writable; reflexivity]|]. cbn. auto 10.
  - split; [reflexivity|]. split; [eapply hangar_can_write; [reflexivity|apply some_writable; reflexivity]|]. split; [cbn; auto|].
    intros x [<-|[<-|[<-|[<-|[]]]]]; cbn; intuition discriminate.
  - eexists. split; [reflexivity|]. intros W. apply (openable (mkFs (T := R) some_dirs [])) in W. discriminate.
Qed.
(** after generate() with densities a, b and then analyse() with others *)
Definition swapped : dict R := [("a", 3); ("b", 1)]%string.
Example C98_meets : exists v h h1 v1 i j, generate v h = (h1, v1, Ok tt) /\ v_named v1 = [("a", j); ("b", i)]%string /\
  Forall (fun nc => exists c, figures pointwise (fun _ => []) two_densities h1 nc c) (v_named v1) /\
  Forall (fun nc => exists c, figures pointwise (fun _ => []) swapped h1 nc c) (v_named v1) /\
  (** one density is missing: the analysis raises *)
  exists h2, analyse_generated pointwise (fun _ => []) v1 (analyse_after_generating [("a"%string, 1)] new_results) [("a"%string, 1)] h1 =
    (h2, analyse_after_generating [("a"%string, 1)] new_results, Raise KeyError).
Proof.
  destruct C96_meets as (SP & (E & (r & rr & rs & KD & EM) & PK & NE & VAL & PL & U1 & U2 & U3 & U4) & TY & AX & _).
  destruct (pair_meshes (configured "v") two_parts 0 (bare "wing" wing_patches 0) wing_patches rr rs r 2 "y" true (Some "a"%string) (Some "b"%string) false false)
    as (h1 & h2 & v2 & h3 & m & A & B & C & Dn & G & M1 & M2); auto.
  { exists (bare "wing" wing_patches 0). auto. }
  { intros k []. }
  { cbn. constructor; [intros []|constructor]. }
  assert (Vn : v_named (mark_generated v2) = [("a", List.length (comps two_parts)); ("b", 0)]%nat%string) by (cbn [mark_generated v_named]; rewrite Dn; reflexivity).
  exists v2, h2, h3, (mark_generated v2), 0%nat, (List.length (comps two_parts)). split; [exact G|]. split; [exact Vn|].
  rewrite Vn. split; [|split].
  - constructor; [|constructor; [|constructor]]; eexists (mkMeasures _ _ _ _ _), _, _; (split; [first [exact M1|exact M2]|]); (split; [reflexivity|]); (split; reflexivity).
  - constructor; [|constructor; [|constructor]]; eexists (mkMeasures _ _ _ _ _), _, _; (split; [first [exact M1|exact M2]|]); (split; [reflexivity|]); (split; reflexivity).
  - destruct (measure_all_fails pointwise (fun _ => []) [("a"%string, 1)] [("a"%string, List.length (comps two_parts))] ("b"%string, 0%nat) [] h3 KeyError) as (h4 & F).
    + constructor; [|constructor]. eexists (mkMeasures _ _ _ _ _), _, _. split; [exact M1|]. split; [reflexivity|]. split; reflexivity.
    + right. split; [eexists; exact M2|]. split; reflexivity.
    + exists h4. unfold analyse_generated. rewrite Vn. cbn [app] in F. rewrite F. reflexivity.
Qed.

Print Assumptions C97_nothing. Print Assumptions C97_plain. Print Assumptions C97_nested. Print Assumptions C97_absolute.
Print Assumptions C97_unopened. Print Assumptions C97_merge.
Print Assumptions C98_consistent. Print Assumptions C98_explicit_analysis_not_saved. Print Assumptions C98_transform_keeps.
Print Assumptions C98_properties. Print Assumptions C98_failed. Print Assumptions C98_table. Print Assumptions C98_mixed.
