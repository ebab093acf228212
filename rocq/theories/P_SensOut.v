(** C100: the scalar results of a sensitivity study (utilities.py:398-420, 487-512). *)
From Coq Require Import String List Sorted Reals Lra Lia Arith Bool.
From Verif Require Import Num NumR Py M_Vector M_Mesh M_VecHeap M_Sens M_Inertia M_Output M_SensOut SpecSens SpecOutput SpecSensOut
  L_Strings L_Component L_Study L_Inertia L_SensOut P_Study.
Import ListNotations.
Local Open Scope string_scope.

Section Values.
  Context {T : Type} {N : Num T}.
  Variable construct : dict (pval T) -> VM T (instance T).

  (** C100: the tables of mass, volume and area sensitivities: one for each
      parameter, the difference quotients of the tables of the vehicle built
      for that parameter and of the nominal vehicle; none without an analysis *)
  Theorem C100_values s d D o pert s' out : nth_error (s_dicts s) d = Some D -> NoDup (dkeys D) -> numbers D -> disjoint_keys D o ->
    dvdp construct d o pert s = (s', Ok out) ->
    exists nominal, snd (construct (D ++ o)%list (s_vecs s)) = Ok nominal /\
    let instances := tl (calls construct (arguments D o pert) (s_vecs s)) in
    let step x := nsub (nmul x (nadd n1 (ndiv pert (nZ 100)))) x in
    (match i_analysis nominal with Some a => a = [] | None => True end -> o_volmass out = []) /\
    (forall a, i_analysis nominal = Some a -> a <> [] -> dkeys (o_volmass out) = dkeys D /\
       Forall2 (fun call pt => exists x inst nv pv, built_for construct D o pert call (fst pt) x inst /\
          i_volmass nominal = Some nv /\ i_volmass inst = Some pv /\ difference (step x) nv pv (snd pt))
         instances (o_volmass out)).
  Proof using.
    intros E Nd Nu Dj R. unfold dvdp in R. unfold sbind at 1 in R.
    rewrite (make_eq construct s d D o _ E (spread_ok _ _ Dj)) in R.
    destruct (snd (construct (D ++ o)%list (s_vecs s))) as [nominal|e] eqn:En; [|discriminate].
    unfold sbind at 1 in R. unfold sdict in R. cbn [s_dicts] in R. rewrite E in R.
    unfold sbind at 1 in R.
    match type of R with context[perturb_all construct d o pert nominal (dkeys D) ?s1] =>
      destruct (perturb_all construct d o pert nominal (dkeys D) s1) as [s2 r2] eqn:E2 end.
    assert (HP : forall p, In p (dkeys D) -> exists x, dget D p = Some (PNum x)).
    { intros p Hp. unfold dkeys in Hp. apply in_map_iff in Hp. destruct Hp as ([k v] & <- & Hv). destruct (Nu k v Hv) as [x ->].
      exists x. apply dget_nodup; assumption. }
    destruct (perturb_all_num construct d D o pert nominal Nd Dj (dkeys D) HP (mkS (fst (construct (D ++ o)%list (s_vecs s))) (s_dicts s) (s_log s ++ [((D ++ o)%list, s_vecs s)])%list) s2 r2 E E2) as (n & L & V & _ & K).
    cbn [s_log s_vecs s_dicts] in *.
    destruct r2 as [rs|e]; [|discriminate]. destruct K as (K1 & K2 & K3). rewrite K1 in K3.
    unfold sbind, sraise, sret in R. destruct (combine_all _ _) as [c|]; [|discriminate]. injection R as <- <-. cbn [o_volmass].
    exists nominal. split; [reflexivity|]. cbv zeta.
    unfold arguments. cbn [calls tl]. change (map (fun p => changed_at p (times_factor pert) D ++ o)%list (dkeys D)) with (map (kw_of D o pert) (dkeys D)).
    cbv zeta in K3. cbn [s_vecs] in K3.
    set (cs := calls construct (map (kw_of D o pert) (dkeys D)) (fst (construct (D ++ o)%list (s_vecs s)))) in *. clearbody cs. clear -K2 K3. rewrite <- K2. clear K2. change (nadd n1 (ndiv pert (nZ 100))) with (factor pert).
    induction K3 as [|call kr cs rs (x & inst & A & B & C & F) _ (I3 & I4)].
    { split; [reflexivity|]. split; [reflexivity|constructor]. }
    assert (BF : built_for construct D o pert call (fst kr) x inst) by (split; [apply dget_in, A|auto]).
    unfold outcome in F.
    assert (O : exists an pr ms, (match i_analysis nominal with
               | Some ((_ :: _) as a) => let! s := both_sens (PNum (nsub (nmul x (factor pert)) x)) a nominal inst in Ok (Some s)
               | _ => Ok None
               end) = Ok an /\ snd kr = (ms, an, pr)).
    { destruct (match i_analysis nominal with Some ((_ :: _) as a) => _ | _ => _ end) as [an|]; [|discriminate]. cbn [bind] in F.
      destruct (match i_props nominal with [] => _ | _ => _ end) as [pr|]; [|discriminate]. cbn [bind] in F.
      destruct (mesh_sens _ _ _) as [ms|]; [|discriminate]. cbn [bind] in F. injection F as <-. eauto 8. }
    clear F. destruct O as (an & pr & ms & O1 & O3). cbn [map]. rewrite O3. cbn [fst snd]. unfold somes in *. cbn [flat_map fst snd].
    split.
    - intros N0. destruct (i_analysis nominal) as [a|] eqn:EA.
      + subst a. injection O1 as <-. cbn. apply I3. reflexivity.
      + injection O1 as <-. cbn. apply I3. exact I.
    - intros a Ea Na. specialize (I4 a Ea Na). destruct I4 as [I4 I4']. rewrite Ea in O1. destruct a as [|kv l]; [congruence|].
      unfold both_sens in O1. destruct (analysis_sens _ _ _) as [t|] eqn:Et; [|discriminate]. cbn [bind] in O1.
      destruct (volmass_sens _ _ _) as [t'|] eqn:Ev; [|discriminate].
      cbn [bind] in O1. injection O1 as <-. cbn [app option_map snd].
      split; [unfold dkeys in *; refine (f_equal (cons (fst kr)) _); exact I4|]. constructor; [|exact I4'].
      unfold volmass_sens in Ev. destruct (i_volmass nominal) as [nv|]; [|discriminate]. destruct (i_volmass inst) as [pv|] eqn:Ei; [|discriminate].
      injection Ev as <-. exists x, inst, nv, pv. split; [exact BF|]. split; [reflexivity|]. split; [exact Ei|]. apply subtract_difference.
  Qed.

  (** C100: volmass_sensitivity.csv of several tables, the last of them being
      that of q: it is written iff all tables have as many lines as the last
      one, and its lines carry the names of the last one *)
  Theorem C100_arranged (s : dict (ntable T)) q last :
    (Forall (fun kt => length (snd kt) = length last) s ->
       exists c, volmass_csv (s ++ [(q, last)])%list = Ok c /\ arranged (s ++ [(q, last)])%list (map fst last) c) /\
    (~ Forall (fun kt => length (snd kt) = length last) s -> volmass_csv (s ++ [(q, last)])%list = Raise ValueError).
  Proof using. exact (volmass_csv_spec s q last). Qed.

  (** C100: if the vehicles of all parameters have the components of the nominal
      one, the table is written, with the sensitivity of each figure of each
      component in the line of that name and the column of the parameter *)
  Theorem C100_same_components s d D o pert s' out : nth_error (s_dicts s) d = Some D -> NoDup (dkeys D) -> numbers D -> disjoint_keys D o ->
    dvdp construct d o pert s = (s', Ok out) ->
    forall nominal a nv, snd (construct (D ++ o)%list (s_vecs s)) = Ok nominal -> i_analysis nominal = Some a -> a <> [] -> i_volmass nominal = Some nv -> D <> [] ->
    let instances := tl (calls construct (arguments D o pert) (s_vecs s)) in
    let step x := nsub (nmul x (nadd n1 (ndiv pert (nZ 100)))) x in
    (forall call inst pv, In call instances -> snd (construct (fst call) (snd call)) = Ok inst -> i_volmass inst = Some pv -> map fst pv = map fst nv) ->
    exists rows, volmass_csv (o_volmass out) = Ok (NamedCsv (dkeys D) rows) /\ length rows = (3 * length nv)%nat /\
      forall i n x f, nth_error nv i = Some (n, x) ->
        exists vals, nth_error rows (3 * i + place f) = Some (n ++ "_" ++ figure_name f, vals) /\
          Forall2 (fun call v => exists p y inst pv b, built_for construct D o pert call p y inst /\ i_volmass inst = Some pv /\
             nth_error pv i = Some (n, b) /\ v = Some (ndiv (nsub (pick f b) (pick f x)) (step y))) instances vals.
  Proof using.
    intros E Nd Nu Dj R nominal a nv En Ea Na Ev ND instances step HS.
    destruct (C100_values s d D o pert s' out E Nd Nu Dj R) as (nominal' & En' & V). rewrite En in En'. injection En' as <-.
    cbv zeta in V. fold instances in V. fold step in V. destruct V as [_ V]. destruct (V a Ea Na) as [KD F2]. clear V.
    assert (NE : o_volmass out <> []) by (intros Z; rewrite Z in KD; destruct D; [congruence|discriminate]).
    destruct (exists_last NE) as (l & [q last] & EL).
    assert (F3 : Forall2 (fun call pt => exists x inst pv, built_for construct D o pert call (fst pt) x inst /\
        i_volmass inst = Some pv /\ map fst pv = map fst nv /\ difference (step x) nv pv (snd pt)) instances (o_volmass out)).
    { clear -F2 Ev HS. clearbody instances. induction F2 as [|call pt cs l (x & inst & nv' & pv & B & V1 & V2 & V3) _ IH]; [constructor|].
      constructor; [|apply IH; intros call' inst' pv' I; apply HS; right; exact I].
      rewrite Ev in V1. injection V1 as <-. exists x, inst, pv. split; [exact B|]. split; [exact V2|]. split; [|exact V3].
      apply (HS call inst pv (or_introl eq_refl)); [apply B|exact V2]. }
    clear F2. clearbody instances.
    assert (FN : Forall (fun kt => map fst (snd kt) = map fst nv) (o_volmass out)).
    { clear -F3. induction F3 as [|call pt cs l (x & inst & pv & B & V2 & V3 & V4) _ IH]; constructor; [|exact IH]. apply V4, V3. }
    rewrite EL in FN. apply Forall_app in FN. destruct FN as [FN FL]. inversion FL as [|? ? FL1 _]; subst. cbn [snd] in FL1.
    assert (LN : length last = length nv) by (rewrite <- (map_length fst last), FL1, map_length; reflexivity).
    assert (FA : Forall (fun kt : string * ntable T => length (snd kt) = length last) l).
    { clear -FN LN. induction FN as [|kt l H _ IH]; constructor; [|exact IH]. exact (eq_trans (eq_sym (map_length fst (snd kt))) (eq_trans (f_equal (@length _) H) (eq_trans (map_length fst nv) (eq_sym LN)))). }
    destruct (proj1 (C100_arranged l q last) FA) as (c & EC & rows & -> & LR & AR').
    assert (AR : forall i n f, nth_error (map fst last) i = Some n ->
      exists vals, nth_error rows (3 * i + place f) = Some (n ++ "_" ++ figure_name f, vals) /\
        Forall2 (fun kt v => exists m r, nth_error (snd kt) i = Some (m, r) /\ v = pick f r) (o_volmass out) vals) by (rewrite EL; exact AR').
    clear AR'. exists rows. rewrite <- KD. split; [rewrite EL; exact EC|]. split; [rewrite LR, map_length, LN; reflexivity|].
    intros i n x f Hi. destruct (AR i n f) as (vals & Hr & FV).
    { rewrite FL1, nth_error_map, Hi. reflexivity. }
    exists vals. split; [exact Hr|]. clear -F3 FV Hi. revert FV. generalize vals. clear vals.
    induction F3 as [|call pt cs l (y & inst & pv & B & V2 & V3 & V4) _ IH]; intros vals FV; inversion FV as [|? v ? vals' (m & r & M1 & ->) FV']; subst; [constructor|].
    constructor; [|apply IH, FV']. exists (fst pt), y, inst, pv.
    destruct (nth_error pv i) as [[n' b]|] eqn:Ep.
    2:{ apply nth_error_None in Ep. rewrite <- (map_length fst pv), V3, map_length in Ep. apply nth_error_None in Ep. congruence. }
    assert (Q : Some n' = Some n).
    { change (Some n') with (option_map fst (Some (n', b))). rewrite <- Ep, <- nth_error_map, V3, nth_error_map, Hi. reflexivity. }
    injection Q as ->. exists b. split; [exact B|]. split; [exact V2|]. split; [reflexivity|].
    destruct V4 as [V4 _]. destruct (V4 V3) as [_ V5]. destruct (V5 i n x b Hi) as (c & C1 & C2); [rewrite nth_error_map, Ep; reflexivity|].
    assert (Q : Some (m, r) = Some (n, c)) by exact (eq_trans (eq_sym M1) C1). injection Q as -> ->. apply C2.
  Qed.
End Values.

Section Labels.
  Context {T : Type} {N : Num T}.
  (** every value of every parameter stands in a line that carries its name *)
  Definition well_labelled (s : dict (ntable T)) (c : content T) : Prop :=
    exists rows, c = NamedCsv (dkeys s) rows /\
      forall kt i n r f, In kt s -> nth_error (snd kt) i = Some (n, r) ->
        exists vals, nth_error rows (3 * i + place f) = Some (n ++ "_" ++ figure_name f, vals).
  (** C100: the values are under their own names iff the vehicles of all
      parameters have the components of that of the last parameter *)
  Theorem C100_own_names_iff (s : dict (ntable T)) q last c : volmass_csv (s ++ [(q, last)])%list = Ok c ->
    (well_labelled (s ++ [(q, last)])%list c <-> Forall (fun kt => map fst (snd kt) = map fst last) s).
  Proof using.
    intros E. destruct (C100_arranged s q last) as [A1 A2].
    destruct (Forall_dec (fun kt : string * ntable T => length (snd kt) = length last) (fun kt => Nat.eq_dec _ _) s) as [F|F]; [|rewrite (A2 F) in E; discriminate].
    destruct (A1 F) as (c' & E' & rows & -> & LR & AR). rewrite E in E'. injection E' as ->. split.
    - intros (rows' & Q & W). injection Q as <-. apply Forall_forall. intros kt I.
      assert (LL : length (snd kt) = length last) by exact (proj1 (Forall_forall _ _) F kt I).
      assert (K : forall i, nth_error (map fst (snd kt)) i = nth_error (map fst last) i).
      { intros i. rewrite !nth_error_map. destruct (nth_error (snd kt) i) as [[n r]|] eqn:E1, (nth_error last i) as [[m x]|] eqn:E2; cbn.
        - destruct (W kt i n r Mass (in_or_app _ _ _ (or_introl I)) E1) as (v1 & H1).
          destruct (AR i m Mass) as (v2 & H2 & _); [rewrite nth_error_map, E2; reflexivity|].
          rewrite H1 in H2. injection H2 as H2 _. apply app_inj_r in H2. congruence.
        - apply nth_error_None in E2. assert (i < length (snd kt))%nat by (apply nth_error_Some; congruence). exfalso.
          apply (Nat.lt_irrefl i). eapply Nat.lt_le_trans; [eassumption|]. rewrite LL. exact E2.
        - apply nth_error_None in E1. assert (i < length last)%nat by (apply nth_error_Some; congruence). exfalso.
          apply (Nat.lt_irrefl i). eapply Nat.lt_le_trans; [eassumption|]. rewrite <- LL. exact E1.
        - reflexivity. }
      clear -K. revert K. generalize (map fst (snd kt)) (map fst last). clear. intros l. induction l as [|a l IH]; intros [|b m] K; [reflexivity|discriminate (K 0%nat)|discriminate (K 0%nat)|].
      assert (K0 := K 0%nat). cbn in K0. injection K0 as ->. f_equal. apply IH. intros i. exact (K (S i)).
    - intros FN. exists rows. split; [reflexivity|]. intros kt i n r f I Hi.
      assert (EN : map fst (snd kt) = map fst last).
      { apply in_app_or in I. destruct I as [I|[<-|[]]]; [exact (proj1 (Forall_forall _ _) FN kt I)|reflexivity]. }
      destruct (AR i n f) as (vals & H & _); [rewrite <- EN, nth_error_map, Hi; reflexivity|]. exists vals. exact H.
  Qed.
End Labels.

Section Totals.
  Local Open Scope R_scope.
  Lemma sum_quotients dp (f : figure) (nv : vtable R) : forall pv t, map fst pv = map fst nv -> length t = length nv ->
    (forall i n a b, nth_error nv i = Some (n, a) -> nth_error (map snd pv) i = Some b -> exists c, nth_error t i = Some (n, c) /\ differs dp a b c) ->
    sum_cells (map (fun r => pick f (snd r)) t) =
    Some ((fold_right Rplus 0 (map (fun r => pick f (snd r)) pv) - fold_right Rplus 0 (map (fun r => pick f (snd r)) nv)) / dp).
  Proof.
    induction nv as [|[n a] nv IH]; intros [|[m b] pv] [|[k c] t] E L H; try discriminate.
    - cbn. f_equal. unfold Rdiv. ring.
    - cbn in E. injection E as -> E. destruct (H 0%nat n a b eq_refl eq_refl) as (c' & C1 & C2). cbn in C1. injection C1 as -> ->.
      cbn [map sum_cells snd]. rewrite (C2 f). rewrite (IH pv t E); [| |intros i; exact (H (S i))]; [|injection L; auto].
      cbn [fold_right]. f_equal. numR. unfold Rdiv. ring.
  Qed.
  (** C100: in exact arithmetic the sensitivities of the vehicle are the sums of
      those of its components *)
  Theorem C100_totals dp (nv pv : vtable R) t : totalled nv -> totalled pv -> map fst pv = map fst nv -> difference dp nv pv t ->
    exists rows x, t = (rows ++ [("vehicle"%string, x)])%list /\ forall f, pick f x = sum_cells (map (fun r => pick f (snd r)) rows).
  Proof.
    intros (nr & nx & -> & NT) (pr & px & -> & PT) E [D _]. destruct (D E) as [D1 D2]. clear D.
    rewrite !map_app in E. apply app_inj_tail in E. destruct E as [E _].
    assert (L : length t = S (length nr)) by (rewrite <- (map_length fst t), D1, map_length, app_length; cbn; lia).
    assert (LP : length pr = length nr) by (rewrite <- (map_length fst pr), E, map_length; reflexivity).
    destruct t as [|y t0]; [discriminate|]. destruct (@exists_last _ (y :: t0)) as (rows & [k x] & ET); [discriminate|]. rewrite ET in *.
    rewrite app_length in L. cbn in L. assert (LR : length rows = length nr) by lia.
    rewrite !map_app in D1. apply app_inj_tail in D1. destruct D1 as [D1 D1']. cbn in D1'. subst k.
    exists rows, x. split; [reflexivity|]. intros f.
    assert (QL : differs dp nx px x).
    { destruct (D2 (length nr) "vehicle"%string nx px) as (c & C1 & C2).
      - rewrite nth_error_app2, Nat.sub_diag by lia. reflexivity.
      - rewrite map_app, nth_error_app2, map_length, LP, Nat.sub_diag by (rewrite map_length; lia). reflexivity.
      - rewrite nth_error_app2, LR, Nat.sub_diag in C1 by lia. cbn in C1. injection C1 as ->. exact C2. }
    rewrite (QL f), (sum_quotients dp f nr pr rows E LR).
    - rewrite <- NT, <- PT. reflexivity.
    - intros i n a b H1 H2. assert (Hi : (i < length nr)%nat) by (apply nth_error_Some; congruence). destruct (D2 i n a b) as (c & C1 & C2).
      + rewrite nth_error_app1 by exact Hi. exact H1.
      + rewrite map_app, nth_error_app1 by (rewrite map_length; lia). exact H2.
      + exists c. split; [|exact C2]. rewrite nth_error_app1 in C1 by lia. exact C1.
  Qed.
  (** C100: the table made by an analysis of the vehicle is totalled *)
  Theorem C100_analysed (mp : list (tri R) -> R -> R * R * vec R * M_Inertia.mat R) areas v r d h h' r' a t :
    analyse_generated mp areas v r d h = (h', r', Ok a) -> r_volmass r' = Some t -> totalled t.
  Proof.
    unfold analyse_generated. destruct (measure_all _ _ _ _ _) as [h1 [cs|e]]; [|discriminate].
    destruct (composite_properties (map snd cs)) as [P|e] eqn:EP; [|discriminate]. intros Q. injection Q as _ <- _. cbn. intros Q. injection Q as <-.
    destruct (composite_inv _ P EP) as (_ & A & B & C & _). unfold summary. eexists _, _. split; [reflexivity|].
    intros f. destruct f; cbn [pick fst snd]; [rewrite A|rewrite B|rewrite C]; clear; induction cs as [|[k c] cs IH]; cbn in *; congruence.
  Qed.
End Totals.

Section Examples.
  Local Open Scope R_scope.
  Local Open Scope string_scope.
  (** two parameters; the mass of the component "a" is w + l, that of "b" is l *)
  Let build : dict (pval R) -> VM R (instance R) := fun kw h => (h,
    match dget kw "w", dget kw "l" with
    | Some (PNum x), Some (PNum y) =>
        Ok (mkInst [] (Some [("cog", [x; 0; 0])]) [] (Some [("a", (x + y, x, 1)); ("b", (y, y, y)); ("vehicle", (x + y + y, x + y, 1 + y))]))
    | _, _ => Raise TypeError
    end).
  Let D : dict (pval R) := [("w", PNum 2); ("l", PNum 10)].
  Example C100_meets : exists s' out, dvdp build 0 [] 5 (mkS [] [D] []) = (s', Ok out) /\
    exists rows, volmass_csv (o_volmass out) = Ok (NamedCsv ["w"; "l"] rows) /\
      nth_error rows 0 = Some ("a_mass", [Some 1; Some 1]) /\ nth_error rows 3 = Some ("b_mass", [Some 0; Some 1]) /\ nth_error rows 6 = Some ("vehicle_mass", [Some 1; Some 2]).
  Proof.
    eexists _, _. split.
    { unfold build, dvdp, perturb_all, perturb, sbind, sret, sraise, make, sdict, svec, adjust, scopy, sset. cbn -[Rplus Rmult Rdiv Rminus neqb nmul nadd nsub ndiv].
      repeat (match goal with |- context[neqb ?a ?b] => replace (neqb a b) with false by (symmetry; apply Reqb_false; numR; lra) end;
              cbn -[Rplus Rmult Rdiv Rminus neqb nmul nadd nsub ndiv]).
      reflexivity. }
    eexists. split; [reflexivity|]. cbn. repeat split; repeat (f_equal; try (numR; field)).
  Qed.
  (** the vehicle of the last parameter has the component "b" instead of "a":
      the figures of "a" are in the lines of "b" *)
  Example C100_own_names_meets :
    let t n : ntable R := [(n, (Some 1, Some 1, Some 1)); ("vehicle", (Some 1, Some 1, Some 1))] in
    exists c, volmass_csv [("w", t "a"); ("l", t "b")] = Ok c /\ ~ well_labelled [("w", t "a"); ("l", t "b")] c.
  Proof.
    intros t. destruct (volmass_csv ([("w", t "a")] ++ [("l", t "b")])%list) as [c|e] eqn:E; [|discriminate].
    exists c. split; [exact E|]. intros W. apply (C100_own_names_iff _ _ _ _ E) in W. inversion W as [|? ? H _]. discriminate.
  Qed.
  Example C100_totals_meets : let t x : vtable R := [("a", (x, x, 1)); ("b", (2, x, x)); ("vehicle", (x + 2, x + x, 1 + x))] in
    totalled (t 1) /\ totalled (t 3) /\ map fst (t 3) = map fst (t 1) /\ difference 2 (t 1) (t 3) (subtract_tables 2 (t 1) (t 3)).
  Proof.
    cbv zeta. assert (H : forall x : R, totalled [("a", (x, x, 1)); ("b", (2, x, x)); ("vehicle", (x + 2, x + x, 1 + x))]).
    { intros x. exists [("a", (x, x, 1)); ("b", (2, x, x))], (x + 2, x + x, 1 + x). split; [reflexivity|]. intros f; destruct f; cbn; ring. }
    split; [apply H|]. split; [apply H|]. split; [reflexivity|]. apply subtract_difference.
  Qed.
End Examples.

Print Assumptions C100_values.
Print Assumptions C100_arranged.
Print Assumptions C100_same_components.
Print Assumptions C100_own_names_iff.
Print Assumptions C100_totals.
Print Assumptions C100_analysed.
