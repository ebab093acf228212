(** Writing sensitivities to csv files and appending them to a mesh file
    (utilities.py 446-484 and 619-803): properties C64, C65, C81, C82, C83. *)
From Coq Require Import String Ascii Reals Lra List Lia Bool Arith ZArith.
From Verif Require Import Num NumR Py M_Vector SpecR3 M_Path M_Surface M_Mesh M_VecHeap M_Sens SpecSens SpecAppend L_Mesh L_Strings L_Append.
Import ListNotations.
Local Open Scope R_scope.

Lemma points_of_triples lines pts : points_of lines pts -> triples lines = pts /\ Forall (fun l => length l <= 3)%nat lines /\
  (pts <> [] -> Exists (fun l => length l = 3%nat) lines).
Proof.
  induction 1 as [|x y z ls ps H (A & B & C)|l ls ps Hl H (A & B & C)].
  - repeat split; [constructor|contradiction].
  - repeat split; [cbn; rewrite <- A; reflexivity|constructor; [cbn; lia|exact B]|intros _; left; reflexivity].
  - repeat split.
    + destruct l as [|a [|b [|c l]]]; cbn in *; try assumption; lia.
    + constructor; [lia|exact B].
    + intros Hp. right. apply C, Hp.
Qed.
Lemma points_read lines pts : points_of lines pts -> pts <> [] -> read_points lines = Ok (triples lines) /\ triples lines = pts.
Proof.
  intros H Hp. destruct (points_of_triples _ _ H) as (A & B & C). split; [|exact A]. apply read_points_ok. right. auto.
Qed.

Lemma close_iff tol a b : close tol a b = true <-> exists x, b = Some x /\ Rabs (a - x) < tol.
Proof.
  unfold close. destruct b as [x|].
  - change (nltb (nabs (nsub a x)) tol) with (Rltb (Rabs (a - x)) tol). rewrite Rltb_true. split.
    + intros H. exists x. auto.
    + intros (y & E & H). injection E as ->. exact H.
  - split; [discriminate|intros (x & ? & _); discriminate].
Qed.
Lemma row_match_iff tol p r : row_match tol p r = true <-> matches tol p r.
Proof.
  unfold row_match, matches. rewrite !andb_true_iff, !close_iff. split.
  - intros [[(x & Ex & Hx) (y & Ey & Hy)] (z & Ez & Hz)]. exists x, y, z. repeat split; assumption.
  - intros (x & y & z & Ex & Ey & Ez & Hx & Hy & Hz). repeat split; [exists x|exists y|exists z]; auto.
Qed.
Lemma row_match_false tol p r : row_match tol p r = false <-> ~ matches tol p r.
Proof. rewrite <- row_match_iff. destruct (row_match tol p r); split; intros; congruence. Qed.
Lemma round_off_spec rtol v : round_off rtol v = unless_small rtol v.
Proof.
  destruct v as [x|]; [|reflexivity]. unfold round_off, unless_small. change (nltb (nabs x) rtol) with (Rltb (Rabs x) rtol).
  unfold Rltb. destruct (Rlt_dec (Rabs x) rtol); reflexivity.
Qed.

Lemma remove_first_notin k l : ~ In k l -> remove_first k l = l.
Proof.
  induction l as [|a l IH]; intros H; [reflexivity|]. cbn. destruct (String.eqb_spec a k) as [->|_]; [exfalso; apply H; cbn; auto|].
  rewrite IH; [reflexivity|]. intros Q; apply H; cbn; auto.
Qed.
Lemma remove_first_in k l1 l2 : ~ In k l1 -> remove_first k (l1 ++ k :: l2) = (l1 ++ l2)%list.
Proof.
  induction l1 as [|a l IH]; intros H; cbn; [rewrite String.eqb_refl; reflexivity|].
  destruct (String.eqb_spec a k) as [->|_]; [exfalso; apply H; cbn; auto|]. rewrite IH; [reflexivity|]. intros Q; apply H; cbn; auto.
Qed.
Lemma without_remove k l l' : without_first k l l' -> remove_first k l = l'.
Proof. intros [[H ->]|(l1 & l2 & -> & H & ->)]; [apply remove_first_notin, H|apply remove_first_in, H]. Qed.

(** what a successful call consists of *)
Lemma append_ok read names names' lines rest tol rtol combined cols ts pts :
  without_first combined names names' -> Forall2 (fun n t => read n = Ok t) names' ts -> ts <> [] ->
  Forall (fun t => t_cols t = (coords ++ cols)%list) ts -> points_of lines pts -> pts <> [] ->
  exists els, append_sensitivities read names (EPoints lines :: rest) tol rtol combined =
    (names', Ok (mkApp (INR (length (filter is_match (map (data_of tol rtol cols ts) pts))) / INR (length pts))
                (combined, mkTable (coords ++ cols) (map (fun p => line_of cols (p, data_of tol rtol cols ts p)) pts))
                ((EPoints lines :: rest) ++ els))%list) /\
      mapM (fun p => let! ls := dlookup (param_data (parameters_of cols) (map (data_of tol rtol cols ts) pts)) p in
             Ok (EData (p ++ "_sens") ls)) (parameters_of cols) = Ok els.
Proof.
  intros W F2 Nt F HP Np. destruct (points_read _ _ HP Np) as [E1 E2].
  unfold append_sensitivities. rewrite (without_remove _ _ _ W), E1. rewrite <- E2 in *.
  destruct (run_append_ok read names' lines rest tol rtol combined cols ts Nt F2 F E1 Np) as (els & A & B).
  exists els. split; [|exact B]. rewrite A. cbn [ndiv nnat NumR]. rewrite !INR_IZR_INZ. reflexivity.
Qed.

Section Call.
  Variables (read : string -> res (table R)) (names names' : list string) (lines : list (list R)) (rest : list (element R))
    (tol rtol : R) (combined : string) (cols : list string) (ts : list (table R)) (pts : list pt).
  Hypothesis names_left : without_first combined names names'.
  Hypothesis files : Forall2 (fun n t => read n = Ok t) names' ts.
  Hypothesis some_file : ts <> [].
  Hypothesis headers : Forall (fun t => t_cols t = (coords ++ cols)%list) ts.
  Hypothesis points : points_of lines pts.
  Hypothesis some_point : pts <> [].
  Hypothesis cols_ok : forall c, In c cols -> ~ In c coords.

  Let rows := flat_map t_rows ts.
  Let run := append_sensitivities read names (EPoints lines :: rest) tol rtol combined.

  Lemma data_match p r : first_match tol p rows r ->
    data_of tol rtol cols ts p = Some (map (fun c => unless_small rtol (dget r c)) cols).
  Proof.
    intros (l1 & l2 & E & M & H). unfold data_of, point_data. fold rows. rewrite E.
    rewrite (find_first (row_match tol p) l1 r l2).
    - f_equal. apply map_ext. intros c. apply round_off_spec.
    - apply row_match_iff, M.
    - intros q Hq. apply row_match_false, H, Hq.
  Qed.
  Lemma data_none p : (forall r, In r rows -> ~ matches tol p r) -> data_of tol rtol cols ts p = None.
  Proof.
    intros H. unfold data_of, point_data. fold rows. destruct (find (row_match tol p) rows) as [r|] eqn:E; [|reflexivity].
    exfalso. apply find_some in E. destruct E as [Hr E]. apply (H r Hr), row_match_iff, E.
  Qed.
  Lemma match_dec p : (exists r, first_match tol p rows r) \/ (forall r, In r rows -> ~ matches tol p r).
  Proof.
    destruct (find (row_match tol p) rows) as [r|] eqn:E.
    - left. exists r. destruct (find_split _ _ _ E) as (l1 & l2 & A & B & C). exists l1, l2. split; [exact A|].
      split; [apply row_match_iff, B|]. intros q Hq. apply row_match_false, C, Hq.
    - right. intros r Hr. apply row_match_false. apply (find_none _ _ E r Hr).
  Qed.
  Lemma is_match_iff p : is_match (data_of tol rtol cols ts p) = true <-> exists r, In r rows /\ matches tol p r.
  Proof.
    destruct (match_dec p) as [[r H]|H].
    - rewrite (data_match p r H). split; [intros _|reflexivity]. destruct H as (l1 & l2 & E & M & _). exists r. split; [|exact M].
      rewrite E. apply in_elt.
    - rewrite (data_none p H). split; [discriminate|]. intros (r & Hr & M). exfalso. apply (H r Hr M).
  Qed.

  (** *** C64: the written table has one row per point, in order, with the
      data of the first matching row or zeros *)
  Theorem C64_data : exists a, run = (names', Ok a) /\ fst (a_csv a) = combined /\
    t_cols (snd (a_csv a)) = (coords ++ cols)%list /\
    Forall2 (fun p row =>
      (dget row "x" = Some (vx p) /\ dget row "y" = Some (vy p) /\ dget row "z" = Some (vz p)) /\
      forall c, In c cols ->
        (forall r, first_match tol p rows r -> dget row c = unless_small rtol (dget r c)) /\
        ((forall r, In r rows -> ~ matches tol p r) -> dget row c = Some 0))
      pts (t_rows (snd (a_csv a))).
  Proof.
    destruct (append_ok read names names' lines rest tol rtol combined cols ts pts names_left files some_file headers points some_point)
      as (els & E & _).
    eexists. split; [exact E|]. split; [reflexivity|]. split; [reflexivity|]. cbn [a_csv snd t_rows].
    assert (G : forall l, Forall2 (fun p row =>
      (dget row "x" = Some (vx p) /\ dget row "y" = Some (vy p) /\ dget row "z" = Some (vz p)) /\
      forall c, In c cols ->
        (forall r, first_match tol p rows r -> dget row c = unless_small rtol (dget r c)) /\
        ((forall r, In r rows -> ~ matches tol p r) -> dget row c = Some 0))
        l (map (fun p => line_of cols (p, data_of tol rtol cols ts p)) l)).
    { induction l as [|p l IH]; cbn [map]; constructor; [|exact IH]. split; [apply line_of_xyz|]. intros c Hc. split.
      - intros r Hr. rewrite (data_match p r Hr).
        apply (line_of_data cols p (fun c => unless_small rtol (dget r c)) c Hc (cols_ok c Hc)).
      - intros H. rewrite (data_none p H). apply (line_of_none (N := NumR) cols p c Hc (cols_ok c Hc)). }
    apply G.
  Qed.

  Lemma count_spec : exists bs, Forall2 (fun p b => b = true <-> exists r, In r rows /\ matches tol p r) pts bs /\
    length (filter is_match (map (data_of tol rtol cols ts) pts)) = count_occ Bool.bool_dec bs true.
  Proof.
    exists (map (fun p => is_match (data_of tol rtol cols ts p)) pts). clear points some_point.
    induction pts as [|p l [IH1 IH2]]; [split; [constructor|reflexivity]|]. cbn [map]. split.
    - constructor; [apply is_match_iff|exact IH1].
    - cbn [filter count_occ]. destruct (is_match (data_of tol rtol cols ts p)); cbn [length].
      + destruct (Bool.bool_dec true true); [|contradiction]. f_equal. exact IH2.
      + destruct (Bool.bool_dec false true); [discriminate|exact IH2].
  Qed.
  (** *** C64: the fraction returned is the number of matched points over the
      number of points; it lies between 0 and 1 and equals 1 (0) exactly when
      every (no) point is matched *)
  Theorem C64_fraction : exists a bs, run = (names', Ok a) /\
    Forall2 (fun p b => b = true <-> exists r, In r rows /\ matches tol p r) pts bs /\
    a_fraction a = INR (count_occ Bool.bool_dec bs true) / INR (length pts) /\
    0 <= a_fraction a <= 1 /\
    (a_fraction a = 1 <-> forall p, In p pts -> exists r, In r rows /\ matches tol p r) /\
    (a_fraction a = 0 <-> forall p r, In p pts -> In r rows -> ~ matches tol p r).
  Proof.
    destruct (append_ok read names names' lines rest tol rtol combined cols ts pts names_left files some_file headers points some_point)
      as (els & E & _).
    destruct count_spec as (bs & F & C). rewrite C in E. eexists; exists bs. split; [exact E|]. split; [exact F|].
    cbn [a_fraction]. split; [reflexivity|].
    assert (L : 0 < INR (length pts)) by (apply lt_0_INR; destruct pts; [contradiction|cbn; lia]).
    assert (Q : (count_occ Bool.bool_dec bs true <= length pts)%nat /\
      ((count_occ Bool.bool_dec bs true = length pts) <-> forall p, In p pts -> exists r, In r rows /\ matches tol p r) /\
      ((count_occ Bool.bool_dec bs true = 0)%nat <-> forall p r, In p pts -> In r rows -> ~ matches tol p r)).
    { clear - F. induction F as [|p b l bs H F (I1 & I2 & I3)].
      - cbn. repeat split; try lia; intros; contradiction.
      - cbn [count_occ length]. destruct (Bool.bool_dec b true) as [Hb|Hb].
        + split; [lia|]. split.
          * split.
            -- intros Q. injection Q as Q. intros q [<- |Hq]; [apply H, Hb|]. apply I2; assumption.
            -- intros Q. f_equal. apply I2. intros q Hq. apply Q. right. exact Hq.
          * split; [lia|]. intros Q. exfalso. destruct (proj1 H Hb) as (r & Hr & M). apply (Q p r); cbn; auto.
        + split; [lia|]. split.
          * split; [lia|]. intros Q. exfalso. apply Hb, H. apply Q. cbn; auto.
          * rewrite I3. split.
            -- intros Q q r [<- |Hq] Hr M; [apply Hb, H; eauto|apply (Q q r Hq Hr M)].
            -- intros Q q r Hq. apply Q. cbn; auto. }
    destruct Q as (Q1 & Q2 & Q3). apply le_INR in Q1.
    assert (P : 0 <= INR (count_occ Bool.bool_dec bs true)) by apply pos_INR.
    split; [split; [apply Rmult_le_pos; [exact P|left; apply Rinv_0_lt_compat, L]|apply Rmult_le_reg_r with (INR (length pts)); [exact L|]; field_simplify; lra]|].
    split.
    - rewrite <- Q2. split; intros H.
      + apply INR_eq. apply Rmult_eq_reg_r with (/ INR (length pts)); [|apply Rinv_neq_0_compat; lra].
        rewrite Rinv_r by lra. exact H.
      + rewrite H. field. lra.
    - rewrite <- Q3. split; intros H.
      + apply INR_eq. apply Rmult_eq_reg_r with (/ INR (length pts)); [|apply Rinv_neq_0_compat; lra].
        cbn [INR]. rewrite Rmult_0_l. exact H.
      + rewrite H. cbn. unfold Rdiv. ring.
  Qed.
End Call.

(** *** C64: the ways to fail *)
Theorem C64_errors (read : string -> res (table R)) names lines rest tol rtol combined :
  let run := append_sensitivities read names (EPoints lines :: rest) tol rtol combined in
  (* nothing to read in the point list *)
  (forall names' ts, without_first combined names names' -> Forall2 (fun n t => read n = Ok t) names' ts -> lines = [] ->
     run = (names', Raise ZeroDivisionError)) /\
  (* the widest line does not have three numbers *)
  (lines <> [] -> ~ (Forall (fun l => length l <= 3)%nat lines /\ Exists (fun l => length l = 3%nat) lines) ->
     run = (names, Raise ValueError)) /\
  (* points but no data file *)
  (forall pts, points_of lines pts -> pts <> [] -> without_first combined names [] -> run = ([], Raise KeyError)).
Proof.
  intros run. unfold run, append_sensitivities. repeat split.
  - intros names' ts W F ->. rewrite (without_remove _ _ _ W). cbn [read_points]. f_equal. unfold run_append, load.
    cbn [read_points bind]. rewrite (mapM_all _ _ _ F). reflexivity.
  - intros Ne H. rewrite (read_points_raise _ Ne H). unfold run_append. rewrite (read_points_raise _ Ne H). reflexivity.
  - intros pts HP Np W. destruct (points_read _ _ HP Np) as [E1 E2]. rewrite (without_remove _ _ _ W), E1. f_equal.
    unfold run_append, load. rewrite E1. cbn [bind mapM fold_left]. rewrite E2. destruct pts; [contradiction|]. reflexivity.
Qed.

(** *** C65: the caller's list loses the first occurrence of the combined file
    name as soon as the points can be read, whatever happens next *)
Theorem C65_list (read : string -> res (table R)) names names' lines pts rest tol rtol combined :
  points_of lines pts -> pts <> [] -> without_first combined names names' ->
  fst (append_sensitivities read names (EPoints lines :: rest) tol rtol combined) = names'.
Proof.
  intros HP Np W. destruct (points_read _ _ HP Np) as [E1 _]. unfold append_sensitivities.
  rewrite (without_remove _ _ _ W), E1. reflexivity.
Qed.

Section Elements.
  Variables (read : string -> res (table R)) (names names' : list string) (lines : list (list R)) (rest : list (element R))
    (tol rtol : R) (combined : string) (params : list string) (ts : list (table R)) (pts : list pt).
  Hypothesis names_left : without_first combined names names'.
  Hypothesis files : Forall2 (fun n t => read n = Ok t) names' ts.
  Hypothesis some_file : ts <> [].
  Hypothesis headers : Forall (fun t => t_cols t = (coords ++ flat_map derivative_cols params)%list) ts.
  Hypothesis points : points_of lines pts.
  Hypothesis some_point : pts <> [].

  Let run := append_sensitivities read names (EPoints lines :: rest) tol rtol combined.
  Let cols := flat_map derivative_cols params.

  Lemma cols_ok c : In c cols -> ~ In c coords.
  Proof.
    unfold cols. rewrite in_flat_map. intros (p & _ & H) Q.
    destruct H as [<- |[<- |[<- |[]]]]; destruct Q as [Q|[Q|[Q|[]]]]; discriminate.
  Qed.
  Let tags := map (fun p => last_piece p p) params.
  Lemma tags_eq : parameters_of cols = tags.
  Proof. apply parameters_of_sens. Qed.
  Lemma tags_spec : Forall2 (fun p q => ~ occurs "dxd" q /\ (exists u, "dxd" ++ p = u ++ "dxd" ++ q)%string /\ (q = p <-> ~ occurs "dxd" p)) params tags.
  Proof.
    unfold tags. clear. induction params as [|p l IH]; cbn [map]; constructor; [|exact IH].
    destruct (name_of p) as [[A B] C]. auto.
  Qed.
  Lemma run_els : exists els a, run = (names', Ok a) /\ a_piece a = ((EPoints lines :: rest) ++ els)%list /\
    t_rows (snd (a_csv a)) = map (fun p => line_of cols (p, data_of tol rtol cols ts p)) pts /\
    Forall2 (fun q e => exists ls, dlookup (param_data tags (map (data_of tol rtol cols ts) pts)) q = Ok ls /\ e = EData (q ++ "_sens") ls) tags els.
  Proof.
    destruct (append_ok read names names' lines rest tol rtol combined cols ts pts names_left files some_file headers points some_point)
      as (els & E & M). rewrite tags_eq in M.
    eexists; eexists. split; [exact E|]. split; [reflexivity|]. split; [reflexivity|].
    apply mapM_inv in M. clear E.
    assert (K : forall l els, Forall2 (fun a b => (let! ls := dlookup (param_data tags (map (data_of tol rtol cols ts) pts)) a in Ok (EData (a ++ "_sens") ls)) = Ok b) l els ->
       Forall2 (fun q e => exists ls, dlookup (param_data tags (map (data_of tol rtol cols ts) pts)) q = Ok ls /\ e = EData (q ++ "_sens") ls) l els).
    { induction 1 as [|q e l' es H _ IH]; constructor; [|exact IH].
      destruct (dlookup (param_data tags (map (data_of tol rtol cols ts) pts)) q) as [ls|x]; [|discriminate].
      cbn in H. injection H as <-. eauto. }
    apply K, M.
  Qed.

  (** *** C65: one element is added per parameter; its name is what follows the
      last "dxd" of the column name, which is the parameter's name exactly when
      that does not contain "dxd"; elements of parameters with the same tag are
      equal (the data of all but the first of them is lost) *)
  Theorem C65_names : exists qs els a, run = (names', Ok a) /\ a_piece a = ((EPoints lines :: rest) ++ els)%list /\
    Forall2 (fun p q => (exists u, "dxd" ++ p = u ++ "dxd" ++ q)%string /\ ~ occurs "dxd" q /\ (q = p <-> ~ occurs "dxd" p)) params qs /\
    Forall2 (fun q e => exists ls, e = EData (q ++ "_sens") ls) qs els /\
    (forall i j q, nth_error qs i = Some q -> nth_error qs j = Some q -> nth_error els i = nth_error els j).
  Proof.
    destruct run_els as (els & a & E & P & _ & F). exists tags, els, a. split; [exact E|]. split; [exact P|].
    split; [eapply Forall2_weaken; [|exact tags_spec]; intros ? ? (?&?&?); auto|].
    split; [eapply Forall2_weaken; [|exact F]; intros ? ? (?&?&?); eauto|]. intros i j q Hi Hj.
    destruct (Forall2_nth_error_l _ _ _ F _ _ Hi) as (e1 & H1 & ls1 & D1 & ->).
    destruct (Forall2_nth_error_l _ _ _ F _ _ Hj) as (e2 & H2 & ls2 & D2 & ->). congruence.
  Qed.

  Lemma nth_derivs (f : string -> option R) k p j : nth_error params k = Some p -> (j < 3)%nat ->
    nth (j + 3 * k) (map f cols) None = f (nth j (derivative_cols p) ""%string).
  Proof.
    unfold cols. intros Hk Hj. clear -Hk Hj. revert params Hk. induction k as [|k IH]; intros l Hk; (destruct l as [|a l]; [discriminate|]).
    - injection Hk as ->. cbn [flat_map]. rewrite Nat.mul_0_r, Nat.add_0_r.
      destruct j as [|[|[|j]]]; [reflexivity..|lia].
    - cbn [flat_map]. replace (j + 3 * S k)%nat with (3 + (j + 3 * k))%nat by lia. rewrite map_app.
      cbn [derivative_cols map app nth Nat.add]. apply IH. exact Hk.
  Qed.

  (** *** C81: with distinct parameter names none of which contains "dxd", the
      file keeps everything it had and gains, per parameter and in order, one
      element whose lines are that parameter's three columns of the table *)
  Theorem C81_elements : NoDup params -> (forall p, In p params -> ~ occurs "dxd" p) ->
    exists els a, run = (names', Ok a) /\ a_piece a = ((EPoints lines :: rest) ++ els)%list /\
    Forall2 (fun p e => exists ls, e = EData (p ++ "_sens") ls /\
      Forall2 (fun row l => l = map (dget row) (derivative_cols p)) (t_rows (snd (a_csv a))) ls) params els.
  Proof.
    intros Nd Hp.
    assert (Et : tags = params).
    { pose proof tags_spec as F. clear -F Hp. revert F Hp. generalize tags. induction params as [|p l IH]; intros t F Hp; inversion F; subst; [reflexivity|].
      f_equal; [destruct H1 as (_ & _ & ->); apply Hp; cbn; auto|]. apply IH; [assumption|intros; apply Hp; cbn; auto]. }
    destruct run_els as (els & a & E & P & Rw & F). rewrite Et in F. exists els, a. split; [exact E|]. split; [exact P|]. rewrite Rw.
    assert (K : forall k p e, nth_error params k = Some p -> nth_error els k = Some e -> exists ls, e = EData (p ++ "_sens") ls /\
      Forall2 (fun row l => l = map (dget row) (derivative_cols p)) (map (fun p => line_of cols (p, data_of tol rtol cols ts p)) pts) ls).
    { intros k p e Hk He. destruct (Forall2_nth_error_l _ _ _ F _ _ Hk) as (e' & He' & ls & D & ->). rewrite He in He'. injection He' as ->.
      exists ls. split; [reflexivity|]. rewrite (param_data_at params _ k p Nd Hk) in D. injection D as <-.
      clear -Hk. induction pts as [|v l IH]; cbn [map]; constructor; [|exact IH].
      assert (Hc : forall c, In c (derivative_cols p) -> In c cols) by (intros c Hc; apply in_flat_map; eauto using nth_error_In).
      destruct (data_of tol rtol cols ts v) as [d|] eqn:Ed.
      - assert (Ef : exists f, d = map f cols).
        { unfold data_of, point_data in Ed. destruct (find _ _); [|discriminate]. injection Ed as <-. eauto. }
        destruct Ef as [f ->]. cbn [data_line map]. rewrite !(nth_derivs f k p) by (assumption || lia).
        cbn [derivative_cols nth map].
        rewrite !(line_of_data cols v f) by (first [apply Hc; cbn; auto; fail | apply cols_ok, Hc; cbn; auto]). reflexivity.
      - cbn [data_line derivative_cols map].
        rewrite !(line_of_none (N := NumR) cols v) by (first [apply Hc; cbn; auto; fail | apply cols_ok, Hc; cbn; auto]). reflexivity. }
    apply Forall2_nth_intro; [|exact K]. eapply Forall2_same_length, F.
  Qed.

  (** *** C81: a second run on the file written by the first gives the same
      fraction and table and adds all its elements once more *)
  Theorem C81_again : exists els a b, run = (names', Ok a) /\ a_piece a = ((EPoints lines :: rest) ++ els)%list /\
    length els = length params /\
    (~ In combined names' -> append_sensitivities read names' (a_piece a) tol rtol combined = (names', Ok b)) /\
    a_fraction b = a_fraction a /\ a_csv b = a_csv a /\ a_piece b = (a_piece a ++ els)%list.
  Proof.
    destruct (append_ok read names names' lines rest tol rtol combined cols ts pts names_left files some_file headers points some_point)
      as (els & E & M).
    exists els. eexists. eexists. split; [exact E|]. split; [reflexivity|]. split.
    { pose proof (Forall2_same_length _ _ _ (mapM_inv _ _ _ M)) as L. rewrite tags_eq in L. unfold tags in L. rewrite map_length in L. auto. }
    split.
    - intros Hn. cbn [a_piece app].
      destruct (append_ok read names' names' lines (rest ++ els) tol rtol combined cols ts pts (or_introl (conj Hn eq_refl)) files some_file headers points some_point)
        as (els' & E' & M'). rewrite M in M'. injection M' as <-. exact E'.
    - repeat split.
  Qed.
End Elements.

(** writing the csv files *)
Lemma to_csv_eq params fn d ws : to_csv (T := R) params fn (Some d) = Ok ws ->
  ws = (map (fun kv => (fst kv ++ "_sensitivity.csv", csv_table params (snd kv))%string) d ++
        [(fn, fold_left concat_tables (map (fun kv => csv_table params (snd kv)) d) no_table)])%list.
Proof. unfold to_csv. intros [= <-]. rewrite map_map. reflexivity. Qed.
Lemma find_map_key {A B} (f : A -> string) (g : A -> B) (l : list A) a : NoDup (map f l) -> In a l ->
  find (fun w => String.eqb (fst w) (f a)) (rev (map (fun x => (f x, g x)) l)) = Some (f a, g a).
Proof.
  intros Nd H. rewrite <- map_rev. apply in_rev in H. rewrite <- (rev_involutive l), map_rev in Nd. apply NoDup_rev in Nd.
  rewrite rev_involutive in Nd. revert Nd H. generalize (rev l). clear l. induction l as [|b l IH]; intros Nd H; [destruct H|].
  cbn [map find fst]. inversion Nd; subst. destruct H as [->|H]; [rewrite String.eqb_refl; reflexivity|].
  destruct (String.eqb_spec (f b) (f a)) as [E|_]; [exfalso; apply H2; rewrite E; apply in_map, H|]. apply IH; assumption.
Qed.
Lemma file_component params fn d ws k rows : NoDup (map fst d) -> In (k, rows) d -> to_csv (T := R) params fn (Some d) = Ok ws ->
  file ws (k ++ "_sensitivity.csv") = if String.eqb fn (k ++ "_sensitivity.csv")
    then Ok (fold_left concat_tables (map (fun kv => csv_table params (snd kv)) d) no_table) else Ok (csv_table params rows).
Proof.
  intros Nd H E. rewrite (to_csv_eq _ _ _ _ E). unfold file. rewrite rev_app_distr. cbn [rev app find fst].
  destruct (String.eqb fn (k ++ "_sensitivity.csv")); [reflexivity|].
  pose proof (find_map_key (fun kv : string * list (crow R) => (fst kv ++ "_sensitivity.csv")%string) (fun kv => csv_table params (snd kv)) d (k, rows)) as Q.
  cbn [fst snd] in Q. rewrite Q.
  - reflexivity.
  - rewrite <- (map_map fst (fun s => (s ++ "_sensitivity.csv")%string)). apply FinFun.Injective_map_NoDup; [|exact Nd].
    intros a b. apply app_inj_r.
  - exact H.
Qed.

(** *** C83: the file of a component can be read back unless its name is that
    of the combined file, in which case it holds the rows of all components *)
Theorem C83_files params fn d ws k rows : NoDup (map fst d) -> In (k, rows) d -> to_csv (T := R) params fn (Some d) = Ok ws ->
  let f := (k ++ "_sensitivity.csv")%string in
  (fn <> f -> exists t, file ws f = Ok t /\ t_cols t = (coords ++ flat_map derivative_cols params)%list /\ length (t_rows t) = length rows) /\
  (fn = f -> exists t, file ws f = Ok t /\ length (t_rows t) = list_sum (map (fun kv => length (snd kv)) d)).
Proof.
  intros Nd H E f. pose proof (file_component _ _ _ _ _ _ Nd H E) as Q. fold f in Q. split; intros Hf.
  - destruct (String.eqb_spec fn f) as [->|_]; [contradiction|]. rewrite Q. eexists. split; [reflexivity|]. split; [reflexivity|].
    cbn. apply map_length.
  - subst fn. rewrite String.eqb_refl in Q. rewrite Q. eexists. split; [reflexivity|].
    rewrite (concat_all (coords ++ flat_map derivative_cols params)%list).
    + cbn [t_rows]. clear. induction d as [|kv d IH]; [reflexivity|]. cbn [map flat_map list_sum fold_right]. rewrite app_length, IH.
      cbn. rewrite map_length. reflexivity.
    + destruct d; [destruct H|discriminate].
    + apply Forall_forall. intros t Ht. apply in_map_iff in Ht. destruct Ht as (? & <- & _). reflexivity.
Qed.

Lemma dget_app {A} (a b : dict A) k : dget (a ++ b)%list k = match dget a k with Some v => Some v | None => dget b k end.
Proof. induction a as [|[x v] a IH]; [reflexivity|]. cbn. destruct (String.eqb k x); [reflexivity|exact IH]. Qed.
Lemma dget_dmap {A B} (g : A -> B) (d : dict A) k : dget (dmap g d) k = option_map g (dget d k).
Proof. induction d as [|[x v] d IH]; [reflexivity|]. cbn. destruct (String.eqb k x); [reflexivity|exact IH]. Qed.
Lemma deriv_inj p q a b : In a (derivative_cols p) -> In b (derivative_cols q) -> a = b -> p = q.
Proof. intros [<- |[<- |[<- |[]]]] [<- |[<- |[<- |[]]]]; intros E; cbn in E; congruence. Qed.
Lemma crow_loc params r v : c_loc (T := R) r = Some v ->
  dget (crow_cells params r) "x" = Some (vx v) /\ dget (crow_cells params r) "y" = Some (vy v) /\ dget (crow_cells params r) "z" = Some (vz v).
Proof. intros E. unfold crow_cells. rewrite E. repeat split. Qed.
Lemma crow_sens params r k p s : NoDup params -> nth_error params k = Some p -> nth_error (c_sens (T := R) r) k = Some (Some s) ->
  dget (crow_cells params r) ("dxd" ++ p) = Some (vx s) /\ dget (crow_cells params r) ("dyd" ++ p) = Some (vy s) /\
  dget (crow_cells params r) ("dzd" ++ p) = Some (vz s).
Proof.
  intros Nd Hp Hs. unfold crow_cells.
  assert (G : forall ps ss k, NoDup ps -> nth_error ps k = Some p -> nth_error ss k = Some (Some s) ->
    let D := flat_map (fun pv => cells (T := R) (sens_cols (fst pv)) (snd pv)) (combine ps ss) in
    dget D ("dxd" ++ p) = Some (vx s) /\ dget D ("dyd" ++ p) = Some (vy s) /\ dget D ("dzd" ++ p) = Some (vz s)).
  { clear. induction ps as [|q ps IH]; intros ss k Nd Hp Hs; [destruct k; discriminate|].
    destruct ss as [|o ss]; [destruct k; discriminate|]. inversion Nd; subst. destruct k as [|k].
    - injection Hp as ->. injection Hs as ->. cbn -[String.eqb]. cbn [String.append]. rewrite !String.eqb_refl. repeat split.
    - cbn in Hp, Hs. destruct (IH ss k H2 Hp Hs) as (A & B & C). cbv zeta. cbn [combine flat_map fst snd]. rewrite !dget_app, A, B, C.
      assert (Ne : forall a b, In a (derivative_cols p) -> In b (derivative_cols q) -> String.eqb a b = false).
      { intros a b Ha Hb. apply String.eqb_neq. intros E. assert (p = q) by (eapply deriv_inj; eassumption). subst q.
        apply H1. eauto using nth_error_In. }
      assert (Z : forall c, In c (derivative_cols p) -> dget (cells (T := R) (sens_cols q) o) c = None).
      { intros c Hc. destruct o as [o|]; [|reflexivity]. cbn [cells sens_cols dget].
        rewrite !(Ne c) by (assumption || (cbn; auto)). reflexivity. }
      rewrite !Z by (cbn; auto). auto. }
  assert (X : forall c, In c (derivative_cols p) -> dget (cells xyz (c_loc r)) c = None).
  { intros c Hc. destruct (c_loc r) as [v|]; [|reflexivity]. destruct Hc as [<- |[<- |[<- |[]]]]; reflexivity. }
  rewrite !dget_app, !X by (cbn; auto). apply (G params (c_sens r) k Nd Hp Hs).
Qed.

(** *** C82: files written by to_csv and read back (up to a rounding g of the
    numbers by at most eps) give every point its own sensitivities, provided the
    rows near a point carry the same sensitivities *)
Theorem C82_round_trip params fn d ws combined (g : R -> R) eps tol rtol lines pts rest :
  to_csv params fn (Some d) = Ok ws -> NoDup (map fst d) -> d <> [] -> NoDup params ->
  (* the component files are distinct from the combined ones *)
  (forall k, In k (map fst d) -> fn <> (k ++ "_sensitivity.csv")%string /\ combined <> (k ++ "_sensitivity.csv")%string) ->
  (* no row lacks its position *)
  (forall k rows r, In (k, rows) d -> In r rows -> c_loc r <> None) ->
  (forall x, Rabs (g x - x) <= eps) ->
  points_of lines pts -> pts <> [] ->
  (* every point comes from a row, and rows it could be mistaken for agree *)
  (forall p, In p pts -> exists k rows r v, In (k, rows) d /\ In r rows /\ c_loc r = Some v /\ within_tol (tol - eps) p v /\
     forall k' rows' r' v', In (k', rows') d -> In r' rows' -> c_loc r' = Some v' -> within_tol (tol + eps) p v' -> c_sens r' = c_sens r) ->
  let names := map (fun kv => fst kv ++ "_sensitivity.csv")%string d in
  let read n := let! t := file ws n in Ok (mkTable (t_cols t) (map (dmap g) (t_rows t))) in
  exists a, append_sensitivities read names (EPoints lines :: rest) tol rtol combined = (names, Ok a) /\ a_fraction a = 1 /\
    Forall2 (fun p row => (dget row "x" = Some (vx p) /\ dget row "y" = Some (vy p) /\ dget row "z" = Some (vz p)) /\
      forall k rows r v j q s, In (k, rows) d -> In r rows -> c_loc r = Some v -> within_tol (tol - eps) p v ->
        nth_error params j = Some q -> nth_error (c_sens r) j = Some (Some s) ->
        dget row ("dxd" ++ q) = unless_small rtol (Some (g (vx s))) /\
        dget row ("dyd" ++ q) = unless_small rtol (Some (g (vy s))) /\
        dget row ("dzd" ++ q) = unless_small rtol (Some (g (vz s)))) pts (t_rows (snd (a_csv a))).
Proof.
  intros E Nd Ned Np Hfn Hfull Hg HP Nep Hpts names read.
  set (ts := map (fun kv => mkTable (coords ++ flat_map derivative_cols params)%list (map (dmap g) (map (crow_cells params) (snd kv)))) d).
  assert (W : without_first combined names names).
  { left. split; [|reflexivity]. unfold names. rewrite in_map_iff. intros ([k rows] & Q & Hk). apply (proj2 (Hfn k ltac:(apply (in_map fst) in Hk; exact Hk))).
    symmetry. exact Q. }
  assert (F : Forall2 (fun n t => read n = Ok t) names ts).
  { unfold names, ts.
    assert (G : forall l, (forall kv, In kv l -> In kv d) -> Forall2 (fun n t => read n = Ok t) (map (fun kv => fst kv ++ "_sensitivity.csv")%string l)
      (map (fun kv => mkTable (coords ++ flat_map derivative_cols params)%list (map (dmap g) (map (crow_cells params) (snd kv)))) l)).
    { induction l as [|[k rows] l IH]; intros Hl; cbn [map]; constructor.
      - unfold read. cbn [fst snd]. rewrite (file_component _ _ _ _ k rows Nd ltac:(apply Hl; cbn; auto) E).
        destruct (String.eqb_spec fn (k ++ "_sensitivity.csv")) as [Q|_].
        + exfalso. refine (proj1 (Hfn k _) Q). apply (in_map fst d (k, rows)). apply Hl. cbn; auto.
        + reflexivity.
      - apply IH. intros; apply Hl; cbn; auto. }
    apply G. auto. }
  assert (Nt : ts <> []) by (unfold ts; destruct d; [contradiction|discriminate]).
  assert (Hh : Forall (fun t => t_cols t = (coords ++ flat_map derivative_cols params)%list) ts).
  { unfold ts. apply Forall_forall. intros t Ht. apply in_map_iff in Ht. destruct Ht as (? & <- & _). reflexivity. }
  assert (Rin : forall row, In row (flat_map t_rows ts) <-> exists k rows r, In (k, rows) d /\ In r rows /\ row = dmap g (crow_cells params r)).
  { intros row. rewrite in_flat_map. split.
    - intros (t & Ht & Hr). unfold ts in Ht. apply in_map_iff in Ht. destruct Ht as ([k rows] & <- & Hk). cbn in Hr. rewrite map_map in Hr.
      apply in_map_iff in Hr. destruct Hr as (r & <- & Hr). exists k, rows, r. auto.
    - intros (k & rows & r & Hk & Hr & ->). exists (mkTable (coords ++ flat_map derivative_cols params)%list (map (dmap g) (map (crow_cells params) rows))).
      split; [unfold ts; apply in_map_iff; exists (k, rows); auto|]. cbn. rewrite map_map. apply in_map_iff. exists r. auto. }
  assert (Near : forall p k rows r v, In (k, rows) d -> In r rows -> c_loc r = Some v ->
     (within_tol (tol - eps) p v -> matches tol p (dmap g (crow_cells params r))) /\
     (matches tol p (dmap g (crow_cells params r)) -> within_tol (tol + eps) p v)).
  { intros p k rows r v Hk Hr Hv. destruct (crow_loc params r v Hv) as (Ex & Ey & Ez).
    pose proof (Hg (vx v)) as Gx. pose proof (Hg (vy v)) as Gy. pose proof (Hg (vz v)) as Gz. split.
    - intros (Wx & Wy & Wz). exists (g (vx v)), (g (vy v)), (g (vz v)). rewrite !dget_dmap, Ex, Ey, Ez. repeat split; cbn [vx vy vz].
      all: unfold Rabs in *; repeat destruct Rcase_abs in *; lra.
    - intros (x & y & z & Qx & Qy & Qz & Wx & Wy & Wz). rewrite dget_dmap in Qx, Qy, Qz. rewrite Ex in Qx. rewrite Ey in Qy. rewrite Ez in Qz.
      injection Qx as <-. injection Qy as <-. injection Qz as <-. cbn [vx vy vz] in *.
      repeat split; unfold Rabs in *; repeat destruct Rcase_abs in *; lra. }
  pose proof (C64_data read names names lines rest tol rtol combined (flat_map derivative_cols params) ts pts W F Nt Hh HP Nep (cols_ok params))
    as (a & Ea & _ & _ & Fa).
  pose proof (C64_fraction read names names lines rest tol rtol combined (flat_map derivative_cols params) ts pts W F Nt Hh HP Nep)
    as (a' & bs & Ea' & _ & _ & _ & One & _).
  rewrite Ea in Ea'. injection Ea' as <-. exists a. split; [exact Ea|]. split.
  - apply One. intros p Hp. destruct (Hpts p Hp) as (k & rows & r & v & Hk & Hr & Hv & Hw & _).
    exists (dmap g (crow_cells params r)). split; [apply Rin; eauto 6|]. apply (Near p k rows r v); assumption.
  - assert (Fp : forall l rows, Forall2 (fun p row =>
      (dget row "x" = Some (vx p) /\ dget row "y" = Some (vy p) /\ dget row "z" = Some (vz p)) /\
      forall c, In c (flat_map derivative_cols params) ->
        (forall r, first_match tol p (flat_map t_rows ts) r -> dget row c = unless_small rtol (dget r c)) /\
        ((forall r, In r (flat_map t_rows ts) -> ~ matches tol p r) -> dget row c = Some 0)) l rows ->
      (forall p, In p l -> In p pts) -> Forall2 (fun p row => In p pts /\ (dget row "x" = Some (vx p) /\ dget row "y" = Some (vy p) /\ dget row "z" = Some (vz p)) /\
      forall c, In c (flat_map derivative_cols params) -> forall r, first_match tol p (flat_map t_rows ts) r -> dget row c = unless_small rtol (dget r c)) l rows).
    { induction 1 as [|p row l rows H _ IH]; intros Hl; constructor.
      - destruct H as [H1 H2]. split; [apply Hl; cbn; auto|]. split; [exact H1|]. intros c Hc. apply H2, Hc.
      - apply IH. intros; apply Hl; cbn; auto. }
    specialize (Fp _ _ Fa (fun _ H => H)). eapply Forall2_weaken; [|exact Fp]. clear Fa Fp.
    intros p row (Hp & Hxyz & Hd). split; [exact Hxyz|]. intros k rows r v j q s Hk Hr Hv Hw Hj Hs.
    destruct (match_dec tol ts p) as [[r0 H0]|H0].
    2:{ exfalso. apply (H0 (dmap g (crow_cells params r))); [apply Rin; eauto 6|]. apply (Near p k rows r v); assumption. }
    assert (In0 : In r0 (flat_map t_rows ts) /\ matches tol p r0).
    { destruct H0 as (l1 & l2 & -> & M & _). split; [apply in_elt|exact M]. }
    destruct In0 as [I0 M0]. apply Rin in I0. destruct I0 as (k1 & rows1 & r1 & Hk1 & Hr1 & ->).
    pose proof (Hfull k1 rows1 r1 Hk1 Hr1) as Hl1. destruct (c_loc r1) as [v1|] eqn:Ev1; [|contradiction].
    apply (Near p k1 rows1 r1 v1 Hk1 Hr1 Ev1) in M0.
    destruct (Hpts p Hp) as (k2 & rows2 & r2 & v2 & Hk2 & Hr2 & Hv2 & Hw2 & Agree).
    assert (E1 : c_sens r1 = c_sens r2) by (apply (Agree k1 rows1 r1 v1); assumption).
    assert (E2 : c_sens r = c_sens r2).
    { apply (Agree k rows r v); try assumption. pose proof (Hg 0) as G0. pose proof (Rabs_pos (g 0 - 0)).
      destruct Hw as (? & ? & ?). repeat split; lra. }
    rewrite E2, <- E1 in Hs. destruct (crow_sens params r1 j q s Np Hj Hs) as (Ax & Ay & Az).
    assert (Hc : forall c, In c (derivative_cols q) -> dget row c = unless_small rtol (option_map g (dget (crow_cells params r1) c))).
    { intros c Hc. rewrite (Hd c) with (r := dmap g (crow_cells params r1)).
      - rewrite dget_dmap. reflexivity.
      - apply in_flat_map. exists q. split; [eapply nth_error_In, Hj|exact Hc].
      - exact H0. }
    rewrite !Hc by (cbn; auto). cbn [derivative_cols] in *. rewrite Ax, Ay, Az. repeat split.
Qed.

(** a file with two rows for one parameter and a mesh of two points, the first
    of which is near the second row *)
Definition ex_table : table R :=
  mkTable (coords ++ flat_map derivative_cols ["span"%string])
    [[("x", 5); ("y", 5); ("z", 5); ("dxdspan", 7); ("dydspan", 8); ("dzdspan", 9)]%string;
     [("x", 0); ("y", 1); ("z", 0); ("dxdspan", 2); ("dydspan", 3); ("dzdspan", 1 / 100)]%string].
Definition ex_read (n : string) : res (table R) := if String.eqb n "wing_sensitivity.csv" then Ok ex_table else Raise GenericError.
Definition ex_names := ["wing_sensitivity.csv"; "all_components_sensitivity.csv"]%string.
Definition ex_lines : list (list R) := [[]; [1 / 4; 1; 0]; [3; 3; 3]].

Lemma ex_first : first_match (1 / 2) (V3 (1 / 4) 1 0) (flat_map t_rows [ex_table])
  [("x", 0); ("y", 1); ("z", 0); ("dxdspan", 2); ("dydspan", 3); ("dzdspan", 1 / 100)]%string.
Proof.
  eexists [_], []. split; [reflexivity|]. split.
  - exists 0, 1, 0. repeat split; cbn; unfold Rabs; destruct Rcase_abs; lra.
  - intros q [<- |[]] (x & y & z & Ex & _ & _ & Hx & _). cbn in Ex. injection Ex as <-. cbn in Hx.
    unfold Rabs in Hx. destruct Rcase_abs in Hx; lra.
Qed.
Lemma ex_none : forall r, In r (flat_map t_rows [ex_table]) -> ~ matches (1 / 2) (V3 3 3 3) r.
Proof.
  intros r [<- |[<- |[]]] (x & y & z & Ex & _ & _ & Hx & _); cbn in Ex; injection Ex as <-; cbn in Hx;
    unfold Rabs in Hx; destruct Rcase_abs in Hx; lra.
Qed.
Lemma ex_points : points_of ex_lines [V3 (1 / 4) 1 0; V3 3 3 3].
Proof. unfold ex_lines. repeat constructor. Qed.
Lemma ex_without : without_first "all_components_sensitivity.csv" ex_names ["wing_sensitivity.csv"%string].
Proof.
  right. exists ["wing_sensitivity.csv"%string], []. repeat split. intros [Q|[]]. discriminate.
Qed.

Example C64_meets : exists a r1 r2,
  append_sensitivities ex_read ex_names [EPoints ex_lines] (1 / 2) (1 / 10) "all_components_sensitivity.csv" =
    (["wing_sensitivity.csv"%string], Ok a) /\ a_fraction a = 1 / 2 /\ t_rows (snd (a_csv a)) = [r1; r2] /\
  dget r1 "x" = Some (1 / 4) /\ dget r1 "dxdspan" = Some 2 /\ dget r1 "dzdspan" = Some 0 /\
  dget r2 "x" = Some 3 /\ dget r2 "dxdspan" = Some 0.
Proof.
  assert (F : Forall2 (fun n t => ex_read n = Ok t) ["wing_sensitivity.csv"%string] [ex_table]) by (repeat constructor).
  assert (H : Forall (fun t => t_cols t = (coords ++ flat_map derivative_cols ["span"%string])%list) [ex_table]) by (repeat constructor).
  destruct (C64_data ex_read ex_names _ ex_lines [] (1 / 2) (1 / 10) _ _ [ex_table] _ ex_without F ltac:(discriminate) H ex_points ltac:(discriminate)
    (cols_ok ["span"%string])) as (a & E & _ & _ & D).
  destruct (C64_fraction ex_read ex_names _ ex_lines [] (1 / 2) (1 / 10) _ _ [ex_table] _ ex_without F ltac:(discriminate) H ex_points ltac:(discriminate))
    as (a' & bs & E' & B & Q & _).
  rewrite E in E'. injection E' as <-. exists a.
  destruct (Forall2_two _ _ _ _ D) as (r1 & r2 & Er & [X1 Y1] & [X2 Y2]).
  destruct (Forall2_two _ _ _ _ B) as (b1 & b2 & -> & B1 & B2).
  exists r1, r2. split; [exact E|]. split.
  - rewrite Q.
    assert (b1 = true). { apply B1. eexists. split; [|destruct ex_first as (? & ? & _ & M & _); exact M]. cbn; auto. }
    assert (b2 = false). { destruct b2; [|reflexivity]. destruct (proj1 B2 eq_refl) as (r & Hr & M). exfalso. apply (ex_none r Hr M). }
    subst. cbn. lra.
  - assert (Hx : In "dxdspan"%string (flat_map derivative_cols ["span"%string])) by (cbn; auto).
    assert (Hz : In "dzdspan"%string (flat_map derivative_cols ["span"%string])) by (cbn; auto).
    split; [exact Er|]. split; [apply X1|].
    rewrite (proj1 (Y1 _ Hx) _ ex_first), (proj1 (Y1 _ Hz) _ ex_first), (proj2 (Y2 _ Hx) ex_none).
    cbn [dget String.eqb unless_small]. split; [|split; [|split; [apply X2|reflexivity]]].
    + cbn. destruct Rlt_dec as [H0|_]; [|reflexivity]. exfalso. unfold Rabs in H0. destruct Rcase_abs in H0; lra.
    + cbn. destruct Rlt_dec as [_|H0]; [reflexivity|]. exfalso. apply H0. unfold Rabs. destruct Rcase_abs; lra.
Qed.

(** two parameters, the second of which contains "dxd": both elements are
    called a_sens and hold the data of the first *)
Example C65_meets : exists a ls,
  let t := mkTable (coords ++ flat_map derivative_cols ["a"; "bdxda"]%string)
    [[("x", 0); ("y", 0); ("z", 0); ("dxda", 1); ("dyda", 1); ("dzda", 1); ("dxdbdxda", 2); ("dydbdxda", 2); ("dzdbdxda", 2)]%string] in
  append_sensitivities (fun _ => Ok t) ["f"%string] [EPoints [[0; 0; 0]]] 1 0 "g" = (["f"%string], Ok a) /\
  a_piece a = [EPoints [[0; 0; 0]]; EData "a_sens" ls; EData "a_sens" ls] /\ occurs "dxd" "bdxda".
Proof.
  set (t := mkTable (coords ++ flat_map derivative_cols ["a"; "bdxda"]%string) _).
  assert (W : without_first "g" ["f"%string] ["f"%string]) by (left; split; [intros [Q|[]]; discriminate|reflexivity]).
  destruct (C65_names (fun _ => Ok t) ["f"%string] ["f"%string] [[0; 0; 0]] [] 1 0 "g" ["a"; "bdxda"]%string [t] [V3 0 0 0] W
     ltac:(repeat constructor) ltac:(discriminate) ltac:(repeat constructor) ltac:(repeat constructor) ltac:(discriminate))
    as (qs & els & a & E & P & F1 & F2 & Same).
  destruct (Forall2_two _ _ _ _ F1) as (q1 & q2 & -> & (_ & _ & H1) & (u & E2) & N2 & _).
  destruct (Forall2_two _ _ _ _ F2) as (e1 & e2 & -> & (l1 & ->) & (l2 & ->)).
  assert (q1 = "a"%string).
  { apply H1. intros (u' & v' & Q). destruct u' as [|? u']; [discriminate|]. destruct u'; discriminate. }
  assert (q2 = "a"%string).
  { clear -E2 N2. destruct u as [|c0 u]; [exfalso; cbn in E2; injection E2 as E2; subst q2; apply N2; exists "b"%string, "a"%string; reflexivity|].
    do 3 (destruct u as [|? u]; [discriminate|]).
    destruct u as [|? u]; [cbn in E2; congruence|]. do 5 (destruct u as [|? u]; try discriminate). }
  subst. exists a, l1. split; [exact E|]. split.
  - rewrite P. specialize (Same 0%nat 1%nat "a"%string eq_refl eq_refl). cbn in Same. injection Same as <-. reflexivity.
  - exists "b"%string, "a"%string. reflexivity.
Qed.

(** one component with two rows, round trip without rounding *)
Example C82_meets : exists a,
  let d := [("wing"%string, [mkC 0 (Some (V3 0 0 0)) [Some (V3 1 2 3)]; mkC 1 (Some (V3 4 0 0)) [Some (V3 5 6 7)]])] in
  exists ws, to_csv ["span"%string] "all_components_sensitivity.csv" (Some d) = Ok ws /\
    append_sensitivities (fun n => let! t := file ws n in Ok (mkTable (t_cols t) (map (dmap (fun x => x)) (t_rows t))))
      ["wing_sensitivity.csv"%string] [EPoints [[4; 0; 0]]] 1 (1 / 10) "all_components_sensitivity.csv" = (["wing_sensitivity.csv"%string], Ok a) /\
    exists r, t_rows (snd (a_csv a)) = [r] /\ dget r "dydspan" = Some 6.
Proof.
  set (d := [("wing"%string, [mkC 0 (Some (V3 0 0 0)) [Some (V3 1 2 3)]; mkC 1 (Some (V3 4 0 0)) [Some (V3 5 6 7)]])]).
  destruct (C82_round_trip ["span"%string] "all_components_sensitivity.csv" d _ "all_components_sensitivity.csv" (fun x => x) 0 1 (1 / 10) [[4; 0; 0]] [V3 4 0 0] [] eq_refl)
    as (a & E & _ & F).
  - repeat constructor. intros [].
  - discriminate.
  - repeat constructor. intros [].
  - intros k [<- |[]]. split; discriminate.
  - intros k rows r [Q|[]] Hr. injection Q as <- <-. destruct Hr as [<- |[<- |[]]]; discriminate.
  - intros x. replace (x - x) with 0 by ring. rewrite Rabs_R0. lra.
  - repeat constructor.
  - discriminate.
  - intros p [<- |[]]. exists "wing"%string. eexists. exists (mkC 1 (Some (V3 4 0 0)) [Some (V3 5 6 7)]), (V3 4 0 0).
    split; [left; reflexivity|]. split; [cbn; auto|]. split; [reflexivity|]. split.
    + repeat split; cbn; unfold Rabs; destruct Rcase_abs; lra.
    + intros k' rows' r' v' [Q|[]] Hr Hv Hw. injection Q as <- <-. destruct Hr as [<- |[<- |[]]]; cbn in Hv; injection Hv as <-; [|reflexivity].
      destruct Hw as [Hw _]. cbn in Hw. unfold Rabs in Hw. destruct Rcase_abs in Hw; lra.
  - exists a. cbv zeta. eexists. split; [reflexivity|]. split; [exact E|]. inversion F as [|p r l l' [_ H] F' Ep Er]; subst.
    inversion F'; subst. exists r. split; [reflexivity|].
    destruct (H "wing"%string [mkC 0 (Some (V3 0 0 0)) [Some (V3 1 2 3)]; mkC 1 (Some (V3 4 0 0)) [Some (V3 5 6 7)]] (mkC 1 (Some (V3 4 0 0)) [Some (V3 5 6 7)]) (V3 4 0 0) 0%nat "span"%string (V3 5 6 7)) as (_ & Q & _).
    + left; reflexivity.
    + cbn; auto.
    + reflexivity.
    + repeat split; cbn; unfold Rabs; destruct Rcase_abs; lra.
    + reflexivity.
    + reflexivity.
    + etransitivity; [exact Q|]. cbn. destruct Rlt_dec as [H0|_]; [|reflexivity]. exfalso. unfold Rabs in H0. destruct Rcase_abs in H0; lra.
Qed.

(** a component called all_components loses its own file *)
Example C83_meets : exists ws t,
  to_csv (T := R) ["p"%string] "all_components_sensitivity.csv"
    (Some [("all_components"%string, [mkC 0 (Some (V3 0 0 0)) [Some (V3 1 2 3)]]); ("wing"%string, [mkC 0 (Some (V3 1 0 0)) [None]])]) = Ok ws /\
  file ws "all_components_sensitivity.csv" = Ok t /\ length (t_rows t) = 2%nat.
Proof.
  set (d := [("all_components"%string, [mkC 0 (Some (V3 0 0 0)) [Some (V3 1 2 3)]]); ("wing"%string, [mkC 0 (Some (V3 1 0 0)) [None]])]).
  destruct (to_csv (T := R) ["p"%string] "all_components_sensitivity.csv" (Some d)) as [ws|e] eqn:Ew; [|discriminate].
  destruct (C83_files ["p"%string] "all_components_sensitivity.csv" d ws "all_components"%string [mkC 0 (Some (V3 0 0 0)) [Some (V3 1 2 3)]]) as [_ H].
  - repeat constructor; [intros [Q|[]]; discriminate|intros []].
  - left; reflexivity.
  - exact Ew.
  - destruct (H eq_refl) as (t & E & L). exists ws, t. auto.
Qed.

Print Assumptions C64_data.
Print Assumptions C64_fraction.
Print Assumptions C64_errors.
Print Assumptions C65_list.
Print Assumptions C65_names.
Print Assumptions C81_elements.
Print Assumptions C81_again.
Print Assumptions C82_round_trip.
Print Assumptions C83_files.
