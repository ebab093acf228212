(** Lemmas about SensitivityStudy.dvdp. *)
From Coq Require Import String List Lia Bool Arith ZArith.
From Verif Require Import Num Py M_Vector M_Path M_Surface M_Mesh M_VecHeap M_Sens SpecSens L_Mesh.
Import ListNotations.

Section Study.
  Context {T : Type} {N : Num T}.
  Variable construct : dict (pval T) -> VM T (instance T).
  Notation cons_ := construct.

  Definition factor (perturbation : T) : T := nadd n1 (ndiv perturbation (nZ 100)).
  Definition scale_num (f : T) (v : pval T) : pval T := match v with PNum x => PNum (nmul x f) | _ => v end.

  Lemma lput_end {A} (l : list A) a b : lput (l ++ [a]) (length l) b = l ++ [b].
  Proof. induction l; cbn; congruence. Qed.
  Lemma nth_end {A} (l : list A) a : nth_error (l ++ [a]) (length l) = Some a.
  Proof. rewrite nth_error_app2, Nat.sub_diag by lia. reflexivity. Qed.

  Lemma dget_in {A} (d : dict A) k v : dget d k = Some v -> In (k, v) d.
  Proof.
    induction d as [|[k' v'] d IH]; cbn; [discriminate|]. destruct (String.eqb_spec k k') as [->|E]; [intros [= ->]; auto|auto].
  Qed.
  Lemma dget_nodup {A} (d : dict A) k v : NoDup (dkeys d) -> In (k, v) d -> dget d k = Some v.
  Proof.
    unfold dkeys. induction d as [|[k' v'] d IH]; cbn; intros Nd; [intros []|]. inversion Nd; subst.
    intros [[= -> ->]|H]; [rewrite String.eqb_refl; reflexivity|].
    destruct (String.eqb_spec k k') as [->|E]; [|auto]. exfalso. apply H1. apply (in_map fst) in H. exact H.
  Qed.
  Lemma dset_changed (d : dict (pval T)) p x f : NoDup (dkeys d) -> dget d p = Some (PNum x) ->
    dset d p (PNum (nmul x f)) = changed_at p (scale_num f) d.
  Proof.
    unfold dkeys, changed_at. induction d as [|[k v] d IH]; cbn; intros Nd E; [discriminate|]. inversion Nd; subst.
    rewrite (String.eqb_sym k p). destruct (String.eqb_spec p k) as [->|Ne].
    - injection E as ->. cbn. f_equal. clear -H1. induction d as [|[k' v'] d IH]; [reflexivity|]. cbn.
      destruct (String.eqb_spec k' k) as [->|_]; [exfalso; apply H1; cbn; auto|]. rewrite <- IH; [reflexivity|].
      intros H. apply H1. cbn. auto.
    - f_equal. auto.
  Qed.
  Lemma changed_keys {A} p (g : A -> A) d : dkeys (changed_at p g d) = dkeys d.
  Proof. unfold dkeys, changed_at. rewrite map_map. apply map_ext. intros [k v]. cbn. destruct (String.eqb k p); reflexivity. Qed.

  Lemma spread_ok (d o : dict (pval T)) : (forall k, In k (dkeys o) -> ~ In k (dkeys d)) -> spread d o = Ok (d ++ o).
  Proof.
    intros H. unfold spread. destruct (existsb _ _) eqn:E; [|reflexivity]. exfalso.
    apply existsb_exists in E. destruct E as (k & Hk & E). apply existsb_exists in E. destruct E as (k' & Hk' & E).
    apply String.eqb_eq in E. subst. exact (H k' Hk Hk').
  Qed.
  Lemma spread_raise (d o : dict (pval T)) k : In k (dkeys o) -> In k (dkeys d) -> spread d o = Raise TypeError.
  Proof.
    intros Ho Hd. unfold spread. destruct (existsb _ _) eqn:E; [reflexivity|]. exfalso.
    assert (Q : existsb (fun k => existsb (String.eqb k) (dkeys d)) (dkeys o) = true).
    { apply existsb_exists. exists k. split; [exact Ho|]. apply existsb_exists. exists k. split; [exact Hd|]. apply String.eqb_refl. }
    congruence.
  Qed.

  Lemma make_eq s a X o kw : nth_error (s_dicts s) a = Some X -> spread X o = Ok kw ->
    make cons_ a o s = (mkS (fst (cons_ kw (s_vecs s))) (s_dicts s) (s_log s ++ [(kw, s_vecs s)]), snd (cons_ kw (s_vecs s))).
  Proof.
    intros E K. unfold make, sbind, sdict, sraise, svec. rewrite E, K. cbn [s_vecs s_dicts s_log].
    destruct (cons_ kw (s_vecs s)) as [h r]. reflexivity.
  Qed.

  Lemma adjust_num s d D p x pert : nth_error (s_dicts s) d = Some D -> NoDup (dkeys D) -> dget D p = Some (PNum x) ->
    adjust d p (PNum x) pert s =
    (mkS (s_vecs s) (s_dicts s ++ [changed_at p (scale_num (factor pert)) D]) (s_log s),
     Ok (length (s_dicts s), PNum (nsub (nmul x (factor pert)) x))).
  Proof.
    intros E Nd G. unfold adjust, scopy, sset, sbind, sdict, sraise, sret. rewrite E. cbn [s_vecs s_dicts s_log].
    rewrite nth_end. unfold dlookup. rewrite G. cbn [s_vecs s_dicts s_log]. rewrite nth_end. cbn [s_vecs s_dicts s_log].
    rewrite lput_end. fold (factor pert). rewrite (dset_changed _ _ _ _ Nd G). reflexivity.
  Qed.

  (* the results of the body of the loop *)
  Definition outcome (nominal : instance T) (dp : pval T) (inst : instance T) : res (dict (list (row T)) * option (dict (list T) * ntable T) * option (dict T)) :=
    let! an := match i_analysis nominal with
               | Some ((_ :: _) as a) => let! s := both_sens dp a nominal inst in Ok (Some s)
               | _ => Ok None
               end in
    let! pr := match i_props nominal with
               | [] => Ok None
               | a => let! s := property_sens dp a (i_props inst) in Ok (Some s)
               end in
    let! ms := mesh_sens dp (i_meshes nominal) (i_meshes inst) in Ok (ms, an, pr).

  Lemma perturb_num s d D o p x pert nominal : nth_error (s_dicts s) d = Some D -> NoDup (dkeys D) ->
    dget D p = Some (PNum x) -> (forall k, In k (dkeys o) -> ~ In k (dkeys D)) ->
    let kw := (changed_at p (scale_num (factor pert)) D ++ o)%list in
    perturb cons_ d o pert nominal p s =
    (mkS (fst (cons_ kw (s_vecs s))) (s_dicts s ++ [changed_at p (scale_num (factor pert)) D]) (s_log s ++ [(kw, s_vecs s)]),
     let! inst := snd (cons_ kw (s_vecs s)) in outcome nominal (PNum (nsub (nmul x (factor pert)) x)) inst).
  Proof.
    intros E Nd G Dj kw. unfold perturb, sbind at 1. unfold sdict. rewrite E.
    unfold sbind at 1. unfold sraise at 1. unfold dlookup. rewrite G.
    unfold sbind at 1. rewrite (adjust_num _ _ _ _ _ _ E Nd G). cbn [fst snd].
    unfold sbind at 1.
    rewrite (make_eq _ _ (changed_at p (scale_num (factor pert)) D) o kw); cbn [s_dicts s_vecs s_log];
      [|apply nth_end|apply spread_ok; rewrite changed_keys; exact Dj].
    destruct (snd (cons_ kw (s_vecs s))) as [inst|e]; [|reflexivity]. cbn [bind].
    unfold outcome, sbind, sraise, sret.
    set (st := mkS _ _ _). clearbody st. set (dp := PNum _). clearbody dp. clear.
    assert (G : forall an : option (dict (list T) * ntable T),
      (let (s', r) := match i_props nominal with
         | [] => (fun s => (s, Ok None))
         | a => fun s => (let (s', r) := (s, property_sens dp a (i_props inst)) in
              match r with Ok a0 => (s', Ok (Some a0)) | Raise e => (s', Raise e) end)
         end st in
       match r with
       | Ok pr => let (s'0, r0) := (s', mesh_sens dp (i_meshes nominal) (i_meshes inst)) in
           match r0 with Ok ms => (s'0, Ok (ms, an, pr)) | Raise e => (s'0, Raise e) end
       | Raise e => (s', Raise e)
       end) =
      (st, let! pr := match i_props nominal with
               | [] => Ok None
               | a => let! s := property_sens dp a (i_props inst) in Ok (Some s)
               end in
           let! ms := mesh_sens dp (i_meshes nominal) (i_meshes inst) in Ok (ms, an, pr))).
    { intros an. destruct (i_props nominal) as [|pp l].
      - cbn [bind]. destruct (mesh_sens _ _ _); reflexivity.
      - destruct (property_sens _ _ _); [|reflexivity]. cbn [bind]. destruct (mesh_sens _ _ _); reflexivity. }
    destruct (i_analysis nominal) as [[|a l]|].
    - cbn [bind]. apply G.
    - destruct (both_sens _ _ _ _); [|reflexivity]. cbn [bind]. apply G.
    - cbn [bind]. apply G.
  Qed.

  Section Numbers.
    Variables (d : nat) (D o : dict (pval T)) (pert : T) (nominal : instance T).
    Hypothesis Nd : NoDup (dkeys D).
    Hypothesis Dj : forall k, In k (dkeys o) -> ~ In k (dkeys D).
    Definition kw_of (p : string) : dict (pval T) := (changed_at p (scale_num (factor pert)) D ++ o)%list.

    Lemma perturb_all_num ps : (forall p, In p ps -> exists x, dget D p = Some (PNum x)) ->
      forall s s' r, nth_error (s_dicts s) d = Some D -> perturb_all cons_ d o pert nominal ps s = (s', r) ->
      exists n, let kws := map kw_of (firstn n ps) in
        s_log s' = s_log s ++ calls cons_ kws (s_vecs s) /\
        s_vecs s' = state_after cons_ kws (s_vecs s) /\
        (exists y, s_dicts s' = s_dicts s ++ y) /\
        match r with
        | Ok rs => firstn n ps = ps /\ map fst rs = ps /\
            Forall2 (fun c kr => exists x inst, dget D (fst kr) = Some (PNum x) /\ fst c = kw_of (fst kr) /\
              snd (cons_ (fst c) (snd c)) = Ok inst /\
              outcome nominal (PNum (nsub (nmul x (factor pert)) x)) inst = Ok (snd kr)) (calls cons_ kws (s_vecs s)) rs
        | Raise _ => True
        end.
    Proof.
      induction ps as [|p ps IH]; intros HP s s' r E R.
      - cbn in R. injection R as <- <-. exists 0%nat. cbn. rewrite app_nil_r. repeat split; auto. exists []. rewrite app_nil_r. reflexivity.
      - cbn [perturb_all] in R. unfold sbind at 1 in R. destruct (HP p (or_introl eq_refl)) as [x Gx].
        rewrite (perturb_num _ _ _ _ _ _ _ _ E Nd Gx Dj) in R. fold (kw_of p) in R.
        destruct (snd (cons_ (kw_of p) (s_vecs s))) as [inst|e] eqn:Ec; cbn [bind] in R.
        2:{ injection R as <- <-. exists 1%nat. cbn. repeat split; eauto. }
        destruct (outcome nominal _ inst) as [q|e] eqn:Eo.
        2:{ injection R as <- <-. exists 1%nat. cbn. repeat split; eauto. }
        unfold sbind in R.
        match type of R with context[perturb_all cons_ d o pert nominal ps ?s1] => destruct (perturb_all cons_ d o pert nominal ps s1) as [s2 r2] eqn:E2 end.
        apply IH in E2.
        2:{ intros; apply HP; cbn; auto. }
        2:{ cbn [s_dicts]. rewrite nth_error_app1; [exact E|]. apply nth_error_Some. congruence. }
        destruct E2 as (n & L & V & (y & Y) & K). cbn [s_log s_vecs s_dicts] in *. exists (S n). cbn [firstn map calls state_after].
        assert (L' : s_log s2 = s_log s ++ (kw_of p, s_vecs s) :: calls cons_ (map kw_of (firstn n ps)) (fst (cons_ (kw_of p) (s_vecs s))))
          by (rewrite L, <- app_assoc; reflexivity).
        assert (Y' : exists y, s_dicts s2 = s_dicts s ++ y) by (eexists; rewrite Y, <- app_assoc; reflexivity).
        destruct r2 as [rs|e]; cbn in R; injection R as <- <-.
        + split; [exact L'|]. split; [exact V|]. split; [exact Y'|]. destruct K as (K1 & K2 & K3).
          split; [congruence|]. split; [cbn; congruence|]. constructor; [|exact K3].
          exists x, inst. cbn. auto.
        + repeat split; auto.
    Qed.
  End Numbers.
End Study.

(** ** Vector3-valued parameters *)
Section Vectors.
  Context {T : Type} {N : Num T}.
  Variable construct : dict (pval T) -> VM T (instance T).
  Notation cons_ := construct.

  (* the log only grows *)
  Definition grows {A} (m : SM T A) : Prop := forall s, exists rest, s_log (fst (m s)) = s_log s ++ rest.
  Lemma grows_bind {A B} (m : SM T A) (k : A -> SM T B) : grows m -> (forall a, grows (k a)) -> grows (sbind m k).
  Proof using.
    intros H K s. unfold sbind. destruct (H s) as [x Hx]. destruct (m s) as [s1 [a|e]]; cbn in *.
    - destruct (K a s1) as [y Hy]. exists (x ++ y). rewrite Hy, Hx, app_assoc. reflexivity.
    - eauto.
  Qed.
  Lemma grows_same {A} (m : SM T A) : (forall s, s_log (fst (m s)) = s_log s) -> grows m.
  Proof using. intros H s. exists []. rewrite H, app_nil_r. reflexivity. Qed.
  Lemma grows_ret {A} (a : A) : grows (sret a). Proof using. apply grows_same. reflexivity. Qed.
  Lemma grows_raise {A} (r : res A) : grows (sraise r). Proof using. apply grows_same. reflexivity. Qed.
  Lemma grows_dict d : grows (sdict d). Proof using. apply grows_same. reflexivity. Qed.
  Lemma grows_set d k v : grows (sset d k v).
  Proof using. apply grows_bind; [apply grows_dict|]. intros a. apply grows_same. reflexivity. Qed.
  Lemma grows_copy d : grows (scopy d).
  Proof using. apply grows_bind; [apply grows_dict|]. intros a. apply grows_same. reflexivity. Qed.
  Lemma grows_vec {A} (m : VM T A) : grows (svec m).
  Proof using. apply grows_same. intros s. unfold svec. destruct (m (s_vecs s)). reflexivity. Qed.
  Hint Resolve grows_ret grows_raise grows_dict grows_set grows_copy grows_vec : grows.
  Lemma grows_make a o : grows (make cons_ a o).
  Proof using.
    unfold make. repeat (apply grows_bind; [|intros]); auto with grows.
    intros s. exists [(a1, s_vecs s)]. reflexivity.
  Qed.
  Lemma grows_adjust d p v pert : grows (adjust d p v pert).
  Proof using.
    unfold adjust. apply grows_bind; [auto with grows|]. intros a. apply grows_bind; [auto with grows|]. intros x.
    apply grows_bind; [auto with grows|]. intros w. apply grows_bind.
    - destruct w; auto with grows. apply grows_bind; auto with grows.
    - intros v'. apply grows_bind; [auto with grows|]. intros _. apply grows_bind; [|auto with grows].
      destruct v', v; auto with grows. apply grows_bind; auto with grows.
  Qed.
  Lemma grows_perturb d o pert nominal p : grows (perturb cons_ d o pert nominal p).
  Proof using.
    unfold perturb. apply grows_bind; [auto with grows|]. intros x. apply grows_bind; [auto with grows|]. intros v.
    apply grows_bind; [apply grows_adjust|]. intros adp. apply grows_bind; [apply grows_make|]. intros inst.
    apply grows_bind.
    - destruct (i_analysis nominal) as [[|]|]; auto with grows. apply grows_bind; auto with grows.
    - intros an. apply grows_bind.
      + destruct (i_props nominal); auto with grows. apply grows_bind; auto with grows.
      + intros pr. apply grows_bind; auto with grows.
  Qed.
  Lemma grows_all d o pert nominal ps : grows (perturb_all cons_ d o pert nominal ps).
  Proof using.
    induction ps as [|p ps IH]; cbn [perturb_all]; [auto with grows|]. apply grows_bind; [apply grows_perturb|].
    intros r. apply grows_bind; auto with grows.
  Qed.

  Lemma perturb_all_app d o pert nominal ps qs s : perturb_all cons_ d o pert nominal (ps ++ qs) s =
    sbind (perturb_all cons_ d o pert nominal ps) (fun a => sbind (perturb_all cons_ d o pert nominal qs) (fun b => sret (a ++ b))) s.
  Proof using.
    revert s. induction ps as [|p ps IH]; intros s; cbn [perturb_all app].
    - unfold sbind, sret. destruct (perturb_all cons_ d o pert nominal qs s) as [s1 [b|e]]; reflexivity.
    - unfold sbind in *. unfold sret in *. destruct (perturb cons_ d o pert nominal p s) as [s1 [r|e]]; [|reflexivity].
      rewrite IH. destruct (perturb_all cons_ d o pert nominal ps s1) as [s2 [a|e]]; [|reflexivity].
      destruct (perturb_all cons_ d o pert nominal qs s2) as [s3 [b|e]]; reflexivity.
  Qed.

  Lemma dset_same {A} (d : dict A) k v : dget d k = Some v -> dset d k v = d.
  Proof using.
    induction d as [|[k' v'] d IH]; cbn; [discriminate|]. destruct (String.eqb_spec k k') as [->|E]; [intros [= ->]; reflexivity|].
    intros H. rewrite IH by exact H. reflexivity.
  Qed.

  Lemma adjust_vec s d D p l v pert : nth_error (s_dicts s) d = Some D -> dget D p = Some (PVec l) -> nth_error (s_vecs s) l = Some v ->
    exists h dp, adjust d p (PVec l) pert s = (mkS h (s_dicts s ++ [D]) (s_log s), Ok (length (s_dicts s), PVec dp)) /\
      nth_error h l = Some (vscale v (factor pert)).
  Proof using.
    intros E G V. unfold adjust, scopy, sset, sbind, sdict, sraise, sret. rewrite E. cbn [s_vecs s_dicts s_log].
    rewrite nth_end. unfold dlookup. rewrite G. unfold svec. cbn [s_vecs s_dicts s_log].
    fold (factor pert). unfold imul, vbind, vread. rewrite V. unfold vwrite, vret. cbn [s_vecs s_dicts s_log]. rewrite nth_end.
    cbn [s_vecs s_dicts s_log]. rewrite lput_end, (dset_same _ _ _ G).
    assert (V' : nth_error (vput (s_vecs s) l (vscale v (factor pert))) l = Some (vscale v (factor pert))).
    { clear -V. revert l V. generalize (s_vecs s) as h. induction h as [|a h IH]; intros [|l] V; cbn in *; try discriminate; auto. }
    unfold isub, vbind, vread. rewrite V'. unfold vnew.
    eexists _, _. split; [reflexivity|]. rewrite nth_error_app1; [exact V'|]. apply nth_error_Some. congruence.
  Qed.

  Lemma vec_step s d D o p l v pert nominal : nth_error (s_dicts s) d = Some D -> dget D p = Some (PVec l) ->
    nth_error (s_vecs s) l = Some v -> (forall k, In k (dkeys o) -> ~ In k (dkeys D)) ->
    (exists c m, In (c, m) (i_meshes nominal) /\ m <> []) ->
    exists s' e h, perturb cons_ d o pert nominal p s = (s', Raise e) /\
      s_log s' = s_log s ++ [(D ++ o, h)] /\ nth_error h l = Some (vscale v (factor pert)) /\
      s_dicts s' = s_dicts s ++ [D] /\ s_vecs s' = fst (cons_ (D ++ o) h).
  Proof using.
    intros E G V Dj (c & m & Hm & Nm). unfold perturb, sbind at 1. unfold sdict. rewrite E.
    unfold sbind at 1. unfold sraise at 1. unfold dlookup. rewrite G.
    unfold sbind at 1. destruct (adjust_vec s d D p l v pert E G V) as (h & dp & -> & V'). cbn [fst snd].
    unfold sbind at 1. rewrite (make_eq cons_ _ _ D o (D ++ o)); cbn [s_dicts s_vecs s_log]; [|apply nth_end|apply spread_ok, Dj].
    destruct (snd (cons_ (D ++ o) h)) as [inst|e].
    2:{ eexists _, e, h. split; [reflexivity|]. auto. }
    assert (MS : exists e, mesh_sens (PVec dp) (i_meshes nominal) (i_meshes inst) = Raise e).
    { destruct (mesh_sens _ _ _) as [x|e] eqn:Em; [|eauto]. exfalso. unfold mesh_sens in Em. apply mapM_inv in Em.
      assert (Q : exists t, (let! y := dlookup (i_meshes inst) c in
         let! t := (let! ds := mesh_diff m y in match ds with [] => Ok (@nil (row T)) | _ => Raise TypeError end) in Ok (c, t)) = Ok t).
      { clear -Em Hm. revert Hm. induction Em as [|a b l l' H _ IH]; intros Hm; [destruct Hm|]. destruct Hm as [->|Hm]; [eauto|auto]. }
      destruct Q as [t Q]. destruct (dlookup (i_meshes inst) c) as [y|]; [|discriminate]. cbn [bind] in Q.
      destruct (mesh_diff m y) as [ds|] eqn:Ed; [|discriminate]. cbn [bind] in Q. destruct ds as [|a ds]; [|discriminate].
      unfold mesh_diff in Ed. destruct m as [|t0 m]; [contradiction|].
      destruct (Nat.eqb_spec (length (t0 :: m)) (length y)) as [L|L].
      - destruct y as [|t1 y]; [discriminate|]. cbn in Ed. discriminate.
      - destruct y as [|t1 [|t2 y]]; try discriminate. }
    destruct MS as [em MS]. unfold sbind, sret, sraise.
    set (st := mkS _ _ _).
    assert (K : forall an : option (dict (list T) * ntable T), exists e,
      (let (s', r) := match i_props nominal with
         | [] => (fun s => (s, Ok None))
         | a => fun s => (let (s', r) := (s, property_sens (PVec dp) a (i_props inst)) in
              match r with Ok a0 => (s', Ok (Some a0)) | Raise e => (s', Raise e) end)
         end st in
       match r with
       | Ok pr => let (s'0, r0) := (s', mesh_sens (PVec dp) (i_meshes nominal) (i_meshes inst)) in
           match r0 with Ok ms => (s'0, Ok (ms, an, pr)) | Raise e => (s'0, Raise e) end
       | Raise e => (s', Raise e)
       end) = (st, Raise e)).
    { intros an. rewrite MS. destruct (i_props nominal) as [|pp l']; [eauto|]. destruct (property_sens _ _ _); eauto. }
    assert (K' : exists e, (let (s', r) := match i_analysis nominal with
         | Some ((_ :: _) as a) => fun s => (let (s', r) := (s, both_sens (PVec dp) a nominal inst) in
              match r with Ok a0 => (s', Ok (Some a0)) | Raise e => (s', Raise e) end)
         | _ => (fun s => (s, Ok None))
         end st in
       match r with
       | Ok an => let (s', r) := match i_props nominal with
         | [] => (fun s => (s, Ok None))
         | a => fun s => (let (s', r) := (s, property_sens (PVec dp) a (i_props inst)) in
              match r with Ok a0 => (s', Ok (Some a0)) | Raise e => (s', Raise e) end)
         end s' in
         match r with
         | Ok pr => let (s'0, r0) := (s', mesh_sens (PVec dp) (i_meshes nominal) (i_meshes inst)) in
           match r0 with Ok ms => (s'0, Ok (ms, an, pr)) | Raise e => (s'0, Raise e) end
         | Raise e => (s', Raise e)
         end
       | Raise e => (s', Raise e)
       end) = (st, Raise e)).
    { destruct (i_analysis nominal) as [[|a l']|]; [apply K| |apply K]. destruct (both_sens _ _ _ _); [apply K|eauto]. }
    destruct K' as [e K']. eexists st, e, h. split; [exact K'|]. unfold st. cbn. auto.
  Qed.
End Vectors.
