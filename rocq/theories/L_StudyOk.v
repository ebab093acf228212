(** When a study succeeds. *)
From Coq Require Import String Reals Lra List Lia Bool Arith ZArith.
From Verif Require Import Num NumR Py M_Vector SpecR3 M_Path M_Surface M_Mesh M_VecHeap M_Sens SpecSens SpecAlias
  L_Vector L_Mesh L_VecHeap L_Component L_SweptComp L_Sens L_Study P_Sens P_Study.
Import ListNotations.

Section Succeeds.
  Context {T : Type} {N : Num T}.
  Variable mk : dict (pval T) -> res (instance T).
  Let construct : dict (pval T) -> VM T (instance T) := fun kw hv => (hv, mk kw).
  Variables (d : nat) (D o : dict (pval T)) (pert : T) (nominal : instance T).
  Hypothesis Nd : NoDup (dkeys D).
  Hypothesis Dj : forall k, In k (dkeys o) -> ~ In k (dkeys D).

  Lemma perturb_all_ok ps :
    (forall p, In p ps -> exists x inst r, dget D p = Some (PNum x) /\ mk (kw_of D o pert p) = Ok inst /\
       outcome nominal (PNum (nsub (nmul x (factor pert)) x)) inst = Ok r) ->
    forall s, nth_error (s_dicts s) d = Some D ->
    exists s' rs, perturb_all construct d o pert nominal ps s = (s', Ok rs) /\ map fst rs = ps /\
      forall p r, In (p, r) rs -> exists x inst, dget D p = Some (PNum x) /\ mk (kw_of D o pert p) = Ok inst /\
        outcome nominal (PNum (nsub (nmul x (factor pert)) x)) inst = Ok r.
  Proof using Nd Dj.
    induction ps as [|p ps IH]; intros H s E.
    - cbn. eexists _, _. split; [reflexivity|]. split; [reflexivity|]. intros p r [].
    - destruct (H p (or_introl eq_refl)) as (x & inst & r & G & K & O).
      cbn [perturb_all]. unfold sbind at 1. rewrite (perturb_num construct s d D o p x pert nominal E Nd G Dj).
      fold (kw_of D o pert p). change (snd (construct (kw_of D o pert p) (s_vecs s))) with (mk (kw_of D o pert p)). rewrite K. cbn [bind]. rewrite O.
      unfold sbind at 1.
      match goal with |- context[perturb_all construct d o pert nominal ps ?s1] => destruct (IH (fun q Hq => H q (or_intror Hq)) s1) as (s' & rs & R & M & Q) end.
      { cbn [s_dicts]. rewrite nth_error_app1; [exact E|]. apply nth_error_Some. congruence. }
      rewrite R. eexists _, _. split; [reflexivity|]. split; [cbn; rewrite M; reflexivity|].
      intros p' r' [Hp|Hp]; [|apply Q, Hp]. injection Hp as <- <-. eauto.
  Qed.

  Lemma combine_ok (components : list string) (sens : dict (dict (list (row T)))) : sens <> [] ->
    (forall p ts, In (p, ts) sens -> dkeys ts = components) -> is_ok (combine_all components sens).
  Proof using.
    clear. intros NE H. unfold combine_all. apply mapM_is_ok, Forall_forall.
    intros c Hc.
    assert (L : forall p ts, In (p, ts) sens -> is_ok (dlookup ts c)).
    { intros p ts Hp. unfold dlookup. destruct (dget ts c) eqn:G; [eexists; reflexivity|]. exfalso.
      apply (proj1 (dget_none _ _) G). rewrite (H _ _ Hp). exact Hc. }
    unfold combine_component. destruct sens as [|[p s0] rest]; [congruence|].
    destruct (L p s0 (or_introl eq_refl)) as [first ->]. cbn [bind].
    assert (is_ok (mapM (fun ks : string * dict (list (row T)) => dlookup (snd ks) c) ((p, s0) :: rest))) as [ps ->].
    { apply mapM_is_ok, Forall_forall. intros [q ts] Hq. exact (L q ts Hq). }
    cbn [bind]. eexists. reflexivity.
  Qed.

  Theorem dvdp_succeeds s : nth_error (s_dicts s) d = Some D -> D <> [] -> (numbers D) ->
    mk (D ++ o)%list = Ok nominal ->
    (forall p x, In (p, PNum x) D -> exists inst r, mk (kw_of D o pert p) = Ok inst /\
       outcome nominal (PNum (nsub (nmul x (factor pert)) x)) inst = Ok r) ->
    exists s' out, dvdp construct d o pert s = (s', Ok out) /\ dkeys (o_sens out) = dkeys D /\
      forall p ts, In (p, ts) (o_sens out) -> exists x inst, In (p, PNum x) D /\ mk (kw_of D o pert p) = Ok inst /\
        mesh_sens (PNum (nsub (nmul x (factor pert)) x)) (i_meshes nominal) (i_meshes inst) = Ok ts.
  Proof using Nd Dj.
    intros E NE Nu Ek H.
    assert (HP : forall p, In p (dkeys D) -> exists x inst r, dget D p = Some (PNum x) /\ mk (kw_of D o pert p) = Ok inst /\
       outcome nominal (PNum (nsub (nmul x (factor pert)) x)) inst = Ok r).
    { intros p Hp. unfold dkeys in Hp. apply in_map_iff in Hp. destruct Hp as ([k v] & <- & Hv). destruct (Nu k v Hv) as [x ->].
      destruct (H k x Hv) as (inst & r & K & O). exists x, inst, r. split; [apply dget_nodup; assumption|auto]. }
    unfold dvdp. unfold sbind at 1. rewrite (make_eq construct s d D o _ E (spread_ok _ _ Dj)).
    change (snd (construct (D ++ o)%list (s_vecs s))) with (mk (D ++ o)%list). rewrite Ek.
    unfold sbind at 1. unfold sdict. cbn [s_dicts]. rewrite E. unfold sbind at 1.
    match goal with |- context[perturb_all construct d o pert nominal (dkeys D) ?s1] => destruct (perturb_all_ok (dkeys D) HP s1 E) as (s' & rs & R & M & Q) end.
    rewrite R. cbv zeta.
    set (sens := map (fun kr => (fst kr, fst (fst (snd kr)))) rs).
    assert (KS : forall p ts, In (p, ts) sens -> exists x inst, In (p, PNum x) D /\ mk (kw_of D o pert p) = Ok inst /\
        mesh_sens (PNum (nsub (nmul x (factor pert)) x)) (i_meshes nominal) (i_meshes inst) = Ok ts).
    { intros p ts Hp. unfold sens in Hp. apply in_map_iff in Hp. destruct Hp as ([q r] & Eq & Hr). cbn [fst snd] in Eq. injection Eq as <- <-.
      destruct (Q q r Hr) as (x & inst & A & B & O). exists x, inst. split; [apply dget_in, A|]. split; [exact B|].
      unfold outcome in O. destruct (match i_analysis nominal with Some ((_ :: _) as a) => _ | _ => _ end); [|discriminate]. cbn [bind] in O.
      destruct (match i_props nominal with [] => _ | _ => _ end); [|discriminate]. cbn [bind] in O.
      destruct (mesh_sens _ _ _) as [ms|]; [|discriminate]. cbn [bind] in O. injection O as <-. reflexivity. }
    destruct (combine_ok (dkeys (i_meshes nominal)) sens) as [c Ec].
    { intros E0. assert (length rs = 0%nat) by (rewrite <- (map_length (fun kr => (fst kr, fst (fst (snd kr)))) rs); fold sens; rewrite E0; reflexivity).
      destruct rs; [|discriminate]. destruct D; [congruence|discriminate]. }
    { intros p ts Hp. destruct (KS p ts Hp) as (x & inst & _ & _ & MS). unfold mesh_sens in MS. apply mapM_inv in MS.
      clear -MS. unfold dkeys. induction MS as [|cm ct l l' H1 _ IH]; [reflexivity|]. cbn. rewrite IH. f_equal.
      destruct (dlookup (i_meshes inst) (fst cm)); [|discriminate]. cbn [bind] in H1.
      destruct (compare_meshes _ _ _); [|discriminate]. cbn [bind] in H1. injection H1 as <-. reflexivity. }
    unfold sbind, sraise. rewrite Ec. unfold sret. eexists _, _. split; [reflexivity|]. cbn [o_sens]. split; [|exact KS].
    unfold dkeys at 1, sens. rewrite map_map. exact M.
  Qed.
End Succeeds.
