(** C61: SensitivityStudy.dvdp. *)
From Coq Require Import String Reals Lra List Lia Bool Arith ZArith.
From Verif Require Import Num NumR Py M_Vector SpecR3 M_Path M_Surface M_Mesh M_VecHeap M_Sens SpecSens SpecAlias
  L_Vector L_Mesh L_VecHeap L_Sens L_Study.
Import ListNotations.

Section Calls.
  Context {T : Type} {N : Num T}.
  Variable construct : dict (pval T) -> VM T (instance T).

  Definition numbers (D : dict (pval T)) : Prop := forall k v, In (k, v) D -> exists x, v = PNum x.
  Definition disjoint_keys (D o : dict (pval T)) : Prop := forall k, In k (dkeys o) -> ~ In k (dkeys D).
  (** the arguments of the constructor: first the nominal parameters, then one
      set per parameter in which only that one is multiplied by 1 + p/100 *)
  Definition times_factor (pert : T) (v : pval T) : pval T :=
    match v with PNum x => PNum (nmul x (nadd n1 (ndiv pert (nZ 100)))) | _ => v end.
  Definition arguments (D o : dict (pval T)) (pert : T) : list (dict (pval T)) :=
    (D ++ o)%list :: map (fun p => changed_at p (times_factor pert) D ++ o)%list (dkeys D).

  (** the constructor is called with exactly these arguments in this order
      (until something raises), nothing but the constructor changes a vector,
      and the caller's dictionaries are as before *)
  Theorem C61_calls s d D o pert s' r : nth_error (s_dicts s) d = Some D -> NoDup (dkeys D) -> numbers D -> disjoint_keys D o ->
    dvdp construct d o pert s = (s', r) ->
    exists n, s_log s' = (s_log s ++ calls construct (firstn n (arguments D o pert)) (s_vecs s))%list /\
      s_vecs s' = state_after construct (firstn n (arguments D o pert)) (s_vecs s) /\
      (is_ok r -> firstn n (arguments D o pert) = arguments D o pert) /\
      (forall k X, nth_error (s_dicts s) k = Some X -> nth_error (s_dicts s') k = Some X).
  Proof using.
    intros E Nd Nu Dj R. unfold dvdp in R. unfold sbind at 1 in R.
    rewrite (make_eq construct s d D o _ E (spread_ok _ _ Dj)) in R.
    destruct (snd (construct (D ++ o)%list (s_vecs s))) as [nominal|e] eqn:En.
    2:{ injection R as <- <-. exists 1%nat. cbn. repeat split; auto. intros [a H]; discriminate. }
    unfold sbind at 1 in R. unfold sdict in R. cbn [s_dicts] in R. rewrite E in R.
    unfold sbind at 1 in R.
    match type of R with context[perturb_all construct d o pert nominal (dkeys D) ?s1] =>
      destruct (perturb_all construct d o pert nominal (dkeys D) s1) as [s2 r2] eqn:E2 end.
    assert (HP : forall p, In p (dkeys D) -> exists x, dget D p = Some (PNum x)).
    { intros p Hp. unfold dkeys in Hp. apply in_map_iff in Hp. destruct Hp as ([k v] & <- & Hv). destruct (Nu k v Hv) as [x ->].
      exists x. apply dget_nodup; assumption. }
    destruct (perturb_all_num construct d D o pert nominal Nd Dj (dkeys D) HP (mkS (fst (construct (D ++ o)%list (s_vecs s))) (s_dicts s) (s_log s ++ [((D ++ o)%list, s_vecs s)])) s2 r2 E E2) as (n & L & V & (y & Y) & K).
    cbn [s_log s_vecs s_dicts] in *.
    exists (S n). unfold arguments. cbn [firstn]. rewrite firstn_map.
    assert (G : forall r3, (s2, r3) = (s', r) ->
      s_log s' = (s_log s ++ calls construct ((D ++ o) :: map (fun p => changed_at p (times_factor pert) D ++ o) (firstn n (dkeys D))) (s_vecs s))%list /\
      s_vecs s' = state_after construct ((D ++ o) :: map (fun p => changed_at p (times_factor pert) D ++ o) (firstn n (dkeys D)))%list (s_vecs s) /\
      forall k X, nth_error (s_dicts s) k = Some X -> nth_error (s_dicts s') k = Some X).
    { intros r3 Q. injection Q as <- _. cbn [calls state_after]. split; [rewrite L, <- app_assoc; reflexivity|]. split; [exact V|].
      intros k X HX. rewrite Y, nth_error_app1; [exact HX|]. apply nth_error_Some. congruence. }
    destruct r2 as [rs|e].
    - destruct K as (K1 & K2 & K3). unfold sbind, sraise in R. unfold sret in R.
      destruct (combine_all _ _); [|]; specialize (G _ R); destruct G as (G1 & G2 & G3);
        (split; [exact G1|split; [exact G2|split; [|exact G3]]]); intros _; rewrite K1; reflexivity.
    - specialize (G _ R). destruct G as (G1 & G2 & G3). split; [exact G1|split; [exact G2|split; [|exact G3]]].
      injection R as _ <-. intros [a H]; discriminate.
  Qed.

  (** the tables returned: parameter p of value x, component c: the nominal
      mesh of c against its mesh in the instance built for p, with
      dp = x (1 + p/100) - x *)
  Theorem C61_tables s d D o pert s' out : nth_error (s_dicts s) d = Some D -> NoDup (dkeys D) -> numbers D -> disjoint_keys D o ->
    dvdp construct d o pert s = (s', Ok out) ->
    exists nominal, snd (construct (D ++ o)%list (s_vecs s)) = Ok nominal /\
    dkeys (o_sens out) = dkeys D /\
    Forall2 (fun call pt => exists x inst, In (fst pt, PNum x) D /\
        fst call = (changed_at (fst pt) (times_factor pert) D ++ o)%list /\
        snd (construct (fst call) (snd call)) = Ok inst /\
        Forall2 (fun cm ct => fst cm = fst ct /\ exists m, dget (i_meshes inst) (fst cm) = Some m /\
            compare_meshes (snd cm) m (nsub (nmul x (nadd n1 (ndiv pert (nZ 100)))) x) = Ok (snd ct)) (i_meshes nominal) (snd pt))
      (tl (calls construct (arguments D o pert) (s_vecs s))) (o_sens out).
  Proof using.
    intros E Nd Nu Dj R. unfold dvdp in R. unfold sbind at 1 in R.
    rewrite (make_eq construct s d D o _ E (spread_ok _ _ Dj)) in R.
    destruct (snd (construct (D ++ o)%list (s_vecs s))) as [nominal|e] eqn:En; [|discriminate].
    unfold sbind at 1 in R. unfold sdict in R. cbn [s_dicts] in R. rewrite E in R.
    unfold sbind at 1 in R.
    match type of R with context[perturb_all construct d o pert nominal (dkeys D) ?s1] =>
      destruct (perturb_all construct d o pert nominal (dkeys D) s1) as [s2 r2] eqn:E2 end.
    assert (HP : forall p, In p (dkeys D) -> exists x, dget D p = Some (PNum x)).
    { intros p Hp. unfold dkeys in Hp. apply in_map_iff in Hp. destruct Hp as ([k v] & <- & Hv). destruct (Nu k v Hv) as [x ->].
      exists x. apply dget_nodup; assumption. }
    destruct (perturb_all_num construct d D o pert nominal Nd Dj (dkeys D) HP (mkS (fst (construct (D ++ o)%list (s_vecs s))) (s_dicts s) (s_log s ++ [((D ++ o)%list, s_vecs s)])) s2 r2 E E2) as (n & L & V & _ & K).
    cbn [s_log s_vecs s_dicts] in *.
    destruct r2 as [rs|e]; [|discriminate]. destruct K as (K1 & K2 & K3). rewrite K1 in K3.
    unfold sbind, sraise, sret in R. destruct (combine_all _ _) as [c|]; [|discriminate]. injection R as <- <-. cbn [o_sens].
    exists nominal. split; [reflexivity|]. split; [unfold dkeys at 1; rewrite map_map; exact K2|].
    unfold arguments. cbn [calls tl]. change (map (fun p => changed_at p (times_factor pert) D ++ o)%list (dkeys D)) with (map (kw_of D o pert) (dkeys D)).
    clear -K3. induction K3 as [|call kr cs rs (x & inst & A & B & C & F) _ IH]; [constructor|]. cbn. constructor; [|exact IH].
    exists x, inst. cbn [fst snd]. split; [apply dget_in, A|]. split; [exact B|]. split; [exact C|].
    unfold outcome in F. destruct (match i_analysis nominal with Some ((_ :: _) as a) => _ | _ => _ end); [|discriminate]. cbn [bind] in F.
    destruct (match i_props nominal with [] => _ | _ => _ end); [|discriminate]. cbn [bind] in F.
    destruct (mesh_sens _ _ _) as [ms|] eqn:Em; [|discriminate]. cbn [bind] in F. injection F as <-. cbn [fst snd].
    unfold mesh_sens in Em. apply mapM_inv in Em. clear -Em. induction Em as [|cm ct l l' H _ IH]; [constructor|]. constructor; [|exact IH].
    unfold dlookup in H. destruct (dget (i_meshes inst) (fst cm)) as [m|]; [|discriminate]. cbn [bind] in H.
    change (nadd n1 (ndiv pert (nZ 100))) with (factor pert).
    destruct (compare_meshes (snd cm) m _) as [t|] eqn:Ec; [|discriminate]. cbn [bind] in H. injection H as <-. cbn.
    split; [reflexivity|]. exists m. auto.
  Qed.

  (** the scalar results: analysis and property sensitivities are the difference
      quotients of the same instances; without results there are none *)
  Definition built_for D o pert (call : dict (pval T) * vheap T) (p : string) (x : T) (inst : instance T) : Prop :=
    In (p, PNum x) D /\ fst call = (changed_at p (times_factor pert) D ++ o)%list /\ snd (construct (fst call) (snd call)) = Ok inst.
  Theorem C61_scalars s d D o pert s' out : nth_error (s_dicts s) d = Some D -> NoDup (dkeys D) -> numbers D -> disjoint_keys D o ->
    dvdp construct d o pert s = (s', Ok out) ->
    exists nominal, snd (construct (D ++ o)%list (s_vecs s)) = Ok nominal /\
    let instances := tl (calls construct (arguments D o pert) (s_vecs s)) in
    let step x := nsub (nmul x (nadd n1 (ndiv pert (nZ 100)))) x in
    (i_props nominal = [] -> o_props out = []) /\
    (i_props nominal <> [] -> dkeys (o_props out) = dkeys D /\
       Forall2 (fun call ps => exists x inst, built_for D o pert call (fst ps) x inst /\
          Forall2 (fun kv ks => fst kv = fst ks /\ exists w, dget (i_props inst) (fst kv) = Some w /\
              neqb (step x) n0 = false /\ snd ks = ndiv (nsub w (snd kv)) (step x)) (i_props nominal) (snd ps))
         instances (o_props out)) /\
    (match i_analysis nominal with Some a => a = [] | None => True end -> o_scalar out = []) /\
    (forall a, i_analysis nominal = Some a -> a <> [] -> dkeys (o_scalar out) = dkeys D /\
       Forall2 (fun call ps => exists x inst b, built_for D o pert call (fst ps) x inst /\ i_analysis inst = Some b /\
          Forall2 (fun kv ks => fst kv = fst ks /\ exists w, dget b (fst kv) = Some w /\
              forall i u v, nth_error (snd kv) i = Some u -> nth_error w i = Some v ->
                nth_error (snd ks) i = Some (ndiv (nsub v u) (step x))) a (snd ps))
         instances (o_scalar out)).
  Proof using.
    intros E Nd Nu Dj R. unfold dvdp in R. unfold sbind at 1 in R.
    rewrite (make_eq construct s d D o _ E (spread_ok _ _ Dj)) in R.
    destruct (snd (construct (D ++ o)%list (s_vecs s))) as [nominal|e] eqn:En; [|discriminate].
    unfold sbind at 1 in R. unfold sdict in R. cbn [s_dicts] in R. rewrite E in R.
    unfold sbind at 1 in R.
    match type of R with context[perturb_all construct d o pert nominal (dkeys D) ?s1] =>
      destruct (perturb_all construct d o pert nominal (dkeys D) s1) as [s2 r2] eqn:E2 end.
    assert (HP : forall p, In p (dkeys D) -> exists x, dget D p = Some (PNum x)).
    { intros p Hp. unfold dkeys in Hp. apply in_map_iff in Hp. destruct Hp as ([k v] & <- & Hv). destruct (Nu k v Hv) as [x ->].
      exists x. apply dget_nodup; assumption. }
    destruct (perturb_all_num construct d D o pert nominal Nd Dj (dkeys D) HP (mkS (fst (construct (D ++ o)%list (s_vecs s))) (s_dicts s) (s_log s ++ [((D ++ o)%list, s_vecs s)])) s2 r2 E E2) as (n & L & V & _ & K).
    cbn [s_log s_vecs s_dicts] in *.
    destruct r2 as [rs|e]; [|discriminate]. destruct K as (K1 & K2 & K3). rewrite K1 in K3.
    unfold sbind, sraise, sret in R. destruct (combine_all _ _) as [c|]; [|discriminate]. injection R as <- <-. cbn [o_props o_scalar].
    exists nominal. split; [reflexivity|]. cbv zeta.
    unfold arguments. cbn [calls tl]. change (map (fun p => changed_at p (times_factor pert) D ++ o)%list (dkeys D)) with (map (kw_of D o pert) (dkeys D)).
    cbv zeta in K3. cbn [s_vecs] in K3.
    set (cs := calls construct (map (kw_of D o pert) (dkeys D)) (fst (construct (D ++ o)%list (s_vecs s)))) in *. clearbody cs. clear -K2 K3. rewrite <- K2. clear K2. change (nadd n1 (ndiv pert (nZ 100))) with (factor pert).
    induction K3 as [|call kr cs rs (x & inst & A & B & C & F) _ (I1 & I2 & I3 & I4)].
    { split; [reflexivity|]. split; [split; [reflexivity|constructor]|]. split; [reflexivity|]. split; [reflexivity|constructor]. }
    assert (BF : built_for D o pert call (fst kr) x inst) by (split; [apply dget_in, A|auto]).
    unfold outcome in F.
    assert (O : exists an pr ms, (match i_analysis nominal with
               | Some ((_ :: _) as a) => let! s := both_sens (PNum (nsub (nmul x (factor pert)) x)) a nominal inst in Ok (Some s)
               | _ => Ok None
               end) = Ok an /\ (match i_props nominal with
               | [] => Ok None
               | a => let! s := property_sens (PNum (nsub (nmul x (factor pert)) x)) a (i_props inst) in Ok (Some s)
               end) = Ok pr /\ snd kr = (ms, an, pr)).
    { destruct (match i_analysis nominal with Some ((_ :: _) as a) => _ | _ => _ end) as [an|]; [|discriminate]. cbn [bind] in F.
      destruct (match i_props nominal with [] => _ | _ => _ end) as [pr|]; [|discriminate]. cbn [bind] in F.
      destruct (mesh_sens _ _ _) as [ms|]; [|discriminate]. cbn [bind] in F. injection F as <-. eauto 8. }
    clear F. destruct O as (an & pr & ms & O1 & O2 & O3). cbn [map]. rewrite O3. cbn [fst snd]. unfold somes in *. cbn [flat_map fst snd].
    split; [|split; [|split]].
    - intros N0. rewrite N0 in O2. injection O2 as <-. cbn. exact (I1 N0).
    - intros N0. specialize (I2 N0). destruct I2 as [I2 I2']. destruct (i_props nominal) as [|kv l] eqn:EP; [congruence|]. rewrite <- EP in *.
      destruct (property_sens _ _ _) as [t|] eqn:Et; [|discriminate]. cbn [bind] in O2. injection O2 as <-. cbn [app].
      split; [unfold dkeys in *; refine (f_equal (cons (fst kr)) _); exact I2|]. constructor; [|exact I2']. exists x, inst. split; [exact BF|].
      cbn [snd]. unfold property_sens in Et. apply mapM_inv in Et. clear -Et. induction Et as [|u t l l' H _ IH]; [constructor|]. constructor; [|exact IH].
      unfold dlookup in H. destruct (dget (i_props inst) (fst u)) as [w|]; [|discriminate]. cbn [bind] in H. unfold scalar_sens in H.
      destruct (neqb (nsub (nmul x (factor pert)) x) n0) eqn:Z; [discriminate|]. cbn [bind] in H. injection H as <-. cbn. split; [reflexivity|].
      exists w. auto.
    - intros N0. destruct (i_analysis nominal) as [a|] eqn:EA.
      + subst a. injection O1 as <-. cbn. apply I3. reflexivity.
      + injection O1 as <-. cbn. apply I3. exact I.
    - intros a Ea Na. specialize (I4 a Ea Na). destruct I4 as [I4 I4']. rewrite Ea in O1. destruct a as [|kv l]; [congruence|].
      unfold both_sens in O1. destruct (analysis_sens _ _ _) as [t|] eqn:Et; [|discriminate]. cbn [bind] in O1. destruct (volmass_sens _ _ _) as [t'|]; [|discriminate].
      cbn [bind] in O1. injection O1 as <-. cbn [app option_map fst].
      split; [unfold dkeys in *; refine (f_equal (cons (fst kr)) _); exact I4|]. constructor; [|exact I4'].
      destruct (i_analysis inst) as [b|] eqn:Eb.
      2:{ unfold analysis_sens in Et. cbn in Et. discriminate. }
      exists x, inst, b. split; [exact BF|]. split; [exact Eb|].
      cbn [snd]. unfold analysis_sens in Et. apply mapM_inv in Et. clear -Et. induction Et as [|u t l0 l' H _ IH]; [constructor|]. constructor; [|exact IH].
      unfold dlookup in H. destruct (dget b (fst u)) as [w|]; [|discriminate]. cbn [bind array_sens] in H. injection H as <-. cbn [fst snd]. split; [reflexivity|].
      exists w. split; [reflexivity|]. generalize (snd u). clear. intros q. revert w. induction q as [|q0 q IH]; intros w i u v H K; [destruct i; discriminate|].
      destruct w as [|w0 w]; [destruct i; discriminate|]. destruct i as [|i]; cbn in *; [congruence|]. apply IH; assumption.
  Qed.

  (** a keyword that is both a parameter and an override: nothing is called *)
  Theorem C61_overlap s d D o pert k : nth_error (s_dicts s) d = Some D -> In k (dkeys D) -> In k (dkeys o) ->
    dvdp construct d o pert s = (s, Raise TypeError).
  Proof using.
    intros E H1 H2. unfold dvdp, make, sbind, sdict, sraise. rewrite E, (spread_raise _ _ _ H2 H1). reflexivity.
  Qed.
  (** a Vector3-valued parameter: by the time the constructor is called for it,
      the caller's own vector has been multiplied, the arguments are the
      nominal ones, and the study raises (if it is not ended before) *)
  Theorem C61_vector s d D1 p l D2 o pert s' r v nominal : let D := (D1 ++ (p, PVec l) :: D2)%list in
    nth_error (s_dicts s) d = Some D -> NoDup (dkeys D) -> numbers D1 -> disjoint_keys D o ->
    nth_error (s_vecs s) l = Some v ->
    (forall kw h, nth_error h l = Some v -> nth_error (fst (construct kw h)) l = Some v) ->
    snd (construct (D ++ o)%list (s_vecs s)) = Ok nominal -> (exists c m, In (c, m) (i_meshes nominal) /\ m <> []) ->
    dvdp construct d o pert s = (s', r) ->
    ~ is_ok r /\
    let before := firstn (1 + length D1) (arguments D o pert) in
    ((exists n, s_log s' = s_log s ++ calls construct (firstn n before) (s_vecs s)) \/
     (exists h, s_log s' = s_log s ++ calls construct before (s_vecs s) ++ [(D ++ o, h)] /\
        nth_error h l = Some (vscale v (nadd n1 (ndiv pert (nZ 100)))) /\
        s_vecs s' = fst (construct (D ++ o) h)))%list.
  Proof using.
    intros D E Nd Nu Dj V Fr En Hm R. unfold dvdp in R. unfold sbind at 1 in R.
    rewrite (make_eq construct s d D o _ E (spread_ok _ _ Dj)), En in R.
    unfold sbind at 1 in R. unfold sdict in R. cbn [s_dicts] in R. rewrite E in R.
    unfold sbind at 1 in R. set (s1 := mkS _ _ _) in R.
    assert (KD : dkeys D = (dkeys D1 ++ p :: dkeys D2)%list) by (unfold D, dkeys; rewrite map_app; reflexivity).
    rewrite KD, perturb_all_app in R. unfold sbind at 1 in R.
    assert (B : firstn (1 + length D1) (arguments D o pert) = ((D ++ o) :: map (kw_of D o pert) (dkeys D1))%list).
    { unfold arguments. cbn [firstn plus]. f_equal. rewrite KD, map_app.
      replace (length D1) with (length (map (fun p => changed_at p (times_factor pert) D ++ o)%list (dkeys D1)))
        by (unfold dkeys; rewrite !map_length; reflexivity).
      rewrite firstn_app, Nat.sub_diag, firstn_all. cbn [firstn]. rewrite app_nil_r. reflexivity. }
    destruct (perturb_all construct d o pert nominal (dkeys D1) s1) as [s2 r2] eqn:E2.
    assert (HP : forall q, In q (dkeys D1) -> exists x, dget D q = Some (PNum x)).
    { intros q Hq. unfold dkeys in Hq. apply in_map_iff in Hq. destruct Hq as ([k w] & <- & Hw). destruct (Nu k w Hw) as [x ->].
      exists x. apply dget_nodup; [exact Nd|]. unfold D. apply in_or_app. auto. }
    destruct (perturb_all_num construct d D o pert nominal Nd Dj (dkeys D1) HP s1 s2 r2 E E2) as (n & L & W & (y & Y) & K).
    unfold s1 in L, W, Y. cbn [s_log s_vecs s_dicts] in L, W, Y.
    destruct r2 as [rs|e].
    2:{ injection R as <- <-. split; [intros [a H]; discriminate|]. left. exists (S n). rewrite B. cbn [firstn calls]. rewrite firstn_map, L, <- app_assoc. reflexivity. }
    destruct K as (K1 & _). rewrite K1 in L, W.
    assert (F : forall kws h, nth_error h l = Some v -> nth_error (state_after construct kws h) l = Some v).
    { clear -Fr. induction kws as [|kw kws IH]; intros h Hh; cbn; auto. }
    destruct (vec_step construct s2 d D o p l v pert nominal) as (s3 & e & h & P & L3 & V3 & Y3 & W3).
    + rewrite Y, nth_error_app1; [exact E|]. apply nth_error_Some. congruence.
    + apply dget_nodup; [exact Nd|]. unfold D. apply in_or_app. cbn. auto.
    + rewrite W. apply F, Fr, V.
    + exact Dj.
    + exact Hm.
    + unfold sbind at 1 in R. cbn [perturb_all] in R. unfold sbind at 1 in R. rewrite P in R.
      injection R as <- <-. split; [intros [a H]; discriminate|]. right. exists h. rewrite B, L3, L. cbn [calls].
      split; [rewrite <- !app_assoc; reflexivity|]. split; [exact V3|exact W3].
  Qed.
End Calls.

(** the step in the parameter: zero exactly if the value or the perturbation is *)
Theorem C61_step (x pert : R) :
  (nsub (nmul x (nadd n1 (ndiv pert (nZ 100)))) x = x * pert / 100)%R /\
  ((nsub (nmul x (nadd n1 (ndiv pert (nZ 100)))) x = 0)%R <-> x = 0%R \/ pert = 0%R).
Proof.
  assert (E : (nsub (nmul x (nadd n1 (ndiv pert (nZ 100)))) x = x * pert / 100)%R) by (numR; field).
  split; [exact E|]. rewrite E. split.
  - intros H. assert (Q : (x * pert = 0)%R) by lra. apply Rmult_integral in Q. exact Q.
  - intros [-> | ->]; lra.
Qed.

(** one number and one override; then the same with a Vector3 *)
Example C61_meets :
  let mesh x := [Tri (V3 x 0 0) (V3 0 1 0) (V3 0 0 1)]%R : list (tri R) in
  let build : dict (pval R) -> VM R (instance R) := fun kw h => (h,
    match dget kw "w"%string with
    | Some (PNum x) => Ok (mkInst [("body"%string, mesh x)] None [] None)
    | Some (PVec l) => Ok (mkInst [("body"%string, mesh (vx (look h l)))] None [] None)
    | _ => Raise TypeError
    end) in
  (forall s' r, dvdp build 0 [("n"%string, PNum 4%R)] 5%R (mkS [] [[("w"%string, PNum 2%R)]] []) = (s', r) ->
     s_dicts s' = [[("w"%string, PNum 2%R)]; [("w"%string, PNum (2 * (1 + 5 / 100))%R)]] /\ is_ok r /\
     map fst (s_log s') = [[("w"%string, PNum 2%R); ("n"%string, PNum 4%R)];
                           [("w"%string, PNum (2 * (1 + 5 / 100))%R); ("n"%string, PNum 4%R)]]) /\
  (forall s' r, dvdp build 0 [] 5%R (mkS [V3 1 2 3]%R [[("w"%string, PVec 0)]] []) = (s', r) ->
     ~ is_ok r /\ map fst (s_log s') = [[("w"%string, PVec 0)]; [("w"%string, PVec 0)]] /\
     nth_error (s_vecs s') 0 = Some (vscale (V3 1 2 3) (1 + 5 / 100))%R).
Proof.
  cbv zeta. set (mesh := fun x => [Tri (V3 x 0 0) (V3 0 1 0) (V3 0 0 1)]%R : list (tri R)).
  set (build := fun (kw : dict (pval R)) (h : vheap R) => (h, _)).
  split.
  - intros s' r E.
    set (D := [("w"%string, PNum 2%R)]) in *. set (o := [("n"%string, PNum 4%R)]) in *.
    assert (Nd : NoDup (dkeys D)) by (repeat constructor; cbn; tauto).
    assert (Nu : numbers D) by (intros k v [[= <- <-]|[]]; eauto).
    assert (Dj : disjoint_keys D o) by (intros k [<- |[]] [H|[]]; discriminate).
    unfold dvdp in E. unfold sbind at 1 in E.
    rewrite (make_eq build (mkS [] [D] []) 0 D o _ eq_refl (spread_ok _ _ Dj)) in E. cbn [s_vecs s_dicts s_log] in E.
    change (snd (build (D ++ o)%list [])) with (Ok (mkInst [("body"%string, mesh 2%R)] None [] None)) in E. cbv beta iota in E.
    unfold sbind at 1 in E. unfold sdict at 1 in E. cbn [nth_error s_dicts] in E.
    unfold sbind at 1 in E. change (dkeys D) with ["w"%string] in E. cbn [perturb_all] in E. unfold sbind at 1 in E.
    match type of E with context[perturb build 0 o 5%R ?nom "w"%string ?st] =>
      rewrite (perturb_num build st 0 D o "w" 2%R 5%R nom eq_refl Nd eq_refl Dj) in E end.
    cbn in E. injection E as <- <-. cbn. split; [reflexivity|]. split; [eexists; reflexivity|reflexivity].
  - intros s' r E.
    destruct (C61_vector build (mkS [V3 1 2 3]%R [[("w"%string, PVec 0)]] []) 0 [] "w"%string 0%nat [] [] 5%R s' r (V3 1 2 3)%R
      (mkInst [("body"%string, mesh 1%R)] None [] None) eq_refl) as [A B].
    + repeat constructor; cbn; tauto.
    + intros k v [].
    + intros k [].
    + reflexivity.
    + intros kw h H. exact H.
    + reflexivity.
    + exists "body"%string, (mesh 1%R). split; [cbn; auto|discriminate].
    + exact E.
    + split; [exact A|]. clear A B. unfold dvdp in E. unfold sbind at 1 in E.
      rewrite (make_eq build (mkS [V3 1 2 3]%R [[("w"%string, PVec 0)]] []) 0 [("w"%string, PVec 0)] [] [("w"%string, PVec 0)] eq_refl eq_refl) in E.
      cbn [s_vecs s_dicts s_log] in E.
      change (snd (build [("w"%string, PVec 0)] [V3 1 2 3]%R)) with (Ok (mkInst [("body"%string, mesh 1%R)] None [] None)) in E. cbv beta iota in E.
      cbn [s_vecs s_dicts s_log] in E.
      unfold sbind at 1 in E. unfold sdict at 1 in E. cbn [nth_error s_dicts] in E.
      unfold sbind at 1 in E. change (dkeys [("w"%string, PVec 0)]) with ["w"%string] in E. cbn [perturb_all] in E. unfold sbind at 1 in E.
      match type of E with context[perturb build 0 [] 5%R ?nom "w"%string ?st] =>
        destruct (vec_step build st 0 [("w"%string, PVec 0)] [] "w" 0%nat (V3 1 2 3)%R 5%R nom) as (s3 & e & h & P & L3 & V3' & Y3 & W3) end;
        [reflexivity|reflexivity|reflexivity|intros k []|exists "body"%string, (mesh 1%R); split; [cbn; auto|discriminate]|].
      rewrite P in E. injection E as <- <-. rewrite L3, W3. split; [reflexivity|exact V3'].
Qed.

(** a volume that is the square of the parameter, and a centre of gravity *)
Example C61_scalars_meets :
  let build : dict (pval R) -> VM R (instance R) := fun kw h => (h,
    match dget kw "w"%string with
    | Some (PNum x) => Ok (mkInst [] (Some [("cog"%string, [x; 0; 0]%R)]) [("volume"%string, (x * x)%R)] (Some [("vehicle"%string, (x, x * x, 1)%R)]))
    | _ => Raise TypeError
    end) in
  forall s' r, dvdp build 0 [] 5%R (mkS [] [[("w"%string, PNum 2%R)]] []) = (s', r) ->
    exists out, r = Ok out /\ map fst (o_scalar out) = ["w"%string] /\
      o_props out = [("w"%string, [("volume"%string, ((2 * (1 + 5 / 100) * (2 * (1 + 5 / 100)) - 2 * 2) / (2 * (1 + 5 / 100) - 2))%R)])].
Proof.
  cbv zeta. intros s' r. unfold dvdp, perturb_all, perturb, sbind, sret, sraise, make, sdict, svec, adjust, scopy, sset. cbn -[Rplus Rmult Rdiv Rminus neqb nmul nadd nsub ndiv].
  replace (neqb _ _) with false by (symmetry; apply Reqb_false; numR; lra). cbn -[Rplus Rmult Rdiv Rminus]. intros Q. injection Q as <- <-. eexists. split; [reflexivity|]. cbn. auto.
Qed.

Print Assumptions C61_calls.
Print Assumptions C61_tables.
Print Assumptions C61_scalars.
Print Assumptions C61_vector.
