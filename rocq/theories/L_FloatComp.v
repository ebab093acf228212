(** Rounding errors of the mesh of a closed SweptComponent with straight edges. *)
From Coq Require Import ZArith Reals Lra Lia Bool String List Psatz Permutation.
From Flocq Require Import Core BinarySingleNaN Relative.
From Verif Require Import Num NumR NumF Py M_Vector SpecR3 M_Path M_Surface M_Geometry M_Mesh M_Component SpecPath SpecSurf SpecMesh SpecComp SpecFloats
  L_Vector L_Line L_Coons L_Edges L_Mesh L_Component L_SweptComp L_Float L_FloatErr L_FloatMesh L_FloatGeom L_FloatSwept L_Swept.
Import ListNotations.
Local Open Scope R_scope.

(** isclose accepts equal values *)
Lemma lit_unit (n : Z) : (1 <= n <= 2 ^ 51)%Z -> 0 <= B2R (fdiv (of_Z 1) (of_Z n)) <= 1 /\ is_finite (fdiv (of_Z 1) (of_Z n)) = true.
Proof.
  intros H. destruct (step_value n (proj1 H) (proj2 H)) as (V & F). unfold step in V, F. rewrite V. split; [|exact F].
  pose proof (step_range n (proj1 H) (proj2 H)). lra.
Qed.
Lemma rnd_bpow z e : (-1000 <= e <= 1000)%Z -> 0 <= z <= bpow radix2 e -> 0 <= rnd z <= bpow radix2 e.
Proof.
  intros He H. split.
  - apply Rle_trans with (rnd 0); [rewrite rnd_0; lra|]. apply round_le; [exact _|exact _|lra].
  - apply round_le_generic; [exact _|exact _| |lra]. apply generic_format_bpow. unfold SpecFloat.fexp, SpecFloat.emin. lia.
Qed.
Lemma bpow_1024 x e : (e < 1024)%Z -> 0 <= x <= bpow radix2 e -> Rabs x < bpow radix2 1024.
Proof. intros He H. rewrite Rabs_pos_eq by lra. apply Rle_lt_trans with (1 := proj2 H). apply bpow_lt. exact He. Qed.

Section Float.
  Variables (L : libm) (M : R).
  Hypothesis HM : sized_ok M.
  #[local] Instance NF : Num b64 := NumF L.

  Lemma isclose_equal (a b : b64) : is_finite a = true -> is_finite b = true -> B2R a = B2R b -> Rabs (B2R b) <= M ->
    np_isclose a b (nlit 1 100) (nlit 1 100000) = true.
  Proof using HM.
    intros Fa Fb E B. unfold np_isclose. cbn [nleb nabs nsub nadd nmul nlit NF NumF].
    destruct (fsub_unit a b Fa Fb ltac:(lra)) as (F & V). rewrite Rminus_diag_eq, rnd_0 in V by exact E.
    destruct (lit_unit 100 ltac:(lia)) as (T1 & G1). destruct (lit_unit 100000 ltac:(lia)) as (T2 & G2).
    set (rt := fdiv (of_Z 1) (of_Z 100)) in *. set (at_ := fdiv (of_Z 1) (of_Z 100000)) in *.
    assert (AB : 0 <= B2R (Babs b) <= bpow radix2 100).
    { rewrite B2R_Babs. split; [apply Rabs_pos|]. apply Rle_trans with (1 := B). apply HM. }
    assert (FB : is_finite (Babs b) = true) by (rewrite is_finite_Babs; exact Fb).
    assert (P1 : 0 <= B2R rt * B2R (Babs b) <= bpow radix2 100).
    { split; [apply Rmult_le_pos; lra|]. apply Rle_trans with (1 * bpow radix2 100); [apply Rmult_le_compat; lra|lra]. }
    pose proof (rnd_bpow _ 100 ltac:(lia) P1) as P2.
    pose proof (Bmult_correct 53 1024 _ _ mode_NE rt (Babs b)) as C. change (round_mode mode_NE) with ZnearestE in C.
    rewrite Rlt_bool_true in C by (apply (bpow_1024 _ 100); [lia|exact P2]). rewrite G1, FB in C. destruct C as (V1 & F1 & _).
    assert (P3 : 0 <= B2R at_ + B2R (fmul rt (Babs b)) <= bpow radix2 101).
    { rewrite V1. change 101%Z with (1 + 100)%Z. rewrite bpow_plus. change (bpow radix2 1) with 2.
      assert (1 <= bpow radix2 100) by (change 1 with (bpow radix2 0); apply bpow_le; lia). lra. }
    pose proof (rnd_bpow _ 101 ltac:(lia) P3) as P4.
    pose proof (Bplus_correct 53 1024 _ _ mode_NE at_ (fmul rt (Babs b)) G2 F1) as D. change (round_mode mode_NE) with ZnearestE in D.
    rewrite Rlt_bool_true in D by (apply (bpow_1024 _ 101); [lia|exact P4]). destruct D as (V2 & F2 & _).
    rewrite Bleb_correct; [|rewrite is_finite_Babs; exact F|exact F2].
    apply Rle_bool_true. rewrite B2R_Babs, V, V2, Rabs_R0. lra.
  Qed.
  Lemma close_equal (a b : vec b64) : finite_vec a -> finite_vec b -> real_vec a = real_vec b -> size_at_most M b ->
    approximately_equal_vectors a b = true.
  Proof using HM.
    intros (X & Y & Z) (X' & Y' & Z') E (A & B & C). injection E as Ex Ey Ez. unfold approximately_equal_vectors.
    rewrite !isclose_equal by assumption. reflexivity.
  Qed.

  (** approximation of a path, and its end points *)
  Definition pap (P : path b64) (g : R -> pt) : Prop :=
    forall t u, nr 1 10 1 t u -> 0 <= u <= 1 -> exists p, p_call P t = Ok p /\ nrv M 32 1 p (g u).
  Definition ends (P : path b64) (a b : vec b64) : Prop := exists pa pb, p_call P (of_Z 0) = Ok pa /\ p_call P (of_Z 1) = Ok pb /\
    finite_vec pa /\ finite_vec pb /\ real_vec pa = real_vec a /\ real_vec pb = real_vec b.

  Lemma line_pap a b : finite_vec a -> finite_vec b -> size_at_most M a -> size_at_most M b ->
    pap (Line a b) (fun u => lerp u (real_vec a) (real_vec b)).
  Proof using HM.
    intros (X & Y & Z) (X' & Y' & Z') (SX & SY & SZ) (SX' & SY' & SZ') t u Ht Hu.
    eexists. split; [reflexivity|]. split; [|split]; apply line_nr; assumption.
  Qed.
  Lemma line_ends_ok a b : finite_vec a -> finite_vec b -> ends (Line a b) a b.
  Proof. intros Fa Fb. exact (line_ends_real L a b Fa Fb). Qed.

  Lemma rev_param t u : nr 1 3 1 t u -> 0 <= u <= 1 ->
    nr 1 10 1 (fadd (of_Z 1) (fmul t (fsub (of_Z 0) (of_Z 1)))) (1 - u).
  Proof.
    intros Ht Hu.
    assert (E : fsub (of_Z 0) (of_Z 1) = of_Z (-1)) by (apply B2SF_inj; vm_compute; reflexivity).
    rewrite E.
    pose proof (proj1 (nr_mul_both 1 sized_1 3 1 0 1 t u (of_Z (-1)) (IZR (-1)) ltac:(lra) ltac:(lra) ltac:(lra) ltac:(lra) ltac:(lra) ltac:(lra) ltac:(lra) Ht
      (nr_int (-1) 1 ltac:(lia) ltac:(unfold Rabs; destruct (Rcase_abs _); lra)))) as P.
    pose proof (add2 1 sized_1 10 2 0 1 _ _ _ _ _ _ (nr_int 1 1 ltac:(lia) ltac:(rewrite Rabs_pos_eq; lra)) P) as Q.
    replace (1 - u) with (IZR 1 + u * IZR (-1)) by lra. apply nr_size with 2; [apply Q; lra|].
    replace (IZR 1 + u * IZR (-1)) with (1 - u) by lra. rewrite Rabs_pos_eq; lra.
  Qed.
  Lemma rev_pap P g : pap P g -> forall t u, nr 1 3 1 t u -> 0 <= u <= 1 ->
    exists p, p_call (ReversedPath P) t = Ok p /\ nrv M 32 1 p (g (1 - u)).
  Proof.
    intros H t u Ht Hu. apply H; [|lra]. exact (rev_param t u Ht Hu).
  Qed.
  Lemma rev_ends P a b : ends P a b -> ends (ReversedPath P) b a.
  Proof.
    intros (pa & pb & Ea & Eb & Fa & Fb & Va & Vb). exists pb, pa.
    assert (E0 : fadd (of_Z 1) (fmul (of_Z 0) (fsub (of_Z 0) (of_Z 1))) = of_Z 1) by (apply B2SF_inj; vm_compute; reflexivity).
    assert (E1 : fadd (of_Z 1) (fmul (of_Z 1) (fsub (of_Z 0) (of_Z 1))) = of_Z 0) by (apply B2SF_inj; vm_compute; reflexivity).
    unfold ReversedPath, SubRangedPath. cbn [p_call nadd nmul nsub n0 n1 nZ NF NumF]. unfold n0, n1. cbn [nZ NF NumF].
    rewrite E0, E1. repeat split; try assumption; try apply Fa; try apply Fb.
  Qed.

  (** Coons patches *)
  Definition pap3 (P : path b64) (g : R -> pt) : Prop :=
    forall t u, nr 1 3 1 t u -> 0 <= u <= 1 -> exists p, p_call P t = Ok p /\ nrv M 32 1 p (g u).
  Lemma pap_pap3 P g : pap P g -> pap3 P g.
  Proof. intros H t u Ht. apply H. apply (nr_weaken 1 3 1); [apply sized_1|exact Ht|lra|lra]. Qed.
  Lemma param_0 : nr 1 3 1 (of_Z 0) 0.
  Proof. apply (nr_weaken 1 0 1); [apply sized_1| |lra|lra]. apply (nr_int 0); [lia|rewrite Rabs_R0; lra]. Qed.
  Lemma param_1 : nr 1 3 1 (of_Z 1) 1.
  Proof. apply (nr_weaken 1 0 1); [apply sized_1| |lra|lra]. apply (nr_int 1); [lia|rewrite Rabs_pos_eq; lra]. Qed.
  Lemma real_size a b : real_vec a = real_vec b -> size_at_most M b -> size_at_most M a.
  Proof. intros E. unfold size_at_most. injection E as -> -> ->. tauto. Qed.

  Lemma coons_float n e s w gn ge gs gw c00 c10 c01 c11 :
    pap3 n gn -> pap3 e ge -> pap3 s gs -> pap3 w gw ->
    ends n c01 c11 -> ends e c10 c11 -> ends s c00 c10 -> ends w c00 c01 ->
    size_at_most M c00 -> size_at_most M c10 -> size_at_most M c01 -> size_at_most M c11 ->
    exists u, CoonsPatch n e s w = Ok u /\ forall r a t b, param r a -> param t b ->
      exists p, u r t = Ok p /\ nrv M 400 8 p (coons_val gn ge gs gw origin a b).
  Proof using HM.
    intros Pn Pe Ps Pw (n0' & n1' & En0 & En1 & Fn0 & Fn1 & Vn0 & Vn1) (e0 & e1 & Ee0 & Ee1 & Fe0 & Fe1 & Ve0 & Ve1)
      (s0 & s1 & Es0 & Es1 & Fs0 & Fs1 & Vs0 & Vs1) (w0 & w1 & Ew0 & Ew1 & Fw0 & Fw1 & Vw0 & Vw1) S00 S10 S01 S11.
    unfold CoonsPatch, Coons_edges. change (@n0 b64 NF) with (of_Z 0). change (@n1 b64 NF) with (of_Z 1).
    rewrite Es0, Es1, En0, En1, Ew0, Ee0, Ew1, Ee1. cbn [bind].
    rewrite !close_equal; try assumption; try congruence; try (eapply real_size; eassumption).
    cbn [negb bind]. eexists. split; [reflexivity|].
    intros r a t b (Hr & _ & Ha) (Ht & _ & Hb).
    destruct (Ps r a Hr Ha) as (ps & E1 & X1). destruct (Pn r a Hr Ha) as (pn & E2 & X2).
    destruct (Pw t b Ht Hb) as (pw & E3 & X3). destruct (Pe t b Ht Hb) as (pe & E4 & X4).
    destruct (Ps _ _ param_0 ltac:(lra)) as (q & Q1 & K00). assert (q = s0) as -> by congruence.
    destruct (Ps _ _ param_1 ltac:(lra)) as (q & Q2 & K10). assert (q = s1) as -> by congruence.
    destruct (Pn _ _ param_0 ltac:(lra)) as (q & Q3 & K01). assert (q = n0') as -> by congruence.
    destruct (Pn _ _ param_1 ltac:(lra)) as (q & Q4 & K11). assert (q = n1') as -> by congruence.
    unfold Coons_call. cbn [c_south c_north c_west c_east c_p00 c_p01 c_p10 c_p11 c_offset]. rewrite E1, E2, E3, E4. cbn [bind].
    eexists. split; [reflexivity|].
    destruct X1 as (X1 & Y1 & Z1), X2 as (X2 & Y2 & Z2), X3 as (X3 & Y3 & Z3), X4 as (X4 & Y4 & Z4).
    destruct K00 as (? & ? & ?), K10 as (? & ? & ?), K01 as (? & ? & ?), K11 as (? & ? & ?).
    split; [|split]; apply (coons_nr M HM); assumption.
  Qed.
End Float.

(** ** meshes *)
Lemma F2_app_ {A B} (Q : A -> B -> Prop) a a' b b' : Forall2 Q a b -> Forall2 Q a' b' -> Forall2 Q (a ++ a') (b ++ b').
Proof. intros H K. induction H; cbn; auto. Qed.
Lemma F2_flat_map {A B} (Q : A -> B -> Prop) f g l : (forall i : nat, In i l -> Forall2 Q (f i) (g i)) -> Forall2 Q (flat_map f l) (flat_map g l).
Proof.
  induction l as [|i l IH]; intros H; cbn [flat_map]; [constructor|]. apply F2_app_; [apply H; left; reflexivity|].
  apply IH. intros j Hj. apply H. right. exact Hj.
Qed.
Lemma grid_mesh_near e (Q C : nat -> nat -> vec b64) (Q' C' : nat -> nat -> pt) ni nj :
  (forall i j, (i <= ni)%nat -> (j <= nj)%nat -> near_vec e (Q i j) (Q' i j)) ->
  (forall i j, (i < ni)%nat -> (j < nj)%nat -> near_vec e (C i j) (C' i j)) ->
  Forall2 (near_tri e) (grid_mesh Q C ni nj) (grid_mesh Q' C' ni nj).
Proof.
  intros H K. unfold grid_mesh. apply F2_flat_map. intros i Hi. apply in_seq in Hi. apply F2_flat_map. intros j Hj. apply in_seq in Hj.
  cbn [seq map]. unfold cell_tri, at_corner, near_tri. cbn [corner fst snd t0 t1 t2].
  assert (C0 := K i j ltac:(lia) ltac:(lia)). assert (A := H i j ltac:(lia) ltac:(lia)). assert (B := H (S i) j ltac:(lia) ltac:(lia)).
  assert (D := H (S i) (S j) ltac:(lia) ltac:(lia)). assert (E := H i (S j) ltac:(lia) ltac:(lia)).
  repeat (constructor; [auto|]). constructor.
Qed.

Lemma mul_one_l (x : b64) : is_finite x = true -> fmul (of_Z 1) x = x.
Proof. intros Fx. apply one_mul, nan_finite, Fx. Qed.

Section Mesh.
  Variables (L : libm) (M : R).
  Hypothesis HM : sized_ok M.
  #[local] Instance NF' : Num b64 := NumF L.

  Definition fap (u : surf b64) (v : R -> R -> pt) : Prop :=
    forall r a t b, param r a -> param t b -> exists p, u r t = Ok p /\ nrv M 120000000 8 p (v a b).

  Lemma budget k : 0 <= k <= 130000000 -> k * ui + bpow radix2 (-24) * (8 + k * ui) + bpow radix2 (-50) <= / 2 ^ 20.
  Proof.
    intros Hk. pose proof ui_val as U.
    assert (B : bpow radix2 (-24) = / 16777216) by (cbn; lra). assert (D : bpow radix2 (-50) = / 1125899906842624) by (cbn; lra).
    rewrite B, D, U. lra.
  Qed.
  Lemma stored_near k p q : 0 <= k <= 130000000 -> nrv M k 8 p q -> near_vec (M / 2 ^ 20) (store_vertex false p) q.
  Proof using HM.
    intros Hk (X & Y & Z).
    pose proof (store_near M k 8 (/ 2 ^ 20) _ _ HM ltac:(lra) ltac:(lra) X (budget k Hk)) as (FX & EX).
    pose proof (store_near M k 8 (/ 2 ^ 20) _ _ HM ltac:(lra) ltac:(lra) Y (budget k Hk)) as (FY & EY).
    pose proof (store_near M k 8 (/ 2 ^ 20) _ _ HM ltac:(lra) ltac:(lra) Z (budget k Hk)) as (FZ & EZ).
    unfold near_vec, store_vertex. cbn [vx vy vz nstore nmul nZ NF' NumF].
    rewrite mul_one_l by apply Y. unfold store in *. rewrite (Rmult_comm (/ 2 ^ 20)) in EX, EY, EZ.
    repeat split; assumption.
  Qed.

  Lemma quarter_is : B2R (fdiv (of_Z 1) (of_Z 4)) = 1 / 4 /\ is_finite (fdiv (of_Z 1) (of_Z 4)) = true.
  Proof.
    assert (E : fdiv (of_Z 1) (of_Z 4) = B754_finite (prec := 53) (emax := 1024) false 4503599627370496 (-54) eq_refl) by (apply B2SF_inj; vm_compute; reflexivity).
    rewrite E. split; [|reflexivity]. unfold B2R, F2R. cbn. lra.
  Qed.
  Lemma mean_nr a b c d ya yb yc yd : nr M 120000000 8 a ya -> nr M 120000000 8 b yb -> nr M 120000000 8 c yc -> nr M 120000000 8 d yd ->
    nr M 130000000 8 (fmul (fdiv (of_Z 1) (of_Z 4)) (fadd (fadd (fadd a b) c) d)) ((ya + yb + yc + yd) / 4).
  Proof using HM.
    intros A B C D.
    pose proof (add2 M HM 240000020 16 _ _ _ _ _ _ _ _ A B ltac:(lra) ltac:(lra) ltac:(lra) ltac:(lra) ltac:(lra) ltac:(lra) ltac:(lra) ltac:(lra)) as S1.
    pose proof (add2 M HM 360000050 24 _ _ _ _ _ _ _ _ S1 C ltac:(lra) ltac:(lra) ltac:(lra) ltac:(lra) ltac:(lra) ltac:(lra) ltac:(lra) ltac:(lra)) as S2.
    pose proof (add2 M HM 480000100 32 _ _ _ _ _ _ _ _ S2 D ltac:(lra) ltac:(lra) ltac:(lra) ltac:(lra) ltac:(lra) ltac:(lra) ltac:(lra) ltac:(lra)) as S3.
    assert (Q : nr 1 0 (1 / 4) (fdiv (of_Z 1) (of_Z 4)) (1 / 4)).
    { destruct quarter_is as (V & F). split; [exact F|split]; [rewrite V, Rminus_diag_eq, Rabs_R0 by reflexivity; lra|].
      rewrite Rabs_pos_eq; lra. }
    pose proof (proj2 (nr_mul_both M HM 480000100 32 0 (1 / 4) _ _ _ _ ltac:(lra) ltac:(lra) ltac:(lra) ltac:(lra) ltac:(lra) ltac:(lra) ltac:(lra) S3 Q)) as P.
    replace ((ya + yb + yc + yd) / 4) with (1 / 4 * (ya + yb + yc + yd)) by lra.
    eapply nr_weaken; [exact HM|exact P|lra|lra].
  Qed.

  Lemma node_param n i : (i <= S n)%nat -> (Z.of_nat (S n) <= 2 ^ 51)%Z -> param (node (Z.of_nat (S n)) (Z.of_nat i)) (INR i / INR (S n)).
  Proof.
    intros Hi Hn. pose proof (ratio01 n i Hi) as Q.
    assert (RI : (0 <= Z.of_nat i <= Z.of_nat (S n))%Z) by lia.
    destruct (node_value (Z.of_nat (S n)) ltac:(lia) Hn _ RI) as (V & F & _).
    split; [split; [exact F|split]|split; [|exact Q]].
    - rewrite Rmult_1_r, !INR_IZR_INZ. apply node_error; [lia|exact Hn|exact RI].
    - rewrite Rabs_pos_eq; lra.
    - rewrite V. apply node_range; [lia|exact Hn|exact RI].
  Qed.

  Lemma mesh_near u v n : exact_pow_one L -> (Z.of_nat (S n) <= 2 ^ 51)%Z -> fap u v ->
    exists ms, mesh_patch no_clustering u (S n) (S n) = Ok ms /\
      Forall2 (near_tri (M / 2 ^ 20)) ms
        (grid_mesh (grid_of n v) (fun i j => mean4 (grid_of n v i j) (grid_of n v (S i) j) (grid_of n v i (S j)) (grid_of n v (S i) (S j))) (S n) (S n)).
  Proof using HM.
    intros E Hn H.
    set (nd := fun i => node (Z.of_nat (S n)) (Z.of_nat i)).
    set (P := fun i j => match u (nd i) (nd j) with Ok p => p | Raise _ => V3 (of_Z 0) (of_Z 0) (of_Z 0) end).
    assert (HP : forall i j, (i <= S n)%nat -> (j <= S n)%nat -> u (nd i) (nd j) = Ok (P i j) /\ nrv M 120000000 8 (P i j) (grid_of n v i j)).
    { intros i j Hi Hj. destruct (H _ _ _ _ (node_param n i Hi Hn) (node_param n j Hj Hn)) as (p & Ep & Np).
      unfold P. fold (nd i) (nd j) in Ep. rewrite Ep. split; [reflexivity|exact Np]. }
    eexists. split.
    - etransitivity; [exact (surface_float L u (S n) E ltac:(lia) Hn)|]. apply mesh_cells_grid with (P := P).
      intros i j Hi Hj. exists (nd i), (nd j). unfold nodes.
      rewrite !nth_error_map, !(nth_error_nth' (seq 0 (S (S n))) 0%nat) by (rewrite seq_length; lia). rewrite !seq_nth by lia.
      cbn [option_map Nat.add]. repeat split. apply HP; assumption.
    - apply grid_mesh_near.
      + intros i j Hi Hj. apply stored_near with 120000000; [lra|]. apply HP; assumption.
      + intros i j Hi Hj. unfold centres. apply stored_near with 130000000; [lra|].
        destruct (proj2 (HP i j ltac:(lia) ltac:(lia))) as (? & ? & ?). destruct (proj2 (HP (S i) j ltac:(lia) ltac:(lia))) as (? & ? & ?).
        destruct (proj2 (HP i (S j) ltac:(lia) ltac:(lia))) as (? & ? & ?). destruct (proj2 (HP (S i) (S j) ltac:(lia) ltac:(lia))) as (? & ? & ?).
        unfold cell_centre, mean4, nquarter. cbn [nlit nmul nadd NF' NumF]. split; [|split]; cbn [vx vy vz]; apply mean_nr; assumption.
  Qed.
End Mesh.

(** ** the component *)
Section Component.
  Variables (L : libm) (M : R) (m n : nat) (c : nat -> nat -> vec b64).
  Hypothesis HM : sized_ok M.
  Hypothesis Hm : (Z.of_nat (S m) <= 1048576)%Z.
  Hypothesis Hc : forall k e, (k <= S m)%nat -> (e < 4)%nat -> finite_vec (c k e) /\ size_at_most M (c k e).
  #[local] Instance NFc : Num b64 := NumF L.

  Definition gl (k e : nat) (t : R) : pt := lerp t (real_vec (c k e)) (real_vec (c k (next_edge 4 e))).
  Definition ln (k e : nat) : path b64 := Line (c k e) (c k (next_edge 4 e)).
  Definition secs : list (list (path b64)) := line_sections NFc c m.

  Lemma secs_nth k : (k <= S m)%nat -> nth_error secs k = Some [ln k 0; ln k 1; ln k 2; ln k 3]%nat.
  Proof using Type.
    clear HM Hm Hc. intros Hk. unfold secs, line_sections. rewrite nth_error_map, (nth_error_nth' _ 0%nat) by (rewrite seq_length; lia).
    rewrite seq_nth by lia. reflexivity.
  Qed.
  Lemma secs_length : length secs = S (S m).
  Proof. unfold secs, line_sections. rewrite map_length, seq_length. lia. Qed.
  Lemma ln_pap k e : (k <= S m)%nat -> (e < 4)%nat -> pap M (ln k e) (gl k e).
  Proof using HM Hm Hc.
    intros Hk He. assert (next_edge 4 e < 4)%nat by (unfold next_edge; destruct (Nat.eqb_spec (S e) 4); lia).
    apply line_pap; try apply Hc; auto.
  Qed.
  Lemma ln_ends k e : (k <= S m)%nat -> (e < 4)%nat -> ends (ln k e) (c k e) (c k (next_edge 4 e)).
  Proof using HM Hm Hc.
    intros Hk He. assert (next_edge 4 e < 4)%nat by (unfold next_edge; destruct (Nat.eqb_spec (S e) 4); lia).
    apply line_ends_ok; apply Hc; auto.
  Qed.

  Lemma side_float e : (e < 4)%nat -> exists u, swept_side secs (ResInt (S n)) e = Ok ("swept_patch_" ++ str_nat e, u, S n, S n)%string /\
    fap M u (side_val m gl e).
  Proof using HM Hm Hc.
    intros He.
    assert (EQ : mapM (fun cs => py_nth cs e) secs = Ok (map (fun k => ln k e) (seq 0 (m + 2)))).
    { unfold secs, line_sections. rewrite mapM_map. 
      transitivity (mapM (fun k => Ok (ln k e)) (seq 0 (m + 2))).
      - apply mapM_ext_all. intros k. do 4 (destruct e as [|e]; [reflexivity|]). lia.
      - generalize (seq 0 (m + 2)). intros l. induction l as [|k l IH]; [reflexivity|]. cbn [mapM map bind]. rewrite IH. reflexivity. }
    unfold swept_side. rewrite EQ. cbn [bind swept_res fst snd]. eexists. split; [reflexivity|].
    intros r a t b Hr Ht. set (edges := map (fun k => ln k e) (seq 0 (m + 2))).
    destruct (swept_float L M m HM Hm edges (fun k => gl k e b) t) with (r := r) (u := a) as (p & Ep & Np).
    - unfold edges. rewrite map_length, seq_length. lia.
    - intros k Hk. exists (ln k e). destruct Ht as (Ht & _ & Hb).
      destruct (pap_pap3 M _ _ (ln_pap k e Hk He) t b Ht Hb) as (p & Ep & Np). exists p. split; [|split; assumption].
      unfold edges. rewrite nth_error_map, (nth_error_nth' _ 0%nat) by (rewrite seq_length; lia). rewrite seq_nth by lia. reflexivity.
    - exact Hr.
    - exists p. split; [exact Ep|]. unfold side_val. destruct Np as (X & Y & Z).
      split; [|split]; (eapply nr_weaken; [exact HM|eassumption|lra|lra]).
  Qed.

  Lemma fap_coons u v : (forall r a t b, param r a -> param t b -> exists p, u r t = Ok p /\ nrv M 400 8 p (v a b)) -> fap M u v.
  Proof using HM Hm Hc.
    intros H r a t b Hr Ht. destruct (H r a t b Hr Ht) as (p & Ep & X & Y & Z). exists p. split; [exact Ep|].
    split; [|split]; (eapply nr_weaken; [exact HM|eassumption|lra|lra]).
  Qed.
  Lemma end0_float : exists u, swept_end_0 secs (ResInt (S n)) = Ok ("swept_patch_end_0"%string, u, S n, S n) /\ fap M u (cap0 gl).
  Proof using HM Hm Hc.
    assert (K : (0 <= S m)%nat) by lia.
    unfold swept_end_0, py_nth. rewrite secs_nth by lia. cbn [bind nth_error].
    destruct (coons_float L M HM (ReversedPath (ln 0 2)) (ln 0 1) (ln 0 0) (ReversedPath (ln 0 3))
      (fun t => gl 0%nat 2%nat (1 - t)) (gl 0%nat 1%nat) (gl 0%nat 0%nat) (fun t => gl 0%nat 3%nat (1 - t)) (c 0 0) (c 0 1) (c 0 3) (c 0 2)%nat) as (u & Eu & Hu).
    - exact (rev_pap L M _ _ (ln_pap 0 2 K ltac:(lia))).
    - apply pap_pap3, ln_pap; lia.
    - apply pap_pap3, ln_pap; lia.
    - exact (rev_pap L M _ _ (ln_pap 0 3 K ltac:(lia))).
    - apply (rev_ends L), ln_ends; lia.
    - apply ln_ends; lia.
    - apply ln_ends; lia.
    - apply (rev_ends L). apply (ln_ends 0 3); lia.
    - apply Hc; lia.
    - apply Hc; lia.
    - apply Hc; lia.
    - apply Hc; lia.
    - exists u. change (NF L) with NFc in Eu. rewrite Eu. split; [reflexivity|]. apply fap_coons. exact Hu.
  Qed.
  Lemma end1_float : exists u, swept_end_1 secs (ResInt (S n)) = Ok ("swept_patch_end_1"%string, u, S n, S n) /\ fap M u (cap1 m gl).
  Proof using HM Hm Hc.
    assert (K : (S m <= S m)%nat) by lia.
    unfold swept_end_1, py_last. pose proof secs_length as SL. pose proof (secs_nth (S m) K) as SN. destruct secs as [|s0 ss] eqn:ES; [discriminate|].
    rewrite SL. cbn [Nat.sub]. unfold py_nth. rewrite SN. cbn [bind nth_error].
    destruct (coons_float L M HM (ln (S m) 2) (ReversedPath (ln (S m) 3)) (ReversedPath (ln (S m) 0)) (ln (S m) 1)
      (gl (S m) 2%nat) (fun t => gl (S m) 3%nat (1 - t)) (fun t => gl (S m) 0%nat (1 - t)) (gl (S m) 1%nat) (c (S m) 1) (c (S m) 0) (c (S m) 2) (c (S m) 3)%nat) as (u & Eu & Hu).
    - apply pap_pap3, ln_pap; lia.
    - exact (rev_pap L M _ _ (ln_pap (S m) 3 K ltac:(lia))).
    - exact (rev_pap L M _ _ (ln_pap (S m) 0 K ltac:(lia))).
    - apply pap_pap3, ln_pap; lia.
    - apply (ln_ends (S m) 2); lia.
    - apply (rev_ends L). apply (ln_ends (S m) 3); lia.
    - apply (rev_ends L). apply (ln_ends (S m) 0); lia.
    - apply (ln_ends (S m) 1); lia.
    - apply Hc; lia.
    - apply Hc; lia.
    - apply Hc; lia.
    - apply Hc; lia.
    - exists u. change (NF L) with NFc in Eu. rewrite Eu. split; [reflexivity|]. apply fap_coons. exact Hu.
  Qed.

  Lemma patches_float : exists l, swept_patches secs 4 true (ResInt (S n)) = Ok l /\
    exists u0 u1 u2 u3 v0 v1, sized_patches l =
      [("swept_patch_0", u0); ("swept_patch_1", u1); ("swept_patch_2", u2); ("swept_patch_3", u3);
       ("swept_patch_end_0", v0); ("swept_patch_end_1", v1)]%string /\
      Forall2 (fap M) [u0; u1; u2; u3; v0; v1] [side_val m gl 0; side_val m gl 1; side_val m gl 2; side_val m gl 3; cap0 gl; cap1 m gl]%nat.
  Proof using HM Hm Hc.
    destruct (side_float 0 ltac:(lia)) as (u0 & E0 & V0). destruct (side_float 1 ltac:(lia)) as (u1 & E1 & V1).
    destruct (side_float 2 ltac:(lia)) as (u2 & E2 & V2). destruct (side_float 3 ltac:(lia)) as (u3 & E3 & V3).
    destruct end0_float as (v0 & E4 & V4). destruct end1_float as (v1 & E5 & V5).
    unfold swept_patches. cbn [seq mapM]. rewrite E0, E1, E2, E3. cbn [bind]. rewrite E4, E5. cbn [bind].
    eexists. split; [reflexivity|]. exists u0, u1, u2, u3, v0, v1. split; [reflexivity|]. repeat (constructor; [assumption|]). constructor.
  Qed.

  Lemma component_float : exact_pow_one L -> (Z.of_nat (S n) <= 2 ^ 51)%Z ->
    exists l mf lr mr, swept_patches secs 4 true (ResInt (S n)) = Ok l /\
      fresh_mesh (sized_patches l) (ResInt (S n)) (sized_res_r l) (sized_res_s l) no_clustering = Ok mf /\
      swept_patches (N := NumR) (line_sections NumR (fun k e => real_vec (c k e)) m) 4 true (ResInt (S n)) = Ok lr /\
      fresh_mesh (N := NumR) (sized_patches lr) (ResInt (S n)) (sized_res_r lr) (sized_res_s lr) no_clustering = Ok mr /\
      watertight mr /\ length mf = (24 * S n * S n)%nat /\ Forall2 (near_tri (M / 2 ^ 20)) mf mr.
  Proof using HM Hm Hc.
    intros E Hn. destruct patches_float as (l & El & u0 & u1 & u2 & u3 & v0 & v1 & Ed & V).
    set (rs := line_sections NumR (fun k e => real_vec (c k e)) m).
    assert (RL : length rs = S (S m)) by (unfold rs, line_sections; rewrite map_length, seq_length; lia).
    assert (RG : sections_are 4 rs gl).
    { intros k cs Hk. unfold rs, line_sections in Hk. rewrite nth_error_map in Hk.
      assert (k < m + 2)%nat by (rewrite <- (seq_length (m + 2) 0); apply nth_error_Some; destruct (nth_error (seq 0 (m + 2)) k); [discriminate|discriminate Hk]).
      rewrite (nth_error_nth' _ 0%nat) in Hk by (rewrite seq_length; lia). rewrite seq_nth in Hk by lia. injection Hk as <-.
      split; [reflexivity|]. intros e p He.
      do 4 (destruct e as [|e]; [injection He as <-; intros t _; unfold gl, lerp; cbn; f_equal; apply vec_ext; cbn; ring|]).
      destruct e; discriminate He. }
    assert (RJ : loops_close 4 (S (S m)) gl).
    { intros k e Hk He. unfold gl, lerp. apply vec_ext; cbn; ring. }
    destruct (swept_watertight m rs gl n RL RG RJ) as (lr & mr & Elr & Emr & W & LEN).
    destruct (closed_patches m rs gl (ResInt (S n)) RL RG RJ) as (lr' & Elr' & w0 & w1 & w2 & w3 & x0 & x1 & Edr & VR).
    { intros; eexists; reflexivity. } { eexists; reflexivity. }
    assert (lr' = lr) as -> by congruence.
    set (vs := [side_val m gl 0; side_val m gl 1; side_val m gl 2; side_val m gl 3; cap0 gl; cap1 m gl]%nat) in *.
    set (gm := fun v : R -> R -> pt => grid_mesh (grid_of n v) (fun i j => mean4 (grid_of n v i j) (grid_of n v (S i) j) (grid_of n v i (S j)) (grid_of n v (S i) (S j))) (S n) (S n)).
    assert (MF : exists ms, Forall2 (fun u mm => mesh_patch no_clustering u (S n) (S n) = Ok mm) [u0; u1; u2; u3; v0; v1] ms /\
      Forall2 (fun mm v => Forall2 (near_tri (M / 2 ^ 20)) mm (gm v)) ms vs).
    { clear -V E Hn HM. revert V. generalize [u0; u1; u2; u3; v0; v1]. generalize vs. intros vs' us V. induction V as [|u v us vs' H _ (ms & I1 & I2)].
      - exists []. split; constructor.
      - destruct (mesh_near L M HM u v n E Hn H) as (mm & Em & Nm). exists (mm :: ms). split; constructor; assumption. }
    destruct MF as (ms & M1 & M2).
    assert (MR : Forall2 (fun u mm => mesh_patch no_clustering u (S n) (S n) = Ok mm) [w0; w1; w2; w3; x0; x1] (map gm vs)).
    { clear -VR. revert VR. generalize [w0; w1; w2; w3; x0; x1]. generalize vs. intros vs' us V. induction V as [|u v us vs' H _ I]; constructor; [|exact I].
      apply (mesh_patch_default u n n (grid_of n v)). intros i j Hi Hj. apply H; apply ratio01; lia. }
    assert (EQ : mr = concat (map gm vs)).
    { assert (F : fresh_mesh (N := NumR) (sized_patches lr) (ResInt (S n)) (sized_res_r lr) (sized_res_s lr) no_clustering = Ok (concat (map gm vs))).
      { apply fresh_mesh_int.
        - rewrite Edr. discriminate.
        - rewrite Edr. cbn. repeat constructor; cbn; intuition discriminate.
        - rewrite Edr. exact MR. }
      congruence. }
    assert (NEAR : Forall2 (near_tri (M / 2 ^ 20)) (concat ms) mr).
    { rewrite EQ. clear -M2. clearbody gm. induction M2 as [|a v ms vs' H _ I]; cbn [map concat]; [constructor|]. apply F2_app_; assumption. }
    exists l, (concat ms), lr, mr. split; [exact El|]. split.
    { apply fresh_mesh_int.
      - rewrite Ed. discriminate.
      - rewrite Ed. cbn. repeat constructor; cbn; intuition discriminate.
      - rewrite Ed. exact M1. }
    split; [exact Elr|]. split; [exact Emr|]. split; [exact W|]. split; [|exact NEAR].
    rewrite <- LEN. apply (F2_len _ _ _ NEAR).
  Qed.

  (** the constructor's checks pass *)
  Lemma init_float : Swept_init secs true (ResInt (S n)) = Ok 4%nat.
  Proof using HM Hm Hc.
    unfold Swept_init, py_nth. rewrite secs_nth by lia. cbn [bind List.length].
    assert (CK : forall k, (k <= S m)%nat -> check_section 4 [ln k 0; ln k 1; ln k 2; ln k 3]%nat = Ok tt).
    { intros k Hk. unfold check_section. cbn [List.length Nat.eqb negb seq].
      assert (EM : forall e, (e < 4)%nat -> edges_meet [ln k 0; ln k 1; ln k 2; ln k 3]%nat e = Ok tt).
      { intros e He.
        assert (NE : (next_edge 4 e < 4)%nat) by (unfold next_edge; destruct (Nat.eqb_spec (S e) 4); lia).
        destruct (ln_ends k e Hk He) as (_ & p1 & _ & E1 & _ & F1 & _ & V1).
        destruct (ln_ends k (next_edge 4 e) Hk NE) as (p0 & _ & E0 & _ & F0 & _ & V0 & _).
        assert (small : forall a b : b64, is_finite a = true -> is_finite b = true -> B2R a = B2R b ->
          ngtb (nabs (nsub a b)) (nlit 1 1000000000000) = false).
        { intros a b Fa Fb Eab. unfold ngtb. cbn [nltb nabs nsub nlit NFc NumF].
          destruct (fsub_unit a b Fa Fb ltac:(lra)) as (F & V). rewrite Rminus_diag_eq, rnd_0 in V by exact Eab.
          destruct (lit_unit 1000000000000 ltac:(lia)) as (T1 & G1).
          rewrite Bltb_correct; [|exact G1|rewrite is_finite_Babs; exact F]. apply Rlt_bool_false.
          rewrite B2R_Babs, V, Rabs_R0. apply T1. }
        assert (N1 : nth_error [ln k 0; ln k 1; ln k 2; ln k 3]%nat e = Some (ln k e)).
        { do 4 (destruct e as [|e]; [reflexivity|]). lia. }
        assert (N0 : nth_error [ln k 0; ln k 1; ln k 2; ln k 3]%nat (next_edge 4 e) = Some (ln k (next_edge 4 e))).
        { clear -He. do 4 (destruct e as [|e]; [reflexivity|]). lia. }
        unfold edges_meet. cbn [List.length].
        assert (IP : (if Nat.ltb e (4 - 1) then (e + 1)%nat else 0%nat) = next_edge 4 e).
        { clear -He. do 4 (destruct e as [|e]; [reflexivity|]). lia. }
        rewrite IP.
        unfold py_nth. rewrite N1. cbn [bind]. change (n1 (N := NFc)) with (of_Z 1). change (n0 (N := NFc)) with (of_Z 0). rewrite E1. cbn [bind].
        rewrite N0. cbn [bind]. rewrite E0. cbn [bind].
        assert (VV : real_vec p0 = real_vec p1) by congruence. injection VV as VX VY VZ.
        destruct F0 as (? & ? & ?), F1 as (? & ? & ?). rewrite !small by assumption. reflexivity. }
      cbn [mapM]. rewrite !EM by lia. reflexivity. }
    assert (AL : exists us, mapM (check_section 4) secs = Ok us).
    { unfold secs, line_sections. rewrite mapM_map. eexists.
      assert (G : forall l, (forall k, In k l -> (k <= S m)%nat) ->
        mapM (fun k => check_section 4 (map (fun e => Line (c k e) (c k (Nat.modulo (S e) 4))) [0; 1; 2; 3]%nat)) l = Ok (map (fun _ => tt) l)).
      { induction l as [|k l IH]; intros H; [reflexivity|]. cbn [mapM]. 
        change (map (fun e => Line (c k e) (c k (Nat.modulo (S e) 4))) [0; 1; 2; 3]%nat) with [ln k 0; ln k 1; ln k 2; ln k 3]%nat at 1.
        rewrite CK by (apply H; left; reflexivity). cbn [bind]. rewrite IH by (intros j Hj; apply H; right; exact Hj). reflexivity. }
      apply G. intros k Hk. apply in_seq in Hk. lia. }
    destruct AL as (us & ->). cbn [bind check_ends]. reflexivity.
  Qed.
End Component.
