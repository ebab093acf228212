From Coq Require Import Reals Lra Psatz ZArith List Lia Bool.
From Verif Require Import Num NumR Py M_Vector SpecR3 M_Path SpecPath SpecPoly L_Vector L_Line L_Polyline.
Import ListNotations.
Local Open Scope R_scope.

(** ** Path.length *)
Lemma sumn_ext f g n : (forall i, (i < n)%nat -> f i = g i) -> sumn f n = sumn g n.
Proof. induction n; intros H; cbn; [reflexivity|]. rewrite IHn, H; auto. Qed.
Lemma sumn_le f g n : (forall i, (i < n)%nat -> f i <= g i) -> sumn f n <= sumn g n.
Proof.
  induction n; intros H; cbn; [lra|].
  specialize (H n ltac:(lia)) as Hn. specialize (IHn ltac:(intros; apply H; lia)). lra.
Qed.
Lemma sumn_shift f n : sumn f (S n) = f 0%nat + sumn (fun i => f (S i)) n.
Proof. induction n; [cbn; ring|]. cbn [sumn] in *. rewrite IHn. ring. Qed.
Lemma sumn_nonneg f n : (forall i, (i < n)%nat -> 0 <= f i) -> 0 <= sumn f n.
Proof.
  intros H. assert (Z : 0 = sumn (fun _ => 0) n) by (induction n; cbn; [reflexivity|rewrite <- IHn; [ring|intros; apply H; lia]]).
  rewrite Z. apply sumn_le. auto.
Qed.

Lemma nnat_INR k : nnat k = INR k.
Proof. unfold nnat; cbn [nZ NumR]. symmetry. apply INR_IZR_INZ. Qed.

Lemma length_loop_sum call (g : R -> pt) dt : (forall t, call t = Ok (g t)) ->
  forall n a L, path_length_loop call dt (seq a n) (g (INR a * dt)) L =
    Ok (L + sumn (fun i => dist (g (INR (a + i) * dt)) (g (INR (a + S i) * dt))) n).
Proof.
  intros Hg n. induction n; intros a L; cbn [seq path_length_loop].
  - cbn. f_equal; ring.
  - rewrite Hg. cbn [bind]. rewrite nnat_INR.
    change (nmul (INR (a + 1)) dt) with (INR (a + 1) * dt).
    replace (a + 1)%nat with (S a) by lia.
    rewrite (IHn (S a)). f_equal. rewrite sumn_shift.
    change (vabs (vsub (g (INR (S a) * dt)) (g (INR a * dt))))
      with (nrm (vsub (g (INR (S a) * dt)) (g (INR a * dt)))).
    rewrite <- dist_nrm, dist_sym. numR.
    rewrite Nat.add_0_r. replace (a + 1)%nat with (S a) by lia.
    rewrite Rplus_assoc. do 2 f_equal. apply sumn_ext. intros i Hi.
    replace (S a + i)%nat with (a + S i)%nat by lia.
    replace (S a + S i)%nat with (a + S (S i))%nat by lia. reflexivity.
Qed.

Lemma path_length_inscribed call g n : (forall t, call t = Ok (g t)) -> (1 <= n)%nat ->
  Path_length call n = Ok (inscribed g n).
Proof.
  intros Hg Hn. unfold Path_length. rewrite Hg. cbn [bind].
  destruct (Nat.eqb_spec n 0) as [Hz|_]; [lia|].
  replace (g n0) with (g (INR 0 * ndiv n1 (nnat n))) by (f_equal; numR; cbn [INR]; ring).
  rewrite (length_loop_sum call g (ndiv n1 (nnat n)) Hg). f_equal.
  unfold n0 at 1; cbn [nZ NumR]. rewrite Rplus_0_l. unfold inscribed.
  apply sumn_ext. intros i Hi. cbn [Nat.add]. rewrite nnat_INR. numR. unfold Rdiv.
  rewrite !Rmult_1_l. reflexivity.
Qed.

Lemma path_length_zero call p : call 0 = Ok p -> Path_length call 0 = Raise ZeroDivisionError.
Proof. intros H. unfold Path_length. numR. rewrite H. reflexivity. Qed.

Lemma poly_triangle (p : nat -> pt) n :
  dist (p 0%nat) (p n) <= sumn (fun i => dist (p i) (p (S i))) n.
Proof.
  induction n; cbn [sumn].
  - rewrite (proj2 (dist_zero _ _) eq_refl). lra.
  - pose proof (dist_triangle (p 0%nat) (p n) (p (S n))). lra.
Qed.
Lemma poly_triangle_from (p : nat -> pt) a n :
  dist (p a) (p (a + n)%nat) <= sumn (fun i => dist (p (a + i)%nat) (p (a + S i)%nat)) n.
Proof.
  pose proof (poly_triangle (fun i => p (a + i)%nat) n) as H. cbn beta in H.
  rewrite Nat.add_0_r in H. exact H.
Qed.

Lemma inscribed_nonneg g n : 0 <= inscribed g n.
Proof. apply sumn_nonneg. intros; apply dist_nonneg. Qed.
Lemma inscribed_chord g n : (1 <= n)%nat -> dist (g 0) (g 1) <= inscribed g n.
Proof.
  intros Hn. pose proof (poly_triangle (fun i => g (INR i / INR n)) n) as H. cbn beta in H.
  assert (INR n <> 0) by (apply not_0_INR; lia).
  replace (INR 0 / INR n) with 0 in H by (cbn; field; auto).
  replace (INR n / INR n) with 1 in H by (field; auto). exact H.
Qed.

Lemma sumn_add f a b : sumn f (a + b) = sumn f a + sumn (fun i => f (a + i)%nat) b.
Proof.
  induction b; [rewrite Nat.add_0_r; cbn; ring|].
  rewrite Nat.add_succ_r. cbn [sumn]. rewrite IHb. ring.
Qed.
Lemma sumn_blocks f k n : sumn f (n * k) = sumn (fun i => sumn (fun l => f (i * k + l)%nat) k) n.
Proof.
  induction n; [reflexivity|].
  replace (S n * k)%nat with (n * k + k)%nat by lia.
  rewrite sumn_add. cbn [sumn]. rewrite IHn. reflexivity.
Qed.
Lemma inscribed_refine g n k : (1 <= n)%nat -> (1 <= k)%nat ->
  inscribed g n <= inscribed g (n * k).
Proof.
  intros Hn Hk. unfold inscribed. rewrite sumn_blocks. apply sumn_le. intros i Hi.
  set (p := fun j => g (INR j / INR (n * k))).
  assert (N : INR n <> 0) by (apply not_0_INR; lia).
  assert (K : INR k <> 0) by (apply not_0_INR; lia).
  assert (E : forall i, g (INR i / INR n) = p (i * k)%nat).
  { intros j. unfold p. f_equal. rewrite !mult_INR. field; auto. }
  rewrite !E. replace (S i * k)%nat with (i * k + k)%nat by lia.
  pose proof (poly_triangle_from p (i * k) k) as H.
  replace (sumn (fun l : nat => dist (g (INR (i * k + l) / INR (n * k))) (g (INR (S (i * k + l)) / INR (n * k)))) k)
    with (sumn (fun l => dist (p (i * k + l)%nat) (p (i * k + S l)%nat)) k); [exact H|].
  apply sumn_ext. intros l _. unfold p. rewrite Nat.add_succ_r. reflexivity.
Qed.

Lemma inscribed_straight g (f : R -> R) a b n : (1 <= n)%nat ->
  (forall t, g t = lerp (f t) a b) -> f 0 = 0 -> f 1 = 1 ->
  (forall s t, 0 <= s -> s <= t -> t <= 1 -> f s <= f t) ->
  inscribed g n = dist a b.
Proof.
  intros Hn Hg F0 F1 Hm.
  assert (N : 0 < INR n) by (apply lt_0_INR; lia).
  assert (E : forall m, (m <= n)%nat ->
    sumn (fun i => dist (g (INR i / INR n)) (g (INR (S i) / INR n))) m = f (INR m / INR n) * dist a b).
  { induction m; intros Hm'.
    - cbn. unfold Rdiv. rewrite Rmult_0_l, F0. ring.
    - cbn [sumn]. rewrite IHm by lia. rewrite !Hg, line_speed.
      assert (L : f (INR m / INR n) <= f (INR (S m) / INR n)).
      { assert (I : 0 < / INR n) by (apply Rinv_0_lt_compat; auto).
        apply Hm; unfold Rdiv.
        - apply Rmult_le_pos; [apply pos_INR|lra].
        - apply Rmult_le_compat_r; [lra|]. apply le_INR; lia.
        - replace 1 with (INR n * / INR n) by (field; lra).
          apply Rmult_le_compat_r; [lra|]. apply le_INR; lia. }
      rewrite Rabs_left1 by lra. ring. }
  unfold inscribed. rewrite (E n) by lia.
  replace (INR n / INR n) with 1 by (field; lra). rewrite F1. ring.
Qed.

(** ** Spline *)
Lemma total_evaluates (s : path R) : total_path s ->
  evaluates s (fun t => match p_call s t with Ok v => v | Raise _ => origin end).
Proof. intros H t. destruct (H t) as [v E]. rewrite E. reflexivity. Qed.

Lemma gs_sweep_cons (dprev d dn p : pt) ds ps md :
  gs_sweep dprev (d :: dn :: ds) (p :: ps) md =
  let d' := vscale (vsub (vsub (vscale p (nZ 6)) dprev) dn) nquarter in
  let r := gs_sweep d' (dn :: ds) ps (nmax md (vabs (vsub d' d))) in
  (d' :: fst r, snd r).
Proof.
  change (gs_sweep dprev (d :: dn :: ds) (p :: ps) md) with
   (let d' := vscale (vsub (vsub (vscale p (nZ 6)) dprev) dn) nquarter in
    let '(rest, md) := gs_sweep d' (dn :: ds) ps (nmax md (vabs (vsub d' d))) in
        (d' :: rest, md)).
  cbv zeta. destruct (gs_sweep _ (dn :: ds) ps _). reflexivity.
Qed.
Lemma gs_sweep_length dprev : forall ds ps md, length (fst (gs_sweep dprev ds ps md)) = length ds.
Proof.
  intros ds; revert dprev; induction ds as [|d ds IH]; intros dprev ps md; [destruct ps; reflexivity|].
  destruct ds as [|dn ds]; [destruct ps; reflexivity|].
  destruct ps as [|p ps]; [reflexivity|].
  rewrite gs_sweep_cons. cbv zeta. cbn [fst length]. rewrite IH. reflexivity.
Qed.
Lemma gs_iterate_length k tol : forall d pts, length (gs_iterate k tol d pts) = length d.
Proof.
  induction k; intros d pts; [reflexivity|].
  destruct d as [|d0 ds]; [reflexivity|]. destruct pts as [|p pts]; [reflexivity|].
  cbn [gs_iterate].
  pose proof (gs_sweep_length d0 ds pts n0) as L.
  destruct (gs_sweep d0 ds pts n0) as [ds' md]. cbn [fst] in L.
  destruct (nltb md tol); [cbn; lia|]. rewrite IHk. cbn; lia.
Qed.

Lemma spline_segments_nth : forall pts d i, length d = length pts -> (S i < length pts)%nat ->
  exists q1 q2, nth_error (spline_segments pts d) i =
    Some [nth i pts origin; q1; q2; nth (S i) pts origin].
Proof.
  induction pts as [|p pts IH]; intros d i Hl Hi; cbn in Hi; [lia|].
  destruct pts as [|pn pts]; [cbn in Hi; lia|].
  destruct d as [|d0 [|d1 d]]; cbn in Hl; try lia.
  destruct i.
  - cbn. eauto.
  - cbn [spline_segments nth_error]. destruct (IH (d1 :: d) i) as (q1 & q2 & E); [cbn; lia|cbn in *; lia|].
    exists q1, q2. exact E.
Qed.
Lemma spline_segments_length : forall pts d, length d = length pts ->
  length (spline_segments pts d) = (length pts - 1)%nat.
Proof.
  induction pts as [|p pts IH]; intros d Hl; [reflexivity|].
  destruct pts as [|pn pts]; [destruct d; reflexivity|].
  destruct d as [|d0 [|d1 d]]; cbn in Hl; try lia.
  match goal with |- length (spline_segments (p :: pn :: pts) (d0 :: d1 :: d)) = _ =>
    change (S (length (spline_segments (pn :: pts) (d1 :: d))) = S (length pts)) end.
  rewrite IH by (cbn; lia). cbn; lia.
Qed.

Lemma bezier_total (B : list pt) : B <> [] -> total_path (Bezier B).
Proof. intros H t. rewrite bezier_bernstein_pt by assumption. eexists; reflexivity. Qed.

Lemma default_length_ok call : (forall t, is_ok (call t)) ->
  exists l, default_length call = Ok l /\
    forall p0 p1, call 0 = Ok p0 -> call 1 = Ok p1 -> dist p0 p1 <= l.
Proof.
  intros H.
  set (g := fun t => match call t with Ok v => v | Raise _ => origin end).
  assert (G : forall t, call t = Ok (g t)).
  { intros t. unfold g. destruct (H t) as [v ->]. reflexivity. }
  exists (inscribed g 20). split.
  - apply path_length_inscribed; [exact G|lia].
  - intros p0 p1 E0 E1. rewrite G in E0, E1. injection E0 as <-. injection E1 as <-.
    apply inscribed_chord. lia.
Qed.

Lemma bezier_len_ok (B : list pt) : B <> [] -> exists l, p_len (Bezier B) = Ok l /\
  dist (nth 0 B origin) (last B origin) <= l.
Proof.
  intros H. destruct (default_length_ok (Bezier_call B)) as (l & E & D).
  - intros t. apply (bezier_total B H).
  - exists l. split; [exact E|]. destruct (bezier_ends B H) as [A C]. apply D; [exact A|exact C].
Qed.

(** the segments built from any points *)
Definition spline_segs (tol : R) (pts : list pt) : list (path R) :=
  map Bezier (spline_segments pts (gs_iterate 50 tol pts pts)).

Lemma spline_segs_nth tol pts i : (S i < length pts)%nat ->
  exists q1 q2, nth_error (spline_segs tol pts) i =
    Some (Bezier [nth i pts origin; q1; q2; nth (S i) pts origin]).
Proof.
  intros Hi. unfold spline_segs.
  destruct (spline_segments_nth pts (gs_iterate 50 tol pts pts) i) as (q1 & q2 & E);
    [apply gs_iterate_length|exact Hi|].
  exists q1, q2. erewrite map_nth_error; [reflexivity|exact E].
Qed.
Lemma spline_segs_length tol pts : length (spline_segs tol pts) = (length pts - 1)%nat.
Proof. unfold spline_segs. rewrite map_length. apply spline_segments_length, gs_iterate_length. Qed.

Lemma spline_segs_total tol pts : Forall total_path (spline_segs tol pts).
Proof.
  apply Forall_forall. intros s Hs. apply In_nth_error in Hs. destruct Hs as [i Hi].
  assert (L : (i < length (spline_segs tol pts))%nat) by (apply nth_error_Some; congruence).
  rewrite spline_segs_length in L.
  destruct (spline_segs_nth tol pts i) as (q1 & q2 & E); [lia|].
  rewrite E in Hi. injection Hi as <-. apply bezier_total. discriminate.
Qed.

Lemma nth_error_list_ext {A B} (P : A -> B -> Prop) : forall (l : list A) ,
  (forall i a, nth_error l i = Some a -> exists b, P a b) ->
  exists l', Forall2 P l l'.
Proof.
  induction l as [|a l IH]; intros H; [exists []; constructor|].
  destruct (H 0%nat a eq_refl) as [b Hb].
  destruct IH as [l' Hl']; [intros i a' Hi; apply (H (S i) a' Hi)|].
  exists (b :: l'). constructor; auto.
Qed.

Lemma Forall2_nth_error {A B} (P : A -> B -> Prop) l l' : Forall2 P l l' ->
  forall i a, nth_error l i = Some a -> exists b, nth_error l' i = Some b /\ P a b.
Proof.
  induction 1; intros i a Hi; destruct i; cbn in *; try discriminate; [|eauto].
  injection Hi as <-. eauto.
Qed.

Lemma spline_segs_lengths tol pts : exists ls, lengths (spline_segs tol pts) ls /\
  forall i l, nth_error ls i = Some l -> dist (nth i pts origin) (nth (S i) pts origin) <= l.
Proof.
  destruct (nth_error_list_ext (fun (s : path R) (l : R) => p_len s = Ok l) (spline_segs tol pts)) as [ls H].
  - intros i s Hi.
    assert (L : (i < length (spline_segs tol pts))%nat) by (apply nth_error_Some; congruence).
    rewrite spline_segs_length in L.
    destruct (spline_segs_nth tol pts i) as (q1 & q2 & E); [lia|].
    rewrite E in Hi. injection Hi as <-.
    destruct (bezier_len_ok [nth i pts origin; q1; q2; nth (S i) pts origin]) as (l & El & _); [discriminate|].
    eauto.
  - exists ls. split; [exact H|]. intros i l Hi.
    assert (L : (i < length ls)%nat) by (apply nth_error_Some; congruence).
    rewrite <- (lengths_length _ _ H), spline_segs_length in L.
    destruct (spline_segs_nth tol pts i) as (q1 & q2 & E); [lia|].
    destruct (Forall2_nth_error _ _ _ H _ _ E) as (l' & El' & P).
    assert (l' = l) by congruence. subst l'.
    destruct (bezier_len_ok [nth i pts origin; q1; q2; nth (S i) pts origin]) as (l2 & El2 & D); [discriminate|].
    rewrite P in El2. injection El2 as <-. exact D.
Qed.

Lemma spline_seg_ends tol pts i : (S i < length pts)%nat ->
  exists s, nth_error (spline_segs tol pts) i = Some s /\
    p_call s 0 = Ok (nth i pts origin) /\ p_call s 1 = Ok (nth (S i) pts origin).
Proof.
  intros Hi. destruct (spline_segs_nth tol pts i Hi) as (q1 & q2 & E).
  eexists; split; [exact E|].
  destruct (bezier_ends [nth i pts origin; q1; q2; nth (S i) pts origin]) as [A B]; [discriminate|].
  split; [exact A|exact B].
Qed.

Lemma last_nth_R (l : list pt) : last l origin = nth (length l - 1) l origin.
Proof.
  destruct l as [|a l] using rev_ind; [reflexivity|].
  rewrite last_last, app_length, app_nth2 by (cbn; lia). cbn.
  replace (length l + 1 - 1 - length l)%nat with 0%nat by lia. reflexivity.
Qed.

Lemma spline_points_eq pts closed tol : pts <> [] ->
  spline_points pts closed tol = Ok (closed_points pts closed tol).
Proof.
  intros H. unfold spline_points, closed_points. destruct closed; [|reflexivity].
  rewrite (py_nth_nth pts 0 origin) by (destruct pts; [congruence|cbn; lia]). cbn [bind].
  rewrite (py_last_nth pts origin H). cbn [bind]. numR.
  rewrite <- last_nth_R. rewrite vabs_nrm, <- dist_nrm. reflexivity.
Qed.

Lemma spline_init_ok pts closed tol : (2 <= length pts)%nat -> 0 <= tol ->
  exists ls, lengths (spline_segs tol (closed_points pts closed tol)) ls /\
    (forall i l, nth_error ls i = Some l ->
       dist (nth i (closed_points pts closed tol) origin)
            (nth (S i) (closed_points pts closed tol) origin) <= l) /\
    Spline_init pts closed tol =
      Ok (mkPoly (spline_segs tol (closed_points pts closed tol)) (breaks ls)).
Proof.
  intros Hp Htol. set (q := closed_points pts closed tol).
  assert (Hq : (2 <= length q)%nat).
  { unfold q, closed_points. destruct closed; [|lia].
    destruct (Rltb _ _); [rewrite app_length|]; lia. }
  destruct (spline_segs_lengths tol q) as (ls & Hl & D).
  exists ls. split; [exact Hl|]. split; [exact D|].
  unfold Spline_init. rewrite spline_points_eq by (destruct pts; [cbn in Hp; lia|discriminate]).
  cbn [bind]. fold q. fold (spline_segs tol q).
  assert (Hne : spline_segs tol q <> []).
  { intros E. pose proof (spline_segs_length tol q) as L. rewrite E in L. cbn in L. lia. }
  destruct closed; [|apply init_open; auto].
  destruct (spline_seg_ends tol q 0) as (s0 & E0 & A0 & _); [lia|].
  destruct (spline_seg_ends tol q (length q - 2)) as (sl & El & _ & Al); [lia|].
  rewrite (init_closed _ ls s0 sl (nth 0 q origin) (nth (S (length q - 2)) q origin) tol Hl E0); auto.
  - assert (N : Rltb tol (dist (nth (S (length q - 2)) q origin) (nth 0 q origin)) = false).
    { apply Rltb_false.
      replace (S (length q - 2)) with (length q - 1)%nat by lia. rewrite <- last_nth_R.
      unfold q, closed_points.
      destruct (Rltb_spec tol (dist (nth 0 pts origin) (last pts origin))) as [L|L].
      - rewrite last_last. rewrite app_nth1 by lia.
        rewrite (proj2 (dist_zero _ _) eq_refl). exact Htol.
      - rewrite dist_sym. lra. }
    rewrite N. reflexivity.
  - rewrite spline_segs_length. replace (length q - 1 - 1)%nat with (length q - 2)%nat by lia. exact El.
Qed.

Lemma spline_interpolates pts closed tol : (2 <= length pts)%nat -> 0 <= tol ->
  (forall i, (S i < length (closed_points pts closed tol))%nat ->
     nth i (closed_points pts closed tol) origin <> nth (S i) (closed_points pts closed tol) origin) ->
  exists pl, Spline_init pts closed tol = Ok pl /\
    length (pl_segments pl) = (length (closed_points pts closed tol) - 1)%nat /\
    strictly_increasing (pl_t_values pl) /\
    forall k, (k < length (closed_points pts closed tol))%nat ->
      Polyline_call pl (nth k (pl_t_values pl) 0) = Ok (nth k (closed_points pts closed tol) origin).
Proof.
  intros Hp Htol Hd. set (q := closed_points pts closed tol) in *.
  destruct (spline_init_ok pts closed tol Hp Htol) as (ls & Hl & D & E). fold q in Hl, D, E.
  assert (Hq : (2 <= length q)%nat).
  { unfold q, closed_points. destruct closed; [|lia].
    destruct (Rltb _ _); [rewrite app_length|]; lia. }
  assert (LL : length ls = (length q - 1)%nat).
  { rewrite <- (lengths_length _ _ Hl). apply spline_segs_length. }
  assert (Hpos : Forall (fun l => 0 < l) ls).
  { apply Forall_forall. intros l Hin. apply In_nth_error in Hin. destruct Hin as [i Hi].
    assert (L : (i < length ls)%nat) by (apply nth_error_Some; congruence).
    specialize (D i l Hi). specialize (Hd i ltac:(lia)).
    destruct (Rle_lt_or_eq_dec _ _ (dist_nonneg (nth i q origin) (nth (S i) q origin))) as [P|P].
    - lra.
    - symmetry in P. apply dist_zero in P. contradiction. }
  assert (Hne : ls <> []) by (intros ->; cbn in LL; lia).
  exists (mkPoly (spline_segs tol q) (breaks ls)). split; [exact E|].
  cbn [pl_segments pl_t_values].
  split; [apply spline_segs_length|]. split; [apply breaks_increasing; auto|].
  intros k Hk. destruct k as [|k].
  - rewrite breaks_first. destruct (spline_seg_ends tol q 0) as (s & Es & A & _); [lia|].
    rewrite (polyline_at_zero _ ls s); auto. apply spline_segs_total.
  - destruct (spline_seg_ends tol q k) as (s & Es & _ & B); [lia|].
    rewrite (polyline_at_break _ ls k s); auto. apply spline_segs_total.
Qed.

Lemma spline_segment_shape pts closed tol pl : (2 <= length pts)%nat -> 0 <= tol ->
  Spline_init pts closed tol = Ok pl ->
  length (pl_segments pl) = (length (closed_points pts closed tol) - 1)%nat /\
  forall i, (S i < length (closed_points pts closed tol))%nat ->
    exists q1 q2, nth_error (pl_segments pl) i =
      Some (Bezier [nth i (closed_points pts closed tol) origin; q1; q2;
                    nth (S i) (closed_points pts closed tol) origin]).
Proof.
  intros Hp Htol H.
  destruct (spline_init_ok pts closed tol Hp Htol) as (ls & Hl & D & E).
  rewrite E in H. injection H as <-. cbn [pl_segments].
  split; [apply spline_segs_length|]. intros i Hi. apply spline_segs_nth; auto.
Qed.

Lemma spline_too_few (pts : list pt) tol : (length pts <= 1)%nat ->
  Spline_init pts false tol = Raise ZeroDivisionError.
Proof.
  intros H. destruct pts as [|p [|p' pts]]; cbn in H; try lia; unfold Spline_init; cbn [spline_points bind].
  - reflexivity.
  - assert (E : forall k d, spline_segments [p] (gs_iterate k tol d [p]) = []).
    { intros k d. destruct (gs_iterate k tol d [p]); reflexivity. }
    rewrite E. reflexivity.
Qed.
