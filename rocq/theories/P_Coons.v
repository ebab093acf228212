(** Properties C23-C25: Coons patches (geometry/surface.py). *)
From Coq Require Import Reals Lra List.
From Verif Require Import Num NumR Py M_Vector SpecR3 M_Path M_Surface
  SpecPath SpecPoly SpecSurf L_Vector L_Line L_Coons.
Local Open Scope R_scope.

(** C23: edges that meet exactly: the patch has those edges *)
Theorem C23_exact n e s w gn ge gs gw o :
  evaluates n gn -> evaluates e ge -> evaluates s gs -> evaluates w gw ->
  gs 0 = gw 0 -> gs 1 = ge 0 -> gn 0 = gw 1 -> gn 1 = ge 1 ->
  exists c, Coons_edges n e s w o = Ok c /\
    (forall t, Coons_call c 0 t = Ok (translate (gw t) o)) /\
    (forall t, Coons_call c 1 t = Ok (translate (ge t) o)) /\
    (forall r, Coons_call c r 0 = Ok (translate (gs r) o)) /\
    (forall r, Coons_call c r 1 = Ok (translate (gn r) o)).
Proof. exact (fun Hn He Hs Hw => coons_exact n e s w gn ge gs gw Hn He Hs Hw o). Qed.

(** C23: edges accepted by the constructor: west and east are still met exactly,
    south and north are off by the linear blend of the corner mismatches *)
Theorem C23_mismatch n e s w gn ge gs gw o c :
  evaluates n gn -> evaluates e ge -> evaluates s gs -> evaluates w gw ->
  Coons_edges n e s w o = Ok c ->
  (forall t, Coons_call c 0 t = Ok (translate (gw t) o)) /\
  (forall t, Coons_call c 1 t = Ok (translate (ge t) o)) /\
  (forall r, Coons_call c r 0 =
     Ok (translate (translate (gs r) (blend_err r (gw 0) (gs 0) (ge 0) (gs 1))) o)) /\
  (forall r, Coons_call c r 1 =
     Ok (translate (translate (gn r) (blend_err r (gw 1) (gn 0) (ge 1) (gn 1))) o)).
Proof. exact (fun Hn He Hs Hw => coons_boundary n e s w gn ge gs gw Hn He Hs Hw o c). Qed.

(** C24: construction from edges succeeds exactly for matching corners *)
Theorem C24_edges_iff n e s w gn ge gs gw o :
  evaluates n gn -> evaluates e ge -> evaluates s gs -> evaluates w gw ->
  (is_ok (Coons_edges n e s w o) <-> corners_near gn ge gs gw) /\
  (~ corners_near gn ge gs gw -> Coons_edges n e s w o = Raise GenericError).
Proof.
  exact (fun Hn He Hs Hw =>
    conj (coons_edges_iff n e s w gn ge gs gw Hn He Hs Hw o)
         (coons_edges_fail n e s w gn ge gs gw Hn He Hs Hw o)).
Qed.

(** C24: which constructor is used; corners give the bilinear patch *)
Theorem C24_init (n e s w : option (path R)) (p00 p10 p11 p01 : option pt) o :
  (forall n' e' s' w', n = Some n' -> e = Some e' -> s = Some s' -> w = Some w' ->
     CoonsPatch_init n e s w p00 p10 p11 p01 o = Coons_edges n' e' s' w' o) /\
  ((n = None \/ e = None \/ s = None \/ w = None) ->
     (forall a b c d, p00 = Some a -> p10 = Some b -> p11 = Some c -> p01 = Some d ->
        CoonsPatch_init n e s w p00 p10 p11 p01 o = Ok (Coons_corners a b c d o)) /\
     ((p00 = None \/ p10 = None \/ p11 = None \/ p01 = None) ->
        CoonsPatch_init n e s w p00 p10 p11 p01 o = Raise GenericError)).
Proof. exact (coons_init_cases n e s w p00 p10 p11 p01 o). Qed.
Theorem C24_bilinear p00 p10 p11 p01 o r t :
  Coons_call (Coons_corners p00 p10 p11 p01 o) r t
  = Ok (translate (bilinear p00 p10 p11 p01 r t) o).
Proof. exact (coons_corners_value p00 p10 p11 p01 o r t). Qed.

(** an accepted patch with a corner mismatch of 1e-6, and a rejected one *)
Example C23_C24_meets :
  let p00 := V3 0 0 0 : pt in let p10 := V3 1 0 0 in let p11 := V3 1 1 0 in
  let p01 := V3 0 1 0 in let q00 := V3 (1 / 1000000) 0 0 in
  is_ok (Coons_edges (Line p01 p11) (Line p10 p11) (Line p00 p10) (Line q00 p01) origin) /\
  ~ is_ok (Coons_edges (Line p01 p11) (Line p10 p11) (Line p00 p10) (Line p11 p01) origin).
Proof.
  intros p00 p10 p11 p01 q00. split.
  - apply (C24_edges_iff _ _ _ _ _ _ _ _ origin (line_evaluates p01 p11) (line_evaluates p10 p11)
      (line_evaluates p00 p10) (line_evaluates q00 p01)).
    unfold corners_near, near, near1, lerp; cbn.
    repeat split; apply Rabs_le; split;
      match goal with |- context [Rabs ?x] => pose proof (Rabs_pos x) end; lra.
  - intros H.
    apply (C24_edges_iff _ _ _ _ _ _ _ _ origin (line_evaluates p01 p11) (line_evaluates p10 p11)
      (line_evaluates p00 p10) (line_evaluates p11 p01)) in H.
    destruct H as [[H _] _]. unfold near1, lerp in H; cbn in H.
    rewrite (Rabs_left (_ - _)) in H by lra. rewrite (Rabs_right (_ + _)) in H by lra. lra.
Qed.

(** C25: displacing a patch displaces its points, and - undoes + *)
Theorem C25_displace (c : coons R) v r t p : Coons_call c r t = Ok p ->
  Coons_call (Coons_add c v) r t = Ok (translate p v) /\
  Coons_call (Coons_sub c v) r t = Ok (diff p v) /\
  Coons_call (Coons_sub (Coons_add c v) v) r t = Ok p.
Proof. exact (coons_add_value c v r t p). Qed.
Theorem C25_errors_kept (c : coons R) v r t e :
  Coons_call c r t = Raise e -> Coons_call (Coons_add c v) r t = Raise e.
Proof. exact (coons_add_raise c v r t e). Qed.

Example C25_meets :
  Coons_call (Coons_add (Coons_corners (V3 0 0 0) (V3 1 0 0) (V3 1 1 0) (V3 0 1 0) origin) (V3 0 0 5)) 0 0
  = Ok (V3 0 0 5 : pt).
Proof.
  rewrite (proj1 (C25_displace _ (V3 0 0 5) 0 0 _ (C24_bilinear _ _ _ _ _ _ _))).
  f_equal. unfold translate, bilinear, lerp, origin; apply vec_ext; cbn; ring.
Qed.

Print Assumptions C23_exact.
Print Assumptions C23_mismatch.
Print Assumptions C24_edges_iff.
Print Assumptions C24_init.
Print Assumptions C25_displace.
