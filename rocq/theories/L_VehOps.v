(** Histories of calls on a vehicle. *)
From Coq Require Import String List Arith Lia Bool ZArith Reals.
From Verif Require Import Num NumR Py M_Vector M_Path M_Surface M_Geometry M_Mesh M_Component M_Vehicle SpecVehicle SpecHistory
  L_Strings L_Component L_Heap L_Pipeline L_Generate L_Cache.
Import ListNotations.

Section Ops.
  Context {T : Type} {N : Num T}.
  Notation heap := (heap T).
  Notation vehicle := (vehicle T).

  Lemma add_generated (v : vehicle) i a (h : heap) : v_generated (snd (fst (add_component v i a h))) = v_generated v.
  Proof. unfold add_component. destruct (nth_error _ _); [|reflexivity]. destruct (str_in _ _); reflexivity. Qed.
  Lemma add_queue (v : vehicle) i a (h : heap) : v_transformations (snd (fst (add_component v i a h))) = v_transformations v.
  Proof. unfold add_component. destruct (nth_error _ _); [|reflexivity]. destruct (str_in _ _); reflexivity. Qed.
  Lemma generate_flag (v : vehicle) (h : heap) h' v' r : generate v h = (h', v', r) ->
    (v_generated v' = v_generated v \/ v_generated v' = true /\ (r = Ok tt \/ v_transformations v <> [])) /\
    (r = Ok tt -> v_generated v' = true) /\ v_transformations v' = v_transformations v.
  Proof.
    unfold generate. destruct (iterM _ _ h) as [h1 [u|e]].
    - cbn [mark_generated v_transformations]. destruct (v_transformations v) as [|t ts] eqn:E.
      + intros H. injection H as <- <- <-. cbn. auto.
      + destruct (transform_vehicle _ _ h1) as [h2 r2]. intros H. injection H as <- <- <-. cbn. split; [|auto]. right. split; [auto|]. right. discriminate.
    - intros H. injection H as <- <- <-. split; [auto|]. split; [discriminate|reflexivity].
  Qed.

  Lemma history_generated l : forall (s s' : heap * vehicle) tr, history l s = (tr, s') ->
    (v_generated (snd s') = true -> v_generated (snd s) = true \/
       exists s0 r, In (Generate, s0, r) tr /\ (r = Ok tt \/ v_transformations (snd s0) <> [])) /\
    (v_generated (snd s) = true -> v_generated (snd s') = true) /\
    (forall s0, In (Generate, s0, Ok tt) tr -> v_generated (snd s') = true).
  Proof.
    induction l as [|o l IH]; intros s s' tr H; cbn [history] in H.
    - injection H as <- <-. split; [auto|]. split; [auto|]. intros s0 [].
    - destruct (run o s) as [s1 r] eqn:ER. destruct (history l s1) as [tr1 s2] eqn:EH. injection H as <- <-.
      destruct (IH s1 s2 tr1 EH) as (A & B & C). destruct s as [h v], s1 as [h1 v1]. cbn [snd] in *.
      assert (K : (v_generated v1 = true -> v_generated v = true \/ (o = Generate /\ (r = Ok tt \/ v_transformations v <> []))) /\
                  (v_generated v = true -> v_generated v1 = true) /\ (o = Generate -> r = Ok tt -> v_generated v1 = true)).
      { destruct o as [i a|a| |a|n]; cbn [run] in ER.
        - pose proof (add_generated v i a h) as G. rewrite ER in G. cbn in G. rewrite G. split; [auto|]. split; [auto|discriminate].
        - injection ER as <- <- <-. cbn. split; [auto|]. split; [auto|discriminate].
        - destruct (generate_flag v h h1 v1 r ER) as (G1 & G2 & _). split; [|split; [|auto]].
          + intros E. destruct G1 as [G1|[_ G1]]; [left; congruence|right; auto].
          + intros E. destruct G1 as [G1|[G1 _]]; congruence.
        - destruct (transform_vehicle v (coerced a) h) as [h2 r2]. injection ER as <- <- <-. split; [auto|]. split; [auto|discriminate].
        - injection ER as <- <- <-. cbn. split; [auto|]. split; [auto|discriminate]. }
      destruct K as (K1 & K2 & K3). split; [|split].
      + intros E. destruct (A E) as [E1|(s0 & r0 & I & J)].
        * destruct (K1 E1) as [E2|[-> J]]; [left; exact E2|]. right. exists (h, v), r. split; [left; reflexivity|exact J].
        * right. exists s0, r0. split; [right; exact I|exact J].
      + auto.
      + intros s0 [E|I]; [|apply (C s0 I)]. apply B, K3; congruence.
  Qed.

  (** C54: refused before generation *)
  Theorem transform_refused l (h h' : heap) (v : vehicle) tr : history l (h, new_vehicle) = (tr, (h', v)) ->
    (forall s0 r, In (Generate, s0, r) tr -> r <> Ok tt /\ v_transformations (snd s0) = []) ->
    forall a, run (Transform a) (h', v) = (h', v, Raise GenericError).
  Proof.
    intros H NG a. destruct (history_generated l _ _ _ H) as (A & _). cbn [snd] in A.
    cbn [run]. unfold transform_vehicle. destruct (v_generated v); [|reflexivity]. exfalso.
    destruct (A eq_refl) as [E|(s0 & r & I & J)]; [discriminate|]. destruct (NG s0 r I) as [N1 N2]. destruct J; auto.
  Qed.
  (** generate that raises before its vehicle transformations leaves the flag *)
  Lemma generated_after l (h h' : heap) (v : vehicle) tr s0 : history l (h, new_vehicle) = (tr, (h', v)) ->
    In (Generate, s0, Ok tt) tr -> v_generated v = true.
  Proof. intros H I. destruct (history_generated l _ _ _ H) as (_ & _ & C). apply (C s0 I). Qed.
End Ops.

Theorem transform_applies l (h h' : heap R) (v : vehicle R) tr s0 ms : history l (h, new_vehicle) = (tr, (h', v)) ->
  In (Generate, s0, Ok tt) tr -> separate h' -> NoDup (v_components v) ->
  (forall i, In i (v_components v) -> i < length (comps h'))%nat -> Forall motion_ok ms ->
  exists h'', run (Transform (AList (map written ms))) (h', v) = (h'', v, Ok tt) /\
    (forall i, ~ In i (v_components v) -> patches_at h'' i = patches_at h' i) /\
    (forall i d, In i (v_components v) -> patches_at h' i = Some d ->
       exists d', patches_at h'' i = Some d' /\ relates same_key (in_order (map motion_map ms)) d d').
Proof.
  intros H I SP ND IN OK. pose proof (generated_after l h h' v tr s0 H I) as G. apply separate_ns in SP.
  destruct (all_transformed ms (v_components v) ND h' SP) as (h2 & A & S & Q).
  { intros i Hi. specialize (IN i Hi). apply nth_error_Some in IN. destruct (nth_error (comps h') i) as [c|] eqn:E; [|congruence].
    destruct (view_total h' i c SP E) as [d V]. eauto. }
  exists h2. cbn [run coerced]. unfold transform_vehicle. rewrite G, A. split; [reflexivity|]. destruct S as (N' & L & W & _). split.
  - intros i Hi. exact (proj2 (view_eq h' h2 i SP N' (W i Hi))).
  - intros i d Hi Pd. unfold patches_at in Pd. destruct (nth_error (comps h') i) as [c|] eqn:E; [|discriminate].
    destruct (Q i c d Hi (view_intro _ _ _ _ E Pd)) as (c' & V & _). eexists. split; [eapply patches_view, V|].
    apply motions_relates, OK.
Qed.
