(** Strings built by f-strings: key_index, type_count, name-type-no.stl. *)
From Coq Require Import String Ascii List Arith Lia Bool DecimalString DecimalNat Decimal.
From Verif Require Import Py.
Import ListNotations.
Local Open Scope string_scope.

Fixpoint has (c : ascii) (s : string) : bool :=
  match s with EmptyString => false | String d s' => Ascii.eqb c d || has c s' end.

Lemma has_app c a b : has c (a ++ b) = has c a || has c b.
Proof. induction a as [|d a IH]; cbn; [reflexivity|]. rewrite IH, orb_assoc. reflexivity. Qed.
Lemma app_assoc_s (a b c : string) : (a ++ b) ++ c = a ++ b ++ c.
Proof. induction a as [|d a IH]; cbn; [reflexivity|]. rewrite IH. reflexivity. Qed.
Lemma app_nil_s (a : string) : a ++ "" = a.
Proof. induction a as [|d a IH]; cbn; [reflexivity|]. rewrite IH. reflexivity. Qed.
Lemma app_inj_l (a b c : string) : a ++ b = a ++ c -> b = c.
Proof. induction a as [|d a IH]; cbn; [auto|]. intros H. injection H. auto. Qed.
Lemma length_app_s (a b : string) : String.length (a ++ b) = String.length a + String.length b.
Proof. induction a as [|d a IH]; cbn; [reflexivity|]. rewrite IH. reflexivity. Qed.
Lemma app_inj_r (a b s : string) : a ++ s = b ++ s -> a = b.
Proof.
  revert b. induction a as [|c a IH]; intros [|d b] H; cbn in H; auto.
  - apply (f_equal String.length) in H. cbn in H. rewrite length_app_s in H. lia.
  - apply (f_equal String.length) in H. cbn in H. rewrite length_app_s in H. lia.
  - injection H as -> H. f_equal. auto.
Qed.

(** splitting at the last separator *)
Lemma split_last (c : ascii) (a b s t : string) : has c s = false -> has c t = false ->
  a ++ String c s = b ++ String c t -> a = b /\ s = t.
Proof.
  intros Hs Ht. revert b. induction a as [|d a IH]; intros [|e b] H; cbn in H.
  - injection H as ->. auto.
  - injection H as -> H. subst s. rewrite has_app in Hs. cbn in Hs. rewrite Ascii.eqb_refl in Hs.
    rewrite orb_true_r in Hs. discriminate.
  - injection H as -> H. subst t. rewrite has_app in Ht. cbn in Ht. rewrite Ascii.eqb_refl in Ht.
    rewrite orb_true_r in Ht. discriminate.
  - injection H as -> H. destruct (IH b H). subst. auto.
Qed.

(** decimal numerals *)
Lemma str_nat_inj n m : str_nat n = str_nat m -> n = m.
Proof.
  intros H. apply Unsigned.to_uint_inj. unfold str_nat in H.
  apply (f_equal NilEmpty.uint_of_string) in H. rewrite !NilEmpty.usu in H. congruence.
Qed.
Definition digit (c : ascii) : Prop := (48 <= nat_of_ascii c <= 57).
Lemma uint_digits c u : ~ digit c -> has c (NilEmpty.string_of_uint u) = false.
Proof.
  intros H. induction u as [|u IH|u IH|u IH|u IH|u IH|u IH|u IH|u IH|u IH|u IH]; cbn [NilEmpty.string_of_uint has]; auto;
  rewrite IH, orb_false_r; apply Ascii.eqb_neq; intros ->; apply H; unfold digit; cbn; lia.
Qed.
Lemma str_nat_digits c n : ~ digit c -> has c (str_nat n) = false.
Proof. intros H. apply uint_digits, H. Qed.
Lemma under_digit : ~ digit "_". Proof. unfold digit. cbn. lia. Qed.
Lemma dash_digit : ~ digit "-". Proof. unfold digit. cbn. lia. Qed.

Lemma indexed_inj a b n m : a ++ "_" ++ str_nat n = b ++ "_" ++ str_nat m -> a = b /\ n = m.
Proof.
  intros H. cbn [append] in H. apply split_last in H as [-> H]; [split; [reflexivity|apply str_nat_inj, H]| |];
  apply str_nat_digits, under_digit.
Qed.
Lemma dashed_inj a b n m : a ++ "-" ++ str_nat n ++ ".stl" = b ++ "-" ++ str_nat m ++ ".stl" -> a = b /\ n = m.
Proof.
  intros H. cbn [append] in H. apply split_last in H as [-> H].
  - split; [reflexivity|]. apply str_nat_inj. apply app_inj_r in H. exact H.
  - rewrite has_app, str_nat_digits by exact dash_digit. reflexivity.
  - rewrite has_app, str_nat_digits by exact dash_digit. reflexivity.
Qed.
