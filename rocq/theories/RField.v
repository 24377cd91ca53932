(** * Coq's real numbers as a mathcomp field.
    The choice structure mathcomp asks of every field comes from the standard library's
    [constructive_indefinite_description] (Coq.Logic.IndefiniteDescription). *)
Set Warnings "-notation-overridden,-ambiguous-paths".
From mathcomp Require Import all_ssreflect all_algebra.
From Coq Require Import Reals ClassicalEpsilon Lra.
Set Implicit Arguments. Unset Strict Implicit. Unset Printing Implicit Defensive.

Definition eqr (x y : R) : bool := if Req_EM_T x y then true else false.
Lemma eqrP : Equality.axiom eqr.
Proof. by move=> x y; rewrite /eqr; case: Req_EM_T => H; constructor. Qed.
Canonical R_eqType := Eval hnf in EqType R (EqMixin eqrP).

Definition find_R (P : pred R) (n : nat) : option R :=
  match excluded_middle_informative (exists x, P x) with
  | left ex => Some (proj1_sig (constructive_indefinite_description P ex))
  | right _ => None
  end.
Lemma find_R_correct P n x : find_R P n = Some x -> P x.
Proof.
rewrite /find_R. case: excluded_middle_informative => // ex [<-]. by case: constructive_indefinite_description.
Qed.
Lemma find_R_complete (P : pred R) : (exists x, P x) -> exists n, find_R P n.
Proof. move=> ex. exists 0%N. rewrite /find_R. by case: excluded_middle_informative. Qed.
Lemma find_R_ext P Q : P =1 Q -> find_R P =1 find_R Q.
Proof.
move=> E n. rewrite /find_R. have -> : P = Q by apply: FunctionalExtensionality.functional_extensionality. by [].
Qed.
Definition R_choiceMixin := Choice.Mixin find_R_correct find_R_complete find_R_ext.
Canonical R_choiceType := Eval hnf in ChoiceType R R_choiceMixin.

Lemma RplusA : associative Rplus. Proof. move=> *. by rewrite Rplus_assoc. Qed.
Definition R_zmodMixin := ZmodMixin RplusA Rplus_comm Rplus_0_l Rplus_opp_l.
Canonical R_zmodType := Eval hnf in ZmodType R R_zmodMixin.
Lemma RmultA : associative Rmult. Proof. move=> *. by rewrite Rmult_assoc. Qed.
Lemma R1neq0 : R1 != R0. Proof. apply/eqP => H. exact: R1_neq_R0. Qed.
Definition R_ringMixin := RingMixin RmultA Rmult_1_l Rmult_1_r Rmult_plus_distr_r Rmult_plus_distr_l R1neq0.
Canonical R_ringType := Eval hnf in RingType R R_ringMixin.
Canonical R_comRingType := Eval hnf in ComRingType R Rmult_comm.

Lemma RmulVr (x : R) : x != R0 -> Rmult (Rinv x) x = R1. Proof. move=> /eqP H. exact: Rinv_l. Qed.
Lemma Rinv0 : Rinv R0 = R0. Proof. exact: Rinv_0. Qed.
Definition R_unitRingMixin := FieldUnitMixin RmulVr Rinv0.
Canonical R_unitRingType := Eval hnf in UnitRingType R R_unitRingMixin.
Canonical R_comUnitRingType := Eval hnf in [comUnitRingType of R].
Lemma R_fieldMixin : GRing.Field.mixin_of R_unitRingType. Proof. by []. Qed.
Definition R_idomainMixin := FieldIdomainMixin R_fieldMixin.
Canonical R_idomainType := Eval hnf in IdomainType R R_idomainMixin.
Canonical R_fieldType := Eval hnf in FieldType R R_fieldMixin.
