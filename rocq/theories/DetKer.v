(** * A matrix with determinant 0 has a non-trivial kernel (mathcomp). *)
Set Warnings "-notation-overridden,-ambiguous-paths".
From mathcomp Require Import all_ssreflect all_algebra.
From Verif Require Import DetCode DetMC.
Set Implicit Arguments. Unset Strict Implicit. Unset Printing Implicit Defensive.
Import GRing.Theory.
Local Open Scope ring_scope.
Lemma ops_det_kernel (K : fieldType) (zero one : K) add sub mul div opp sg (E : field_ops zero one add sub mul div opp sg) n (f : nat -> nat -> K) : mc_det n f = zero ->
  exists x : nat -> K, (exists i, (i < n)%coq_nat /\ x i <> zero) /\
    forall j, (j < n)%coq_nat -> fsum zero add n (fun k => mul (x k) (f k j)) = zero.
Proof.
case: E => -> _ -> _ -> _ _ _ /eqP/det0P[v Hv Hk].
exists (fun i => if insub i is Some k then v 0 k else 0). split.
  have [k Hk0] : exists k, v 0 k != 0.
    apply/existsP. apply: contraR Hv. rewrite negb_exists => /forallP H. apply/eqP/rowP => k. move: (H k). by rewrite negbK mxE => /eqP.
  exists k. split; first exact/ltP. by rewrite valK; apply/eqP.
move=> j /ltP Hj. rewrite fsumE. move/rowP: Hk => /(_ (Ordinal Hj)). rewrite !mxE => H. apply: etrans H. apply: eq_bigr => k _. by rewrite valK !mxE.
Qed.
