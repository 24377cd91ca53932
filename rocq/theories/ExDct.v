(** * The hypotheses of C85 are met by concrete matrices. *)
From Verif Require Import Base BaseProofs Vec VecSpec VecProofs VecProofs2 Mat MatSpec MatProofs MatProofs2 MatProofs3 Act RInst LibmR PropSvm Dct PropDct ExBuild ExAnn.
From Coq Require Import Reals Lra.
Open Scope R_scope.

Definition I22 (i j : nat) : R := match i with O => row2 130 128 j | _ => row2 128 126 j end.
Definition P12 (i j : nat) : R := row2 129 128 j.
Definition Q12 (i j : nat) : R := row2 128 129 j.
Lemma images : exists (h : heap R) x p q, wf h /\ abs h !! x = Some (Mat 2 2 I22) /\ abs h !! p = Some (Mat 2 1 P12) /\ abs h !! q = Some (Mat 2 1 Q12).
Proof.
  reach [LM 2 [[130;128];[128;126]]; LM 2 [[129;128]]; LM 2 [[128;129]]]. exists h, d, d0, d1. split; [exact W|].
  split; [eapply Mat_of; [exact Hd|repeat constructor|reflexivity|cells]|]. split; (eapply Mat_of; [eassumption|repeat constructor|reflexivity|cells]).
Qed.
Lemma sm2 (n : nat) : (n <= 100)%nat -> (2 * Z.of_nat n <= int_max)%Z. Proof. unfold int_max. lia. Qed.
(** Energy 2^2 + (-2)^2 = 8; the image is recovered. *)
Example ex_C85_square : exists (h : heap R) x, runs (dct (Some x)) h (fun d h' => exists B, abs h' !! d = Some (Mat 2 2 B) /\ B 0%nat 0%nat * B 0%nat 0%nat + B 0%nat 1%nat * B 0%nat 1%nat + (B 1%nat 0%nat * B 1%nat 0%nat + B 1%nat 1%nat * B 1%nat 1%nat) = 8) /\
  runs (dct (Some x)) h (fun d h' => exists B, abs h' !! d = Some (Mat 2 2 B) /\ B 0%nat 0%nat = 0) /\
  runs (dct (Some x)) h (fun d h' => exists B, abs h' !! d = Some (Mat 2 2 B) /\ 130 = 128 + Rsum 2 (fun i => Rsum 2 (fun j => B i j * (basis 2 i 0 * basis 2 j 0)))).
Proof.
  destruct images as (h & x & p & q & W & Hx & _). exists h, x. split; [|split].
  - destruct (C85_energy h x 2 I22 W Hx (sm2 2 ltac:(lia))) as (d & h' & E & W' & B & A' & G). exists d, h'. split; [exact E|]. split; [exact W'|]. exists B. split; [rewrite A'; apply lookup_insert|].
    rewrite !Rsum_S in G. unfold Rsum in G. cbn [seq fmap list_fmap rsum] in G. cbn [I22 row2] in G. lra.
  - destruct (C85_dc h x 2 I22 W Hx (sm2 2 ltac:(lia)) ltac:(lia)) as (d & h' & E & W' & B & A' & G). exists d, h'. split; [exact E|]. split; [exact W'|]. exists B. split; [rewrite A'; apply lookup_insert|].
    rewrite G, !Rsum_S. unfold Rsum. cbn. field.
  - destruct (C85_inverse h x 2 I22 W Hx (sm2 2 ltac:(lia))) as (d & h' & E & W' & B & A' & G). exists d, h'. split; [exact E|]. split; [exact W'|]. exists B. split; [rewrite A'; apply lookup_insert|]. exact (G 0%nat 0%nat ltac:(lia) ltac:(lia)).
Qed.
(** Two different images with the same transform. *)
Example ex_C85_collision : exists (h : heap R) p q, abs h !! p = Some (Mat 2 1 P12) /\ abs h !! q = Some (Mat 2 1 Q12) /\ P12 0%nat 0%nat <> Q12 0%nat 0%nat /\
  runs (dct (Some p)) h (fun d h' => exists B, abs h' !! d = Some (Mat 2 1 B) /\ B 0%nat 0%nat = 1 /\ B 0%nat 1%nat = 0) /\
  runs (dct (Some q)) h (fun d h' => exists B, abs h' !! d = Some (Mat 2 1 B) /\ B 0%nat 0%nat = 1 /\ B 0%nat 1%nat = 0).
Proof.
  destruct images as (h & x & p & q & W & _ & Hp & Hq). exists h, p, q. split; [exact Hp|]. split; [exact Hq|]. split; [cbn; lra|]. split.
  - destruct (C85_rectangular_refuted h p P12 W Hp) as (d & h' & E & W' & B & A' & G1 & G2). exists d, h'. split; [exact E|]. split; [exact W'|]. exists B. split; [rewrite A'; apply lookup_insert|]. split; [rewrite G1; cbn; lra|exact G2].
  - destruct (C85_rectangular_refuted h q Q12 W Hq) as (d & h' & E & W' & B & A' & G1 & G2). exists d, h'. split; [exact E|]. split; [exact W'|]. exists B. split; [rewrite A'; apply lookup_insert|]. split; [rewrite G1; cbn; lra|exact G2].
Qed.
