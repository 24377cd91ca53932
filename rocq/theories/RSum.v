(** * Finite sums and quadratic forms over the reals: specification vocabulary for C44 onwards. *)
From Verif Require Import Base RInst.
From Verif Require Export PropSvm.
From Coq Require Import Reals Lra Lia.
Open Scope R_scope.

Definition symmetric (n : nat) (A : nat -> nat -> R) : Prop := forall i j, (i < n)%nat -> (j < n)%nat -> A i j = A j i.
Definition quad (n : nat) (A : nat -> nat -> R) (x : nat -> R) : R := Rsum n (fun i => Rsum n (fun j => x i * A i j * x j)).
(** x^T A x > 0 for every non-zero x. *)
Definition positive_definite (n : nat) (A : nat -> nat -> R) : Prop := forall x, (exists i, (i < n)%nat /\ x i <> 0) -> 0 < quad n A x.

Lemma Rsum_split n m u : (m <= n)%nat -> Rsum n u = Rsum m u + Rsum (n - m) (fun k => u (m + k)%nat).
Proof.
  intros L. induction n as [|n IH]; [replace m with 0%nat by lia; cbn; lra|]. destruct (decide (m = S n)) as [->|Hne].
  - rewrite Nat.sub_diag. cbn. unfold Rsum. cbn. lra.
  - rewrite Rsum_S, IH by lia. replace (S n - m)%nat with (S (n - m)) by lia. rewrite Rsum_S. replace (m + (n - m))%nat with n by lia. lra.
Qed.
Lemma Rsum_head n m u : (m <= n)%nat -> (forall k, (m <= k < n)%nat -> u k = 0) -> Rsum n u = Rsum m u.
Proof.
  intros L Hz. rewrite (Rsum_split n m) by exact L. rewrite (Rsum_ext (n - m) _ (fun _ => 0)), Rsum_zero; [lra|]. intros k Hk. apply Hz. lia.
Qed.
Lemma Rsum_scal_r n c u : Rsum n (fun k => u k * c) = Rsum n u * c.
Proof. rewrite Rmult_comm, <- Rsum_scal. apply Rsum_ext. intros; ring. Qed.
Lemma Rsum_prod n m u v : Rsum n u * Rsum m v = Rsum n (fun i => Rsum m (fun j => u i * v j)).
Proof. rewrite <- Rsum_scal_r. apply Rsum_ext. intros i _. rewrite Rsum_scal. reflexivity. Qed.
Lemma Rsum_minus n u v : Rsum n (fun k => u k - v k) = Rsum n u - Rsum n v.
Proof. unfold Rsum. apply rsum_map_minus. Qed.
Lemma Rsum_sq_nonneg n u : 0 <= Rsum n (fun k => u k * u k).
Proof. apply rsum_map_nonneg. intros. apply Rle_0_sqr. Qed.
Lemma Rsum_sq_zero n u : Rsum n (fun k => u k * u k) = 0 -> forall k, (k < n)%nat -> u k = 0.
Proof.
  induction n as [|n IH]; intros E k Hk; [lia|]. rewrite Rsum_S in E. pose proof (Rsum_sq_nonneg n u). pose proof (Rle_0_sqr (u n)). unfold Rsqr in *.
  destruct (decide (k = n)) as [->|Hne]; [apply Rsqr_0_uniq; unfold Rsqr; lra|apply IH; [lra|lia]].
Qed.
Lemma Rsum_le n u v : (forall k, (k < n)%nat -> u k <= v k) -> Rsum n u <= Rsum n v.
Proof. intros E. induction n as [|n IH]; [cbn; lra|]. rewrite !Rsum_S. pose proof (E n ltac:(lia)). assert (Rsum n u <= Rsum n v) by (apply IH; intros; apply E; lia). lra. Qed.
Lemma Rsum_nonneg n u : (forall k, (k < n)%nat -> 0 <= u k) -> 0 <= Rsum n u.
Proof. intros E. rewrite <- (Rsum_zero n). apply Rsum_le. exact E. Qed.
