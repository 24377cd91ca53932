(** * Gram matrices and least squares over the reals. *)
From Verif Require Import Base BaseProofs Mat MatSpec MatProofs MatProofs2 PropAlg PropDet RSum DetKer DetCode DetProofs.
From Verif Require RField PropRot.
From Coq Require Import Reals Lra Lia.
From Verif Require Import RInst.
Open Scope R_scope.

(** A x, for the rows x cols matrix with entries A i j. *)
Definition apply (c : nat) (A : nat -> nat -> R) (x : nat -> R) (i : nat) : R := Rsum c (fun j => A i j * x j).
(** The c columns of the r x c matrix A are linearly independent. *)
Definition independent (r c : nat) (A : nat -> nat -> R) : Prop :=
  forall x, (forall i, (i < r)%nat -> apply c A x i = 0) -> forall j, (j < c)%nat -> x j = 0.
(** Squared length of A x - b. *)
Definition residual (r c : nat) (A : nat -> nat -> R) (b x : nat -> R) : R := Rsum r (fun i => (apply c A x i - b i) * (apply c A x i - b i)).
(** B is a two-sided inverse of the n x n matrix A. *)
Definition inverse_of (n : nat) (A B : nat -> nat -> R) : Prop :=
  forall i j, (i < n)%nat -> (j < n)%nat -> Rsum n (fun k => A i k * B k j) = (if decide (i = j) then 1 else 0) /\ Rsum n (fun k => B i k * A k j) = (if decide (i = j) then 1 else 0).

Notation Rdet := (@DetMC.mc_det (ssralg.GRing.Field.ringType RField.R_fieldType)).
Definition gram (r : nat) (A : nat -> nat -> R) : nat -> nat -> R := fun i j => Rsum r (fun k => A k i * A k j).

Lemma mat_mul_R m f g i j : mat_mul (F := R) m f g i j = Rsum m (fun k => f i k * g k j).
Proof. unfold mat_mul. rewrite lsum_Rsum. reflexivity. Qed.
Lemma mat_id_R i j : mat_id (F := R) i j = if decide (i = j) then 1 else 0.
Proof. unfold mat_id. destruct (Nat.eqb_spec i j); destruct (decide (i = j)); first [reflexivity|congruence]. Qed.
Lemma inverse_of_spec n A B : two_sided_inverse RField.R_fieldType n A B <-> inverse_of n A B.
Proof. unfold two_sided_inverse, inverse_of. split; intros E i j Hi Hj; specialize (E i j Hi Hj); [rewrite !mat_mul_R, mat_id_R in E|rewrite !mat_mul_R, mat_id_R]; exact E. Qed.

Lemma apply_ext c A x y i : (forall j, (j < c)%nat -> x j = y j) -> apply c A x i = apply c A y i.
Proof. intros E. apply Rsum_ext. intros j Hj. rewrite E by exact Hj. reflexivity. Qed.
Lemma gram_quad r c A x : Rsum c (fun i => x i * Rsum c (fun j => gram r A i j * x j)) = Rsum r (fun k => apply c A x k * apply c A x k).
Proof.
  unfold gram, apply. rewrite (Rsum_ext c _ (fun i => Rsum r (fun k => x i * A k i * Rsum c (fun j => A k j * x j)))).
  - rewrite Rsum_swap. apply Rsum_ext. intros k _. rewrite <- Rsum_scal_r. apply Rsum_ext. intros; ring.
  - intros i _. rewrite (Rsum_ext c _ (fun j => Rsum r (fun k => A k i * A k j * x j))) by (intros; rewrite Rsum_scal_r; reflexivity).
    rewrite Rsum_swap, <- Rsum_scal. apply Rsum_ext. intros k _. rewrite Rmult_assoc, <- Rsum_scal. rewrite <- !Rsum_scal. apply Rsum_ext. intros; ring.
Qed.
(** Independent columns: the Gram matrix is non-singular. *)
Lemma gram_det r c A : independent r c A -> Rdet c (gram r A) <> 0.
Proof.
  intros In D. destruct (ops_det_kernel PropRot.R_exact_field D) as (x & (i & Hi & Hx) & Hk).
  apply Hx. apply In; [|exact Hi]. apply Rsum_sq_zero. rewrite <- gram_quad.
  rewrite (Rsum_ext c _ (fun i => Rsum c (fun j => x i * gram r A i j * x j))) by (intros; rewrite <- Rsum_scal; apply Rsum_ext; intros; ring).
  rewrite Rsum_swap. rewrite (Rsum_ext c _ (fun _ => 0)); [apply Rsum_zero|]. intros j Hj. rewrite Rsum_scal_r.
  specialize (Hk j Hj). rewrite fsum_lsum, lsum_Rsum in Hk. cbn [s_add s_mul R_scalar] in Hk. setoid_rewrite Hk. change s_zero with 0. ring.
Qed.
Lemma gram_independent r c A : (2 <= c)%nat -> Rdet c (gram r A) <> 0 -> independent r c A.
Proof.
  intros Hc D. destruct (proj2 (C23_invertible_iff _ PropRot.R_exact_field c (gram r A) Hc) D) as [B HB]. apply inverse_of_spec in HB.
  intros x Hx j Hj. rewrite <- (Rsum_delta c j x Hj).
  rewrite (Rsum_ext c _ (fun k => Rsum c (fun l => B j l * gram r A l k * x k))).
  - rewrite Rsum_swap. rewrite (Rsum_ext c _ (fun _ => 0)); [apply Rsum_zero|]. intros l Hl.
    rewrite (Rsum_ext c _ (fun k => B j l * (gram r A l k * x k))) by (intros; ring). rewrite Rsum_scal. unfold gram.
    rewrite (Rsum_ext c _ (fun k => Rsum r (fun m => A m l * (A m k * x k)))) by (intros; rewrite <- Rsum_scal_r; apply Rsum_ext; intros; ring).
    rewrite Rsum_swap. rewrite (Rsum_ext r _ (fun _ => 0)), Rsum_zero; [ring|]. intros m Hm. rewrite Rsum_scal. specialize (Hx m Hm). unfold apply in Hx. rewrite Hx. ring.
  - intros k Hk. rewrite Rsum_scal_r. destruct (HB j k Hj Hk) as [_ ->]. destruct (decide (j = k)), (decide (k = j)); try congruence; reflexivity.
Qed.

(** ** (A^T A)^-1 A^T *)
Definition pinv (r c : nat) (A : nat -> nat -> R) : nat -> nat -> R := fun i j => Rsum c (fun k => inv_entry (F := R) c (gram r A) i k * A j k).
Section pinv.
Context (r c : nat) (A : nat -> nat -> R) (Hc : (2 <= c)%nat) (In : independent r c A).
Lemma gram_inv : inverse_of c (gram r A) (inv_entry (F := R) c (gram r A)).
Proof. apply inverse_of_spec. apply inv_entry_inverse; [apply PropRot.R_exact_field|exact Hc|]. apply gram_det. exact In. Qed.
Lemma pinv_left i j : (i < c)%nat -> (j < c)%nat -> Rsum r (fun k => pinv r c A i k * A k j) = if decide (i = j) then 1 else 0.
Proof.
  intros Hi Hj. unfold pinv. rewrite (Rsum_ext r _ (fun k => Rsum c (fun l => inv_entry (F := R) c (gram r A) i l * (A k l * A k j)))) by (intros; rewrite <- Rsum_scal_r; apply Rsum_ext; intros; ring).
  rewrite Rsum_swap. rewrite (Rsum_ext c _ (fun l => inv_entry (F := R) c (gram r A) i l * gram r A l j)) by (intros; rewrite Rsum_scal; reflexivity).
  apply gram_inv; assumption.
Qed.
(** Normal equations: A^T (A P b - b) = 0. *)
Lemma pinv_normal b j : (j < c)%nat -> Rsum r (fun i => A i j * (apply c A (apply r (pinv r c A) b) i - b i)) = 0.
Proof.
  intros Hj. set (x := apply r (pinv r c A) b).
  rewrite (Rsum_ext r _ (fun i => A i j * apply c A x i - A i j * b i)) by (intros; ring). rewrite Rsum_minus.
  rewrite (Rsum_ext r _ (fun i => Rsum c (fun k => (A i j * A i k) * x k))) by (intros; unfold apply; rewrite <- Rsum_scal; apply Rsum_ext; intros; ring).
  rewrite Rsum_swap. rewrite (Rsum_ext c _ (fun k => gram r A j k * x k)) by (intros; rewrite Rsum_scal_r; reflexivity).
  unfold x, apply, pinv.
  rewrite (Rsum_ext c _ (fun k => Rsum c (fun l => gram r A j k * inv_entry (F := R) c (gram r A) k l * Rsum r (fun i => A i l * b i)))).
  - rewrite Rsum_swap. rewrite (Rsum_ext c _ (fun l => (if decide (l = j) then 1 else 0) * Rsum r (fun i => A i l * b i))).
    + rewrite (Rsum_delta c j (fun l => Rsum r (fun i => A i l * b i))) by exact Hj. lra.
    + intros l Hl. rewrite Rsum_scal_r. f_equal. destruct (gram_inv j l Hj Hl) as [-> _]. destruct (decide (j = l)), (decide (l = j)); congruence.
  - intros k Hk. rewrite (Rsum_ext r _ (fun i => Rsum c (fun l => inv_entry (F := R) c (gram r A) k l * (A i l * b i)))) by (intros; rewrite <- Rsum_scal_r; apply Rsum_ext; intros; ring).
    rewrite Rsum_swap, <- Rsum_scal. apply Rsum_ext. intros l Hl. rewrite Rsum_scal. ring.
Qed.
Lemma residual_split b z : residual r c A b z = residual r c A b (apply r (pinv r c A) b) +
  Rsum r (fun i => apply c A (fun j => z j - apply r (pinv r c A) b j) i * apply c A (fun j => z j - apply r (pinv r c A) b j) i).
Proof.
  set (x := apply r (pinv r c A) b). set (w := fun j => z j - x j). unfold residual.
  assert (EA : forall i, apply c A z i = apply c A x i + apply c A w i).
  { intros i. unfold apply. rewrite <- Rsum_plus. apply Rsum_ext. intros. unfold w. ring. }
  rewrite (Rsum_ext r _ (fun i => ((apply c A x i - b i) * (apply c A x i - b i) + apply c A w i * apply c A w i) + 2 * (apply c A w i * (apply c A x i - b i)))) by (intros; rewrite EA; ring).
  rewrite !Rsum_plus, Rsum_scal.
  assert (E0 : Rsum r (fun i => apply c A w i * (apply c A x i - b i)) = 0).
  { rewrite (Rsum_ext r _ (fun i => Rsum c (fun j => w j * (A i j * (apply c A x i - b i))))) by (intros; unfold apply at 1; rewrite <- Rsum_scal_r; apply Rsum_ext; intros; ring).
    rewrite Rsum_swap. rewrite (Rsum_ext c _ (fun _ => 0)); [apply Rsum_zero|]. intros j Hj. rewrite Rsum_scal. unfold x. rewrite pinv_normal by exact Hj. ring. }
  rewrite E0. lra.
Qed.
(** x = P b is the one minimiser of |A x - b|. *)
Lemma pinv_least_squares b z : residual r c A b (apply r (pinv r c A) b) <= residual r c A b z /\
  (residual r c A b z = residual r c A b (apply r (pinv r c A) b) -> forall j, (j < c)%nat -> z j = apply r (pinv r c A) b j).
Proof.
  rewrite (residual_split b z). split; [pose proof (Rsum_sq_nonneg r (apply c A (fun j => z j - apply r (pinv r c A) b j))); lra|].
  intros E j Hj. assert (E0 : Rsum r (fun i => apply c A (fun j => z j - apply r (pinv r c A) b j) i * apply c A (fun j => z j - apply r (pinv r c A) b j) i) = 0) by lra.
  pose proof (Rsum_sq_zero r _ E0) as Z0. pose proof (In (fun j => z j - apply r (pinv r c A) b j) Z0 j Hj). cbn beta in *. lra.
Qed.
End pinv.
