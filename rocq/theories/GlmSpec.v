(** * Specification of linear and logistic regression over exact reals.
    A data set is n rows of k features, [X i j], with labels [ys]; a model is a list of k weights and a bias. *)
From Verif Require Import Base RInst PropSvm.
From Coq Require Import Reals.
Open Scope R_scope.

(** The linear score of row i. *)
Definition score (k : nat) (X : nat -> nat -> R) (ws : list R) (b : R) (i : nat) : R := Rsum k (fun j => X i j * nth j ws 0) + b.
Definition logistic (z : R) : R := 1 / (1 + exp (- z)).
(** Half the mean squared error. *)
Definition J_lin (n k : nat) (X : nat -> nat -> R) (ys ws : list R) (b : R) : R :=
  / INR n * Rsum n (fun i => / 2 * (score k X ws b i - nth i ys 0) ^ 2).
(** Mean negative log-likelihood of labels y_i under P(y_i = 1) = logistic(score). *)
Definition J_log (n k : nat) (X : nat -> nat -> R) (ys ws : list R) (b : R) : R :=
  / INR n * Rsum n (fun i => - (nth i ys 0 * ln (logistic (score k X ws b i)) + (1 - nth i ys 0) * ln (1 - logistic (score k X ws b i)))).
(** Squared Euclidean distance between two models (weights and bias). *)
Definition model_dist2 (k : nat) (ws : list R) (b : R) (us : list R) (c : R) : R :=
  Rsum k (fun j => (nth j ws 0 - nth j us 0) ^ 2) + (b - c) ^ 2.
(** Mean squared norm of the rows extended by 1: the smoothness constant of J_lin, and four times that of J_log. *)
Definition row_power (n k : nat) (X : nat -> nat -> R) : R := / INR n * Rsum n (fun i => Rsum k (fun j => X i j ^ 2) + 1).
