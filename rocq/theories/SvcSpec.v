(** * Specification of the linear support vector classifier over exact reals.
    [score k X ws b i] (GlmSpec): the inner product of row i and the weights, plus the bias. *)
From Verif Require Import Base RInst PropSvm GlmSpec.
From Coq Require Import Reals.
Open Scope R_scope.

(** -1, 0 or 1. *)
Definition sgnR (z : R) : R := if Rlt_dec z 0 then -1 else if Req_EM_T z 0 then 0 else 1.
(** C times the hinge loss of one row, and of the mean over n rows. *)
Definition hinge1 (C : R) (k : nat) (X : nat -> nat -> R) (ys : list R) (i : nat) (ws : list R) (b : R) : R := C * Rmax 0 (1 - nth i ys 0 * score k X ws b i).
Definition hinge_mean (C : R) (n k : nat) (X : nat -> nat -> R) (ys ws : list R) (b : R) : R := / INR n * Rsum n (fun i => hinge1 C k X ys i ws b).
(** (gs, gb) is a subgradient of the function E of weights and bias at (ws, b). *)
Definition subgradient (E : list R -> R -> R) (ws : list R) (b : R) (gs : list R) (gb : R) : Prop :=
  length gs = length ws /\
  forall vs c, length vs = length ws -> E ws b + Rsum (length ws) (fun j => nth j gs 0 * (nth j vs 0 - nth j ws 0)) + gb * (c - b) <= E vs c.
(** A step of length lr against g, then multiplication by (1 - d). *)
Definition shrunk_step (lr d : R) (ws gs : list R) : list R := zip_with (fun w g => (1 - d) * (w - lr * g)) ws gs.
(** Rows whose score times label is below 1, resp. whose predicted sign times label is below 1. *)
Definition violated (k : nat) (X : nat -> nat -> R) (ys ws : list R) (b : R) (i : nat) : bool := if Rlt_dec (nth i ys 0 * score k X ws b i) 1 then true else false.
Definition sign_wrong (k : nat) (X : nat -> nat -> R) (ys ws : list R) (b : R) (i : nat) : bool := if Rlt_dec (nth i ys 0 * sgnR (score k X ws b i)) 1 then true else false.
