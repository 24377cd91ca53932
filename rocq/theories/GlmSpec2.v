(** * Specification of the adaptive optimisers of linear regression over exact reals: the textbook recurrences, coordinate by coordinate,
    with the two peculiarities of the code, a gradient divided by the integer quotient 1 / m and labels taken from the start of the data set. *)
From Verif Require Import Base Cost Glm GlmSpec RInst PropSvm LibmR.
From Coq Require Import Reals.
Open Scope R_scope.

(** Weights, bias, first and second moments. *)
Record ost := OSt { o_w : nat -> R; o_b : R; o_m : nat -> R; o_v : nat -> R }.

(** New weight and moments of one coordinate in epoch t from its gradient g, weight w, moments m and v. *)
Definition coord (kk : opt (F := R)) (lr : R) (t : nat) (g w m v : R) : R * R * R :=
  match kk with
  | Momentum gamma | Nag gamma => (w - (gamma * v + lr * g), m, gamma * v + lr * g)
  | Adagrad e => (w - lr * (g / sqrt (g * g + e)), m, g * g)
  | Adadelta b1 e => let v' := b1 * v + (1 - b1) * (g * g) in (w - lr * (g / sqrt (v' + e)), m, v')
  | Adam b1 b2 e =>
    let m' := b1 * m + (1 - b1) * g in let v' := b2 * v + (1 - b2) * g ^ 2 in
    (w - lr * (m' / (1 - b1 ^ t) / (sqrt (v' / (1 - b2 ^ t)) + e)), m', v')
  | Adamax b1 b2 =>
    let m' := b1 * m + (1 - b1) * g in let v' := Rmax (b2 * v) (Rabs g) in
    (w - lr * (m' / (1 - b1 ^ t) / v'), m', v')
  | Nadam b1 b2 e =>
    let m' := b1 * m + (1 - b1) * g in let v' := b2 * v + (1 - b2) * g ^ 2 in
    (w - lr * ((b1 * m' + (1 - b1) * g / (1 - b1 ^ t)) / (sqrt (v' / (1 - b2 ^ t)) + e)), m', v')
  end.
(** Where the gradient is taken: nag first moves the weights along the velocity. *)
Definition point (kk : opt (F := R)) (s : ost) (j : nat) : R := match kk with Nag gamma => o_w s j - gamma * o_v s j | _ => o_w s j end.
(** Prediction error of row r of a batch. *)
Definition batch_err (k : nat) (X : nat -> nat -> R) (y : nat -> R) (w : nat -> R) (b : R) (r : nat) : R := Rsum k (fun j => X r j * w j) + b - y r.
(** The gradient used for the weights: the sum over the batch when it has one row, nothing when it has more; plus the regularisation term. *)
Definition batch_g (m k : nat) X y reg la al (w : nat -> R) (b : R) (j : nat) : R :=
  (if decide (m = 1%nat) then 1 else 0) * Rsum m (fun r => X r j * batch_err k X y w b r) + reg_d1 la al reg (w j).
Definition spec_batch (kk : opt) (lr : R) (t m k : nat) X y reg la al (s : ost) : ost :=
  let p := point kk s in
  let c j := coord kk lr t (batch_g m k X y reg la al p (o_b s) j) (p j) (o_m s j) (o_v s j) in
  OSt (fun j => (c j).1.1) (o_b s - lr * Rsum m (batch_err k X y p (o_b s)) / INR m) (fun j => (c j).1.2) (fun j => (c j).2).
(** Epoch t: batch i has the rows m i, ..., m i + m - 1 and the labels 0, ..., m - 1. *)
Definition spec_epoch (kk : opt) (lr : R) (t m nb k : nat) X (y : nat -> R) reg la al (s : ost) : ost :=
  foldl (fun s i => spec_batch kk lr t m k (fun r j => X (m * i + r)%nat j) y reg la al s) s (seq 0 nb).
Definition spec_run (kk : opt) (lr : R) (T m nb k : nat) X (y : nat -> R) reg la al (w : nat -> R) (b : R) : ost :=
  foldl (fun s t => spec_epoch kk lr t m nb k X y reg la al s) (OSt w b (fun _ => 0) (fun _ => 0)) (seq 1 T).
