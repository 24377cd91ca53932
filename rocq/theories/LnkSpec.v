(** * Specification of regression through a link function, over exact reals. *)
From Verif Require Import Base RErf RInst PropSvm Lnk.
From Coq Require Import Reals.
From Verif Require Import GlmSpec.
Open Scope R_scope.

(** The link of each class: complementary log-log, hyperbolic tangent, normal distribution function. *)
Definition link (c : lcls) (z : R) : R :=
  match c with CLogLog => 1 - exp (- exp z) | Tanh => tanh z | Probit => / 2 * (1 + Rerf (z / sqrt 2)) end.
(** Its derivative (proved in C69_link_derivative). *)
Definition link' (c : lcls) (z : R) : R :=
  match c with CLogLog => exp z * exp (- exp z) | Tanh => 1 - tanh z * tanh z | Probit => / sqrt (2 * PI) * exp (- (z * z) / 2) end.
(** Half the mean squared error of the predictions [link (score)], as a function of the list bias :: weights. *)
Definition J_link (c : lcls) (n k : nat) (X : nat -> nat -> R) (ys : list R) (v : list R) : R :=
  / INR n * Rsum n (fun i => / 2 * (link c (score k X (drop 1 v) (nth 0 v 0) i) - nth i ys 0) ^ 2).
(** A step of length lr against g (bias component first). *)
Definition step (lr : R) (v g : list R) : list R := zip_with (fun a b => a - lr * b) v g.
Definition model (s : list R * R) : list R := s.2 :: s.1.
