(** * Specification of the cost functions over exact reals: predictions [xs], targets [ys] of the same length. *)
From Verif Require Import Base RInst.
From Coq Require Import Reals.
Open Scope R_scope.

(** sum_i f(x_i, y_i). *)
Definition sum2 (f : R -> R -> R) (xs ys : list R) : R := rsum (zip_with f xs ys).
Definition len (xs : list R) : R := INR (length xs).
Definition sqsum (xs ys : list R) : R := sum2 (fun x y => (x - y) * (x - y)) xs ys.

(** Text-book costs. *)
Definition rmse (xs ys : list R) : R := sqrt (sqsum xs ys / len xs).
Definition mae (xs ys : list R) : R := sum2 (fun x y => Rabs (x - y)) xs ys / len xs.
Definition mbe (xs ys : list R) : R := sum2 (fun x y => x - y) xs ys / len xs.
Definition log_loss_eps (eps : R) (xs ys : list R) : R :=
  sum2 (fun x y => - (y * ln (x + eps) + (1 - y) * ln (1 - x + eps))) xs ys / len xs.
Definition cross_entropy (xs ys : list R) : R := - sum2 (fun x y => y * ln x) xs ys.
Definition huber1_spec (d x y : R) : R :=
  if Rle_dec (Rabs (y - x)) d then (y - x) * (y - x) else 2 * d * Rabs (y - x) - d * d.
Definition huber (d : R) (xs ys : list R) : R := sum2 (huber1_spec d) xs ys.
Definition hinge (xs ys : list R) : R := sum2 (fun x y => Rmax 0 (1 - y * x)) xs ys / len xs.
Definition wasserstein (xs ys : list R) : R := - sum2 Rmult xs ys / len xs.

(** [gs] is the gradient of [C] at [xs]: entry i is the partial derivative in coordinate i. *)
Definition gradient (C : list R -> R) (xs gs : list R) : Prop :=
  length gs = length xs /\
  forall i x g, xs !! i = Some x -> gs !! i = Some g -> derivable_pt_lim (fun t => C (<[i := t]> xs)) x g.
(** [k] times a vector. *)
Definition times (k : R) (gs : list R) : list R := (fun g => k * g) <$> gs.

(** Penalties. *)
Definition ridge (lambda : R) (ws : list R) : R := lambda / 2 * rsum ((fun w => w * w) <$> ws).
Definition lasso (lambda : R) (ws : list R) : R := lambda * rsum (Rabs <$> ws).
Definition elastic_net (lambda alpha : R) (ws : list R) : R :=
  lambda * (alpha * rsum (Rabs <$> ws) + (1 - alpha) / 2 * rsum ((fun w => w * w) <$> ws)).
