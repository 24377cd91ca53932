(** * Vocabulary for the numerical-analysis properties (exact reals). *)
From Coq Require Import Reals List.
From stdpp Require Import base list.
Open Scope R_scope.

(** The step sizes of the finite differences. *)
Definition step1 : R := / 10 ^ 10.      (* first derivatives *)
Definition step2 : R := / 10 ^ 5.       (* second and third derivatives *)

(** [f'] is the derivative of [f] on [a, b]. *)
Definition has_derivative (f f' : R -> R) (a b : R) : Prop := forall t, a <= t <= b -> derivable_pt_lim f t (f' t).
(** [f] is Lipschitz with constant [K] on [a, b]. *)
Definition lipschitz (f : R -> R) (K a b : R) : Prop := forall s t, a <= s <= b -> a <= t <= b -> Rabs (f s - f t) <= K * Rabs (s - t).
(** [f] is convex on [a, +oo). *)
Definition convex_from (f : R -> R) (a : R) : Prop :=
  forall s t u, a <= s -> a <= t -> 0 <= u <= 1 -> f (u * s + (1 - u) * t) <= u * f s + (1 - u) * f t.

(** [n]-fold iteration. *)
Fixpoint iterate {A} (n : nat) (g : A -> A) (a : A) : A := match n with O => a | S n' => g (iterate n' g a) end.
(** g 0 + .. + g (n - 1). *)
Fixpoint sum_to (n : nat) (g : nat -> R) : R := match n with O => 0 | S n' => sum_to n' g + g n' end.

(** The point [xs] with [e] added to coordinate [i]. *)
Definition shift (i : nat) (e : R) (xs : list R) : list R := alter (fun v => v + e) i xs.
(** Coordinate [i] of a point. *)
Definition co (xs : list R) (i : nat) : R := nth i xs 0.
