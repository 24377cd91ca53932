(** * Specification of a network with one hidden layer over exact reals.
    A network has [k] inputs, [hh] hidden units, and one output; a data set is [n] rows [X i] with labels [ys]. *)
From Verif Require Import Base RInst PropSvm GlmSpec.
From Coq Require Import Reals.
Open Scope R_scope.

(** [inw r j]: weight from input r to hidden unit j; [inb j]: its bias; [outw j]: weight of hidden unit j at the output; [outb]: output bias. *)
Record net := Net { inw : nat -> nat -> R; inb : nat -> R; outw : nat -> R; outb : R }.
Definition hidden (k : nat) (N : net) (x : nat -> R) (j : nat) : R := logistic (Rsum k (fun r => x r * inw N r j) + inb N j).
Definition output (k hh : nat) (N : net) (x : nat -> R) : R := logistic (Rsum hh (fun j => hidden k N x j * outw N j) + outb N).
(** Mean negative log-likelihood of the labels under P(y_i = 1) = output. *)
Definition J_net (n k hh : nat) (X : nat -> nat -> R) (ys : list R) (N : net) : R :=
  / INR n * Rsum n (fun i => - (nth i ys 0 * ln (output k hh N (X i)) + (1 - nth i ys 0) * ln (1 - output k hh N (X i)))).
(** Two networks agree on the coordinates that exist. *)
Definition net_eq (k hh : nat) (N N' : net) : Prop :=
  (forall r j, (r < k)%nat -> (j < hh)%nat -> inw N r j = inw N' r j) /\ (forall j, (j < hh)%nat -> inb N j = inb N' j) /\ (forall j, (j < hh)%nat -> outw N j = outw N' j) /\ outb N = outb N'.
(** Changing one coordinate. *)
Definition with_inw (N : net) (r j : nat) (t : R) : net := Net (fun r' j' => if decide (r' = r /\ j' = j) then t else inw N r' j') (inb N) (outw N) (outb N).
Definition with_inb (N : net) (j : nat) (t : R) : net := Net (inw N) (fun j' => if decide (j' = j) then t else inb N j') (outw N) (outb N).
Definition with_outw (N : net) (j : nat) (t : R) : net := Net (inw N) (inb N) (fun j' => if decide (j' = j) then t else outw N j') (outb N).
Definition with_outb (N : net) (t : R) : net := Net (inw N) (inb N) (outw N) t.
(** [G] is the gradient of [f] at [N]: every entry is the partial derivative in that coordinate. *)
Definition net_gradient (k hh : nat) (f : net -> R) (N G : net) : Prop :=
  (forall r j, (r < k)%nat -> (j < hh)%nat -> derivable_pt_lim (fun t => f (with_inw N r j t)) (inw N r j) (inw G r j)) /\
  (forall j, (j < hh)%nat -> derivable_pt_lim (fun t => f (with_inb N j t)) (inb N j) (inb G j)) /\
  (forall j, (j < hh)%nat -> derivable_pt_lim (fun t => f (with_outw N j t)) (outw N j) (outw G j)) /\
  derivable_pt_lim (fun t => f (with_outb N t)) (outb N) (outb G).
Definition net_zero (k hh : nat) (G : net) : Prop := net_eq k hh G (Net (fun _ _ => 0) (fun _ => 0) (fun _ => 0) 0).

(** Prediction error of row i, and the slope a (1 - a) of hidden unit j at row i. *)
Definition err (k hh : nat) (X : nat -> nat -> R) (ys : list R) (N : net) (i : nat) : R := output k hh N (X i) - nth i ys 0.
Definition gate (k : nat) (X : nat -> nat -> R) (N : net) (i j : nat) : R := let a := hidden k N (X i) j in a * (1 - a).
(** One training step on n rows with learning rate lr: the output layer first; the errors are then propagated to the hidden layer through the new output weights. *)
Definition net_step (n k hh : nat) (X : nat -> nat -> R) (ys : list R) (lr : R) (N : net) : net :=
  let e := err k hh X ys N in
  let w2 := fun j => outw N j - lr * (/ INR n * Rsum n (fun i => e i * hidden k N (X i) j)) in
  Net (fun r j => inw N r j - lr * (/ INR n * Rsum n (fun i => e i * w2 j * gate k X N i j * X i r)))
      (fun j => inb N j - lr * (/ INR n * Rsum n (fun i => e i * w2 j * gate k X N i j)))
      w2 (outb N - lr * (/ INR n * Rsum n e)).
