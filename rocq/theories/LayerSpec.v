(** * Specification of dense layers and of the weight distributions over exact reals. *)
From Verif Require Import Base RInst PropSvm Act Layer.
From Coq Require Import Reals.
Open Scope R_scope.

(** Pre-activation of unit j for row i: row i of [X] (width k) times column j of [W] plus the bias. *)
Definition dense (k : nat) (X W : nat -> nat -> R) (bs : list R) (i j : nat) : R := Rsum k (fun t => X i t * W t j) + nth j bs 0.
(** The activations whose matrix (vector) form is the element-wise scalar function. *)
Definition m_ok (f : actfn) : Prop := f ∉ [SOFTMAX; ADJ_SOFTMAX; SOFTPLUS; SOFTSIGN; SWISH; MISH].
Definition v_ok (f : actfn) : Prop := f <> SOFTMAX /\ f <> ADJ_SOFTMAX.
(** [u] in [0, 1) spread over [-s, s). *)
Definition spread (s u : R) : R := (2 * u - 1) * s.
(** Value that a raw draw becomes, n-element vector. *)
Definition dist_v (t : winit) (n : nat) (u : R) : R :=
  match t with
  | WDefault => u
  | WXavierNormal => sqrt (2 / (INR n + 1)) * u
  | WXavierUniform => spread (sqrt (6 / (INR n + 1))) u
  | WHeNormal => sqrt (2 / INR n) * u
  | WHeUniform => spread (sqrt (6 / INR n)) u
  | WLeCunNormal => sqrt (1 / INR n) * u
  | WLeCunUniform => spread (sqrt (3 / INR n)) u
  | WUniform => spread (1 / sqrt (INR n)) u
  end.
(** Same for a matrix with n columns and m rows; [/] on Z is integer division. *)
Definition dist_m (t : winit) (n m : nat) (u : R) : R :=
  match t with
  | WDefault => u
  | WXavierNormal => sqrt (IZR (2 / Z.of_nat (n + m))) * u
  | WXavierUniform => spread (sqrt (IZR (6 / Z.of_nat (n + m)))) u
  | WHeNormal => sqrt (IZR (2 / Z.of_nat n)) * u
  | WHeUniform => spread (sqrt (IZR (6 / Z.of_nat n))) u
  | WLeCunNormal => sqrt (IZR (1 / Z.of_nat n)) * u
  | WLeCunUniform => spread (sqrt (IZR (3 / Z.of_nat n))) u
  | WUniform => spread (1 / sqrt (INR n)) u
  end.
(** The weight matrix / vector drawn by a layer: raw draw number i * c + j is used for row i, column j. *)
Definition drawn_m (t : winit) (c r : nat) (raw : Z -> R) (i j : nat) : R := dist_m t c r (raw (Z.of_nat (i * c + j))).
Definition drawn_v (t : winit) (n : nat) (raw : Z -> R) : list R := map (fun i => dist_v t n (raw (Z.of_nat i))) (seq 0 n).
