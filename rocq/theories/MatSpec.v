(** * Specification vocabulary for matrices.

    A fully initialised matrix value is given by its number of columns [c], of rows [r] and its entries
    [f : nat -> nat -> F] (row, column); only the entries with row < r and column < c matter. *)
From Verif Require Import Base.

Section spec.
Context {F : Type} `{Scalar F}.

(** Row-major list of the entries: entry (i, j) is at position i * c + j. *)
Definition mlist {A} (c r : nat) (f : nat -> nat -> A) : list A :=
  (fun k => f (k / c)%nat (k mod c)%nat) <$> seq 0 (r * c).

(** The matrix object with [c] columns, [r] rows and entries [f]. *)
Definition Mat (c r : nat) (f : nat -> nat -> F) : aobj F := AMat c r (mlist c r f).

(** The matrix object whose rows are [rows], all of width [c]. *)
Definition Rows (c : nat) (rows : list (list F)) : aobj F := AMat c (length rows) (concat rows).
Definition width (c : nat) (rows : list (list F)) : Prop := Forall (fun row => length row = c) rows.

(** ((0 + f 0) + f 1) + ... + f (n-1), in this order. *)
Definition lsum (n : nat) (f : nat -> F) : F := foldl (fun acc k => s_add acc (f k)) s_zero (seq 0 n).

(** Matrix product with inner dimension [m], transposition, identity, Kronecker product by an r' x c' matrix. *)
Definition mat_mul (m : nat) (f g : nat -> nat -> F) : nat -> nat -> F :=
  fun i j => lsum m (fun k => s_mul (f i k) (g k j)).
Definition mat_tr (f : nat -> nat -> F) : nat -> nat -> F := fun i j => f j i.
Definition mat_id : nat -> nat -> F := fun i j => if Nat.eqb i j then s_one else s_zero.
Definition mat_kron (c' r' : nat) (f g : nat -> nat -> F) : nat -> nat -> F :=
  fun i j => s_mul (g (i mod r')%nat (j mod c')%nat) (f (i / r')%nat (j / c')%nat).

End spec.
