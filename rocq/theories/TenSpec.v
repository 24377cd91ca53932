(** * Specification vocabulary for 3D tensors.

    A fully initialised tensor value is given by its sizes [x] (columns), [y] (rows), [z] (slices) and its entries
    [T : nat -> nat -> nat -> F] (slice, row, column); only entries with slice < z, row < y, column < x matter. *)
From Verif Require Import Base MatSpec.

Section spec.
Context {F : Type} `{Scalar F}.
(** The entries, slice by slice, each slice row by row. *)
Definition tlist {A} (x y z : nat) (T : nat -> nat -> nat -> A) : list A := mlist (y * x) z (fun k q => T k (q / x)%nat (q mod x)%nat).
Definition ATen (x y z : nat) (xs : list F) : aobj F := (STen (Z.of_nat x) (Z.of_nat y) (Z.of_nat z), Some <$> xs).
Definition Ten (x y z : nat) (T : nat -> nat -> nat -> F) : aobj F := ATen x y z (tlist x y z T).
(** The same with possibly uninitialised entries. *)
Definition TenP (x y z : nat) (T : nat -> nat -> nat -> option F) : aobj F := (STen (Z.of_nat x) (Z.of_nat y) (Z.of_nat z), tlist x y z T).
(** A slice has a size that fits an int (true of every tensor with at least one slice, and of every tensor the API can build). *)
Definition fits (x y : nat) : Prop := Z.of_nat (y * x) <= int_max.
End spec.

Section slices.
Context {F : Type} `{Scalar F}.
(** The tensor with [x] columns and [y] rows whose z-slices are [sl], each slice given as the flat list of its [y * x] entries, row by row. *)
Definition Slices (x y : nat) (sl : list (list F)) : aobj F := ATen x y (length sl) (concat sl).
(** The flat list of slice [k] of the entries [T]. *)
Definition slice_of (x y : nat) (T : nat -> nat -> nat -> F) (k : nat) : list F := mlist x y (T k).
End slices.
