(** * The recursion computed by det(), adjoint() and inverse(), on plain functions.

    This file is independent of the heap model and of the libraries; DetProofs.v shows that the heap
    model of core/mlpp_matrix.cpp:1591-1780 computes these functions, DetMC.v that they are the determinant,
    adjugate and inverse of linear algebra. *)
From Coq Require Import List Arith.
Import ListNotations.

Section code.
Context {F : Type} (zero one : F) (add sub mul : F -> F -> F) (opp : F -> F) (sg : nat -> F).

(** ((0 + u 0) + u 1) + ... + u (n-1) *)
Definition fsum (n : nat) (u : nat -> F) : F := fold_left (fun acc k => add acc (u k)) (seq 0 n) zero.

(** Delete row [i] and column [j]. *)
Definition skip (i k : nat) : nat := if k <? i then k else S k.
Definition minor (i j : nat) (f : nat -> nat -> F) : nat -> nat -> F := fun a b => f (skip i a) (skip j b).

(** mlpp_matrix.cpp:1599-1635 [detb]: expansion along the first row; [sg i] is Math::pow(-1, i).  The base
    case is d = 2; d = 1 falls through to the empty determinant, which is 0. *)
Fixpoint det_code (d : nat) (f : nat -> nat -> F) : F :=
  match d with
  | O => zero
  | S d' => if d' =? 1 then sub (mul (f 0 0) (f 1 1)) (mul (f 0 1) (f 1 0))
            else fsum (S d') (fun i => mul (mul (sg i) (f 0 i)) (det_code d' (minor 0 i f)))
  end.

(** mlpp_matrix.cpp:1707-1733 [adjoint]: entry (j, i) from the minor without row i and column j. *)
Definition adj_code (n : nat) (f : nat -> nat -> F) : nat -> nat -> F :=
  match n with
  | 1 => fun _ _ => one
  | 2 => fun a b => match a, b with
         | 0, 0 => f 1 1 | 1, 1 => f 0 0
         | 0, 1 => opp (f 0 1) | 1, 0 => opp (f 1 0)
         | _, _ => zero end
  | _ => fun a b => mul (if Nat.even (b + a) then one else opp one) (det_code (n - 1) (minor b a f))
  end.

End code.
