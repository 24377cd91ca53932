(** * libm on exact reals. *)
From Verif Require Import Base RErf RInst Act.
From Coq Require Import Reals Lra.

(** Conversion to a 32-bit int: truncation towards zero, undefined unless the truncated value fits. *)
Definition Rtrunc (x : R) : Z := if Rlt_dec x 0 then (- Int_part (- x))%Z else Int_part x.
Definition Rto_int (x : R) : option Z :=
  if Rlt_dec (-2147483649) x then if Rlt_dec x 2147483648 then Some (Rtrunc x) else None else None.

Global Instance R_libm : Libm R := {|
  m_tanh := tanh; m_sinh := sinh; m_cosh := cosh; m_fmax := Rmax; m_pi := PI; m_to_int := Rto_int |}.
