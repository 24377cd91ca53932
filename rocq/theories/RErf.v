(** * The error function over the reals (value of Math::erf on exact reals). *)
From Coq Require Import Reals.
From Coquelicot Require Import Hierarchy RInt.
Open Scope R_scope.
Definition Rerf (x : R) : R := 2 / sqrt PI * RInt (fun t => exp (- (t * t))) 0 x.
