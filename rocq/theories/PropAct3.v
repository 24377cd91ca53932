(** * C36, C38: the GELU function and its derivative, over exact reals. *)
From Verif Require Import Base RErf RInst Act LibmR PropAct PropGlm4.
From Coquelicot Require Import Coquelicot.
From Coq Require Import Reals Lra Lia.
From Verif Require Import RInst.
Open Scope R_scope.
Notation D := derivable_pt_lim (only parsing).

(** The function is the tanh approximation of Hendrycks and Gimpel. *)
Theorem C38_gelu z : gelu_normr z = z / 2 * (1 + tanh (sqrt (2 / PI) * (z + 0.044715 * z ^ 3))).
Proof.
  unfold gelu_normr, cube. scal. cbn [s_pow R_scalar]. replace (Rpow z 3) with (z ^ 3) by (symmetry; exact (Rpow_nat z 3)). set (q := 44715 / 1000000). replace 0.044715 with q by (unfold q; lra). set (t := tanh _). lra.
Qed.
(** The derivative method: with u(t) = 0.797885 t + 0.0356774 t^3, the derivative of t/2 (1 + tanh (u t)) at x is the result
    plus 5e-7 x / cosh^2 (u x).  (0.398942 is not exactly half of 0.797885, and sqrt(2/pi) is not 0.797885.) *)
Definition u_gelu (t : R) : R := 0.797885 * t + 0.0356774 * t ^ 3.
Theorem C36_gelu x : D (fun t => t / 2 * (1 + tanh (u_gelu t))) x (gelu_derivr x + 5 / 10000000 * x / (cosh (u_gelu x)) ^ 2).
Proof.
  assert (E : gelu_derivr x = 1 / 2 * tanh (u_gelu x) + (0.0535161 * x ^ 3 + 0.398942 * x) * (1 / cosh (u_gelu x)) ^ 2 + 1 / 2).
  { unfold gelu_derivr, cube, sech_normr, tanh_normr, u_gelu. scal. cbn [s_pow R_scalar]. replace (Rpow x 3) with (x ^ 3) by (symmetry; exact (Rpow_nat x 3)). rewrite Rpow_two.
    replace (356774 / 10000000 * x ^ 3 + 797885 / 1000000 * x) with (0.797885 * x + 0.0356774 * x ^ 3) by lra. set (a := 0.797885 * x + 0.0356774 * x ^ 3).
    replace ((exp a - exp (- a)) / (exp a + exp (- a))) with (tanh a). { set (w := tanh a). set (v := (1 / cosh a) ^ 2). lra. }
    unfold tanh, sinh, cosh. pose proof (exp_pos a). pose proof (exp_pos (- a)). field. lra. }
  rewrite E. clear E. set (a := u_gelu x).
  assert (C : 0 < cosh a). { unfold cosh. pose proof (exp_pos a). pose proof (exp_pos (- a)). lra. }
  assert (T : D tanh a (1 / cosh a * (1 / cosh a))).
  { unfold tanh, sinh, cosh. pose proof (exp_pos a). pose proof (exp_pos (- a)). pose proof (exp_mul_opp a) as M. apply is_derive_Reals. auto_derive; [lra|]. rewrite exp_Ropp in *. set (b := exp a) in *. field_simplify_eq; [ring|split; nra]. }
  assert (U : D u_gelu x (0.797885 + 3 * 0.0356774 * x ^ 2)). { unfold u_gelu. apply is_derive_Reals. auto_derive; [auto|]. ring. }
  pose proof (derivable_pt_lim_comp u_gelu tanh x _ _ U T) as TU.
  pose proof (derivable_pt_lim_mult (fun t => t / 2) (fun t => 1 + tanh (u_gelu t)) x (1 / 2) (0 + 1 / cosh a * (1 / cosh a) * (0.797885 + 3 * 0.0356774 * x ^ 2))) as P. unfold mult_fct in P.
  eapply D_ext; [reflexivity| |apply P].
  - cbv beta. fold a. field_simplify_eq; [lra|lra].
  - apply is_derive_Reals. auto_derive; [auto|]. lra.
  - apply (derivable_pt_lim_plus (fun _ => 1) (fun t => tanh (u_gelu t))); [apply derivable_pt_lim_const|exact TU].
Qed.
