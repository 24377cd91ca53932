(** * C73, C74 in single precision: the step 1e-10 of the first difference vanishes. *)
From Verif Require Import Base BaseProofs Inst Act Num.
From Coq Require Import Reals Lra Lia.
From Flocq Require Import Core IEEE754.BinarySingleNaN.
Close Scope R_scope.
Open Scope Z_scope.

Section single.
Notation flt := (binary_float 24 128).
Context (m : libm flt).
Local Instance SF : Scalar flt := ieee_scalar 24 128 m.
Local Notation fexp := (SpecFloat.fexp 24 128).
Implicit Types (f : flt -> flt) (x : flt).

Lemma e10_SF : B2SF (e10 (F := flt)) = SpecFloat.S754_finite false 14411519 (-57).
Proof. vm_compute. reflexivity. Qed.
Lemma e10_fin : is_finite (e10 (F := flt)) = true.
Proof. vm_compute. reflexivity. Qed.
Lemma e10_R : B2R (e10 (F := flt)) = (14411519 * bpow radix2 (-57))%R.
Proof. rewrite <- SF2R_B2SF, e10_SF. reflexivity. Qed.
Lemma bp_2 e : (bpow radix2 (e + 1) = 2 * bpow radix2 e)%R.
Proof. rewrite bpow_plus. change (bpow radix2 1) with 2%R. ring. Qed.
Lemma e10_small : (0 < B2R (e10 (F := flt)) < bpow radix2 (-33))%R.
Proof.
  rewrite e10_R. assert (0 < bpow radix2 (-57))%R as P by apply bpow_gt_0. split; [lra|].
  replace (-33) with (24 + -57) by lia. rewrite bpow_plus. apply Rmult_lt_compat_r; [exact P|]. change (bpow radix2 24) with 16777216%R. lra.
Qed.
Lemma fexp_at e : -100 <= e -> fexp e = e - 24.
Proof. intros. unfold SpecFloat.fexp, SpecFloat.emin. lia. Qed.
Lemma fmt x : generic_format radix2 fexp (B2R x). Proof. apply generic_format_B2R. Qed.
Lemma fmt8 : generic_format radix2 fexp (bpow radix2 (-8)).
Proof. apply generic_format_bpow. rewrite fexp_at; lia. Qed.
(** The gap above a number of absolute value at least 2^-8. *)
Lemma gap x : (bpow radix2 (-8) <= Rabs (B2R x))%R -> (bpow radix2 (-32) <= succ radix2 fexp (B2R x) - B2R x)%R.
Proof.
  intros Hx. assert (P8 : (0 < bpow radix2 (-8))%R) by apply bpow_gt_0.
  assert (U : forall y, (bpow radix2 (-8) <= y)%R -> (bpow radix2 (-32) <= ulp radix2 fexp y)%R).
  { intros y Hy. eapply Rle_trans; [|apply (ulp_le radix2 fexp (bpow radix2 (-8)) y); rewrite !Rabs_pos_eq; lra]. rewrite ulp_bpow, fexp_at by lia. apply bpow_le. lia. }
  destruct (Rle_or_lt 0 (B2R x)) as [Hp|Hn].
  - rewrite Rabs_pos_eq in Hx by exact Hp. rewrite succ_eq_pos by exact Hp. specialize (U _ Hx). lra.
  - rewrite Rabs_left in Hx by exact Hn. replace (B2R x) with (- (- B2R x))%R by ring. rewrite succ_opp. set (y := (- B2R x)%R) in *.
    assert (Fy : generic_format radix2 fexp y) by (apply generic_format_opp, fmt).
    destruct (Rle_lt_or_eq_dec _ _ Hx) as [Hlt|Heq].
    + pose proof (pred_ge_gt radix2 fexp _ _ fmt8 Fy Hlt) as Hq. pose proof (succ_pred radix2 fexp y Fy) as E. rewrite succ_eq_pos in E by lra. specialize (U _ Hq). lra.
    + rewrite <- Heq, pred_bpow, fexp_at by lia. change (-8 - 24) with (-32). lra.
Qed.
Lemma step_lost x : is_finite x = true -> (bpow radix2 (-8) <= Rabs (B2R x))%R -> s_add x e10 = x.
Proof.
  intros Fx Hx. cbn [s_add SF ieee_scalar]. pose proof e10_small as [P L]. pose proof (gap x Hx) as G.
  assert (E : round radix2 fexp (round_mode mode_NE) (B2R x + B2R (e10 (F := flt))) = B2R x).
  { apply Rle_antisym.
    - apply round_N_le_midp; [apply fexp_correct; reflexivity|apply fmt|]. replace (-32) with (-33 + 1) in G by lia. rewrite bp_2 in G. lra.
    - rewrite <- (round_generic radix2 fexp (round_mode mode_NE) (B2R x) (fmt x)) at 1. apply round_le; [apply fexp_correct; reflexivity|apply valid_rnd_round_mode|lra]. }
  pose proof (Bplus_correct 24 128 prec24 pmax24 mode_NE x e10 Fx e10_fin) as C. rewrite E in C. rewrite Rlt_bool_true in C by apply abs_B2R_lt_emax. destruct C as (C1 & C2 & C3).
  apply B2R_Bsign_inj; [exact C2|exact Fx|exact C1|]. rewrite C3.
  assert (N : B2R x <> 0%R). { intros Z. rewrite Z, Rabs_R0 in Hx. pose proof (bpow_gt_0 radix2 (-8)). lra. }
  destruct (Rcompare_spec (B2R x + B2R (e10 (F := flt))) 0) as [Hc|Hc|Hc].
  - symmetry. destruct x as [| | |[] mm ee B]; try discriminate; try (exfalso; apply N; reflexivity); try reflexivity. exfalso. assert (0 < B2R (B754_finite false mm ee B))%R by (apply F2R_gt_0; reflexivity). lra.
  - exfalso. assert (B2R x = - B2R (e10 (F := flt)))%R as Hz by lra. rewrite Hz, Rabs_Ropp, Rabs_pos_eq in Hx by lra. assert (bpow radix2 (-33) < bpow radix2 (-8))%R by (apply bpow_lt; lia). lra.
  - destruct x as [| | |[] mm ee B]; try discriminate; try (exfalso; apply N; reflexivity); try reflexivity. exfalso. assert (B2R (B754_finite true mm ee B) < 0)%R as Hng by (apply F2R_lt_0; reflexivity).
    rewrite Rabs_left in Hx by exact Hng. assert (bpow radix2 (-33) < bpow radix2 (-8))%R by (apply bpow_lt; lia). lra.
Qed.
Lemma minus_self (y : flt) : is_finite y = true -> s_sub y y = B754_zero false.
Proof.
  intros Fy. cbn [s_sub SF ieee_scalar]. pose proof (Bminus_correct 24 128 prec24 pmax24 mode_NE y y Fy Fy) as C. rewrite Rminus_diag_eq, round_0 in C by (reflexivity || apply valid_rnd_round_mode).
  rewrite Rabs_R0, Rlt_bool_true in C by apply bpow_gt_0. destruct C as (C1 & C2 & C3). rewrite Rcompare_Eq in C3 by reflexivity.
  apply B2R_Bsign_inj; [exact C2|reflexivity|exact C1|]. rewrite C3. destruct (Bsign y); reflexivity.
Qed.
Lemma zero_div : s_div (B754_zero false) (e10 (F := flt)) = B754_zero false.
Proof. vm_compute. reflexivity. Qed.

(** DEFECT: in the default build (real_t = float) the numerical derivative is +0 for EVERY function, at every point of absolute
    value at least 2^-8 (about 0.004) where the function is finite. *)
Theorem C73_single_precision_vanishes f x : is_finite x = true -> (bpow radix2 (-8) <= Rabs (B2R x))%R -> is_finite (f x) = true -> num_diff f x = B754_zero false.
Proof. intros Fx Hx Ff. unfold num_diff. rewrite step_lost by assumption. rewrite minus_self by exact Ff. apply zero_div. Qed.
(** Hence the linear approximation is constant there, whatever the (finite) distance. *)
Theorem C73_single_precision_linear f c x : is_finite c = true -> (bpow radix2 (-8) <= Rabs (B2R c))%R -> is_finite (f c) = true -> is_finite (s_sub x c) = true ->
  B2R (lin_approx f c x) = B2R (f c).
Proof.
  intros Fx Hx Ff Fd. unfold lin_approx, const_approx. rewrite C73_single_precision_vanishes by assumption. cbn [s_add s_mul SF ieee_scalar] in *.
  set (d := s_sub x c) in *. destruct d as [s| | |s mm ee B] eqn:Ed; try discriminate Fd; cbn [Bmult]; (destruct (f c) as [s'| | |s' m' e' B'] eqn:Ec; try discriminate Ff; cbn; [destruct s', s; reflexivity|reflexivity]).
Qed.
Lemma loop_once k step x (h : heap flt) : real_loop (Datatypes.S (Datatypes.S k)) 0 s_one step x h = Ok (step x) h.
Proof.
  cbn [real_loop]. assert (s_lt (s_of_Z 0) (s_one (F := flt)) = true) as -> by (vm_compute; reflexivity). assert (s_lt (s_of_Z (0 + 1)) (s_one (F := flt)) = false) as E1 by (vm_compute; reflexivity).
  unfold bind, chk. change ((- int_max - 1 <=? 0 + 1) && (0 + 1 <=? int_max)) with true. cbv iota. unfold ret at 1. cbv iota beta. rewrite E1. reflexivity.
Qed.
(** ... and one Newton step from such a point never gives a finite number. *)
Theorem C74_single_precision_newton f x (h : heap flt) : is_finite x = true -> (bpow radix2 (-8) <= Rabs (B2R x))%R -> is_finite (f x) = true ->
  exists y, newton f x s_one h = Ok y h /\ is_finite y = false.
Proof.
  intros Fx Hx Ff. exists (newton_step f x). split.
  - assert (exists k, Z.to_nat int_max = Datatypes.S k) as [k Ek]. { assert (0 < int_max) as P by reflexivity. exists (Z.to_nat (int_max - 1)). generalize dependent int_max. intros z P. lia. }
    unfold newton, run_real. rewrite Ek. apply loop_once.
  - unfold newton_step. rewrite C73_single_precision_vanishes by assumption. cbn [s_sub s_div SF ieee_scalar]. destruct (f x) as [s| | |s mm ee B] eqn:E; try discriminate Ff; cbn [Bdiv]; destruct x as [s'| | |s' m' e' B']; try discriminate Fx; reflexivity.
Qed.
(** Non-vacuity: the square function at 1, whose derivative there is 2. *)
Example ex_single_precision : num_diff (fun t => s_mul t t) (s_one (F := flt)) = B754_zero false.
Proof.
  apply C73_single_precision_vanishes; [apply is_finite_Bone| |vm_compute; reflexivity]. cbn [s_one SF ieee_scalar]. rewrite Bone_correct, Rabs_R1. change 1%R with (bpow radix2 0). apply bpow_le. lia.
Qed.
End single.
