(** * C31, C34 continued: Chebyshev's inequality, and the Stolarsky, identric and Neuman-Sandor means. *)
From Verif Require Import Stat StatProofs PropVec PropReal RInst PropStat PropMean.
Open Scope R_scope.

Section c31.
Implicit Types xs : list R.
(** How many elements are within [d] of [m]. *)
Definition count_near (m d : R) xs : nat := length (List.filter (fun a => if Rle_dec (Rabs (a - m)) d then true else false) xs).

Lemma far_sum m d xs : 0 <= d -> (INR (length xs) - INR (count_near m d xs)) * (d * d) <= rsum ((fun a => (a - m) * (a - m)) <$> xs).
Proof.
  intros Hd. induction xs as [|a xs IH]; [cbn; lra|].
  unfold count_near in *. cbn [List.filter]. rewrite fmap_cons. cbn [length rsum foldr]. rewrite S_INR.
  change (rsum (?u :: ?v)) with (u + rsum v). destruct (Rle_dec (Rabs (a - m)) d).
  - cbn [length]. rewrite S_INR. pose proof (Rle_0_sqr (a - m)) as Hs. unfold Rsqr in Hs. nra.
  - assert (d * d <= (a - m) * (a - m)). { pose proof (Rsqr_abs (a - m)) as E. unfold Rsqr in E. rewrite E. nra. }
    nra.
Qed.
(** chebyshev_ineq(k) is a lower bound for the proportion of ANY data set within k sample standard deviations of its mean. *)
Theorem C31_chebyshev h x xs k : wf h -> abs h !! x = Some (AVec xs) -> (2 <= length xs)%nat -> 0 < k ->
  exists m s, st_mean (Some x) h = Ok m h /\ st_sd (Some x) h = Ok s h /\
    st_chebyshev k * INR (length xs) <= INR (count_near m (k * s) xs) /\ st_chebyshev k = 1 - 1 / k ^ 2.
Proof.
  intros Hw Hx Hl Hk. exists (mean xs), (sqrt (variance xs)). split; [apply C31_mean; auto|]. split; [apply C31_variance; auto|].
  split; [|unfold st_chebyshev; cbn; f_equal; field; lra].
  pose proof (variance_nonneg xs Hl) as Hv. pose proof (sqrt_pos (variance xs)) as Hs. pose proof (sqrt_sqrt _ Hv) as Hss.
  assert (Hk2 : 0 < k * k) by nra. assert (Hki : 0 < / (k * k)) by (apply Rinv_0_lt_compat; lra).
  assert (Hn : 0 < INR (length xs) - 1) by (apply len_ge2, Hl).
  unfold st_chebyshev. cbn. unfold Rdiv. rewrite Rmult_1_l.
  destruct (Req_dec (variance xs) 0) as [Ez|Ez].
  - assert (Ec : count_near (mean xs) (k * sqrt (variance xs)) xs = length xs).
    { apply (variance_zero xs Hl) in Ez as Hc. rewrite Ez, sqrt_0, Rmult_0_r. unfold count_near.
      assert (Hall : forall a, a ∈ xs -> a = mean xs).
      { intros a Ha. unfold mean. assert (rsum xs = INR (length xs) * a) as ->; [|field; lra].
        assert (xs = replicate (length xs) a) as E. { symmetry. apply replicate_as_elem_of. split; [reflexivity|]. intros y Hy. apply Hc; auto. }
        rewrite E at 1. clear. induction (length xs) as [|n IH]; [cbn; lra|]. rewrite S_INR. cbn. cbn in IH. rewrite IH. lra. }
      f_equal. revert Hall. generalize (mean xs) as mm. clear. intros mm Hall. induction xs as [|a xs IH]; [reflexivity|]. cbn. rewrite IH by (intros; apply Hall; right; auto).
      destruct (Rle_dec _ _) as [|n]; [reflexivity|]. destruct n. rewrite <- (Hall a) by left. rewrite Rminus_diag_eq, Rabs_R0 by reflexivity. lra. }
    rewrite Ec. nra.
  - pose proof (far_sum (mean xs) (k * sqrt (variance xs)) xs ltac:(nra)) as Hf.
    assert (Hsum : rsum ((fun a => (a - mean xs) * (a - mean xs)) <$> xs) = variance xs * (INR (length xs) - 1)).
    { unfold variance. field. lra. }
    rewrite Hsum in Hf. set (c := INR (count_near _ _ _)) in *. set (n := INR (length xs)) in *.
    replace (k * sqrt (variance xs) * (k * sqrt (variance xs))) with (k * k * variance xs) in Hf by (rewrite <- Hss at 1; ring).
    assert (0 < variance xs) by lra.
    assert ((n - c) * (k * k) <= n - 1). { apply (Rmult_le_reg_l (variance xs)); [lra|]. nra. }
    assert ((n - c) <= (n - 1) * / (k * k)). { apply (Rmult_le_reg_r (k * k)); [lra|]. rewrite Rmult_assoc, Rinv_l by lra. lra. }
    nra.
Qed.
End c31.

(** neuman_sandor_mean: (a - b) / 2 times (not divided by) arsinh((a - b) / (a + b)). *)
Theorem C34_neuman_sandor a b : st_neuman_sandor_mean a b = (a - b) / 2 * arcsinh ((a - b) / (a + b)).
Proof. unfold st_neuman_sandor_mean, arcsinh. cbn. f_equal. f_equal. f_equal. f_equal. ring. Qed.

Lemma Rpow_pos x y : 0 < x -> Rpow x y = Rpower x y.
Proof. intros Hx. unfold Rpow. destruct (Rlt_dec 0 x); [reflexivity|contradiction]. Qed.

(** stolarsky_mean of two different positive numbers lies strictly between them, for every exponent where it is defined. *)
Lemma stolarsky_aux x y p : 0 < x -> x < y -> p <> 0 -> p <> 1 -> exists c, x < c < y /\
  (Rpower y p - Rpower x p) / (p * (y - x)) = Rpower c (p - 1).
Proof.
  intros Hx Hxy Hp Hp1.
  destruct (MVT_cor2 (fun t => Rpower t p) (fun t => p * Rpower t (p - 1)) x y Hxy) as (c & Hc & Hb).
  - intros c Hc. apply derivable_pt_lim_power. lra.
  - exists c. split; [exact Hb|]. rewrite Hc. field. lra.
Qed.
Lemma stolarsky_inv c p : 0 < c -> p <> 1 -> Rpow (Rpower c (p - 1)) (1 / (p - 1)) = c.
Proof.
  intros Hc Hp. rewrite Rpow_pos by apply exp_pos. rewrite Rpower_mult. replace ((p - 1) * (1 / (p - 1))) with 1 by (field; lra). apply Rpower_1, Hc.
Qed.
Theorem C34_stolarsky x y p : 0 < x -> 0 < y -> x <> y -> p <> 0 -> p <> 1 ->
  Rmin x y < st_stolarsky_mean x y p < Rmax x y /\ st_stolarsky_mean x y p = st_stolarsky_mean y x p.
Proof.
  intros Hx Hy Hne Hp Hp1. unfold st_stolarsky_mean. cbn.
  replace (Reqb x y) with false by (symmetry; apply Reqb_false; exact Hne). replace (Reqb y x) with false by (symmetry; apply Reqb_false; congruence).
  rewrite (Rpow_pos x), (Rpow_pos y) by assumption.
  assert (Es : (Rpower x p - Rpower y p) / (p * (x - y)) = (Rpower y p - Rpower x p) / (p * (y - x))) by (field; split; lra).
  split; [|rewrite Es; reflexivity]. unfold Rmin, Rmax. destruct (Rle_dec x y).
  - rewrite Es. destruct (stolarsky_aux x y p) as (c & Hc & ->); try assumption; [lra|]. rewrite stolarsky_inv by lra. exact Hc.
  - destruct (stolarsky_aux y x p) as (c & Hc & ->); try assumption; [lra|]. rewrite stolarsky_inv by lra. exact Hc.
Qed.
(** p = 2: the arithmetic mean; p = -1: the geometric mean. *)
Theorem C34_stolarsky_special x y : 0 < x -> 0 < y ->
  st_stolarsky_mean x y 2 = (x + y) / 2 /\ st_stolarsky_mean x y (-1) = sqrt (x * y).
Proof.
  intros Hx Hy. unfold st_stolarsky_mean. cbn. destruct (Reqb x y) eqn:E.
  { apply Reqb_true in E as ->. split; [field|]. rewrite sqrt_square; lra. }
  apply Reqb_false in E. rewrite !(Rpow_pos x), !(Rpow_pos y) by assumption. split.
  - replace 2 with (INR 2) at 1 2 by (cbn; lra). rewrite !Rpower_pow by assumption. cbn [pow].
    replace ((x * (x * 1) - y * (y * 1)) / (2 * (x - y))) with ((x + y) / 2) by (field; lra).
    rewrite Rpow_pos by lra. replace (1 / (2 - 1)) with 1 by field. apply Rpower_1. lra.
  - replace (-1) with (Ropp 1) by lra. rewrite !Rpower_Ropp, !Rpower_1 by assumption.
    replace ((/ x - / y) / (- (1) * (x - y))) with (/ (x * y)) by (field; repeat split; lra).
    assert (0 < x * y) by nra. rewrite Rpow_pos by (apply Rinv_0_lt_compat; lra).
    replace (1 / (- (1) - 1)) with (- / 2) by field.
    rewrite Rpower_Ropp, Rpower_sqrt by (apply Rinv_0_lt_compat; lra). rewrite sqrt_inv. apply Rinv_inv.
Qed.
Lemma identric_aux x y : 0 < x -> x < y -> exists c, x < c < y /\ (y * ln y - x * ln x) / (y - x) = ln c + 1.
Proof.
  intros Hx Hxy. destruct (MVT_cor2 (fun t => t * ln t) (fun t => 1 * ln t + t * / t) x y Hxy) as (c & Hc & Hb).
  - intros c Hc. apply (derivable_pt_lim_mult (fun t => t) ln); [apply derivable_pt_lim_id|apply derivable_pt_lim_ln; lra].
  - exists c. split; [exact Hb|]. rewrite Hc. field. lra.
Qed.
(** identric_mean of two different positive numbers lies strictly between them. *)
Theorem C34_identric x y : 0 < x -> 0 < y -> x <> y -> Rmin x y < st_identric_mean x y < Rmax x y.
Proof.
  assert (G : forall x y, 0 < x -> x < y -> x < st_identric_mean x y < y).
  { intros a b Ha Hab. destruct (identric_aux a b Ha Hab) as (c & Hc & E).
    assert (st_identric_mean a b = c) as ->; [|exact Hc]. unfold st_identric_mean. cbn.
    replace (Reqb a b) with false by (symmetry; apply Reqb_false; lra). rewrite (Rpow_pos a), (Rpow_pos b) by lra.
    assert (Pa : 0 < Rpower a a) by apply exp_pos. assert (Pb : 0 < / Rpower b b) by apply Rinv_0_lt_compat, exp_pos.
    rewrite Rpow_pos by (apply Rmult_lt_0_compat; assumption). unfold Rpower at 1. unfold Rdiv at 3. rewrite ln_mult, ln_Rinv by (try assumption; apply exp_pos).
    unfold Rpower. rewrite !ln_exp.
    replace (1 / (a - b) * (a * ln a + - (b * ln b))) with ((b * ln b - a * ln a) / (b - a)) by (field; lra).
    rewrite E, exp_plus, exp_ln by lra. pose proof (exp_pos 1). field. lra. }
  intros Hx Hy Hne. unfold Rmin, Rmax. destruct (Rle_dec x y).
  - apply G; lra.
  - rewrite C34_identric_symmetric by assumption. apply G; lra.
Qed.
