(** * C34: the means of MLPPStat over exact reals. *)
From Verif Require Import Stat StatProofs PropVec PropReal RInst PropStat.
Open Scope R_scope.

Definition positive (xs : list R) : Prop := forall a, a ∈ xs -> 0 < a.
Definition within (lo hi : R) (xs : list R) : Prop := forall a, a ∈ xs -> lo <= a <= hi.

Section lists.
Implicit Types xs ys : list R.

Lemma ln_le_sub1 y : 0 < y -> ln y <= y - 1.
Proof.
  intros Hy. destruct (Req_dec y 1) as [->|Hne]; [rewrite ln_1; lra|].
  assert (ln y <> 0) by (intros E; apply Hne, ln_inv; [lra|lra|rewrite ln_1; exact E]).
  pose proof (exp_ineq1 (ln y) H) as He. rewrite exp_ln in He by exact Hy. lra.
Qed.
Lemma rsum_pos xs : xs <> [] -> positive xs -> 0 < rsum xs.
Proof.
  intros Hn Hp. destruct xs as [|a xs]; [congruence|]. cbn. pose proof (Hp a ltac:(left)).
  assert (0 <= rsum xs); [|lra]. apply rsum_nonneg, list.Forall_forall. intros b Hb. left. apply Hp. right. exact Hb.
Qed.
Lemma prod_pos xs c : positive xs -> 0 < c -> 0 < foldl Rmult c xs.
Proof.
  revert c. induction xs as [|a xs IH]; intros c Hp Hc; cbn; [exact Hc|]. apply IH.
  - intros b Hb. apply Hp. right. exact Hb. - apply Rmult_lt_0_compat; [exact Hc|apply Hp; left].
Qed.
Lemma ln_prod xs c : positive xs -> 0 < c -> ln (foldl Rmult c xs) = ln c + rsum (ln <$> xs).
Proof.
  revert c. induction xs as [|a xs IH]; intros c Hp Hc; cbn; [lra|]. assert (0 < a) by (apply Hp; left).
  rewrite IH; [|intros b Hb; apply Hp; right; exact Hb|apply Rmult_lt_0_compat; assumption]. rewrite ln_mult by assumption. cbn. lra.
Qed.
Definition gmean xs : R := exp (rsum (ln <$> xs) / INR (length xs)).
Definition hmean xs : R := INR (length xs) / rsum ((fun a => / a) <$> xs).
Definition rms xs : R := sqrt (rsum ((fun a => a * a) <$> xs) / INR (length xs)).
Definition chmean xs : R := rsum ((fun a => a * a) <$> xs) / rsum xs.

Lemma mean_pos xs : xs <> [] -> positive xs -> 0 < mean xs.
Proof. intros Hn Hp. unfold mean. apply Rmult_lt_0_compat; [apply rsum_pos; assumption|apply Rinv_0_lt_compat, len_pos, Hn]. Qed.

Lemma am_gm xs : xs <> [] -> positive xs -> gmean xs <= mean xs.
Proof.
  intros Hn Hp. pose proof (mean_pos xs Hn Hp) as HA. pose proof (len_pos xs Hn) as HN.
  unfold gmean. rewrite <- (exp_ln (mean xs)) by exact HA. set (A := mean xs) in *.
  assert (Hs : rsum (ln <$> xs) <= INR (length xs) * ln A).
  { apply Rle_trans with (rsum ((fun a => (/ A * a - 1) + ln A) <$> xs)).
    - apply Rge_le, Rle_ge, rsum_le. intros a Ha. pose proof (Hp a Ha) as Hap.
      assert (Hq : 0 < a / A) by (apply Rmult_lt_0_compat; [exact Hap|apply Rinv_0_lt_compat, HA]).
      pose proof (ln_le_sub1 (a / A) Hq) as Hl. unfold Rdiv in Hl. rewrite ln_mult, ln_Rinv in Hl by (try apply Rinv_0_lt_compat; assumption). lra.
    - apply Req_le. rewrite (rsum_map_plus (fun a => / A * a - 1) (fun _ => ln A)), (rsum_map_minus (fun a => / A * a) (fun _ => 1)),
        (rsum_map_scal (/ A) (fun a => a)), list_fmap_id, !rsum_map_const.
      rewrite (mean_sum xs Hn). fold A. field. lra. }
  assert (Hd : rsum (ln <$> xs) / INR (length xs) <= ln A).
  { apply (Rmult_le_reg_r (INR (length xs))); [exact HN|]. unfold Rdiv. rewrite Rmult_assoc, Rinv_l, Rmult_1_r by lra. lra. }
  destruct Hd as [Hd| ->]; [left; apply exp_increasing, Hd|right; reflexivity].
Qed.
Lemma positive_inv xs : positive xs -> positive ((fun a => / a) <$> xs).
Proof. intros Hp a Ha. apply elem_of_list_fmap in Ha as (b & -> & Hb). apply Rinv_0_lt_compat, Hp, Hb. Qed.
Lemma gm_hm xs : xs <> [] -> positive xs -> hmean xs <= gmean xs.
Proof.
  intros Hn Hp. pose proof (positive_inv xs Hp) as Hpi.
  assert (Hni : (fun a => / a) <$> xs <> []) by (intros E; apply Hn, (fmap_nil_inv _ _ E)).
  pose proof (am_gm _ Hni Hpi) as Hg. unfold gmean, mean in Hg. rewrite fmap_length, <- list_fmap_compose in Hg.
  assert (El : rsum (ln ∘ (fun a => / a) <$> xs) = - rsum (ln <$> xs)).
  { rewrite (rsum_map_ext _ (fun a => (-1) * ln a)); [rewrite rsum_map_scal; lra|]. intros a Ha. cbn. rewrite ln_Rinv by (apply Hp, Ha). lra. }
  rewrite El in Hg. pose proof (rsum_pos _ Hni Hpi) as Hs. pose proof (len_pos xs Hn) as HN.
  unfold hmean, gmean. replace (- rsum (ln <$> xs) / INR (length xs)) with (- (rsum (ln <$> xs) / INR (length xs))) in Hg by (unfold Rdiv; ring).
  rewrite exp_Ropp in Hg. set (g := exp (rsum (ln <$> xs) / INR (length xs))) in *. assert (0 < g) by apply exp_pos.
  set (s := rsum ((fun a => / a) <$> xs)) in *.
  apply (Rmult_le_reg_r (s * / g)); [apply Rmult_lt_0_compat; [exact Hs|apply Rinv_0_lt_compat; assumption]|].
  replace (INR (length xs) / s * (s * / g)) with (INR (length xs) * / g) by (field; lra).
  replace (g * (s * / g)) with s by (field; lra).
  apply (Rmult_le_compat_l (INR (length xs))) in Hg; [|lra]. replace (INR (length xs) * (s / INR (length xs))) with s in Hg by (field; lra). exact Hg.
Qed.
(** (mean)^2 <= mean of squares *)
Lemma sq_mean xs : xs <> [] -> mean xs * mean xs <= rsum ((fun a => a * a) <$> xs) / INR (length xs).
Proof.
  intros Hn. pose proof (len_pos xs Hn) as HN. set (A := mean xs).
  pose proof (rsum_map_nonneg (fun a => (a - A) * (a - A)) xs (fun a => Rle_0_sqr _)) as Hp.
  rewrite (rsum_map_ext _ (fun a => (a * a - 2 * A * a) + A * A)) in Hp by (intros a _; ring).
  rewrite (rsum_map_plus (fun a => a * a - 2 * A * a) (fun _ => A * A)), (rsum_map_minus (fun a => a * a) (fun a => 2 * A * a)),
    (rsum_map_scal (2 * A) (fun a => a)), list_fmap_id, rsum_map_const, (mean_sum xs Hn) in Hp. fold A in Hp.
  apply (Rmult_le_reg_r (INR (length xs))); [exact HN|].
  replace (rsum ((fun a => a * a) <$> xs) / INR (length xs) * INR (length xs)) with (rsum ((fun a => a * a) <$> xs)) by (field; lra). lra.
Qed.
Lemma am_rms xs : xs <> [] -> mean xs <= rms xs.
Proof.
  intros Hn. unfold rms. destruct (Rle_dec 0 (mean xs)) as [Hp|Hp].
  - rewrite <- (sqrt_square (mean xs)) by exact Hp. apply sqrt_le_1_alt, sq_mean, Hn.
  - pose proof (sqrt_pos (rsum ((fun a => a * a) <$> xs) / INR (length xs))). lra.
Qed.
Lemma rms_chm xs : xs <> [] -> positive xs -> rms xs <= chmean xs.
Proof.
  intros Hn Hp. pose proof (len_pos xs Hn) as HN. pose proof (rsum_pos xs Hn Hp) as HS. pose proof (mean_pos xs Hn Hp) as HA.
  pose proof (sq_mean xs Hn) as Hq. unfold rms, chmean. set (q := rsum ((fun a => a * a) <$> xs)) in *.
  assert (Hq0 : 0 < q / INR (length xs)) by nra.
  assert (Eq : q / rsum xs = (q / INR (length xs)) / mean xs) by (unfold mean; field; lra). rewrite Eq. set (m2 := q / INR (length xs)) in *.
  rewrite <- (sqrt_square (m2 / mean xs)) by (apply Rlt_le, Rmult_lt_0_compat; [exact Hq0|apply Rinv_0_lt_compat, HA]).
  apply sqrt_le_1_alt. replace (m2 / mean xs * (m2 / mean xs)) with (m2 * (m2 / (mean xs * mean xs))) by (field; lra).
  rewrite <- (Rmult_1_r m2) at 1. apply Rmult_le_compat_l; [lra|]. apply (Rmult_le_reg_r (mean xs * mean xs)); [nra|].
  unfold Rdiv. rewrite Rmult_assoc, Rinv_l by nra. lra.
Qed.
Lemma hm_lo xs lo hi : xs <> [] -> 0 < lo -> within lo hi xs -> lo <= hmean xs.
Proof.
  intros Hn Hlo Hw. pose proof (len_pos xs Hn) as HN. assert (Hp : positive xs) by (intros a Ha; pose proof (Hw a Ha); lra).
  assert (Hs : 0 < rsum ((fun a => / a) <$> xs)). { apply rsum_pos; [intros E; apply Hn, (fmap_nil_inv _ _ E)|apply positive_inv, Hp]. }
  assert (Hle : rsum ((fun a => / a) <$> xs) <= INR (length xs) * / lo).
  { rewrite <- (rsum_map_const (/ lo) xs). apply rsum_le. intros a Ha. apply Rinv_le_contravar; [exact Hlo|apply Hw, Ha]. }
  unfold hmean. apply (Rmult_le_reg_r (rsum ((fun a => / a) <$> xs))); [exact Hs|]. unfold Rdiv. rewrite Rmult_assoc, Rinv_l, Rmult_1_r by lra.
  apply (Rmult_le_compat_l lo) in Hle; [|lra]. replace (lo * (INR (length xs) * / lo)) with (INR (length xs)) in Hle by (field; lra). exact Hle.
Qed.
Lemma chm_hi xs lo hi : xs <> [] -> 0 < lo -> within lo hi xs -> chmean xs <= hi.
Proof.
  intros Hn Hlo Hw. assert (Hp : positive xs) by (intros a Ha; pose proof (Hw a Ha); lra). pose proof (rsum_pos xs Hn Hp) as HS.
  unfold chmean. apply (Rmult_le_reg_r (rsum xs)); [exact HS|]. unfold Rdiv. rewrite Rmult_assoc, Rinv_l, Rmult_1_r by lra.
  rewrite <- (list_fmap_id xs) at 2. rewrite <- (rsum_map_scal hi (fun a => a)). apply rsum_le. intros a Ha. pose proof (Hw a Ha). pose proof (Hp a Ha). nra.
Qed.
End lists.

Section c34.
Implicit Types (h : heap R) (xs ws : list R) (x w : loc).

Lemma Rpow_2 a : 0 < a -> Rpow a 2 = a * a.
Proof. intros Ha. unfold Rpow. destruct (Rlt_dec 0 a); [|contradiction]. replace 2 with (1 + 1) by lra. rewrite Rpower_plus, Rpower_1 by lra. reflexivity. Qed.
Lemma Rpow_1 a : 0 < a -> Rpow a 1 = a.
Proof. intros Ha. unfold Rpow. destruct (Rlt_dec 0 a); [|contradiction]. apply Rpower_1. lra. Qed.
Lemma Rpow_m1 a : 0 < a -> Rpow a (-1) = / a.
Proof. intros Ha. unfold Rpow. destruct (Rlt_dec 0 a); [|contradiction]. replace (-1) with (- (1)) by lra; rewrite Rpower_Ropp, Rpower_1 by lra. reflexivity. Qed.
Lemma Rpow_half a : 0 < a -> Rpow a (1 / 2) = sqrt a.
Proof. intros Ha. unfold Rpow. destruct (Rlt_dec 0 a); [|contradiction]. replace (1 / 2) with (/ 2) by lra. apply Rpower_sqrt. exact Ha. Qed.

(** What the calls compute. *)
Theorem C34_values h x xs : wf h -> abs h !! x = Some (AVec xs) -> xs <> [] -> positive xs ->
  st_harmonic_mean (Some x) h = Ok (hmean xs) h /\ st_geometric_mean (Some x) h = Ok (gmean xs) h /\
  st_mean (Some x) h = Ok (mean xs) h /\ st_rms (Some x) h = Ok (rms xs) h /\ st_contra_harmonic_mean (Some x) h = Ok (chmean xs) h.
Proof.
  intros Hw Hx Hn Hp. repeat split.
  - rewrite (st_harmonic_mean_eq h x xs Hw Hx). cbn. rewrite (foldl_add_acc (fun a => 1 / a)), Rplus_0_l, IZR_len. unfold hmean. do 2 f_equal.
    apply rsum_map_ext. intros a Ha. unfold Rdiv. ring.
  - rewrite (st_geometric_mean_eq h x xs Hw Hx). cbn. f_equal. rewrite IZR_len. unfold Rpow.
    pose proof (prod_pos xs 1 Hp Rlt_0_1) as Hpr. destruct (Rlt_dec 0 (foldl Rmult 1 xs)); [|contradiction].
    unfold Rpower, gmean. f_equal. rewrite ln_prod, ln_1 by (assumption || lra). unfold Rdiv. ring.
  - apply C31_mean; assumption.
  - rewrite (st_rms_eq h x xs Hw Hx). cbn. rewrite (foldl_add_acc (fun a => a * a)), Rplus_0_l, IZR_len. reflexivity.
  - unfold st_contra_harmonic_mean. rewrite (st_lehmer_mean_eq h x xs Hw Hx). cbn.
    rewrite (foldl_add_acc (fun a => Rpow a 2)), (foldl_add_acc (fun a => Rpow a (2 - 1))), !Rplus_0_l. unfold chmean. do 2 f_equal.
    + apply rsum_map_ext. intros a Ha. apply Rpow_2, Hp, Ha.
    + rewrite <- (list_fmap_id xs) at 2. apply rsum_map_ext. intros a Ha. replace (2 - 1) with 1 by lra. apply Rpow_1, Hp, Ha.
Qed.

(** min <= harmonic <= geometric <= arithmetic <= rms <= contra-harmonic <= max, for positive elements. *)
Theorem C34_chain h x xs lo hi : wf h -> abs h !! x = Some (AVec xs) -> xs <> [] -> 0 < lo -> within lo hi xs ->
  exists hm gm am qm cm,
    st_harmonic_mean (Some x) h = Ok hm h /\ st_geometric_mean (Some x) h = Ok gm h /\ st_mean (Some x) h = Ok am h /\
    st_rms (Some x) h = Ok qm h /\ st_contra_harmonic_mean (Some x) h = Ok cm h /\
    lo <= hm /\ hm <= gm /\ gm <= am /\ am <= qm /\ qm <= cm /\ cm <= hi.
Proof.
  intros Hw Hx Hn Hlo Hin. assert (Hp : positive xs) by (intros a Ha; pose proof (Hin a Ha); lra).
  destruct (C34_values h x xs Hw Hx Hn Hp) as (E1 & E2 & E3 & E4 & E5).
  exists (hmean xs), (gmean xs), (mean xs), (rms xs), (chmean xs). repeat (split; [assumption|]).
  split; [eapply hm_lo; eauto|]. split; [apply gm_hm; assumption|]. split; [apply am_gm; assumption|].
  split; [apply am_rms, Hn|]. split; [apply rms_chm; assumption|eapply chm_hi; eauto].
Qed.

(** power_mean(1), power_mean(2), power_mean(-1) are the arithmetic, quadratic and harmonic means; lehmer_mean(1) is the arithmetic mean. *)
Theorem C34_power_means h x xs : wf h -> abs h !! x = Some (AVec xs) -> xs <> [] -> positive xs ->
  st_power_mean (Some x) 1 h = st_mean (Some x) h /\ st_power_mean (Some x) 2 h = st_rms (Some x) h /\
  st_power_mean (Some x) (-1) h = st_harmonic_mean (Some x) h /\ st_lehmer_mean (Some x) 1 h = st_mean (Some x) h.
Proof.
  intros Hw Hx Hn Hp. destruct (C34_values h x xs Hw Hx Hn Hp) as (E1 & _ & E3 & E4 & _). rewrite E1, E3, E4.
  rewrite !(fun p => st_power_mean_eq h x xs Hw Hx p), (st_lehmer_mean_eq h x xs Hw Hx). cbn. rewrite !IZR_len.
  pose proof (len_pos xs Hn) as HN.
  assert (S1 : rsum ((fun a => Rpow a 1) <$> xs) = rsum xs).
  { rewrite <- (list_fmap_id xs) at 2. apply rsum_map_ext. intros a Ha. apply Rpow_1, Hp, Ha. }
  repeat split.
  - rewrite (foldl_add_acc (fun a => Rpow a 1)), Rplus_0_l, S1. replace (1 / 1) with 1 by lra. rewrite Rpow_1; [reflexivity|apply (mean_pos xs); assumption].
  - rewrite (foldl_add_acc (fun a => Rpow a 2)), Rplus_0_l. rewrite (rsum_map_ext (fun a => Rpow a 2) (fun a => a * a)) by (intros a Ha; apply Rpow_2, Hp, Ha).
    rewrite Rpow_half; [reflexivity|]. pose proof (sq_mean xs Hn). pose proof (mean_pos xs Hn Hp). nra.
  - rewrite (foldl_add_acc (fun a => Rpow a (-1))), Rplus_0_l. rewrite (rsum_map_ext (fun a => Rpow a (-1)) (fun a => / a)) by (intros a Ha; apply Rpow_m1, Hp, Ha).
    assert (0 < rsum ((fun a => / a) <$> xs)) by (apply rsum_pos; [intros E; apply Hn, (fmap_nil_inv _ _ E)|apply positive_inv, Hp]).
    replace (1 / -1) with (-1) by lra. rewrite Rpow_m1; [f_equal; unfold hmean; field; lra|]. apply Rmult_lt_0_compat; [assumption|apply Rinv_0_lt_compat, HN].
  - rewrite (foldl_add_acc (fun a => Rpow a 1)), (foldl_add_acc (fun a => Rpow a (1 - 1))), !Rplus_0_l, S1. unfold mean. do 2 f_equal.
    rewrite (rsum_map_ext _ (fun _ => 1)); [rewrite rsum_map_const; ring|]. intros a Ha. replace (1 - 1) with 0 by lra. unfold Rpow.
    destruct (Rlt_dec 0 a) as [|N]; [apply Rpower_O; assumption|]. exfalso. apply N, Hp, Ha.
Qed.

(** A weighted mean with non-negative weights of positive total lies between the bounds of the elements. *)
Theorem C34_weighted_mean h x w xs ws lo hi : wf h -> abs h !! x = Some (AVec xs) -> abs h !! w = Some (AVec ws) -> length xs = length ws ->
  within lo hi xs -> (forall b, b ∈ ws -> 0 <= b) -> 0 < rsum ws ->
  exists m, st_weighted_mean (Some x) (Some w) h = Ok m h /\ m * rsum ws = rsum ((fun p => fst p * snd p) <$> zip xs ws) /\ lo <= m <= hi.
Proof.
  intros Hw Hx Hww E Hin Hpos Hs. exists (dotp xs ws / rsum ws). split.
  { rewrite (st_weighted_mean_eq h x w xs ws Hw Hx Hww E). cbn. rewrite foldl_Rplus. do 2 f_equal.
    erewrite foldl_ext'. { rewrite (foldl_add_acc (fun p : R * R => fst p * snd p)). apply Rplus_0_l. } intros d [a b]. reflexivity. }
  split; [unfold dotp; field; lra|].
  assert (B : lo * rsum ws <= dotp xs ws <= hi * rsum ws).
  { clear Hx Hww Hs. unfold dotp. revert ws E Hpos. induction xs as [|a xs IH]; intros [|b ws] E Hpos; try discriminate; cbn; [lra|].
    injection E as E. assert (0 <= b) by (apply Hpos; left). pose proof (Hin a ltac:(left)).
    destruct (IH ltac:(intros c Hc; apply Hin; right; exact Hc) ws E) as [I1 I2]; [intros c Hc; apply Hpos; right; exact Hc|]. cbn in I1, I2. nra. }
  split; (apply (Rmult_le_reg_r (rsum ws)); [exact Hs|]; unfold Rdiv; rewrite Rmult_assoc, Rinv_l, Rmult_1_r by lra; lra).
Qed.

(** Two-argument means of positive numbers. *)
Theorem C34_heronian a b : 0 < a -> 0 < b -> st_heronian_mean a b = (2 * ((a + b) / 2) + sqrt (a * b)) / 3 /\
  sqrt (a * b) <= st_heronian_mean a b <= (a + b) / 2.
Proof.
  intros Ha Hb. unfold st_heronian_mean. cbn. split; [field|].
  assert (G : sqrt (a * b) <= (a + b) / 2).
  { rewrite <- (sqrt_square ((a + b) / 2)) by lra. apply sqrt_le_1_alt. pose proof (Rle_0_sqr (a - b)) as Hs. unfold Rsqr in Hs. nra. }
  lra.
Qed.
Theorem C34_heinz a b t : 0 < a -> 0 < b -> st_heinz_mean a b t = st_heinz_mean b a t /\ st_heinz_mean a b t = st_heinz_mean a b (1 - t) /\
  st_heinz_mean a b (1 / 2) = sqrt (a * b) /\ st_heinz_mean a b 0 = (a + b) / 2 /\ sqrt (a * b) <= st_heinz_mean a b t.
Proof.
  intros Ha Hb. unfold st_heinz_mean. cbn. replace (1 - (1 - t)) with t by lra. replace (1 - 1 / 2) with (1 / 2) by lra. rewrite Rminus_0_r.
  split; [f_equal; ring|]. split; [f_equal; ring|].
  split. { rewrite !Rpow_half, sqrt_mult by lra. field. }
  split. { rewrite !Rpow_1 by assumption. unfold Rpow. destruct (Rlt_dec 0 a); [|contradiction]. destruct (Rlt_dec 0 b); [|contradiction]. rewrite !Rpower_O by assumption. lra. }
  unfold Rpow. destruct (Rlt_dec 0 a); [|contradiction]. destruct (Rlt_dec 0 b); [|contradiction].
  set (u := Rpower a t * Rpower b (1 - t)). set (v := Rpower a (1 - t) * Rpower b t).
  assert (Huv : a * b = u * v).
  { unfold u, v. transitivity ((Rpower a t * Rpower a (1 - t)) * (Rpower b t * Rpower b (1 - t))); [|ring].
    rewrite <- !Rpower_plus. replace (t + (1 - t)) with 1 by lra. rewrite !Rpower_1 by assumption. reflexivity. }
  assert (0 < u) by (apply Rmult_lt_0_compat; apply exp_pos). assert (0 < v) by (apply Rmult_lt_0_compat; apply exp_pos).
  rewrite Huv. rewrite <- (sqrt_square ((u + v) / 2)) by lra. apply sqrt_le_1_alt. pose proof (Rle_0_sqr (u - v)) as Hs. unfold Rsqr in Hs. nra.
Qed.
(** log_mean: symmetric, and between its arguments. *)
Lemma log_mean_aux a b : 0 < a -> a < b -> a <= (b - a) / (ln b - ln a) <= b.
Proof.
  intros Ha Hab. assert (Hl : 0 < ln b - ln a) by (pose proof (ln_increasing a b Ha Hab); lra).
  assert (H1 : ln b - ln a <= b / a - 1).
  { pose proof (ln_le_sub1 (b / a)) as Hq. unfold Rdiv in Hq. rewrite ln_mult, ln_Rinv in Hq by (try apply Rinv_0_lt_compat; lra).
    assert (0 < b * / a) by (apply Rmult_lt_0_compat; [lra|apply Rinv_0_lt_compat; lra]). unfold Rdiv. specialize (Hq H). lra. }
  assert (H2 : 1 - a / b <= ln b - ln a).
  { pose proof (ln_le_sub1 (a / b)) as Hq. unfold Rdiv in Hq. rewrite ln_mult, ln_Rinv in Hq by (try apply Rinv_0_lt_compat; lra).
    assert (0 < a * / b) by (apply Rmult_lt_0_compat; [lra|apply Rinv_0_lt_compat; lra]). unfold Rdiv. specialize (Hq H). lra. }
  assert (E1 : a * (b / a - 1) = b - a) by (field; lra). assert (E2 : b * (1 - a / b) = b - a) by (field; lra).
  split; apply (Rmult_le_reg_r (ln b - ln a)); try exact Hl; unfold Rdiv; rewrite Rmult_assoc, Rinv_l, Rmult_1_r by lra; nra.
Qed.
Theorem C34_log_mean a b : 0 < a -> 0 < b -> st_log_mean a b = st_log_mean b a /\ Rmin a b <= st_log_mean a b <= Rmax a b.
Proof.
  intros Ha Hb. unfold st_log_mean. cbn. destruct (Reqb a b) eqn:E1.
  - apply Reqb_true in E1 as ->. replace (Reqb b b) with true by (symmetry; apply Reqb_true; reflexivity).
    split; [reflexivity|]. unfold Rmin, Rmax. destruct (Rle_dec b b); lra.
  - replace (Reqb b a) with false by (symmetry; apply Reqb_false; apply Reqb_false in E1; congruence). apply Reqb_false in E1.
    assert (Es : (b - a) / (ln b - ln a) = (a - b) / (ln a - ln b)).
    { assert (ln b - ln a <> 0); [|field; lra]. intros Hz. apply E1. apply ln_inv; lra. }
    split; [exact Es|]. unfold Rmin, Rmax. destruct (Rle_dec a b).
    + apply log_mean_aux; lra.
    + rewrite Es. apply log_mean_aux; lra.
Qed.
(** neuman_sandor_mean multiplies by arsinh where the mean divides by it: on equal arguments it is 0, not the common value. *)
Theorem C34_neuman_sandor_degenerate a : st_neuman_sandor_mean a a = 0.
Proof. unfold st_neuman_sandor_mean. cbn. unfold Rdiv. replace (a - a) with 0 by lra. ring. Qed.
(** stolarsky_mean and identric_mean return the common value of equal arguments. *)
Theorem C34_idempotent a p : st_stolarsky_mean a a p = a /\ st_identric_mean a a = a /\ st_log_mean a a = a.
Proof.
  unfold st_stolarsky_mean, st_identric_mean, st_log_mean. cbn. replace (Reqb a a) with true by (symmetry; apply Reqb_true; reflexivity). auto.
Qed.
Theorem C34_identric_symmetric a b : 0 < a -> 0 < b -> st_identric_mean a b = st_identric_mean b a.
Proof.
  intros Ha Hb. unfold st_identric_mean. cbn. destruct (Reqb a b) eqn:E1.
  - apply Reqb_true in E1 as ->. replace (Reqb b b) with true by (symmetry; apply Reqb_true; reflexivity). reflexivity.
  - replace (Reqb b a) with false by (symmetry; apply Reqb_false; apply Reqb_false in E1; congruence). apply Reqb_false in E1. f_equal.
    unfold Rpow. destruct (Rlt_dec 0 a); [|contradiction]. destruct (Rlt_dec 0 b); [|contradiction].
    assert (Pa : 0 < Rpower a a) by apply exp_pos. assert (Pb : 0 < Rpower b b) by apply exp_pos.
    assert (Q1 : 0 < Rpower a a / Rpower b b) by (apply Rmult_lt_0_compat; [exact Pa|apply Rinv_0_lt_compat, Pb]).
    assert (Q2 : 0 < Rpower b b / Rpower a a) by (apply Rmult_lt_0_compat; [exact Pb|apply Rinv_0_lt_compat, Pa]).
    destruct (Rlt_dec 0 (Rpower a a / Rpower b b)); [|contradiction]. destruct (Rlt_dec 0 (Rpower b b / Rpower a a)); [|contradiction].
    unfold Rpower at 1 4. f_equal. unfold Rdiv. rewrite !ln_mult, !ln_Rinv by (try apply Rinv_0_lt_compat; assumption). field. split; lra.
Qed.
End c34.

(** abs_avg_deviation is non-negative; range is the difference of the extreme elements and midrange is half of that
    (not the midpoint). *)
Theorem C34_abs_avg_deviation h x xs : wf h -> abs h !! x = Some (AVec xs) -> xs <> [] ->
  exists d, st_abs_avg_deviation (Some x) h = Ok d h /\ d = rsum ((fun a => Rabs (a - mean xs)) <$> xs) / INR (length xs) /\
    0 <= d /\ (d = 0 <-> constant xs).
Proof.
  intros Hw Hx Hn. pose proof (len_pos xs Hn) as HN. set (s := rsum ((fun a => Rabs (a - mean xs)) <$> xs)). exists (s / INR (length xs)).
  split. { rewrite (st_abs_avg_deviation_eq h x xs Hw Hx). rewrite f_mean_R. cbn. rewrite IZR_len. do 2 f_equal.
    erewrite foldl_ext'. { rewrite (foldl_add_acc (fun a => Rabs (a - mean xs))). apply Rplus_0_l. } intros d a. cbv beta. rewrite s_abs_R. reflexivity. }
  split; [reflexivity|]. assert (Hs : 0 <= s) by (apply rsum_map_nonneg; intros; apply Rabs_pos).
  split; [apply Rmult_le_pos; [exact Hs|left; apply Rinv_0_lt_compat, HN]|]. split.
  - intros Hz. assert (Hs0 : s = 0). { apply (Rmult_eq_compat_r (INR (length xs))) in Hz. unfold Rdiv in Hz. rewrite Rmult_assoc, Rinv_l in Hz by lra. lra. }
    pose proof (rsum_map_zero _ xs (fun a => Rabs_pos (a - mean xs)) Hs0) as Hall. cbv beta in Hall.
    intros a b Ha Hb. pose proof (Hall a Ha) as Ea. pose proof (Hall b Hb) as Eb.
    destruct (Req_dec (a - mean xs) 0) as [Ea'|Ea']; [|apply Rabs_no_R0 in Ea'; contradiction].
    destruct (Req_dec (b - mean xs) 0) as [Eb'|Eb']; [|apply Rabs_no_R0 in Eb'; contradiction]. lra.
  - intros Hc. destruct xs as [|a xs]; [congruence|].
    assert (Hm : mean (a :: xs) = a) by (apply mean_const; [discriminate|intros b Hb; apply Hc; [exact Hb|left]]).
    assert (s = 0) as ->; [|unfold Rdiv; ring]. unfold s. rewrite Hm. rewrite (rsum_map_ext _ (fun _ => 0)); [rewrite rsum_map_const; ring|].
    intros b Hb. rewrite (Hc b a Hb) by left. replace (a - a) with 0 by lra. apply Rabs_R0.
Qed.
