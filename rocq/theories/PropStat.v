(** * C31-C33: statistics over exact reals (and order statistics over any ordered scalars). *)
From Verif Require Import Stat StatProofs PropVec PropReal RInst.
Open Scope R_scope.

(** ** Specification: textbook definitions on lists of reals. *)
Definition mean (xs : list R) : R := rsum xs / INR (length xs).
Definition variance (xs : list R) : R :=
  rsum ((fun a => (a - mean xs) * (a - mean xs)) <$> xs) / (INR (length xs) - 1).
Definition covariance (xs ys : list R) : R :=
  rsum ((fun p => (fst p - mean xs) * (snd p - mean ys)) <$> zip xs ys) / (INR (length xs) - 1).
(** Sum of squared residuals of the line b0 + b1 x. *)
Definition sse (xs ys : list R) (b0 b1 : R) : R :=
  rsum ((fun p => (snd p - (b0 + b1 * fst p)) * (snd p - (b0 + b1 * fst p))) <$> zip xs ys).
Definition constant (xs : list R) : Prop := forall a b, a ∈ xs -> b ∈ xs -> a = b.

Section lists.
Implicit Types (xs ys zs : list R).

Lemma IZR_len {A} (l : list A) : IZR (Z.of_nat (length l)) = INR (length l).
Proof. symmetry. apply INR_IZR_INZ. Qed.
Lemma f_mean_R xs : f_mean xs = mean xs.
Proof. unfold f_mean, mean. cbn. rewrite foldl_Rplus, IZR_len. reflexivity. Qed.
Lemma f_variance_R xs : f_variance xs = variance xs.
Proof.
  unfold f_variance, variance. rewrite f_mean_R. cbn. rewrite (foldl_add_acc (fun a => (a - mean xs) * (a - mean xs))), Rplus_0_l.
  rewrite minus_IZR, IZR_len. reflexivity.
Qed.
Lemma f_cov_R xs ys : f_cov xs ys = covariance xs ys.
Proof.
  unfold f_cov, covariance. rewrite !f_mean_R. cbn. rewrite minus_IZR, IZR_len. f_equal.
  erewrite foldl_ext'. { rewrite (foldl_add_acc (fun p : R * R => (fst p - mean xs) * (snd p - mean ys))). apply Rplus_0_l. }
  intros d [a b]. reflexivity.
Qed.

Lemma len_pos {A} (l : list A) : l <> [] -> 0 < INR (length l).
Proof. intros Hl. apply lt_0_INR. destruct l; [congruence|cbn; lia]. Qed.
Lemma len_ge2 {A} (l : list A) : (2 <= length l)%nat -> 0 < INR (length l) - 1.
Proof. intros Hl. apply le_INR in Hl. cbn in Hl. lra. Qed.

Lemma mean_sum xs : xs <> [] -> rsum xs = INR (length xs) * mean xs.
Proof. intros Hx. unfold mean. pose proof (len_pos xs Hx). field. lra. Qed.
Lemma rsum_center xs : xs <> [] -> rsum ((fun a => a - mean xs) <$> xs) = 0.
Proof.
  intros Hx. rewrite (rsum_map_minus (fun a => a) (fun _ => mean xs)), list_fmap_id, rsum_map_const, mean_sum by exact Hx. lra.
Qed.
Lemma mean_shift c xs : xs <> [] -> mean ((fun a => a + c) <$> xs) = mean xs + c.
Proof.
  intros Hx. unfold mean. rewrite fmap_length, (rsum_map_plus (fun a => a) (fun _ => c)), list_fmap_id, rsum_map_const.
  pose proof (len_pos xs Hx). field. lra.
Qed.
Lemma mean_scal k xs : mean ((fun a => a * k) <$> xs) = mean xs * k.
Proof.
  unfold mean. rewrite fmap_length. assert (E : rsum ((fun a => a * k) <$> xs) = rsum xs * k).
  { induction xs as [|a xs IH]; cbn; [lra|]. cbn in IH. rewrite IH. lra. }
  rewrite E. unfold Rdiv. lra.
Qed.
Lemma rsum_zip_plus xs : forall ys, length xs = length ys -> rsum (zip_with Rplus xs ys) = rsum xs + rsum ys.
Proof. induction xs as [|a xs IH]; intros [|b ys] E; try discriminate; cbn; [lra|]. injection E as E. rewrite IH by exact E. lra. Qed.
Lemma mean_add xs ys : length xs = length ys -> mean (zip_with Rplus xs ys) = mean xs + mean ys.
Proof.
  intros E. unfold mean. rewrite zip_with_length, rsum_zip_plus by exact E. rewrite <- E, Nat.min_id. unfold Rdiv. lra.
Qed.

Lemma zip_fst_sum (f : R -> R) xs : forall ys, length xs = length ys -> rsum ((fun p : R * R => f (fst p)) <$> zip xs ys) = rsum (f <$> xs).
Proof. induction xs as [|a xs IH]; intros [|b ys] E; try discriminate; cbn; [reflexivity|]. injection E as E. cbn in IH. rewrite IH by exact E. reflexivity. Qed.
Lemma zip_snd_sum (f : R -> R) xs : forall ys, length xs = length ys -> rsum ((fun p : R * R => f (snd p)) <$> zip xs ys) = rsum (f <$> ys).
Proof. induction xs as [|a xs IH]; intros [|b ys] E; try discriminate; cbn; [reflexivity|]. injection E as E. cbn in IH. rewrite IH by exact E. reflexivity. Qed.
Lemma zip_swap_sum (f : R -> R -> R) xs : forall ys, rsum ((fun p : R * R => f (snd p) (fst p)) <$> zip ys xs) = rsum ((fun p : R * R => f (fst p) (snd p)) <$> zip xs ys).
Proof. induction xs as [|a xs IH]; intros [|b ys]; cbn; try reflexivity. cbn in IH. rewrite IH. reflexivity. Qed.

Lemma cov_sym xs ys : length xs = length ys -> covariance xs ys = covariance ys xs.
Proof.
  intros E. unfold covariance. rewrite E. f_equal.
  symmetry. etransitivity; [exact (zip_swap_sum (fun a b => (b - mean ys) * (a - mean xs)) xs ys)|].
  apply rsum_map_ext. intros [a b] _. cbn. ring.
Qed.
Lemma zip_diag_sum (f : R -> R -> R) xs : rsum ((fun p : R * R => f (fst p) (snd p)) <$> zip xs xs) = rsum ((fun a => f a a) <$> xs).
Proof. induction xs as [|a xs IH]; cbn; [reflexivity|]. cbn in IH. rewrite IH. reflexivity. Qed.
Lemma cov_diag xs : covariance xs xs = variance xs.
Proof. unfold covariance, variance. rewrite (zip_diag_sum (fun a b => (a - mean xs) * (b - mean xs))). reflexivity. Qed.

Lemma zip_map_r (g : R -> R) (f : R -> R -> R) xs : forall ys, rsum ((fun p : R * R => f (fst p) (snd p)) <$> zip xs (g <$> ys)) = rsum ((fun p : R * R => f (fst p) (g (snd p))) <$> zip xs ys).
Proof. induction xs as [|a xs IH]; intros [|b ys]; cbn; try reflexivity. cbn in IH. rewrite IH. reflexivity. Qed.
Lemma cov_scal k xs ys : covariance xs ((fun a => a * k) <$> ys) = covariance xs ys * k.
Proof.
  unfold covariance. rewrite (zip_map_r (fun a => a * k) (fun a b => (a - mean xs) * (b - mean ((fun a => a * k) <$> ys)))), mean_scal.
  rewrite (rsum_map_ext _ (fun p : R * R => k * ((fst p - mean xs) * (snd p - mean ys)))) by (intros [a b] _; cbn; ring).
  rewrite rsum_map_scal. unfold Rdiv. ring.
Qed.
Lemma cov_shift c xs ys : ys <> [] -> covariance xs ((fun a => a + c) <$> ys) = covariance xs ys.
Proof.
  intros Hy. unfold covariance. rewrite (zip_map_r (fun a => a + c) (fun a b => (a - mean xs) * (b - mean ((fun a => a + c) <$> ys)))), mean_shift by exact Hy.
  f_equal. apply rsum_map_ext. intros [a b] _. cbn. ring.
Qed.
Lemma cov_add xs ys zs : length xs = length ys -> length ys = length zs ->
  covariance xs (zip_with Rplus ys zs) = covariance xs ys + covariance xs zs.
Proof.
  intros E1 E2. unfold covariance. rewrite mean_add by exact E2.
  assert (G : forall mx my mz xs ys zs, length xs = length ys -> length ys = length zs ->
    rsum ((fun p : R * R => (fst p - mx) * (snd p - (my + mz))) <$> zip xs (zip_with Rplus ys zs)) =
    rsum ((fun p : R * R => (fst p - mx) * (snd p - my)) <$> zip xs ys) + rsum ((fun p : R * R => (fst p - mx) * (snd p - mz)) <$> zip xs zs)).
  { clear. intros mx my mz. induction xs as [|a xs IH]; intros [|b ys] [|c zs] E1 E2; try discriminate; cbn; [lra|].
    injection E1 as E1. injection E2 as E2. cbn in IH. rewrite (IH ys zs) by assumption. ring. }
  rewrite G by assumption. unfold Rdiv. ring.
Qed.

Lemma variance_nonneg xs : (2 <= length xs)%nat -> 0 <= variance xs.
Proof.
  intros Hl. unfold variance. apply Rmult_le_pos; [apply rsum_map_nonneg; intros a; apply Rle_0_sqr|].
  left. apply Rinv_0_lt_compat, len_ge2, Hl.
Qed.
Lemma mean_const xs a : xs <> [] -> (forall b, b ∈ xs -> b = a) -> mean xs = a.
Proof.
  intros Hx Hc. unfold mean. assert (E : rsum xs = INR (length xs) * a).
  { rewrite <- (rsum_map_const a xs). rewrite <- (list_fmap_id xs) at 1. apply rsum_map_ext. intros b Hb. apply Hc, Hb. }
  rewrite E. pose proof (len_pos xs Hx). field. lra.
Qed.
Lemma variance_zero xs : (2 <= length xs)%nat -> variance xs = 0 <-> constant xs.
Proof.
  intros Hl. pose proof (len_ge2 xs Hl). split.
  - intros Hv a b Ha Hb. unfold variance in Hv.
    assert (Hs : rsum ((fun a => (a - mean xs) * (a - mean xs)) <$> xs) = 0).
    { apply (Rmult_eq_compat_r (INR (length xs) - 1)) in Hv. unfold Rdiv in Hv. rewrite Rmult_assoc, Rinv_l, Rmult_1_r, Rmult_0_l in Hv by lra. exact Hv. }
    pose proof (rsum_map_zero (fun a => (a - mean xs) * (a - mean xs)) xs (fun x => Rle_0_sqr _) Hs) as Hz.
    pose proof (Rsqr_0_uniq _ (Hz a Ha)). pose proof (Rsqr_0_uniq _ (Hz b Hb)). lra.
  - intros Hc. destruct xs as [|a xs]; [cbn in Hl; lia|].
    assert (Hm : mean (a :: xs) = a) by (apply mean_const; [discriminate|intros b Hb; apply Hc; [exact Hb|left]]).
    unfold variance. rewrite Hm. rewrite (rsum_map_ext _ (fun _ => 0)).
    + rewrite rsum_map_const. unfold Rdiv. ring.
    + intros b Hb. rewrite (Hc b a Hb) by left. ring.
Qed.

(** Cauchy-Schwarz for covariances. *)
Lemma cov_cauchy xs ys : length xs = length ys -> (2 <= length xs)%nat ->
  covariance xs ys * covariance xs ys <= variance xs * variance ys.
Proof.
  intros E Hl. pose proof (len_ge2 xs Hl) as Hp. unfold covariance, variance. rewrite <- E.
  pose proof (rsum_cauchy (fun p : R * R => fst p - mean xs) (fun p => snd p - mean ys) (zip xs ys)) as Hc.
  rewrite (zip_fst_sum (fun a => (a - mean xs) * (a - mean xs))), (zip_snd_sum (fun a => (a - mean ys) * (a - mean ys))) in Hc by exact E.
  set (n1 := INR (length xs) - 1) in *.
  set (s := rsum ((fun p : R * R => (fst p - mean xs) * (snd p - mean ys)) <$> zip xs ys)) in *.
  set (sx := rsum ((fun a => (a - mean xs) * (a - mean xs)) <$> xs)) in *.
  set (sy := rsum ((fun a => (a - mean ys) * (a - mean ys)) <$> ys)) in *.
  replace (s / n1 * (s / n1)) with (s * s * (/ n1 * / n1)) by (unfold Rdiv; ring).
  replace (sx / n1 * (sy / n1)) with (sx * sy * (/ n1 * / n1)) by (unfold Rdiv; ring).
  apply Rmult_le_compat_r; [|exact Hc]. pose proof (Rinv_0_lt_compat n1 Hp). nra.
Qed.

(** The residual decomposition behind least squares. *)
Lemma sse_split xs ys b0 b1 c0 c1 : length xs = length ys -> (2 <= length xs)%nat -> variance xs <> 0 ->
  b1 = covariance xs ys / variance xs -> b0 = mean ys - b1 * mean xs ->
  sse xs ys c0 c1 = sse xs ys b0 b1 + rsum ((fun a => ((b0 - c0) + (b1 - c1) * a) * ((b0 - c0) + (b1 - c1) * a)) <$> xs).
Proof.
  intros E Hl Hv Hb1 Hb0. pose proof (len_ge2 xs Hl) as Hp.
  assert (Hnx : xs <> []) by (destruct xs; [cbn in Hl; lia|discriminate]).
  assert (Hny : ys <> []) by (destruct ys; [rewrite E in Hl; cbn in Hl; lia|discriminate]).
  unfold sse. rewrite <- (zip_fst_sum (fun a => (b0 - c0 + (b1 - c1) * a) * (b0 - c0 + (b1 - c1) * a)) xs ys E).
  rewrite <- rsum_map_plus.
  (* cross terms vanish *)
  assert (R0 : rsum ((fun p : R * R => snd p - (b0 + b1 * fst p)) <$> zip xs ys) = 0).
  { rewrite (rsum_map_ext _ (fun p : R * R => (snd p - mean ys) - b1 * (fst p - mean xs))) by (intros [a b] _; cbn; rewrite Hb0; ring).
    rewrite (rsum_map_minus (fun p : R * R => snd p - mean ys) (fun p => b1 * (fst p - mean xs))), rsum_map_scal.
    rewrite (zip_snd_sum (fun b => b - mean ys)), (zip_fst_sum (fun a => a - mean xs)), !rsum_center by assumption. ring. }
  assert (R1 : rsum ((fun p : R * R => (snd p - (b0 + b1 * fst p)) * (fst p - mean xs)) <$> zip xs ys) = 0).
  { rewrite (rsum_map_ext _ (fun p : R * R => ((fst p - mean xs) * (snd p - mean ys)) - b1 * ((fst p - mean xs) * (fst p - mean xs))))
      by (intros [a b] _; cbn; rewrite Hb0; ring).
    rewrite (rsum_map_minus (fun p : R * R => (fst p - mean xs) * (snd p - mean ys)) (fun p => b1 * ((fst p - mean xs) * (fst p - mean xs)))), rsum_map_scal.
    rewrite (zip_fst_sum (fun a => (a - mean xs) * (a - mean xs))) by exact E.
    unfold covariance in Hb1. unfold variance in Hb1, Hv. rewrite Hb1.
    set (n1 := INR (length xs) - 1) in *. set (sx := rsum ((fun a => (a - mean xs) * (a - mean xs)) <$> xs)) in *.
    assert (sx <> 0) by (intros Hz; apply Hv; rewrite Hz; unfold Rdiv; ring). field. split; [lra|assumption]. }
  set (d0 := b0 - c0). set (d1 := b1 - c1).
  assert (X : rsum ((fun p : R * R => (snd p - (b0 + b1 * fst p)) * (d0 + d1 * fst p)) <$> zip xs ys) = 0).
  { rewrite (rsum_map_ext _ (fun p : R * R => (d0 + d1 * mean xs) * (snd p - (b0 + b1 * fst p)) + d1 * ((snd p - (b0 + b1 * fst p)) * (fst p - mean xs))))
      by (intros [a b] _; cbn; ring).
    rewrite (rsum_map_plus (fun p : R * R => (d0 + d1 * mean xs) * (snd p - (b0 + b1 * fst p)))), !rsum_map_scal, R0, R1. ring. }
  rewrite (rsum_map_ext (fun p : R * R => (snd p - (c0 + c1 * fst p)) * (snd p - (c0 + c1 * fst p)))
     (fun p => ((snd p - (b0 + b1 * fst p)) * (snd p - (b0 + b1 * fst p)) + (d0 + d1 * fst p) * (d0 + d1 * fst p)) + 2 * ((snd p - (b0 + b1 * fst p)) * (d0 + d1 * fst p))))
    by (intros [a b] _; unfold d0, d1; cbn; ring).
  rewrite (rsum_map_plus (fun p : R * R => (snd p - (b0 + b1 * fst p)) * (snd p - (b0 + b1 * fst p)) + (d0 + d1 * fst p) * (d0 + d1 * fst p))
     (fun p => 2 * ((snd p - (b0 + b1 * fst p)) * (d0 + d1 * fst p)))), rsum_map_scal, X. ring.
Qed.
End lists.

(** ** C31 *)
Section c31.
Implicit Types (h : heap R) (xs ys zs : list R) (x y z : loc).

(** The calls compute the textbook values and change nothing. *)
Theorem C31_mean h x xs : wf h -> abs h !! x = Some (AVec xs) -> st_mean (Some x) h = Ok (mean xs) h.
Proof. intros Hw Hx. rewrite (st_mean_eq h x xs Hw Hx), f_mean_R. reflexivity. Qed.
Theorem C31_variance h x xs : wf h -> abs h !! x = Some (AVec xs) ->
  st_variance (Some x) h = Ok (variance xs) h /\ st_sd (Some x) h = Ok (sqrt (variance xs)) h.
Proof. intros Hw Hx. rewrite (st_variance_eq h x xs Hw Hx), (st_sd_eq h x xs Hw Hx), f_variance_R. auto. Qed.
Theorem C31_covariance h x y xs ys : wf h -> abs h !! x = Some (AVec xs) -> abs h !! y = Some (AVec ys) ->
  st_covariance (Some x) (Some y) h = Ok (if decide (length xs = length ys) then covariance xs ys else 0) h.
Proof.
  intros Hw Hx Hy. destruct (decide (length xs = length ys)) as [E|E].
  - rewrite (st_covariance_eq h x y xs ys Hw Hx Hy E), f_cov_R. reflexivity.
  - exact (st_covariance_mismatch h x y xs ys Hw Hx Hy E).
Qed.
Theorem C31_null h rx ry : rx = None \/ ry = None ->
  st_mean (F := R) None h = Ok 0 h /\ st_variance (F := R) None h = Ok 0 h /\ st_sd (F := R) None h = Ok 0 h /\
  st_covariance rx ry h = Ok 0 h /\ st_correlation rx ry h = Ok 0 h /\ st_b0 rx ry h = Ok 0 h /\ st_b1 rx ry h = Ok 0 h.
Proof. intros [-> | ->]; [|destruct rx]; repeat split. Qed.

(** meanv(x + c) = meanv(x) + c; meanv(x + y) = meanv(x) + meanv(y); meanv(k x) = k meanv(x). *)
Theorem C31_mean_translation h x xs c : wf h -> abs h !! x = Some (AVec xs) -> xs <> [] ->
  exists m, st_mean (Some x) h = Ok m h /\ runs (let! t := v_scalar_addn c x in st_mean (Some t)) h (fun m' _ => m' = m + c).
Proof.
  intros Hw Hx Hn. exists (mean xs). split; [apply C31_mean; auto|].
  destruct (proj1 (proj2 (C08_scalar_add c)) h x xs Hw Hx) as (t & h1 & Et & W1 & _ & A1).
  exists (mean ((fun a => a + c) <$> xs)), h1. unfold bind. rewrite Et. split; [|split; [exact W1|apply mean_shift, Hn]].
  apply C31_mean; [exact W1|]. rewrite A1, lookup_insert. reflexivity.
Qed.
Theorem C31_mean_additive h x y xs ys : wf h -> abs h !! x = Some (AVec xs) -> abs h !! y = Some (AVec ys) -> length xs = length ys ->
  exists m1 m2, st_mean (Some x) h = Ok m1 h /\ st_mean (Some y) h = Ok m2 h /\
    runs (let! s := v_addn x (Some y) in st_mean s) h (fun m _ => m = m1 + m2).
Proof.
  intros Hw Hx Hy E. exists (mean xs), (mean ys). split; [apply C31_mean; auto|]. split; [apply C31_mean; auto|].
  destruct (proj1 (proj2 C07_add) h x Hw) as (_ & Hadd & _). destruct (Hadd y xs ys Hx Hy E) as (s & h1 & Es & W1 & o & -> & Ho & A1).
  exists (mean (zip_with Rplus xs ys)), h1. unfold bind. rewrite Es. split; [|split; [exact W1|apply mean_add, E]].
  apply C31_mean; [exact W1|]. rewrite A1, lookup_insert. reflexivity.
Qed.
Theorem C31_mean_homogeneous h x xs k : wf h -> abs h !! x = Some (AVec xs) ->
  exists m, st_mean (Some x) h = Ok m h /\ runs (let! t := v_scalar_multiplyn k x in st_mean (Some t)) h (fun m' _ => m' = m * k).
Proof.
  intros Hw Hx. exists (mean xs). split; [apply C31_mean; auto|].
  destruct (proj1 (proj2 (C08_scalar_multiply k)) h x xs Hw Hx) as (t & h1 & Et & W1 & _ & A1).
  exists (mean ((fun a => a * k) <$> xs)), h1. unfold bind. rewrite Et. split; [|split; [exact W1|apply mean_scal]].
  apply C31_mean; [exact W1|]. rewrite A1, lookup_insert. reflexivity.
Qed.

(** variancev >= 0, and = 0 exactly on constant vectors. *)
Theorem C31_variance_nonneg_zero h x xs : wf h -> abs h !! x = Some (AVec xs) -> (2 <= length xs)%nat ->
  exists v, st_variance (Some x) h = Ok v h /\ 0 <= v /\ (v = 0 <-> constant xs).
Proof. intros Hw Hx Hl. exists (variance xs). split; [apply C31_variance; auto|]. split; [apply variance_nonneg, Hl|apply variance_zero, Hl]. Qed.
(** variancev(x + c) = variancev(x); variancev(k x) = k^2 variancev(x). *)
Theorem C31_variance_translation h x xs c : wf h -> abs h !! x = Some (AVec xs) -> xs <> [] ->
  exists v, st_variance (Some x) h = Ok v h /\ runs (let! t := v_scalar_addn c x in st_variance (Some t)) h (fun v' _ => v' = v).
Proof.
  intros Hw Hx Hn. exists (variance xs). split; [apply C31_variance; auto|].
  destruct (proj1 (proj2 (C08_scalar_add c)) h x xs Hw Hx) as (t & h1 & Et & W1 & _ & A1).
  exists (variance ((fun a => a + c) <$> xs)), h1. unfold bind. rewrite Et. split; [|split; [exact W1|]].
  - apply C31_variance; [exact W1|]. rewrite A1, lookup_insert. reflexivity.
  - unfold variance. rewrite mean_shift, fmap_length, <- list_fmap_compose by exact Hn. f_equal. apply rsum_map_ext. intros a _. cbn. ring.
Qed.
Theorem C31_variance_scale h x xs k : wf h -> abs h !! x = Some (AVec xs) ->
  exists v, st_variance (Some x) h = Ok v h /\ runs (let! t := v_scalar_multiplyn k x in st_variance (Some t)) h (fun v' _ => v' = k * k * v).
Proof.
  intros Hw Hx. exists (variance xs). split; [apply C31_variance; auto|].
  destruct (proj1 (proj2 (C08_scalar_multiply k)) h x xs Hw Hx) as (t & h1 & Et & W1 & _ & A1).
  exists (variance ((fun a => a * k) <$> xs)), h1. unfold bind. rewrite Et. split; [|split; [exact W1|]].
  - apply C31_variance; [exact W1|]. rewrite A1, lookup_insert. reflexivity.
  - unfold variance. rewrite mean_scal, fmap_length, <- list_fmap_compose.
    rewrite (rsum_map_ext _ (fun a => (k * k) * ((a - mean xs) * (a - mean xs)))) by (intros a _; cbn; ring). rewrite rsum_map_scal. unfold Rdiv. ring.
Qed.

(** covariancev is symmetric, additive and homogeneous, and covariancev(x, x) = variancev(x). *)
Theorem C31_covariance_symmetric h x y xs ys : wf h -> abs h !! x = Some (AVec xs) -> abs h !! y = Some (AVec ys) ->
  st_covariance (Some x) (Some y) h = st_covariance (Some y) (Some x) h.
Proof.
  intros Hw Hx Hy. rewrite (C31_covariance h x y xs ys), (C31_covariance h y x ys xs) by assumption.
  destruct (decide (length xs = length ys)) as [E|E]; destruct (decide (length ys = length xs)) as [E'|E']; try congruence.
  rewrite cov_sym by exact E. reflexivity.
Qed.
Theorem C31_covariance_self h x xs : wf h -> abs h !! x = Some (AVec xs) ->
  st_covariance (Some x) (Some x) h = st_variance (Some x) h.
Proof.
  intros Hw Hx. rewrite (C31_covariance h x x xs xs), (proj1 (C31_variance h x xs Hw Hx)) by assumption.
  rewrite decide_True by reflexivity. rewrite cov_diag. reflexivity.
Qed.
Theorem C31_covariance_additive h x y z xs ys zs : wf h -> abs h !! x = Some (AVec xs) -> abs h !! y = Some (AVec ys) -> abs h !! z = Some (AVec zs) ->
  length xs = length ys -> length ys = length zs ->
  exists c1 c2, st_covariance (Some x) (Some y) h = Ok c1 h /\ st_covariance (Some x) (Some z) h = Ok c2 h /\
    runs (let! s := v_addn y (Some z) in st_covariance (Some x) s) h (fun c _ => c = c1 + c2).
Proof.
  intros Hw Hx Hy Hz E1 E2. exists (covariance xs ys), (covariance xs zs).
  split; [rewrite (C31_covariance h x y xs ys), decide_True by assumption; reflexivity|].
  split; [rewrite (C31_covariance h x z xs zs), decide_True by (assumption || congruence); reflexivity|].
  destruct (proj1 (proj2 C07_add) h y Hw) as (_ & Hadd & _). destruct (Hadd z ys zs Hy Hz E2) as (s & h1 & Es & W1 & o & -> & Ho & A1).
  exists (covariance xs (zip_with Rplus ys zs)), h1. unfold bind. rewrite Es. split; [|split; [exact W1|apply cov_add; assumption]].
  rewrite (C31_covariance h1 x o xs (zip_with Rplus ys zs)); [|exact W1| |rewrite A1, lookup_insert; reflexivity].
  - rewrite decide_True; [reflexivity|]. rewrite zip_with_length. lia.
  - rewrite A1, lookup_insert_ne; [exact Hx|congruence].
Qed.
Theorem C31_covariance_homogeneous h x y xs ys k : wf h -> abs h !! x = Some (AVec xs) -> abs h !! y = Some (AVec ys) -> length xs = length ys ->
  exists c, st_covariance (Some x) (Some y) h = Ok c h /\
    runs (let! s := v_scalar_multiplyn k y in st_covariance (Some x) (Some s)) h (fun c' _ => c' = c * k).
Proof.
  intros Hw Hx Hy E. exists (covariance xs ys).
  split; [rewrite (C31_covariance h x y xs ys), decide_True by assumption; reflexivity|].
  destruct (proj1 (proj2 (C08_scalar_multiply k)) h y ys Hw Hy) as (o & h1 & Es & W1 & Ho & A1).
  exists (covariance xs ((fun a => a * k) <$> ys)), h1. unfold bind. rewrite Es. split; [|split; [exact W1|apply cov_scal]].
  rewrite (C31_covariance h1 x o xs ((fun a => a * k) <$> ys)); [|exact W1| |rewrite A1, lookup_insert; reflexivity].
  - rewrite decide_True; [reflexivity|]. rewrite fmap_length. exact E.
  - rewrite A1, lookup_insert_ne; [exact Hx|congruence].
Qed.

(** -1 <= correlation <= 1 and r2 = correlation^2 lies in [0, 1], for non-constant vectors of one length. *)
Theorem C31_correlation_bounded h x y xs ys : wf h -> abs h !! x = Some (AVec xs) -> abs h !! y = Some (AVec ys) ->
  length xs = length ys -> (2 <= length xs)%nat -> ~ constant xs -> ~ constant ys ->
  exists r, st_correlation (Some x) (Some y) h = Ok r h /\ st_r2 (Some x) (Some y) h = Ok (r * r) h /\
    -1 <= r <= 1 /\ 0 <= r * r <= 1 /\ r * (sqrt (variance xs) * sqrt (variance ys)) = covariance xs ys.
Proof.
  intros Hw Hx Hy E Hl Cx Cy. set (r := covariance xs ys / (sqrt (variance xs) * sqrt (variance ys))).
  assert (Er : st_correlation (Some x) (Some y) h = Ok r h).
  { rewrite (st_correlation_eq h x y xs ys Hw Hx Hy E), f_cov_R, !f_variance_R. reflexivity. }
  exists r. split; [exact Er|]. split; [unfold st_r2, bind; rewrite !Er; reflexivity|].
  assert (Vx : 0 < variance xs). { pose proof (variance_nonneg xs Hl). pose proof (variance_zero xs Hl). destruct (Req_dec (variance xs) 0); [tauto|lra]. }
  assert (Vy : 0 < variance ys). { pose proof (variance_nonneg ys ltac:(lia)). pose proof (variance_zero ys ltac:(lia)). destruct (Req_dec (variance ys) 0); [tauto|lra]. }
  pose proof (sqrt_lt_R0 _ Vx) as Sx. pose proof (sqrt_lt_R0 _ Vy) as Sy.
  assert (Hr : r * (sqrt (variance xs) * sqrt (variance ys)) = covariance xs ys) by (unfold r; field; split; lra).
  assert (H2 : r * r <= 1).
  { pose proof (cov_cauchy xs ys E Hl) as Hc. rewrite <- Hr in Hc.
    replace (r * (sqrt (variance xs) * sqrt (variance ys)) * (r * (sqrt (variance xs) * sqrt (variance ys))))
      with (r * r * ((sqrt (variance xs) * sqrt (variance xs)) * (sqrt (variance ys) * sqrt (variance ys)))) in Hc by ring.
    rewrite !sqrt_sqrt in Hc by lra. pose proof (Rmult_lt_0_compat _ _ Vx Vy). nra. }
  split; [split; nra|]. split; [|exact Hr]. split; [nra|exact H2].
Qed.
End c31.

(** ** C32 *)
Section c32.
Implicit Types (h : heap R) (xs ys : list R) (x y z : loc).

Lemma sse_min xs ys b0 b1 : length xs = length ys -> (2 <= length xs)%nat -> ~ constant xs ->
  b1 = covariance xs ys / variance xs -> b0 = mean ys - b1 * mean xs ->
  forall c0 c1, sse xs ys b0 b1 <= sse xs ys c0 c1 /\ (sse xs ys c0 c1 = sse xs ys b0 b1 -> c0 = b0 /\ c1 = b1).
Proof.
  intros E Hl Cx Hb1 Hb0 c0 c1.
  assert (Hv : variance xs <> 0) by (rewrite variance_zero by exact Hl; exact Cx).
  pose proof (sse_split xs ys b0 b1 c0 c1 E Hl Hv Hb1 Hb0) as Hs.
  pose proof (rsum_map_nonneg (fun a => (b0 - c0 + (b1 - c1) * a) * (b0 - c0 + (b1 - c1) * a)) xs (fun a => Rle_0_sqr _)) as Hp.
  split; [cbv beta in *; lra|]. intros He. rewrite Hs in He.
  assert (Hz : rsum ((fun a => (b0 - c0 + (b1 - c1) * a) * (b0 - c0 + (b1 - c1) * a)) <$> xs) = 0) by lra.
  pose proof (rsum_map_zero _ xs (fun a => Rle_0_sqr _) Hz) as Hall. cbv beta in Hall.
  destruct (Req_dec c1 b1) as [->|Hc].
  - split; [|reflexivity]. destruct xs as [|a xs]; [cbn in Hl; lia|]. pose proof (Rsqr_0_uniq _ (Hall a ltac:(left))). lra.
  - exfalso. apply Cx. intros a b Ha Hb. pose proof (Rsqr_0_uniq _ (Hall a Ha)) as Ea. pose proof (Rsqr_0_uniq _ (Hall b Hb)) as Eb.
    assert (Hd : (b1 - c1) * (a - b) = 0) by lra. apply Rmult_integral in Hd as [Hd|Hd]; lra.
Qed.

(** The coefficients returned by b0_estimation and b1_estimation are the unique minimiser of the squared error. *)
Theorem C32_least_squares h x y xs ys : wf h -> abs h !! x = Some (AVec xs) -> abs h !! y = Some (AVec ys) ->
  length xs = length ys -> (2 <= length xs)%nat -> ~ constant xs ->
  exists b0 b1, st_b0 (Some x) (Some y) h = Ok b0 h /\ st_b1 (Some x) (Some y) h = Ok b1 h /\
    forall c0 c1, sse xs ys b0 b1 <= sse xs ys c0 c1 /\ (sse xs ys c0 c1 = sse xs ys b0 b1 -> c0 = b0 /\ c1 = b1).
Proof.
  intros Hw Hx Hy E Hl Cx. set (b1 := covariance xs ys / variance xs). exists (mean ys - b1 * mean xs), b1.
  split; [rewrite (st_b0_eq h x y xs ys Hw Hx Hy E), f_cov_R, f_variance_R, !f_mean_R; reflexivity|].
  split; [rewrite (st_b1_eq h x y xs ys Hw Hx Hy E), f_cov_R, f_variance_R; reflexivity|].
  apply sse_min; auto.
Qed.

(** MLPPUniLinReg: constructing (or training) on (x, y) and evaluating. *)
Theorem C32_uni_lin_reg h x y z xs ys zs : wf h -> abs h !! x = Some (AVec xs) -> abs h !! y = Some (AVec ys) ->
  abs h !! z = Some (AVec zs) -> length xs = length ys -> (2 <= length xs)%nat -> ~ constant xs ->
  exists b0 b1, ulr_new (Some x) (Some y) h = Ok (ULR (Some x) (Some y) b0 b1) h /\
    (forall c0 c1, sse xs ys b0 b1 <= sse xs ys c0 c1 /\ (sse xs ys c0 c1 = sse xs ys b0 b1 -> c0 = b0 /\ c1 = b1)) /\
    (forall v, ulr_model_test (ULR (Some x) (Some y) b0 b1) v = b0 + b1 * v) /\
    runs (ulr_model_set_test (ULR (Some x) (Some y) b0 b1) (Some z)) h (fun o h' => abs h !! o = None /\
      abs h' = <[o := AVec ((fun v => b0 + b1 * v) <$> zs)]> (abs h)).
Proof.
  intros Hw Hx Hy Hz E Hl Cx. destruct (C32_least_squares h x y xs ys Hw Hx Hy E Hl Cx) as (b0 & b1 & E0 & E1 & Hmin).
  exists b0, b1. split; [unfold ulr_new, ulr_train, bind; cbn [u_in u_out]; rewrite E1, E0; reflexivity|].
  split; [exact Hmin|]. split; [reflexivity|].
  destruct (proj1 (proj2 (C08_scalar_multiply b1)) h z zs Hw Hz) as (t & h1 & Et & W1 & Nt & A1).
  assert (Ht : abs h1 !! t = Some (AVec ((fun v => v * b1) <$> zs))) by (rewrite A1, lookup_insert; reflexivity).
  destruct (proj1 (proj2 (C08_scalar_add b0)) h1 t _ W1 Ht) as (o & h2 & Eo & W2 & No & A2).
  assert (Hto : o <> t) by (intros ->; congruence).
  assert (Wd : wp (del_obj t) h2 (fun _ h' => wf h' /\ abs h' = delete t (abs h2))).
  { eapply wp_del; [exact W2|rewrite A2, lookup_insert_ne by congruence; exact Ht|]. auto. }
  unfold wp in Wd. destruct (del_obj t h2) as [[] h3| | |] eqn:Ed; try contradiction. destruct Wd as [W3 A3].
  exists o, h3. unfold ulr_model_set_test, bind, deref, ret. cbn [u_b0 u_b1]. rewrite Et, Eo, Ed. split; [reflexivity|]. split; [exact W3|].
  split; [rewrite A1, lookup_insert_ne in No by congruence; exact No|].
  rewrite A3, A2, A1, delete_insert_ne, delete_insert by congruence. f_equal. f_equal. rewrite <- list_fmap_compose.
  apply list_fmap_ext. intros i v _. cbn. ring.
Qed.
End c32.

(** ** C33: any scalars; [P] is a set of mutually comparable values containing all the elements. *)
Section c33.
Context {F : Type} `{Scalar F}.
Implicit Types (h : heap F) (xs ys : list F).

(** even, positive size: half the sum of the two middle order statistics; the argument is not modified *)
Theorem C33_median_even (P : F -> Prop) vd h x xs k : swo_on P -> wf h -> abs h !! x = Some (AVec xs) -> Forall P xs ->
  length xs = (2 * S k)%nat ->
  runs (st_median vd (Some x)) h (fun m h' => abs h' = abs h /\
    exists ys a b, ys ≡ₚ xs /\ non_decreasing ys /\ ys !! k = Some a /\ ys !! S k = Some b /\ m = s_div (s_add a b) (s_of_Z 2)).
Proof.
  intros HP Hw Hx HF Hk. apply runs_wp. eapply wp_st_median; eauto. intros ys h' W A Py Sy. split; [exact W|]. split; [exact A|].
  assert (Hl : length ys = (2 * S k)%nat) by (rewrite <- Hk; apply Permutation_length, Py).
  destruct (lookup_lt_is_Some_2 ys k) as [a Ha]; [lia|]. destruct (lookup_lt_is_Some_2 ys (S k)) as [b Hb]; [lia|].
  exists ys, a, b. repeat (split; [assumption|]). cbv zeta. rewrite Hk.
  replace (Z.of_nat (2 * S k)) with (2 * Z.of_nat (S k))%Z by lia. rewrite Z.mul_comm, Z.rem_mul, Z.quot_mul by lia. cbn [Z.eqb].
  destruct (Z.ltb_spec (Z.of_nat (S k) - 1) 0); [lia|]. destruct (Z.ltb_spec (Z.of_nat (S k)) 0); [lia|].
  replace (Z.to_nat (Z.of_nat (S k) - 1)) with k by lia. rewrite Nat2Z.id, Ha, Hb. reflexivity.
Qed.
(** odd size >= 3: the order statistic just below the middle one *)
Theorem C33_median_odd (P : F -> Prop) vd h x xs k : swo_on P -> wf h -> abs h !! x = Some (AVec xs) -> Forall P xs ->
  length xs = (2 * S k + 1)%nat ->
  runs (st_median vd (Some x)) h (fun m h' => abs h' = abs h /\
    exists ys, ys ≡ₚ xs /\ non_decreasing ys /\ ys !! k = Some m).
Proof.
  intros HP Hw Hx HF Hk. apply runs_wp. eapply wp_st_median; eauto. intros ys h' W A Py Sy. split; [exact W|]. split; [exact A|].
  assert (Hl : length ys = (2 * S k + 1)%nat) by (rewrite <- Hk; apply Permutation_length, Py).
  destruct (lookup_lt_is_Some_2 ys k) as [a Ha]; [lia|].
  exists ys. repeat (split; [assumption|]). cbv zeta. rewrite Hk.
  assert (Eq : Z.quot (Z.of_nat (2 * S k + 1)) 2 = Z.of_nat (S k)) by (rewrite Z.quot_div_nonneg by lia; symmetry; apply Z.div_unique with 1%Z; lia).
  assert (Er : Z.rem (Z.of_nat (2 * S k + 1)) 2 = 1%Z) by (rewrite Z.rem_mod_nonneg by lia; symmetry; apply Z.mod_unique with (Z.of_nat (S k)); lia).
  rewrite Eq, Er. cbn [Z.eqb]. destruct (Z.ltb_spec (Z.of_nat (S k) - 1) 0); [lia|].
  replace (Z.to_nat (Z.of_nat (S k) - 1)) with k by lia. rewrite Ha. reflexivity.
Qed.
(** one element: 0, whatever the element *)
Theorem C33_median_single (P : F -> Prop) vd h x a : swo_on P -> wf h -> abs h !! x = Some (AVec [a]) -> P a ->
  runs (st_median vd (Some x)) h (fun m h' => abs h' = abs h /\ m = s_zero).
Proof.
  intros HP Hw Hx HF. apply runs_wp. eapply wp_st_median; [exact HP|exact Hw|exact Hx|constructor; auto|].
  intros ys h' W A Py Sy. split; [exact W|]. split; [exact A|]. reflexivity.
Qed.
Theorem C33_median_empty vd h x : wf h -> abs h !! x = Some (AVec []) ->
  runs (st_median vd (Some x)) h (fun m h' => abs h' = abs h /\ m = s_div (s_add s_zero s_zero) (s_of_Z 2)).
Proof.
  intros Hw Hx. apply runs_wp. eapply (wp_st_median (fun _ => False)); eauto; [constructor; contradiction|].
  intros ys h' W A Py Sy. split; [exact W|]. split; [exact A|]. apply Permutation_length in Py. destruct ys; [reflexivity|discriminate].
Qed.
End c33.
