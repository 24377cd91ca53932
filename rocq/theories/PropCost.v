(** * C39: cost values; C40: cost gradients; C41: what the minimum of the costs is; C42: regularisation. *)
From Verif Require Import Base BaseProofs Vec VecSpec VecProofs VecProofs2 Mat MatSpec MatProofs MatProofs2 MatProofs3 MatProofs4 MatProofs5 Frame StatProofs Act ActProofs ActProofs2 Cost CostProofs.
From Verif Require Import RErf LibmR PropAct PropAct2 CostSpec CostMath.
From Coq Require Import Reals Lra Lia.
From Verif Require Import RInst.
Open Scope R_scope.
Implicit Types (h : heap R) (z o a b : loc) (xs ys ws : list R).

Lemma fold2_sum2 (f g : R -> R -> R) xs ys : (forall x y, f x y = g x y) -> fold2 f xs ys = sum2 g xs ys.
Proof.
  intros E. unfold fold2, sum2.
  assert (G : forall c, foldl (fun s '(x, y) => s_add s (f x y)) c (zip xs ys) = c + rsum (zip_with g xs ys)); [|rewrite G; cbn; lra].
  revert ys. induction xs as [|x xs IH]; intros [|y ys] c; cbn; try lra. cbn in IH. rewrite IH, E. lra.
Qed.
Lemma IZR_len xs : IZR (Z.of_nat (length xs)) = len xs.
Proof. unfold len. rewrite INR_IZR_INZ. reflexivity. Qed.

(** What run_cost_norm returns ([w]: number of rows, for matrices). *)
Definition cost_val (k : kind) (w : nat) (f : costfn) xs ys : R :=
  match f with
  | MSE => sqsum xs ys / 2 * len xs
  | RMSE => match k with KV => rmse xs ys | KM => sqrt (sqsum xs ys / INR w) end
  | MAE => mae xs ys
  | MBE => mbe xs ys
  | LOGISTIC_LOSS => log_loss_eps (1 / 100000000) xs ys
  | CROSS_ENTROPY => cross_entropy xs ys
  | HINGE_LOSS => hinge xs ys
  | WASSERSTEIN_LOSS => wasserstein xs ys
  end.

Ltac cfold := apply wp_eq; eapply cost_fold_ok; [eassumption|eassumption|eassumption|assumption|].
Theorem C39_cost_value k f h a b c w c' w' xs ys : wf h -> abs h !! a = Some (KObj k c w xs) -> abs h !! b = Some (KObj k c' w' ys) ->
  length xs = length ys -> run_cost_norm k f (Some a) (Some b) h = Ok (cost_val k w f xs ys) h.
Proof.
  intros Hw Ha Hb E.
  destruct f; unfold run_cost_norm, c_mse, c_rmsev, c_rmsem, c_mae, c_mbe, c_log_loss, c_cross_entropy, c_hinge, c_wasserstein, cost_val.
  - cfold. apply wp_ret. split; [|reflexivity]. rewrite (fold2_sum2 _ (fun x y => (x - y) * (x - y))) by reflexivity. cbn. rewrite IZR_len. reflexivity.
  - destruct k; cfold.
    + apply wp_ret. split; [|reflexivity]. rewrite (fold2_sum2 _ (fun x y => (x - y) * (x - y))) by reflexivity. cbn. rewrite IZR_len. reflexivity.
    + wbind. eapply wp_m_size; [exact Ha|]. apply wp_ret. split; [|reflexivity]. rewrite (fold2_sum2 _ (fun x y => (x - y) * (x - y))) by reflexivity.
      cbn. rewrite INR_IZR_INZ. reflexivity.
  - cfold. apply wp_ret. split; [|reflexivity]. rewrite (fold2_sum2 _ (fun x y => Rabs (x - y))) by (intros; apply s_abs_R). cbn. rewrite IZR_len. reflexivity.
  - cfold. apply wp_ret. split; [|reflexivity]. rewrite (fold2_sum2 _ (fun x y => x - y)) by reflexivity. cbn. rewrite IZR_len. reflexivity.
  - cfold. apply wp_ret. split; [|reflexivity]. rewrite (fold2_sum2 _ (fun x y => - (y * ln (x + 1 / 100000000) + (1 - y) * ln (1 - x + 1 / 100000000)))) by reflexivity.
    cbn. rewrite IZR_len. reflexivity.
  - cfold. apply wp_ret. split; [|reflexivity]. rewrite (fold2_sum2 _ (fun x y => y * ln x)) by reflexivity. cbn. unfold cross_entropy. lra.
  - cfold. apply wp_ret. split; [|reflexivity]. rewrite (fold2_sum2 _ (fun x y => Rmax 0 (1 - y * x))).
    + cbn. rewrite IZR_len. reflexivity.
    + intros. unfold s_max. cbn. unfold Rmax, Rltb. destruct (Rlt_dec _ _), (Rle_dec _ _); lra.
  - cfold. apply wp_ret. split; [|reflexivity]. rewrite (fold2_sum2 _ Rmult) by reflexivity. cbn. rewrite IZR_len. reflexivity.
Qed.
(** Different numbers of elements: 0, whatever the contents. *)
Theorem C39_cost_mismatch {F} `{Scalar F} `{Libm F} k f (h : heap F) a b c w c' w' (xs ys : list F) : wf h ->
  abs h !! a = Some (KObj k c w xs) -> abs h !! b = Some (KObj k c' w' ys) ->
  length xs <> length ys -> run_cost_norm k f (Some a) (Some b) h = Ok s_zero h.
Proof. intros Hw Ha Hb E. destruct f; [| destruct k | | | | | |]; eapply cost_fold_mismatch; eassumption. Qed.
Theorem C39_huber_value k h a b c w c' w' xs ys d : wf h -> abs h !! a = Some (KObj k c w xs) -> abs h !! b = Some (KObj k c' w' ys) ->
  c_huber k (Some a) (Some b) d h = Ok (if decide (length xs = length ys) then huber d xs ys else 0) h.
Proof.
  intros Hw Ha Hb. unfold c_huber. case_decide as E; [|change 0 with (s_zero (F := R)); eapply cost_fold_mismatch; eassumption]. cfold. apply wp_ret. split; [|reflexivity].
  apply fold2_sum2. intros. unfold huber1, huber1_spec, s_le. rewrite s_abs_R. cbn. unfold Rltb, Reqb.
  destruct (Rlt_dec _ _), (Req_EM_T _ _), (Rle_dec _ _); cbn; lra.
Qed.
(** The weighted hinge loss adds half the squared norm of the weights. *)
Theorem C39_weighted_hinge_vector h a b wl xs ys ws C : wf h -> abs h !! a = Some (AVec xs) -> abs h !! b = Some (AVec ys) -> abs h !! wl = Some (AVec ws) ->
  length xs = length ys -> c_hingewv (Some a) (Some b) (Some wl) C h = Ok (C * hinge xs ys + ridge 1 ws) h.
Proof.
  intros Hw Ha Hb Hl E. unfold c_hingewv, bind.
  pose proof (C39_cost_value KV HINGE_LOSS h a b 0%nat 0%nat 0%nat 0%nat xs ys Hw Ha Hb E) as G. cbn [run_cost_norm cost_val] in G. rewrite G.
  rewrite (reg_term_ok KV h wl 0%nat 0%nat ws) by assumption. unfold ret. f_equal. cbn. unfold ridge.
  rewrite (foldl_add_acc (fun x => x * x)). unfold s_two. cbn. lra.
Qed.
(** The matrix form never returns: it dereferences a null reference. *)
Theorem C39_weighted_hinge_matrix_refuted h a b (wl : option loc) c w c' w' xs ys C : wf h -> abs h !! a = Some (AMat c w xs) -> abs h !! b = Some (AMat c' w' ys) ->
  c_hingewm (Some a) (Some b) wl C h = UB.
Proof.
  intros Hw Ha Hb. unfold c_hingewm, bind. destruct (decide (length xs = length ys)) as [E|E].
  - pose proof (C39_cost_value KM HINGE_LOSS h a b c w c' w' xs ys Hw Ha Hb E) as G. cbn [run_cost_norm cost_val] in G. rewrite G. reflexivity.
  - pose proof (C39_cost_mismatch KM HINGE_LOSS h a b c w c' w' xs ys Hw Ha Hb E) as G. cbn [run_cost_norm] in G. rewrite G. reflexivity.
Qed.
(** A null argument is undefined behaviour for every cost. *)
Theorem C39_cost_null {F} `{Scalar F} `{Libm F} k f (h : heap F) (b : option loc) : run_cost_norm k f None b h = UB.
Proof. destruct f; [|destruct k| | | | | |]; reflexivity. Qed.
(** msev/msem multiply by the number of elements where the mean squared error (halved) divides by it. *)
Theorem C39_mse_normalisation_refuted k h a b c w c' w' xs ys : wf h -> abs h !! a = Some (KObj k c w xs) -> abs h !! b = Some (KObj k c' w' ys) ->
  length xs = length ys -> (2 <= length xs)%nat -> xs <> ys ->
  exists v, run_cost_norm k MSE (Some a) (Some b) h = Ok v h /\ v = (len xs * len xs) * (sqsum xs ys / (2 * len xs)) /\ v <> sqsum xs ys / (2 * len xs).
Proof.
  intros Hw Ha Hb E L Hne. eexists. split; [eapply C39_cost_value; eassumption|]. cbn [cost_val].
  assert (2 <= len xs) as Hl by (unfold len; apply (le_INR 2); exact L).
  assert (HS : 0 < sqsum xs ys) by (pose proof (sqsum_nonneg xs ys); pose proof (sqsum_zero xs ys E); destruct (Req_dec (sqsum xs ys) 0); [tauto|lra]).
  assert (G : sqsum xs ys / 2 * len xs = (len xs * len xs) * (sqsum xs ys / (2 * len xs))) by (field; lra). split; [exact G|].
  rewrite G. assert (0 < sqsum xs ys / (2 * len xs)) by (apply Rdiv_lt_0_compat; lra).
  set (q := sqsum xs ys / (2 * len xs)) in *. assert (0 < (len xs * len xs - 1) * q) by (apply Rmult_lt_0_compat; nra). intros Z. lra.
Qed.

(** ** C40: gradients *)
Lemma times_id gs : times 1 gs = gs.
Proof. unfold times. induction gs as [|g gs IH]; cbn; [reflexivity|]. f_equal; [lra|exact IH]. Qed.
Lemma la_scale_ok k cc h z c w xs (Q : option loc -> heap R -> Prop) : wf h -> abs h !! z = Some (KObj k c w xs) ->
  (forall (o : loc) (h' : heap R), wf h' -> abs h !! o = None -> abs h' = <[o := KObj k c w ((fun x => x * cc) <$> xs)]> (abs h) -> Q (Some o) h') ->
  wp (la_scale k cc (Some z)) h Q.
Proof. intros Hw Hz HQ. unfold la_scale. eapply la1_ok; [exact Hw|exact Hz|exact HQ]. Qed.
Lemma la_sadd_ok k cc h z c w xs (Q : option loc -> heap R -> Prop) : wf h -> abs h !! z = Some (KObj k c w xs) ->
  (forall (o : loc) (h' : heap R), wf h' -> abs h !! o = None -> abs h' = <[o := KObj k c w ((fun x => x + cc) <$> xs)]> (abs h) -> Q (Some o) h') ->
  wp (la_sadd k cc (Some z)) h Q.
Proof. intros Hw Hz HQ. unfold la_sadd. eapply la1_ok; [exact Hw|exact Hz|exact HQ]. Qed.

(** MSE: the derivative is the gradient of the returned value divided by the number of elements. *)
Theorem C40_mse_gradient k h a b c w xs ys : wf h -> abs h !! a = Some (KObj k c w xs) -> abs h !! b = Some (KObj k c w ys) -> length xs = length ys ->
  exists gs, runs (run_cost_deriv k MSE (Some a) (Some b)) h (returns (KObj k c w gs) h) /\
    gradient (fun v => cost_val k w MSE v ys) xs (times (len xs) gs).
Proof.
  intros Hw Ha Hb E. exists (zip_with Rminus xs ys). split.
  - apply runs_wp. eapply la2_ok; [exact Hw|exact Ha|exact Hb|exact E|]. intros. vec1. assumption.
  - pose proof (grad_sqsum xs ys E) as G. replace (times (len xs) (zip_with Rminus xs ys)) with (times (len xs / 2) (times 2 (zip_with Rminus xs ys))).
    + eapply grad_scal; [exact G|]. intros v Hv. cbn. unfold len. rewrite Hv. lra.
    + rewrite times_times. f_equal. lra.
Qed.
Lemma times_comm c0 gs : (fun x => x * c0) <$> gs = times c0 gs.
Proof. unfold times. apply list_fmap_ext. intros. apply Rmult_comm. Qed.
(** la2 followed by a scaling. *)
Lemma la2_scale_ok k f cc h a b c w xs ys : wf h -> abs h !! a = Some (KObj k c w xs) -> abs h !! b = Some (KObj k c w ys) -> length xs = length ys ->
  runs (let! t := la2 k f (Some a) (Some b) in let! x := la_scale k cc t in drop_ref true t ;;; ret x) h (returns (KObj k c w (times cc (zip_with f xs ys))) h).
Proof.
  intros Hw Ha Hb E. apply runs_wp. wbind. eapply la2_ok; [exact Hw|exact Ha|exact Hb|exact E|]. intros t h1 W1 N1 A1.
  wbind. eapply la_scale_ok; [exact W1|rewrite A1; apply lookup_insert|]. intros o h2 W2 N2 A2.
  assert (o <> t) by (intros ->; rewrite A1, lookup_insert in N2; discriminate).
  wbind. cbn [drop_ref]. eapply wp_del; [exact W2|rewrite A2, lookup_insert_ne, A1 by congruence; apply lookup_insert|]. intros h3 W3 A3 _. apply wp_ret.
  assert (abs h !! o = None) by (rewrite A1, lookup_insert_ne in N2 by congruence; exact N2). vec1.
  rewrite A3, A2, A1. rewrite times_comm. mapeq.
Qed.
Lemma runs_bind_pure {A B} (m : M R A) (n : A -> M R B) h v (Q : B -> heap R -> Prop) : m h = Ok v h -> runs (n v) h Q -> runs (let! x := m in n x) h Q.
Proof. intros E G. unfold runs, bind in *. rewrite E. exact G. Qed.
Lemma sqsum_pos xs ys : length xs = length ys -> xs <> ys -> 0 < sqsum xs ys.
Proof. intros E Hne. pose proof (sqsum_nonneg xs ys). pose proof (sqsum_zero xs ys E). destruct (Req_dec (sqsum xs ys) 0); [tauto|lra]. Qed.
(** RMSE of vectors: gradient / sqrt 2. *)
Theorem C40_rmse_gradient_vector h a b xs ys : wf h -> abs h !! a = Some (AVec xs) -> abs h !! b = Some (AVec ys) -> length xs = length ys -> xs <> ys ->
  exists gs, runs (run_cost_deriv KV RMSE (Some a) (Some b)) h (returns (AVec gs) h) /\
    gradient (fun v => cost_val KV 0 RMSE v ys) xs (times (sqrt 2) gs).
Proof.
  intros Hw Ha Hb E Hne. assert (xs <> []) as Hx by (intros ->; destruct ys; [congruence|discriminate]). pose proof (len_pos xs Hx) as Hl.
  pose proof (sqsum_pos xs ys E Hne) as HS.
  set (m := sqsum xs ys / 2 * len xs). assert (0 < m) as Hm by (apply Rmult_lt_0_compat; lra).
  exists (times (1 / (2 * sqrt m)) (zip_with Rminus xs ys)). split.
  - cbn [run_cost_deriv]. unfold d_rmse. pose proof (C39_cost_value KV MSE h a b 0%nat 0%nat 0%nat 0%nat xs ys Hw Ha Hb E) as V. cbn [run_cost_norm cost_val] in V.
    eapply runs_bind_pure; [exact V|]. apply (la2_scale_ok KV _ _ h a b 0%nat 0%nat xs ys); assumption.
  - pose proof (grad_sqrt_sqsum (/ len xs) xs ys E ltac:(apply Rinv_0_lt_compat; lra) Hne) as G.
    eapply grad_ext; [|intros v Hv; cbn [cost_val]; unfold rmse, Rdiv; rewrite Rmult_comm; unfold len; rewrite Hv; reflexivity].
    match goal with |- gradient _ _ ?g => match type of G with gradient _ _ ?g' => replace g with g'; [exact G|] end end.
    set (S := sqsum xs ys) in *. set (n := len xs) in *.
    rewrite times_times. f_equal.
    assert (Hs : 0 < sqrt (n * S)) by (apply sqrt_lt_R0, Rmult_lt_0_compat; assumption).
    assert (H2 : 0 < sqrt 2) by (apply sqrt_lt_R0; lra).
    assert (E1 : sqrt (/ n * S) = sqrt (n * S) / n).
    { replace (/ n * S) with ((n * S) / (n * n)) by (field; lra). rewrite sqrt_div by (try apply Rmult_lt_0_compat; nra). rewrite sqrt_square by lra. reflexivity. }
    assert (E2 : sqrt m = sqrt (n * S) / sqrt 2).
    { unfold m. replace (S / 2 * n) with ((n * S) / 2) by lra. apply sqrt_div; nra. }
    rewrite E1, E2. pose proof (sqrt_sqrt 2 ltac:(lra)) as Q2. field_simplify; try lra. replace (sqrt 2 ^ 2) with 2 by (cbn; lra). field. lra.
Qed.
(** RMSE of matrices: a positive multiple of the gradient, but the multiple depends on the data. *)
Theorem C40_rmse_direction_matrix h a b c w xs ys : wf h -> abs h !! a = Some (AMat c w xs) -> abs h !! b = Some (AMat c w ys) -> length xs = length ys -> xs <> ys ->
  exists gs kappa, 0 < kappa /\ runs (run_cost_deriv KM RMSE (Some a) (Some b)) h (returns (AMat c w gs) h) /\
    gradient (fun v => cost_val KM w RMSE v ys) xs (times kappa gs) /\
    kappa = 2 * sqrt 2 / (sqrt (INR w) * sqrt (len xs) * sqsum xs ys).
Proof.
  intros Hw Ha Hb E Hne. assert (xs <> []) as Hx by (intros ->; destruct ys; [congruence|discriminate]). pose proof (len_pos xs Hx) as Hl.
  assert (Hwp : 0 < INR w). { destruct (kobj_len h a KM c w xs Hw Ha) as [_ L]. apply lt_0_INR. destruct w; [|lia]. rewrite Nat.mul_0_r in L. destruct xs; [congruence|discriminate]. }
  pose proof (sqsum_pos xs ys E Hne) as HS.
  set (m := sqsum xs ys / 2 * len xs). assert (0 < m) as Hm by (apply Rmult_lt_0_compat; lra).
  exists (times (1 / (2 / sqrt m)) (zip_with Rminus xs ys)), (2 * sqrt 2 / (sqrt (INR w) * sqrt (len xs) * sqsum xs ys)).
  pose proof (sqrt_lt_R0 _ Hwp) as Hsw. pose proof (sqrt_lt_R0 _ Hl) as Hsl. pose proof (sqrt_lt_R0 2 ltac:(lra)) as Hs2. pose proof (sqrt_lt_R0 _ HS) as HsS.
  split; [|split; [|split; [|reflexivity]]].
  - apply Rdiv_lt_0_compat; [lra|]. apply Rmult_lt_0_compat; [nra|lra].
  - cbn [run_cost_deriv]. unfold d_rmse. pose proof (C39_cost_value KM MSE h a b c w c w xs ys Hw Ha Hb E) as V. cbn [run_cost_norm cost_val] in V.
    eapply runs_bind_pure; [exact V|]. apply (la2_scale_ok KM _ _ h a b c w xs ys); assumption.
  - pose proof (grad_sqrt_sqsum (/ INR w) xs ys E ltac:(apply Rinv_0_lt_compat; lra) Hne) as G.
    eapply grad_ext; [|intros v Hv; cbn [cost_val]; unfold rmse, Rdiv; rewrite Rmult_comm; reflexivity].
    match goal with |- gradient _ _ ?g => match type of G with gradient _ _ ?g' => replace g with g'; [exact G|] end end.
    set (S := sqsum xs ys) in *. set (n := len xs) in *. set (r := INR w) in *.
    rewrite times_times. f_equal.
    assert (E1 : sqrt (/ r * S) = sqrt S / sqrt r) by (rewrite Rmult_comm; apply sqrt_div; lra).
    assert (E2 : sqrt m = sqrt S * sqrt n / sqrt 2).
    { unfold m. replace (S / 2 * n) with ((S * n) / 2) by lra. rewrite sqrt_div, sqrt_mult by nra. reflexivity. }
    pose proof (sqrt_sqrt S ltac:(lra)) as QS. pose proof (sqrt_sqrt r ltac:(lra)) as Qr.
    rewrite E1, E2. rewrite <- QS at 2. rewrite <- Qr at 1. field. repeat split; lra.
Qed.
(** Cross entropy: exactly the gradient, at positive predictions. *)
Theorem C40_cross_entropy_gradient k h a b c w xs ys : wf h -> abs h !! a = Some (KObj k c w xs) -> abs h !! b = Some (KObj k c w ys) -> length xs = length ys ->
  Forall (fun x => 0 < x) xs ->
  exists gs, runs (run_cost_deriv k CROSS_ENTROPY (Some a) (Some b)) h (returns (KObj k c w gs) h) /\
    gradient (fun v => cost_val k w CROSS_ENTROPY v ys) xs gs.
Proof.
  intros Hw Ha Hb E Hp. exists (times (-1) (zip_with Rdiv ys xs)). split; [apply (la2_scale_ok k Rdiv (-1)); auto|].
  eapply grad_scal; [|intros v Hv; cbn [cost_val]; unfold cross_entropy; instantiate (1 := fun v => sum2 (fun x y => y * ln x) v ys); cbv beta; ring].
  replace (zip_with Rdiv ys xs) with (zip_with (fun x y => y / x) xs ys) by (clear; revert ys; induction xs as [|x xs IH]; intros [|y ys]; cbn; [reflexivity..|]; f_equal; apply IH).
  apply grad_sum2; [exact E|]. intros i x y Hx _. rewrite Forall_lookup in Hp. specialize (Hp i x Hx). cbn in Hp.
  replace (y / x) with (y * / x) by reflexivity. apply (derivable_pt_lim_scal ln). apply derivable_pt_lim_ln. exact Hp.
Qed.
(** Mean bias error of vectors. *)
Theorem C40_mbe_gradient_vector h a rb xs ys : wf h -> abs h !! a = Some (AVec xs) -> length xs = length ys -> 
  exists gs, runs (run_cost_deriv KV MBE (Some a) rb) h (returns (AVec gs) h) /\
    gradient (fun v => cost_val KV 0 MBE v ys) xs (times (/ len xs) gs).
Proof.
  intros Hw Ha E. exists (replicate (length xs) 1). split.
  - apply runs_wp. cbn [run_cost_deriv]. unfold d_mbe. wbind. apply wp_ret. wbind. eapply wp_v_size_vec; [exact Ha|].
    pose proof (avec_len _ _ _ Hw Ha). wbind. apply wp_v_full; [exact Hw|lia|]. intros o h' W N A. apply wp_ret. rewrite Nat2Z.id in A. vec1. exact A.
  - eapply grad_scal; [|intros v Hv; cbn [cost_val]; unfold mbe, len; rewrite Hv; apply Rmult_comm].
    replace (replicate (length xs) 1) with (zip_with (fun _ _ : R => 1) xs ys).
    + apply grad_sum2; [exact E|]. intros i x y _ _. replace 1 with (1 - 0) by lra. apply (derivable_pt_lim_minus id (fun _ => y)); [apply derivable_pt_lim_id|apply derivable_pt_lim_const].
    + clear - E. revert ys E. induction xs as [|x xs IH]; intros [|y ys] E; try discriminate; [reflexivity|]. cbn. f_equal. apply IH. injection E as E. exact E.
Qed.
(** For matrices the result has the transposed shape. *)
Theorem C40_mbe_matrix_shape_refuted h a rb c w xs : wf h -> abs h !! a = Some (AMat c w xs) ->
  runs (run_cost_deriv KM MBE (Some a) rb) h (returns (AMat w c (replicate (c * w) 1)) h).
Proof.
  intros Hw Ha. destruct (kobj_len h a KM c w xs Hw Ha) as [L1 L2]. apply runs_wp. cbn [run_cost_deriv]. unfold d_mbe. wbind. apply wp_ret.
  wbind. eapply wp_m_size; [exact Ha|]. cbv beta iota. wbind. apply wp_m_full; [exact Hw|lia|]. intros o h' W N A. apply wp_ret. vec1. rewrite A. unfold Mat. rewrite mlist_const. reflexivity.
Qed.
(** Hinge loss away from the kinks. *)
Theorem C40_hinge_gradient k h a b c w c' w' xs ys : wf h -> abs h !! a = Some (KObj k c w xs) -> abs h !! b = Some (KObj k c' w' ys) -> length xs = length ys ->
  (forall i x y, xs !! i = Some x -> ys !! i = Some y -> y * x <> 1) ->
  exists gs, runs (run_cost_deriv k HINGE_LOSS (Some a) (Some b)) h (returns (KObj k c w gs) h) /\
    gradient (fun v => cost_val k w HINGE_LOSS v ys) xs (times (/ len xs) gs).
Proof.
  intros Hw Ha Hb E Hk. exists (zip_with (hinge_d1 (F := R)) xs ys). split.
  - apply runs_wp. eapply d_loop_ok; [exact Hw|exact Ha|exact Hb|exact E|]. intros. vec1. assumption.
  - eapply grad_scal; [|intros v Hv; cbn [cost_val]; unfold hinge, len; rewrite Hv; apply Rmult_comm].
    apply grad_sum2; [exact E|]. intros i x y Hx Hy. specialize (Hk i x y Hx Hy).
    pose proof (D_hinge1 x y ltac:(lra)) as G. unfold hinge_d1. cbn. unfold Rltb. destruct (Rlt_dec 0 (1 - y * x)); exact G.
Qed.
(** Wasserstein loss; the shape is that of the targets. *)
Theorem C40_wasserstein_gradient k h (ra : option loc) b c w xs ys : wf h -> abs h !! b = Some (KObj k c w ys) -> length xs = length ys ->
  exists gs, runs (run_cost_deriv k WASSERSTEIN_LOSS ra (Some b)) h (returns (KObj k c w gs) h) /\
    gradient (fun v => cost_val k w WASSERSTEIN_LOSS v ys) xs (times (/ len xs) gs).
Proof.
  intros Hw Hb E. exists (times (-1) ys). split.
  - apply runs_wp. eapply la_scale_ok; [exact Hw|exact Hb|]. intros. vec1. rewrite <- times_comm. assumption.
  - rewrite times_times. eapply grad_scal; [|intros v Hv; cbn [cost_val]; unfold wasserstein, len; rewrite Hv; instantiate (1 := fun v => sum2 Rmult v ys); cbv beta; unfold Rdiv; ring].
    assert (Z : zip_with (fun _ y : R => y) xs ys = ys).
    { clear - E. revert ys E. induction xs as [|x xs IH]; intros [|y ys] E; try discriminate; [reflexivity|]. cbn. f_equal. apply IH. injection E as E. exact E. }
    pose proof (grad_sum2 Rmult (fun _ y => y) xs ys E) as G. rewrite Z in G. apply G. intros i x y _ _.
    eapply D_ext; [| |apply (derivable_pt_lim_scal id y x 1), derivable_pt_lim_id]; [intros t; apply Rmult_comm|lra].
Qed.
(** Log loss: the derivative is (elements x) the gradient of the loss without the 1e-8 guard. *)
Lemma log_loss_deriv_run k h a b c w xs ys : wf h -> abs h !! a = Some (KObj k c w xs) -> abs h !! b = Some (KObj k c w ys) -> length xs = length ys ->
  runs (run_cost_deriv k LOGISTIC_LOSS (Some a) (Some b)) h
    (returns (KObj k c w (zip_with (fun x y => y / x * -1 + ((y + -1) * -1) / ((x + -1) * -1)) xs ys)) h).
Proof.
  intros Hw Ha Hb E. apply runs_wp. cbn [run_cost_deriv]. unfold d_log_loss.
  assert (G : forall h1 o a0, abs h1 !! o = None -> abs h1 !! a0 = Some (KObj k c w xs) \/ abs h1 !! a0 = Some (KObj k c w ys) -> o <> a0) by (intros h1 o a0 N [S|S]; congruence).
  wbind. eapply la2_ok; [exact Hw|exact Hb|exact Ha|congruence|]. intros q1 h1 W1 N1 A1.
  assert (a <> q1 /\ b <> q1) as [? ?] by (split; congruence).
  wbind. eapply la_scale_ok; [exact W1|rewrite A1; apply lookup_insert|]. intros t1 h2 W2 N2 A2.
  assert (t1 <> q1) by (intros ->; rewrite A1, lookup_insert in N2; discriminate). rewrite A1, lookup_insert_ne in N2 by congruence.
  assert (a <> t1 /\ b <> t1) as [? ?] by (split; congruence).
  wbind. cbn [drop_ref]. eapply wp_del; [exact W2|rewrite A2, lookup_insert_ne, A1 by congruence; apply lookup_insert|]. intros h3 W3 A3 _.
  assert (E3 : abs h3 = <[t1 := KObj k c w (times (-1) (zip_with Rdiv ys xs))]> (abs h)) by (rewrite A3, A2, A1, times_comm; mapeq).
  clear h1 W1 A1 h2 W2 A2 A3.
  assert (Hb3 : abs h3 !! b = Some (KObj k c w ys)) by (rewrite E3, lookup_insert_ne by congruence; exact Hb).
  assert (Ha3 : abs h3 !! a = Some (KObj k c w xs)) by (rewrite E3, lookup_insert_ne by congruence; exact Ha).
  (* (-1) * (y - 1) *)
  wbind. eapply la_sadd_ok; [exact W3|exact Hb3|]. intros u1 h4 W4 N4 A4. assert (b <> u1) by congruence. assert (a <> u1) by congruence.
  wbind. eapply la_scale_ok; [exact W4|rewrite A4; apply lookup_insert|]. intros u2 h5 W5 N5 A5.
  assert (u2 <> u1) by (intros ->; rewrite A4, lookup_insert in N5; discriminate). rewrite A4, lookup_insert_ne in N5 by congruence. assert (b <> u2) by congruence. assert (a <> u2) by congruence.
  wbind. cbn [drop_ref]. eapply wp_del; [exact W5|rewrite A5, lookup_insert_ne, A4 by congruence; apply lookup_insert|]. intros h6 W6 A6 _.
  assert (E6 : abs h6 = <[u2 := KObj k c w ((fun y => (y + -1) * -1) <$> ys)]> (abs h3)).
  { rewrite A6, A5, A4. rewrite <- list_fmap_compose. mapeq. }
  clear h4 W4 A4 h5 W5 A5 A6.
  assert (Ha6 : abs h6 !! a = Some (KObj k c w xs)) by (rewrite E6, lookup_insert_ne by congruence; exact Ha3).
  wbind. eapply la_sadd_ok; [exact W6|exact Ha6|]. intros w1 h7 W7 N7 A7. assert (w1 <> u2) by (intros ->; rewrite E6, lookup_insert in N7; discriminate).
  wbind. eapply la_scale_ok; [exact W7|rewrite A7; apply lookup_insert|]. intros w2 h8 W8 N8 A8.
  assert (w2 <> w1) by (intros ->; rewrite A7, lookup_insert in N8; discriminate). rewrite A7, lookup_insert_ne in N8 by congruence.
  assert (w2 <> u2) by (intros ->; rewrite E6, lookup_insert in N8; discriminate).
  wbind. cbn [drop_ref]. eapply wp_del; [exact W8|rewrite A8, lookup_insert_ne, A7 by congruence; apply lookup_insert|]. intros h9 W9 A9 _.
  assert (E9 : abs h9 = <[w2 := KObj k c w ((fun x => (x + -1) * -1) <$> xs)]> (abs h6)).
  { rewrite A9, A8, A7. rewrite <- list_fmap_compose. mapeq. }
  clear h7 W7 A7 h8 W8 A8 A9.
  (* the second quotient *)
  wbind. eapply la2_ok; [exact W9|rewrite E9, lookup_insert_ne, E6 by congruence; apply lookup_insert|rewrite E9; apply lookup_insert|rewrite !fmap_length; congruence|].
  intros q2 h10 W10 N10 A10.
  assert (q2 <> w2) by (intros ->; rewrite E9, lookup_insert in N10; discriminate). rewrite E9, lookup_insert_ne in N10 by congruence.
  assert (q2 <> u2) by (intros ->; rewrite E6, lookup_insert in N10; discriminate). rewrite E6, lookup_insert_ne in N10 by congruence.
  rewrite E6, lookup_insert_ne in N8 by congruence.
  wbind. cbn [drop_ref]. eapply wp_del; [exact W10|rewrite A10, lookup_insert_ne, E9, lookup_insert_ne, E6 by congruence; apply lookup_insert|]. intros h11 W11 A11 _.
  wbind. cbn [drop_ref]. eapply wp_del; [exact W11|rewrite A11, lookup_delete_ne, A10, lookup_insert_ne, E9 by congruence; apply lookup_insert|]. intros h12 W12 A12 _.
  assert (E12 : abs h12 = <[q2 := KObj k c w (zip_with Rdiv ((fun y => (y + -1) * -1) <$> ys) ((fun x => (x + -1) * -1) <$> xs))]> (abs h3)).
  { rewrite A12, A11, A10, E9, E6. mapeq. }
  assert (q2 <> t1) by (intros ->; rewrite E3, lookup_insert in N10; discriminate).
  clear h9 W9 h10 W10 A10 h11 W11 A11 A12 E9 E6.
  wbind. eapply la2_ok; [exact W12|rewrite E12, lookup_insert_ne, E3 by congruence; apply lookup_insert|rewrite E12; apply lookup_insert|unfold times; rewrite fmap_length, !zip_with_length, !fmap_length; lia|].
  intros o h13 W13 N13 A13.
  assert (o <> q2) by (intros ->; rewrite E12, lookup_insert in N13; discriminate). rewrite E12, lookup_insert_ne in N13 by congruence.
  assert (o <> t1) by (intros ->; rewrite E3, lookup_insert in N13; discriminate). rewrite E3, lookup_insert_ne in N13 by congruence.
  wbind. cbn [drop_ref]. eapply wp_del; [exact W13|rewrite A13, lookup_insert_ne, E12, lookup_insert_ne, E3 by congruence; apply lookup_insert|]. intros h14 W14 A14 _.
  wbind. cbn [drop_ref]. eapply wp_del; [exact W14|rewrite A14, lookup_delete_ne, A13, lookup_insert_ne, E12 by congruence; apply lookup_insert|]. intros h15 W15 A15 _.
  apply wp_ret. vec1. rewrite E3, lookup_insert_ne in N10 by congruence.
  match goal with |- abs h15 = <[o := KObj k c w ?l1]> _ => assert (El : zip_with Rplus (times (-1) (zip_with Rdiv ys xs)) (zip_with Rdiv ((fun y => (y + -1) * -1) <$> ys) ((fun x => (x + -1) * -1) <$> xs)) = l1) end.
  { clear - E. revert ys E. induction xs as [|x xs IH]; intros [|y ys] E; try discriminate; [reflexivity|]. cbn. injection E as E. f_equal; [lra|]. apply IH. exact E. }
  rewrite <- El. rewrite A15, A14, A13, E12, E3. mapeq.
Qed.
Theorem C40_log_loss_gradient k h a b c w xs ys : wf h -> abs h !! a = Some (KObj k c w xs) -> abs h !! b = Some (KObj k c w ys) -> length xs = length ys ->
  Forall (fun x => 0 < x < 1) xs ->
  exists gs, runs (run_cost_deriv k LOGISTIC_LOSS (Some a) (Some b)) h (returns (KObj k c w gs) h) /\
    gradient (fun v => log_loss_eps 0 v ys) xs (times (/ len xs) gs).
Proof.
  intros Hw Ha Hb E Hp. eexists. split; [eapply log_loss_deriv_run; eassumption|].
  eapply grad_scal; [|intros v Hv; unfold log_loss_eps, len; rewrite Hv; apply Rmult_comm].
  apply grad_sum2; [exact E|]. intros i x y Hx Hy. rewrite Forall_lookup in Hp. specialize (Hp i x Hx). cbn in Hp.
  apply D_logloss1. exact Hp.
Qed.

(** Mean absolute error: the derivative ignores the targets and looks at the sign of the prediction truncated to an integer. *)
Lemma Rtrunc_isign x i : m_to_int x = Some i -> (isign i : R) = if Rle_dec x (-1) then -1 else if Rlt_dec x 1 then 0 else 1.
Proof.
  cbn. unfold Rto_int. destruct (Rlt_dec _ _); [|discriminate]. destruct (Rlt_dec _ _); [|discriminate]. intros [= <-].
  unfold isign, Rtrunc. destruct (Rlt_dec x 0) as [Hn|Hn].
  - pose proof (base_Int_part (- x)) as [B1 B2]. destruct (Rle_dec x (-1)) as [L|L].
    + assert (0 < Int_part (- x))%Z by (apply lt_IZR; lra). destruct (Z.ltb_spec (- Int_part (- x)) 0); [reflexivity|lia].
    + assert (Int_part (- x) < 1)%Z by (apply lt_IZR; lra). assert (-1 < Int_part (- x))%Z by (apply lt_IZR; lra).
      destruct (Z.ltb_spec (- Int_part (- x)) 0); [lia|]. destruct (Z.eqb_spec (- Int_part (- x)) 0); [|lia]. destruct (Rlt_dec x 1); [reflexivity|lra].
  - pose proof (base_Int_part x) as [B1 B2]. destruct (Rle_dec x (-1)); [lra|]. assert (-1 < Int_part x)%Z by (apply lt_IZR; lra).
    destruct (Z.ltb_spec (Int_part x) 0); [lia|]. destruct (Rlt_dec x 1) as [L|L].
    + assert (Int_part x < 1)%Z by (apply lt_IZR; lra). destruct (Z.eqb_spec (Int_part x) 0); [reflexivity|lia].
    + assert (0 < Int_part x)%Z by (apply lt_IZR; lra). destruct (Z.eqb_spec (Int_part x) 0); [lia|reflexivity].
Qed.
Theorem C40_mae_deriv_value k h a (rb : option loc) c w xs : wf h -> abs h !! a = Some (KObj k c w xs) -> Forall int_range xs ->
  runs (run_cost_deriv k MAE (Some a) rb) h
    (returns (KObj k c w ((fun x => if Rle_dec x (-1) then -1 else if Rlt_dec x 1 then 0 else 1) <$> xs)) h).
Proof.
  intros Hw Ha Hr. destruct (Rto_int_Some xs Hr) as [is His]. apply runs_wp. eapply d_mae_ok; [exact Hw|exact Ha|exact His|].
  intros o h' W N A. vec1. rewrite A. do 2 f_equal. clear - His. induction His as [|x i xs is Hi His IH]; cbn; [reflexivity|]. f_equal; [|exact IH].
  apply Rtrunc_isign. exact Hi.
Qed.
(** ... so it can point the wrong way: predictions at least 1 and below the targets. *)
Theorem C40_mae_gradient_refuted k h a b c w c' w' xs ys : wf h -> abs h !! a = Some (KObj k c w xs) -> abs h !! b = Some (KObj k c' w' ys) -> Forall int_range xs ->
  xs <> [] -> Forall2 (fun x y => 1 <= x < y) xs ys ->
  exists gs, runs (run_cost_deriv k MAE (Some a) (Some b)) h (returns (KObj k c w gs) h) /\
    gradient (fun v => cost_val k w MAE v ys) xs (times (- / len xs) gs).
Proof.
  intros Hw Ha Hb Hr Hx F. pose proof (Forall2_length _ _ _ F) as E. eexists. split; [apply C40_mae_deriv_value; eassumption|].
  pose proof (len_pos xs Hx).
  match goal with |- gradient _ _ (times _ ?g) => replace (times (- / len xs) g) with (times (/ len xs) (zip_with (fun _ _ => -1) xs ys)) end.
  2:{ generalize (/ len xs). intros q. clear - F. induction F as [|x y xs ys Hxy F IH]; [reflexivity|]. cbn. f_equal; [|exact IH].
      destruct (Rle_dec x (-1)); [lra|]. destruct (Rlt_dec x 1); lra. }
  eapply grad_scal; [|intros v Hv; cbn [cost_val]; unfold mae, len; rewrite Hv; apply Rmult_comm].
  apply grad_sum2; [exact E|]. intros i x y Hxi Hyi. pose proof (Forall2_lookup_lr _ _ _ _ _ _ F Hxi Hyi) as L. cbn in L.
  pose proof (D_abs (x - y) ltac:(lra)) as G. destruct (Rlt_dec 0 (x - y)); [lra|].
  replace (-1) with (-1 * 1) by lra. apply (derivable_pt_lim_comp (fun t => t - y) Rabs); [|exact G].
  replace 1 with (1 - 0) by lra. apply (derivable_pt_lim_minus id (fun _ => y)); [apply derivable_pt_lim_id|apply derivable_pt_lim_const].
Qed.
(** Huber: half the gradient when every error is below delta ... *)
Theorem C40_huber_inside k h a b c w c' w' xs ys d : wf h -> abs h !! a = Some (KObj k c w xs) -> abs h !! b = Some (KObj k c' w' ys) ->
  Forall2 (fun x y => Rabs (y - x) < d) xs ys ->
  exists gs, runs (d_huber k (Some a) (Some b) d) h (returns (KObj k c w gs) h) /\ gradient (fun v => huber d v ys) xs (times 2 gs).
Proof.
  intros Hw Ha Hb F. pose proof (Forall2_length _ _ _ F) as E. exists (zip_with (huber_d1 d) xs ys). split.
  - apply runs_wp. eapply d_loop_ok; [exact Hw|exact Ha|exact Hb|exact E|]. intros. vec1. assumption.
  - rewrite times_zip. apply grad_sum2; [exact E|]. intros i x y Hxi Hyi. pose proof (Forall2_lookup_lr _ _ _ _ _ _ F Hxi Hyi) as L. cbn in L.
    destruct (D_huber1 d x y ltac:(lra)) as [G|[Z1 Z2]]; [|rewrite Z1, Rabs_R0 in L; lra].
    destruct (Rlt_dec (Rabs (y - x)) d); [|lra]. eapply D_ext; [reflexivity| |exact G].
    unfold huber_d1, s_le. rewrite s_abs_R. cbn. unfold Rltb. destruct (Rlt_dec (Rabs (y - x)) d); [|lra]. cbn. lra.
Qed.
(** ... and minus the gradient when every (positive) prediction is too small by more than delta. *)
Theorem C40_huber_outside_refuted k h a b c w c' w' xs ys d : wf h -> abs h !! a = Some (KObj k c w xs) -> abs h !! b = Some (KObj k c' w' ys) ->
  0 <= d -> Forall2 (fun x y => 0 < x /\ d < y - x) xs ys ->
  exists gs, runs (d_huber k (Some a) (Some b) d) h (returns (KObj k c w gs) h) /\ gradient (fun v => huber d v ys) xs (times (-1) gs).
Proof.
  intros Hw Ha Hb Hd F. pose proof (Forall2_length _ _ _ F) as E. exists (zip_with (huber_d1 d) xs ys). split.
  - apply runs_wp. eapply d_loop_ok; [exact Hw|exact Ha|exact Hb|exact E|]. intros. vec1. assumption.
  - rewrite times_zip. apply grad_sum2; [exact E|]. intros i x y Hxi Hyi. pose proof (Forall2_lookup_lr _ _ _ _ _ _ F Hxi Hyi) as L. cbn in L.
    assert (A : Rabs (y - x) = y - x) by (apply Rabs_right; lra).
    destruct (D_huber1 d x y ltac:(lra)) as [G|[Z1 Z2]]; [|lra]. rewrite A in G.
    destruct (Rlt_dec (y - x) d); [lra|]. destruct (Rlt_dec 0 (y - x)); [|lra]. eapply D_ext; [reflexivity| |exact G].
    unfold huber_d1, s_le. rewrite !s_abs_R. cbn. unfold Rltb, Reqb. rewrite A. destruct (Rlt_dec (y - x) d); [lra|]. destruct (Req_EM_T (y - x) d); [lra|].
    destruct (Rlt_dec 0 x); [|lra]. cbn. rewrite (Rabs_right x) by lra. field. lra.
Qed.

(** Mismatched sizes: a null reference, nothing leaked; but undefined behaviour for some of the matrix forms. *)
Lemma la2_mismatch_vec f h a b xs ys (Q : option loc -> heap R -> Prop) : wf h -> abs h !! a = Some (AVec xs) -> abs h !! b = Some (AVec ys) -> length xs <> length ys ->
  Q None h -> wp (la2 KV f (Some a) (Some b)) h Q.
Proof. intros Hw Ha Hb E HQ. unfold la2. eapply wp_v_op2n; [exact Hw|exact Ha|exact Hb|congruence|]. auto. Qed.
Theorem C40_deriv_mismatch_vector f h a b xs ys : wf h -> abs h !! a = Some (AVec xs) -> abs h !! b = Some (AVec ys) -> length xs <> length ys ->
  f ∉ [MAE; MBE; WASSERSTEIN_LOSS] -> runs (run_cost_deriv KV f (Some a) (Some b)) h (returns_null h).
Proof.
  intros Hw Ha Hb E Hf.
  assert (nul : forall h', wf h' -> abs h' = abs h -> wf h' /\ returns_null h None h') by (intros; split; [assumption|split; [reflexivity|assumption]]).
  rewrite !not_elem_of_cons in Hf. destruct Hf as (Hf1 & Hf2 & Hf3 & _). destruct f; try congruence; clear Hf1 Hf2 Hf3; apply runs_wp; cbn [run_cost_deriv].
  - unfold d_mse. eapply la2_mismatch_vec; [exact Hw|exact Ha|exact Hb|exact E|]. auto.
  - unfold d_rmse, d_mse. wbind. unfold wp.
    pose proof (C39_cost_mismatch KV MSE h a b 0%nat 0%nat 0%nat 0%nat xs ys Hw Ha Hb E) as V. cbn [run_cost_norm] in V. rewrite V.
    wbind. eapply la2_mismatch_vec; [exact Hw|exact Ha|exact Hb|exact E|]. wbind. apply wp_ret. wbind. apply wp_ret. apply wp_ret. auto.
  - unfold d_log_loss. wbind. eapply la2_mismatch_vec; [exact Hw|exact Hb|exact Ha|congruence|]. wbind. apply wp_ret. wbind. apply wp_ret.
    wbind. eapply (la_sadd_ok KV) with (c := 0%nat) (w := 0%nat); [exact Hw|exact Hb|]. intros u1 h4 W4 N4 A4. cbn [KObj] in A4. assert (b <> u1) by congruence. assert (a <> u1) by congruence.
    wbind. eapply (la_scale_ok KV) with (c := 0%nat) (w := 0%nat); [exact W4|rewrite A4; apply lookup_insert|]. intros u2 h5 W5 N5 A5. cbn [KObj] in A5.
    assert (u2 <> u1) by (intros ->; rewrite A4, lookup_insert in N5; discriminate). rewrite A4, lookup_insert_ne in N5 by congruence. assert (b <> u2) by congruence. assert (a <> u2) by congruence.
    wbind. cbn [drop_ref]. eapply wp_del; [exact W5|rewrite A5, lookup_insert_ne, A4 by congruence; apply lookup_insert|]. intros h6 W6 A6 _.
    assert (E6 : abs h6 = <[u2 := AVec ((fun x => x * -1) <$> ((fun x => x + -1) <$> ys))]> (abs h)) by (rewrite A6, A5, A4; mapeq).
    clear h4 W4 A4 h5 W5 A5 A6.
    wbind. eapply (la_sadd_ok KV) with (c := 0%nat) (w := 0%nat); [exact W6|rewrite E6, lookup_insert_ne by congruence; exact Ha|]. intros w1 h7 W7 N7 A7. cbn [KObj] in A7.
    assert (w1 <> u2) by (intros ->; rewrite E6, lookup_insert in N7; discriminate).
    wbind. eapply (la_scale_ok KV) with (c := 0%nat) (w := 0%nat); [exact W7|rewrite A7; apply lookup_insert|]. intros w2 h8 W8 N8 A8. cbn [KObj] in A8.
    assert (w2 <> w1) by (intros ->; rewrite A7, lookup_insert in N8; discriminate). rewrite A7, lookup_insert_ne in N8 by congruence.
    assert (w2 <> u2) by (intros ->; rewrite E6, lookup_insert in N8; discriminate).
    wbind. cbn [drop_ref]. eapply wp_del; [exact W8|rewrite A8, lookup_insert_ne, A7 by congruence; apply lookup_insert|]. intros h9 W9 A9 _.
    wbind. eapply la2_mismatch_vec; [exact W9|rewrite A9, lookup_delete_ne, A8, lookup_insert_ne, A7, lookup_insert_ne, E6 by congruence; apply lookup_insert|
      rewrite A9, lookup_delete_ne, A8 by congruence; apply lookup_insert|rewrite !fmap_length; congruence|].
    wbind. cbn [drop_ref]. eapply wp_del; [exact W9|rewrite A9, lookup_delete_ne, A8, lookup_insert_ne, A7, lookup_insert_ne, E6 by congruence; apply lookup_insert|]. intros h10 W10 A10 _.
    wbind. cbn [drop_ref]. eapply wp_del; [exact W10|rewrite A10, lookup_delete_ne, A9, lookup_delete_ne, A8 by congruence; apply lookup_insert|]. intros h11 W11 A11 _.
    wbind. apply wp_ret. wbind. apply wp_ret. wbind. apply wp_ret. apply wp_ret. apply nul; [exact W11|]. rewrite E6, lookup_insert_ne in N7, N8 by congruence.
    rewrite A11, A10, A9, A8, A7, E6. mapeq.
  - unfold d_cross_entropy. wbind. eapply la2_mismatch_vec; [exact Hw|exact Hb|exact Ha|congruence|]. wbind. apply wp_ret. wbind. apply wp_ret. apply wp_ret. auto.
  - unfold wp, d_hinge. rewrite (d_loop_mismatch KV hinge_d1 h a b 0%nat 0%nat 0%nat 0%nat xs ys) by assumption. auto.
Qed.
Theorem C40_deriv_mismatch_matrix_refuted f h a b c w c' w' xs ys : wf h -> abs h !! a = Some (AMat c w xs) -> abs h !! b = Some (AMat c' w' ys) -> (c, w) <> (c', w') ->
  f ∈ [RMSE; LOGISTIC_LOSS; CROSS_ENTROPY] -> run_cost_deriv KM f (Some a) (Some b) h = UB.
Proof.
  intros Hw Ha Hb E Hf.
  assert (Hf' : f = RMSE \/ f = LOGISTIC_LOSS \/ f = CROSS_ENTROPY) by (rewrite !elem_of_cons, elem_of_nil in Hf; tauto). clear Hf.
  assert (M : forall g, la2 KM g (Some a) (Some b) h = Ok None h) by (intros; apply wp_eq; unfold la2; eapply wp_m_op2n_mismatch; eauto).
  assert (M' : forall g, la2 KM g (Some b) (Some a) h = Ok None h) by (intros; apply wp_eq; unfold la2; eapply wp_m_op2n_mismatch; eauto).
  destruct Hf' as [-> |[-> | ->]]; cbn [run_cost_deriv].
  - unfold d_rmse, d_mse. assert (exists v, c_mse KM (Some a) (Some b) h = Ok v h) as [v V].
    { destruct (decide (length xs = length ys)) as [L|L].
      - eexists. apply (C39_cost_value KM MSE h a b c w c' w' xs ys); assumption.
      - eexists. apply (C39_cost_mismatch KM MSE h a b c w c' w' xs ys); assumption. }
    unfold bind at 1. rewrite V. unfold bind at 1. rewrite M. reflexivity.
  - unfold d_log_loss. unfold bind at 1. rewrite M'. reflexivity.
  - unfold d_cross_entropy. unfold bind at 1. rewrite M'. reflexivity.
Qed.
