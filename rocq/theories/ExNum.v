(** * Concrete cases meeting the hypotheses of C12, C27, C31 - C43, C48, C49. Every object is built through the API. *)
From Verif Require Import Base BaseProofs Vec VecSpec VecProofs VecProofs2 Mat MatSpec MatProofs MatProofs2 MatProofs3 MatProofs4 MatProofs5 Stat Act ActProofs Cost Svm Util UtilProofs ExBuild.
From Verif Require Import CostSpec PropReal PropStat PropMean PropMean2 PropMode PropRot PropCost PropCost2 PropSvm PropUtil.
From Verif Require Import RErf LibmR PropAct PropAct2.
From Coq Require Import Reals Lra Lia.
From Verif Require Import RInst.
Open Scope R_scope.

Ltac lr := cbn; try lra; try lia.
(** Facts about all elements of a written-down list. *)
Ltac each := let a := fresh "a" in let H := fresh "H" in intros a H; rewrite ?elem_of_cons, ?elem_of_nil in H; repeat (destruct H as [H|H]); try contradiction; subst a; lra.
Lemma not_constant (a b : R) xs : a <> b -> ~ PropStat.constant (a :: b :: xs).
Proof. intros N C. apply N. apply C; rewrite !elem_of_cons; auto. Qed.

Example ex_C12 : exists (h : heap R) a b d n1 n2, wf h /\ abs h !! a = Some (AVec [1;-2;3]) /\ abs h !! b = Some (AVec [4;5;-6]) /\
  v_dot a (Some b) h = Ok d h /\ v_norm_2 a h = Ok n1 h /\ v_norm_2 b h = Ok n2 h /\ Rabs d <= n1 * n2 /\ d = -24.
Proof.
  reach [LV [1;-2;3]; LV [4;5;-6]]. destruct (C12_cauchy_schwarz h d d0 [1;-2;3] [4;5;-6] W Hd Hd0 eq_refl) as (dd & n1 & n2 & E1 & E2 & E3 & L). exists h, d, d0, dd, n1, n2. split_and!; auto.
  rewrite (C12_dot_real h d d0 [1;-2;3] [4;5;-6] W Hd Hd0 eq_refl) in E1. injection E1 as <-. unfold dotp. cbn. lra.
Qed.
Example ex_C27 : exists (h : heap R) l f, wf h /\ abs h !! l = Some (Mat 3 2 f) /\
  runs (let! rx := m_rotaten l (PI / 3) 0 in let! x := deref rx in let! ry := m_rotaten x (- (PI / 3)) 0 in deref ry) h (fun y h' => PropAlg.same h' y l).
Proof.
  reach [LM 3 [[1;2;3];[4;5;6]]]. rewrite Rows_Mat in Hd by (repeat constructor). eexists h, d, _. split; [exact W|]. split; [exact Hd|]. eapply C27_rotate_back; [|exact W|exact Hd]. left. reflexivity.
Qed.
Example ex_C31 : exists (h : heap R) x y r, wf h /\ abs h !! x = Some (AVec [1;2;4]) /\ abs h !! y = Some (AVec [2;1;5]) /\
  st_mean (Some x) h = Ok (7 / 3) h /\ st_variance (Some x) h = Ok (7 / 3) h /\ st_covariance (Some x) (Some y) h = Ok (8 / 3) h /\
  st_correlation (Some x) (Some y) h = Ok r h /\ -1 <= r <= 1.
Proof.
  reach [LV [1;2;4]; LV [2;1;5]].
  destruct (C31_correlation_bounded h d d0 [1;2;4] [2;1;5] W Hd Hd0 eq_refl ltac:(lr) ltac:(apply not_constant; lra) ltac:(apply not_constant; lra)) as (r & E & _ & B & _).
  exists h, d, d0, r. split; [exact W|]. split; [exact Hd|]. split; [exact Hd0|].
  split; [rewrite (C31_mean h d [1;2;4] W Hd); f_equal; unfold mean; cbn; lra|].
  split; [rewrite (proj1 (C31_variance h d [1;2;4] W Hd)); f_equal; unfold variance, mean; cbn; lra|].
  split; [rewrite (C31_covariance h d d0 [1;2;4] [2;1;5] W Hd Hd0), decide_True by reflexivity; f_equal; unfold covariance, mean; cbn; lra|]. auto.
Qed.
Example ex_C31_chebyshev : exists (h : heap R) x m s, abs h !! x = Some (AVec [1;2;4;9]) /\ st_mean (Some x) h = Ok m h /\ st_sd (Some x) h = Ok s h /\ 3 / 4 * 4 <= INR (count_near m (2 * s) [1;2;4;9]).
Proof.
  reach [LV [1;2;4;9]]. destruct (C31_chebyshev h d [1;2;4;9] 2 W Hd ltac:(lr) ltac:(lra)) as (m & s & E1 & E2 & C & E). exists h, d, m, s. split_and!; auto. rewrite E in C. cbn [length INR] in C. lra.
Qed.
Example ex_C32 : exists (h : heap R) x y z b0 b1, abs h !! x = Some (AVec [1;2;4]) /\ abs h !! y = Some (AVec [2;1;5]) /\
  ulr_new (Some x) (Some y) h = Ok (ULR (Some x) (Some y) b0 b1) h /\ (forall c0 c1, sse [1;2;4] [2;1;5] b0 b1 <= sse [1;2;4] [2;1;5] c0 c1) /\
  runs (ulr_model_set_test (ULR (Some x) (Some y) b0 b1) (Some z)) h (fun o h' => abs h !! o = None /\ abs h' = <[o := AVec [b0 + b1 * 7; b0 + b1 * 8]]> (abs h)).
Proof.
  reach [LV [1;2;4]; LV [2;1;5]; LV [7;8]].
  destruct (C32_uni_lin_reg h d d0 d1 [1;2;4] [2;1;5] [7;8] W Hd Hd0 Hd1 eq_refl ltac:(lr) ltac:(apply not_constant; lra)) as (b0 & b1 & E & O & _ & R).
  exists h, d, d0, d1, b0, b1. split; [exact Hd|]. split; [exact Hd0|]. split; [exact E|]. split; [intros c0 c1; apply O|exact R].
Qed.
Example ex_C34 : exists (h : heap R) x hm gm am qm cm, abs h !! x = Some (AVec [1;2;4]) /\
    st_harmonic_mean (Some x) h = Ok hm h /\ st_geometric_mean (Some x) h = Ok gm h /\ st_mean (Some x) h = Ok am h /\
    st_rms (Some x) h = Ok qm h /\ st_contra_harmonic_mean (Some x) h = Ok cm h /\ 1 <= hm /\ hm <= gm /\ gm <= am /\ am <= qm /\ qm <= cm /\ cm <= 4.
Proof.
  reach [LV [1;2;4]]. destruct (C34_chain h d [1;2;4] 1 4 W Hd ltac:(discriminate) ltac:(lra) ltac:(each)) as (hm & gm & am & qm & cm & G). exists h, d, hm, gm, am, qm, cm. tauto.
Qed.
Example ex_C34_weighted : exists (h : heap R) x w m, abs h !! x = Some (AVec [1;2;4]) /\ abs h !! w = Some (AVec [1;0;3]) /\ st_weighted_mean (Some x) (Some w) h = Ok m h /\ m = 13 / 4.
Proof.
  reach [LV [1;2;4]; LV [1;0;3]]. destruct (C34_weighted_mean h d d0 [1;2;4] [1;0;3] 1 4 W Hd Hd0 eq_refl ltac:(each) ltac:(each) ltac:(cbn; lra)) as (m & E & V & _). exists h, d, d0, m. split_and!; auto. cbn in V. lra.
Qed.
Example ex_C34_two_arguments : 1 < st_stolarsky_mean 1 4 3 < 4 /\ 1 < st_identric_mean 1 4 < 4 /\ 2 <= st_heronian_mean 1 4 <= 5 / 2 /\ 1 <= st_log_mean 1 4 <= 4.
Proof.
  destruct (C34_stolarsky 1 4 3 ltac:(lra) ltac:(lra) ltac:(lra) ltac:(lra) ltac:(lra)) as [E1 _]. pose proof (C34_identric 1 4 ltac:(lra) ltac:(lra) ltac:(lra)) as E2.
  destruct (C34_heronian 1 4 ltac:(lra) ltac:(lra)) as [_ E3]. destruct (C34_log_mean 1 4 ltac:(lra) ltac:(lra)) as [_ E4].
  rewrite Rmin_left, Rmax_right in E1, E2, E4 by lra. replace (sqrt (1 * 4)) with 2 in E3 by (replace (1 * 4) with (2 * 2) by lra; rewrite sqrt_square; lra). lra.
Qed.
(** The order conditions of C33, C35 hold for all of R. *)
Lemma R_order : swo_on (F := R) (fun _ => True).
Proof.
  split; cbn; intros x; intros; rewrite ?Rltb_true, ?Rltb_false in *; lra.
Qed.
Example ex_C33 : exists (h : heap R) x y, abs h !! x = Some (AVec [4;1;3;2]) /\ abs h !! y = Some (AVec [5;1;3]) /\
  runs (st_median true (Some x)) h (fun m h' => abs h' = abs h /\ exists ys a b, ys ≡ₚ [4;1;3;2] /\ non_decreasing ys /\ ys !! 1%nat = Some a /\ ys !! 2%nat = Some b /\ m = (a + b) / 2) /\
  runs (st_median true (Some y)) h (fun m h' => abs h' = abs h /\ exists ys, ys ≡ₚ [5;1;3] /\ non_decreasing ys /\ ys !! 0%nat = Some m).
Proof.
  reach [LV [4;1;3;2]; LV [5;1;3]]. exists h, d, d0. split_and!; auto.
  - apply (C33_median_even (fun _ => True) true h d _ 1 R_order W Hd); [repeat constructor|reflexivity].
  - apply (C33_median_odd (fun _ => True) true h d0 _ 0 R_order W Hd0); [repeat constructor|reflexivity].
Qed.
Lemma R_eq : eq_on (F := R) (fun _ => True).
Proof. split; cbn; intros x; intros; rewrite ?Reqb_true in *; congruence. Qed.
Example ex_C35 : exists (h : heap R) x, abs h !! x = Some (AVec [4;1;4;2;1]) /\
  runs (st_mode (Some x)) h (fun r h' => exists o ms, r = Some o /\ abs h !! o = None /\ abs h' = <[o := AVec ms]> (abs h) /\ modes_of [4;1;4;2;1] ms).
Proof.
  reach [LV [4;1;4;2;1]]. exists h, d. split; [exact Hd|]. apply (C35_mode (fun _ => True) R_eq h d _ W Hd); [repeat constructor|discriminate|].
  intros a b Ha Hb. cbn. split.
  - destruct (Z.ltb_spec a b) as [L|L]; [apply Rltb_true, IZR_lt, L|apply Rltb_false, IZR_le, L].
  - destruct (Z.eqb_spec a b) as [->|L]; [apply Reqb_true; reflexivity|apply Reqb_false]. intros E. apply L, eq_IZR, E.
Qed.
Example ex_C36 : D (run_norm_real SIGMOID) 1 (derivr SIGMOID 1) /\ D (run_norm_real RELU) (-2) (derivr RELU (-2)) /\ D (run_norm_real LOGIT) (1 / 3) (derivr LOGIT (1 / 3)) /\ D (fun z => leaky_relu_normr z (1 / 10)) (-1) (leaky_relu_derivr (-1) (1 / 10)).
Proof. split_and!; [apply C36_derivative; cbn; try exact I; lra..|apply C36_leaky_relu; lra]. Qed.
Example ex_C37 : exists (h : heap R) v m, abs h !! v = Some (AVec [1;-2;0]) /\ abs h !! m = Some (AMat 2 2 [1;2;-3;4]) /\
  runs (run_norm_vector SIGMOID (Some v)) h (returns (AVec (run_norm_real SIGMOID <$> [1;-2;0])) h) /\
  runs (run_deriv_vector TANH (Some v)) h (returns (AVec (derivr TANH <$> [1;-2;0])) h) /\
  runs (run_norm_matrix RELU (Some m)) h (returns (AMat 2 2 (run_norm_real RELU <$> [1;2;-3;4])) h) /\
  runs (run_deriv_matrix 0 SIGMOID (Some m)) h (returns (AMat 2 2 (derivr SIGMOID <$> [1;2;-3;4])) h) /\
  runs (run_norm_matrix SWISH (Some m)) h (returns_null h).
Proof.
  reach [LV [1;-2;0]; LM 2 [[1;2];[-3;4]]]. change (Rows 2 [[1;2];[-3;4]]) with (AMat 2 2 [1;2;-3;4]) in Hd0. exists h, d, d0. split_and!; auto.
  - apply C37_norm_vector; [exact W|exact Hd|discriminate..].
  - apply C37_deriv_vector; [exact W|exact Hd|]. rewrite !elem_of_cons, elem_of_nil. intuition discriminate.
  - apply C37_norm_matrix; [exact W|exact Hd0|]. rewrite !elem_of_cons, elem_of_nil. intuition discriminate.
  - apply C37_deriv_matrix; [exact W|exact Hd0|]. rewrite !elem_of_cons, elem_of_nil. intuition discriminate.
  - apply (proj1 (C37_matrix_null_refuted 0 h d0 2 2 _ W Hd0)). rewrite !elem_of_cons. tauto.
Qed.
Example ex_C38 : exists (h : heap R) v m, abs h !! v = Some (AVec [1;-2;0]) /\ abs h !! m = Some (Rows 2 [[1;2];[-3;4]]) /\
  runs (run_norm_vector SOFTMAX (Some v)) h (returns (AVec (softmax [1;-2;0])) h) /\ runs (run_norm_vector ADJ_SOFTMAX (Some v)) h (returns (AVec (softmax [1;-2;0])) h) /\
  runs (run_norm_matrix SOFTMAX (Some m)) h (returns (Rows 2 (softmax <$> [[1;2];[-3;4]])) h) /\ rsum (softmax [1;-2;0]) = 1.
Proof.
  reach [LV [1;-2;0]; LM 2 [[1;2];[-3;4]]]. exists h, d, d0. split_and!; auto.
  - apply C38_softmax_vector; assumption.
  - apply (proj1 (C38_adj_softmax_vector h d _ W Hd)). repeat constructor; lra.
  - apply C38_softmax_matrix; [exact W|exact Hd0|repeat constructor|vm_compute; discriminate].
  - apply C38_softmax_distribution. discriminate.
Qed.
Example ex_C38_jacobian : exists (h : heap R) v J, abs h !! v = Some (AVec [1;-2;0]) /\ runs (softmax_deriv_normv (Some v)) h (returns (Mat 3 3 J) h) /\
  derivable_pt_lim (fun t => nth 0 (softmax [1; t; 0]) 0) (-2) (J 0%nat 1%nat).
Proof.
  reach [LV [1;-2;0]]. destruct (C38_softmax_jacobian h d [1;-2;0] W Hd ltac:(vm_compute; discriminate)) as (J & E & G). exists h, d, J. split_and!; auto. exact (G 0%nat 1%nat (-2) ltac:(cbn; lia) eq_refl).
Qed.
Example ex_C39 : exists (h : heap R) a b m p, abs h !! a = Some (AVec [1;2;4]) /\ abs h !! b = Some (AVec [0;2;1]) /\ abs h !! m = Some (AMat 2 2 [1;2;3;4]) /\ abs h !! p = Some (AMat 2 2 [1;2;3;6]) /\
  run_cost_norm KV MSE (Some a) (Some b) h = Ok 15 h /\ run_cost_norm KM MSE (Some m) (Some p) h = Ok 8 h.
Proof.
  reach [LV [1;2;4]; LV [0;2;1]; LM 2 [[1;2];[3;4]]; LM 2 [[1;2];[3;6]]]. exists h, d, d0, d1, d2. change (Rows 2 [[1;2];[3;4]]) with (AMat 2 2 [1;2;3;4]) in Hd1. change (Rows 2 [[1;2];[3;6]]) with (AMat 2 2 [1;2;3;6]) in Hd2. split_and!; auto.
  - rewrite (C39_cost_value KV MSE h d d0 0 0 0 0 [1;2;4] [0;2;1] W Hd Hd0 eq_refl). f_equal. cbn. unfold len, sqsum; cbn; lra.
  - rewrite (C39_cost_value KM MSE h d1 d2 2 2 2 2 [1;2;3;4] [1;2;3;6] W Hd1 Hd2 eq_refl). f_equal. cbn. unfold len, sqsum; cbn; lra.
Qed.
Example ex_C40 : exists (h : heap R) a b, abs h !! a = Some (AVec [1/2;1/3]) /\ abs h !! b = Some (AVec [1;0]) /\
  (exists gs, runs (run_cost_deriv KV MSE (Some a) (Some b)) h (returns (AVec gs) h) /\ gradient (fun v => cost_val KV 0 MSE v [1;0]) [1/2;1/3] (times 2 gs)) /\
  (exists gs, runs (run_cost_deriv KV LOGISTIC_LOSS (Some a) (Some b)) h (returns (AVec gs) h) /\ gradient (fun v => log_loss_eps 0 v [1;0]) [1/2;1/3] (times (/ 2) gs)) /\
  (exists gs, runs (run_cost_deriv KV CROSS_ENTROPY (Some a) (Some b)) h (returns (AVec gs) h) /\ gradient (fun v => cost_val KV 0 CROSS_ENTROPY v [1;0]) [1/2;1/3] gs) /\
  (exists gs, runs (d_huber KV (Some a) (Some b) 1) h (returns (AVec gs) h) /\ gradient (fun v => huber 1 v [1;0]) [1/2;1/3] (times 2 gs)).
Proof.
  reach [LV [1/2;1/3]; LV [1;0]]. exists h, d, d0. split_and!; auto.
  - exact (C40_mse_gradient KV h d d0 0 0 [1/2;1/3] [1;0] W Hd Hd0 eq_refl).
  - apply (C40_log_loss_gradient KV h d d0 0 0 [1/2;1/3] [1;0] W Hd Hd0 eq_refl). repeat constructor; lra.
  - apply (C40_cross_entropy_gradient KV h d d0 0 0 [1/2;1/3] [1;0] W Hd Hd0 eq_refl). repeat constructor; lra.
  - apply (C40_huber_inside KV h d d0 0 0 0 0 [1/2;1/3] [1;0] 1 W Hd Hd0). repeat constructor; unfold Rabs; destruct (Rcase_abs _); lra.
Qed.
Example ex_C40_mae : exists (h : heap R) a b gs, abs h !! a = Some (AVec [1;2]) /\ abs h !! b = Some (AVec [3;5]) /\
  runs (run_cost_deriv KV MAE (Some a) (Some b)) h (returns (AVec gs) h) /\ gradient (fun v => cost_val KV 0 MAE v [3;5]) [1;2] (times (- / 2) gs).
Proof.
  reach [LV [1;2]; LV [3;5]]. destruct (C40_mae_gradient_refuted KV h d d0 0 0 0 0 [1;2] [3;5] W Hd Hd0) as (gs & E & G); [repeat constructor; lra|discriminate|repeat constructor; lra|]. exists h, d, d0, gs. auto.
Qed.
Example ex_C41 : exists (h : heap R) a b v, abs h !! a = Some (AVec [1;2;4]) /\ abs h !! b = Some (AVec [0;2;1]) /\ run_cost_norm KV MAE (Some a) (Some b) h = Ok v h /\ 0 < v.
Proof.
  reach [LV [1;2;4]; LV [0;2;1]]. destruct (C41_error_costs KV MAE h d d0 0 0 0 0 [1;2;4] [0;2;1] W Hd Hd0 eq_refl) as (v & E & P & Z0); [discriminate|rewrite !elem_of_cons; tauto|]. exists h, d, d0, v. split_and!; auto.
  destruct P as [P|P]; [exact P|]. exfalso. symmetry in P. apply Z0 in P. injection P. lra.
Qed.
Example ex_C41_cross_entropy : exists (h : heap R) a b v v0, abs h !! a = Some (AVec [1/2;1/2]) /\ abs h !! b = Some (AVec [1/4;3/4]) /\
  run_cost_norm KV CROSS_ENTROPY (Some a) (Some b) h = Ok v h /\ run_cost_norm KV CROSS_ENTROPY (Some b) (Some b) h = Ok v0 h /\ v0 <= v.
Proof.
  reach [LV [1/2;1/2]; LV [1/4;3/4]]. destruct (C41_cross_entropy_minimum KV h d d0 0 0 0 0 [1/2;1/2] [1/4;3/4] W Hd Hd0 eq_refl) as (v & v0 & G); [repeat constructor; lra|repeat constructor; lra|cbn; lra|]. exists h, d, d0, v, v0. tauto.
Qed.
Example ex_C42 : exists (h : heap R) a, abs h !! a = Some (AVec [1;-2]) /\ reg_term KV (Some a) (1/2) 0 RRidge h = Ok (penalty (1/2) 0 RRidge [1;-2]) h /\
  (exists gs, runs (reg_deriv_term KV (Some a) (1/2) (1/3) RElastic) h (returns (AVec gs) h) /\ gradient (penalty (1/2) (1/3) RElastic) [1;-2] gs) /\
  (exists gs, runs (reg_weights KV (Some a) (-1) 3 RClip) h (returns (AVec gs) h) /\ nth 1 gs 0 = -1 /\ nth 0 gs 0 = 1).
Proof.
  reach [LV [1;-2]]. exists h, d. split_and!; auto.
  - apply (C42_reg_term KV h d 0 0 [1;-2] (1/2) 0 RRidge W Hd).
  - apply (C42_reg_gradient KV h d 0 0 [1;-2] (1/2) (1/3) RElastic W Hd); [rewrite !elem_of_cons; tauto|]. intros _. repeat constructor; lra.
  - destruct (C42_clipping KV h d 0 0 [1;-2] (-1) 3 W Hd ltac:(lra)) as (gs & E & G). exists gs. split; [exact E|]. inversion G as [|? x' ? gs' G1 G2]; subst. inversion G2 as [|? x2 ? gs2 G3 G4]; subst. cbn. split; [apply G3; lra|apply G1; lra].
Qed.
Example ex_C43 : exists (h : heap R) al x y X gs, abs h !! x = Some (Mat 2 3 X) /\ runs (d_dual_form_svm (Some al) (Some x) (Some y)) h (returns (AVec gs) h) /\ gradient (svm_dual 3 2 X [1;-1;1]) [1/2;1;0] gs.
Proof.
  reach [LV [1/2;1;0]; LM 2 [[1;1];[1;2];[1;3]]; LV [1;-1;1]]. rewrite Rows_Mat in Hd0 by (repeat constructor).
  destruct (C43_svm_gradient h d d0 d1 2 3 _ [1;-1;1] [1/2;1;0] W Hd Hd0 Hd1 eq_refl eq_refl ltac:(vm_compute; discriminate)) as (gs & E & G). exists h, d, d0, d1. eexists. exists gs. split; [exact Hd0|]. split; [exact E|exact G].
Qed.
Example ex_C48 : exists (h : heap R) x y X, abs h !! x = Some (Mat 2 4 X) /\ abs h !! y = Some (AVec [1;2;3;4]) /\
  runs (mini_batches_mv (Some x) (Some y) 2) h (fun bs h' => length bs = 2%nat /\ batches_at (fun i => rows_of 2 2 X (2 * i)) (fun _ => AVec [1;2]) bs (abs h) (abs h')) /\
  runs (mini_batches_mv (Some x) (Some y) 2) h (fun bs h' => forall b, bs !! 1%nat = Some b -> abs h' !! b.2 <> Some (AVec [3;4])) /\
  runs (mini_batches_m (Some x) 2) h (fun bs h' => length bs = 2%nat /\ mats_at (fun i => rows_of 2 2 X (2 * i)) bs (abs h) (abs h')).
Proof.
  reach [LM 2 [[1;1];[1;2];[1;3];[1;4]]; LV [1;2;3;4]]. rewrite Rows_Mat in Hd by (repeat constructor). exists h, d, d0. eexists. split_and!; [exact Hd|exact Hd0| | |].
  - apply (C48_mv_batches h d d0 2 4 _ [1;2;3;4] 2 W Hd Hd0 eq_refl); [lia|vm_compute; discriminate..].
  - destruct (C48_mv_labels_refuted h d d0 2 4 _ [1;2;3;4] 2 W Hd Hd0 eq_refl ltac:(lia) ltac:(vm_compute; discriminate) ltac:(vm_compute; discriminate)) as (bs & h' & E & W' & G). exists bs, h'. split; [exact E|]. split; [exact W'|].
    intros b Hb V. apply (proj1 (G 1%nat b Hb)) in V. injection V. lra.
  - apply (C48_m_batches h d 2 4 _ 2 W Hd); [lia|cbn; lia|vm_compute; discriminate..].
Qed.
Lemma round_lit z x : IZR z - 1 / 2 < x < IZR z + 1 / 2 -> (0 <= z)%Z -> 0 <= x -> Rround x = IZR z.
Proof.
  intros B Hz Hx. unfold Rround. destruct (Rle_dec 0 x); [|lra]. f_equal. destruct (base_Int_part (x + / 2)) as [B1 B2]. assert (G1 : IZR (Int_part (x + / 2)) < IZR (z + 1)) by (rewrite plus_IZR; lra). assert (G2 : IZR (z - 1) < IZR (Int_part (x + / 2))) by (rewrite minus_IZR; lra). apply lt_IZR in G1, G2. lia.
Qed.
Example ex_C49 : exists (h : heap R) a b, abs h !! a = Some (AVec [9/10; 2/10; 21/10; 3]) /\ abs h !! b = Some (AVec [1;0;2;4]) /\ performance_vec Rround (Some a) (Some b) h = Ok (3 / 4) h.
Proof.
  assert (E1 : Rround (9/10) = 1) by (apply (round_lit 1); lra || lia). assert (E2 : Rround (2/10) = 0) by (apply (round_lit 0); lra || lia).
  assert (E3 : Rround (21/10) = 2) by (apply (round_lit 2); lra || lia). assert (E4 : Rround 3 = 3) by (apply (round_lit 3); lra || lia).
  reach [LV [9/10; 2/10; 21/10; 3]; LV [1;0;2;4]]. exists h, d, d0. split_and!; auto. rewrite (C49_performance_vec h d d0 _ _ W Hd Hd0 eq_refl).
  - f_equal. cbn [zip zip_with length]. rewrite !countb_cons. unfold right_label. cbn [fst snd]. rewrite E1, E2, E3, E4. repeat (destruct (Req_EM_T _ _); try lra). unfold countb. cbn. lra.
  - repeat constructor; rewrite ?E1, ?E2, ?E3, ?E4; [exists 1%Z|exists 0%Z|exists 2%Z|exists 3%Z]; (split; [reflexivity|lia]).
  - repeat constructor; [exists 1%Z|exists 0%Z|exists 2%Z|exists 4%Z]; (split; [reflexivity|lia]).
Qed.
Example ex_C49_scores (h : heap R) : u_accuracy [1;0;1;1] [1;0;0;1] h = Ok (3 / 4) h /\ u_precision [1;0;1;1] [1;0;0;1] h = Ok (2 / 3) h /\ u_recall [1;0;1;1] [1;0;0;1] h = Ok (2 / 2) h.
Proof.
  split_and!.
  - rewrite C49_accuracy by reflexivity. f_equal. cbn [zip zip_with length]. rewrite !countb_cons. unfold same. cbn. repeat (destruct (Req_EM_T _ _); try lra). unfold countb. cbn. lra.
  - rewrite C49_precision by reflexivity. f_equal. cbn [zip zip_with length]. rewrite !countb_cons. unfold tp, is1. cbn. repeat (destruct (Req_EM_T _ _); try lra). unfold countb. cbn. lra.
  - rewrite C49_recall_binary; [|reflexivity|repeat (apply Forall_cons_2; [auto|]); apply Forall_nil_2..]. f_equal. cbn [zip zip_with length]. rewrite !countb_cons. unfold tp, is1. cbn. repeat (destruct (Req_EM_T _ _); try lra). unfold countb. cbn. lra.
Qed.
