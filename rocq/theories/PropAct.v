(** * C36: the scalar activation derivatives, over exact reals. *)
From Verif Require Import Base RErf RInst Act LibmR.
From Coquelicot Require Import Coquelicot.
From Coq Require Import Reals Lra Lia.
Open Scope R_scope.

(** [D f x d]: the real function [f] has derivative [d] at [x] (standard library, epsilon-delta). *)
Notation D := derivable_pt_lim (only parsing).

Ltac scal := cbv [linear_normr linear_derivr sigmoid_normr sigmoid_derivr softmax_normr softmax_derivr adj_softmax_normr adj_softmax_derivr
  softplus_normr softplus_derivr softsign_normr softsign_derivr gaussian_cdf_normr gaussian_cdf_derivr cloglog_normr cloglog_derivr
  logit_normr logit_derivr unit_step_normr unit_step_derivr swish_normr swish_derivr sinh_normr cosh_normr sinh_derivr cosh_derivr
  tanh_normr tanh_derivr csch_normr sech_normr coth_normr csch_derivr sech_derivr coth_derivr mish_normr mish_derivr sinc_normr sinc_derivr
  relu_normr relu_derivr leaky_relu_normr leaky_relu_derivr elu_normr elu_derivr selu_normr selu_derivr sign_normr sign_derivr
  arsinh_normr arsinh_derivr arcosh_normr arcosh_derivr artanh_normr artanh_derivr arcsch_normr arcsch_derivr arsech_normr arsech_derivr
  arcoth_normr arcoth_derivr s_lez s_gez lit s_two s_half s_m1
  s_zero s_one s_add s_sub s_mul s_div s_opp s_lt s_eq s_of_Z s_log s_exp s_erf s_sqrt s_sin s_cos R_scalar
  m_tanh m_sinh m_cosh m_fmax m_pi R_libm].

Lemma D_ext f g x d d' : (forall y, f y = g y) -> d = d' -> D f x d -> D g x d'.
Proof. intros E <- H. eapply is_derive_Reals, is_derive_ext; [exact E|]. apply is_derive_Reals, H. Qed.
Lemma D_loc f g x d d' : locally x (fun y => f y = g y) -> d = d' -> D f x d -> D g x d'.
Proof. intros E <- H. eapply is_derive_Reals, is_derive_ext_loc; [exact E|]. apply is_derive_Reals, H. Qed.
Lemma sexp_pos x : 0 < 1 + exp x. Proof. pose proof (exp_pos x). lra. Qed.

Lemma D_linear x : D linear_normr x (linear_derivr x).
Proof. scal. apply is_derive_Reals. auto_derive; auto. Qed.
Lemma D_sigmoid x : D sigmoid_normr x (sigmoid_derivr x).
Proof.
  scal. pose proof (exp_pos (- x)). apply is_derive_Reals. auto_derive; [lra|]. field. lra.
Qed.
Lemma D_swish x : D swish_normr x (swish_derivr x).
Proof. scal. pose proof (exp_pos (- x)). apply is_derive_Reals. auto_derive; [lra|]. field. lra. Qed.
Lemma D_softplus x : D softplus_normr x (softplus_derivr x).
Proof.
  scal. pose proof (exp_pos x). pose proof (exp_pos (-x)). apply is_derive_Reals. auto_derive; [lra|].
  assert (exp x * exp (- x) = 1) by (rewrite <- exp_plus, <- exp_0; f_equal; ring).
  apply (Rmult_eq_reg_r ((1 + exp x) * (1 + exp (- x)))); [|nra]. field_simplify; [nra|lra|lra].
Qed.
Lemma D_cloglog x : D cloglog_normr x (cloglog_derivr x).
Proof. scal. apply is_derive_Reals. auto_derive; [auto|]. unfold Rminus. rewrite exp_plus. ring. Qed.
Lemma D_logit x : 0 < x < 1 -> D logit_normr x (logit_derivr x).
Proof.
  intros Hx. scal. apply is_derive_Reals. auto_derive.
  - split; [lra|]. split; [|exact I]. apply (Rdiv_lt_0_compat x (1 + - x)); lra.
  - field. lra.
Qed.
Lemma D_sinc x : x <> 0 -> D sinc_normr x (sinc_derivr x).
Proof. intros Hx. scal. apply is_derive_Reals. auto_derive; [auto|]. field. lra. Qed.
Lemma D_sinh x : D sinh_normr x (sinh_derivr x).
Proof. scal. apply is_derive_Reals. auto_derive; [auto|]. field. Qed.
Lemma D_cosh x : D cosh_normr x (cosh_derivr x).
Proof. scal. apply is_derive_Reals. auto_derive; [auto|]. field. Qed.
Lemma D_tanh x : D tanh_normr x (tanh_derivr x).
Proof.
  scal. unfold tanh, sinh, cosh. pose proof (exp_pos x). pose proof (exp_pos (-x)). apply is_derive_Reals. auto_derive; [lra|]. field. lra.
Qed.
Lemma sinh_nz x : x <> 0 -> exp x - exp (- x) <> 0.
Proof. intros Hx E. apply Hx. assert (exp x = exp (- x)) as E' by lra. apply exp_inv in E'. lra. Qed.
Lemma D_csch x : x <> 0 -> D csch_normr x (csch_derivr x).
Proof.
  intros Hx. scal. unfold tanh, sinh, cosh. pose proof (sinh_nz x Hx). pose proof (exp_pos x). pose proof (exp_pos (-x)).
  apply is_derive_Reals. auto_derive; [lra|]. field. repeat split; lra.
Qed.
Lemma D_sech x : D sech_normr x (sech_derivr x).
Proof.
  scal. unfold tanh, sinh, cosh. pose proof (exp_pos x). pose proof (exp_pos (-x)).
  apply is_derive_Reals. auto_derive; [lra|]. field. repeat split; lra.
Qed.
Lemma exp_mul_opp x : exp x * exp (- x) = 1.
Proof. rewrite <- exp_plus, <- exp_0. f_equal. ring. Qed.
Lemma D_coth x : x <> 0 -> D coth_normr x (coth_derivr x).
Proof.
  intros Hx. scal. unfold tanh, sinh, cosh. pose proof (sinh_nz x Hx). pose proof (exp_pos x). pose proof (exp_pos (-x)).
  pose proof (exp_mul_opp x) as E.
  apply is_derive_Reals. auto_derive.
  - split; [lra|]. split; [|auto]. apply Rmult_integral_contrapositive. split; [lra|]. apply Rinv_neq_0_compat. lra.
  - rewrite exp_Ropp in *. set (a := exp x) in *. field. repeat split; try lra; intros Hz.
    all: try (apply H; field_simplify_eq; [|lra]; lra).
    all: nra.
Qed.

Ltac rif := unfold Rltb, Reqb; repeat (first [destruct (Rlt_dec _ _)|destruct (Req_EM_T _ _)]; try lra; cbn [orb]).
Lemma loc_pos x : 0 < x -> locally x (fun y => 0 < y).
Proof. intros. apply (open_gt 0 x). auto. Qed.
Lemma loc_neg x : x < 0 -> locally x (fun y => y < 0).
Proof. intros. apply (open_lt 0 x). auto. Qed.
(** Two branches, away from the break. *)
Lemma D_pos f g x d : 0 < x -> (forall y, 0 < y -> f y = g y) -> D f x d -> D g x d.
Proof. intros Hx E H. eapply D_loc; [|reflexivity|exact H]. eapply filter_imp; [|apply loc_pos, Hx]. exact E. Qed.
Lemma D_neg f g x d : x < 0 -> (forall y, y < 0 -> f y = g y) -> D f x d -> D g x d.
Proof. intros Hx E H. eapply D_loc; [|reflexivity|exact H]. eapply filter_imp; [|apply loc_neg, Hx]. exact E. Qed.

Lemma D_softsign x : D softsign_normr x (softsign_derivr x).
Proof.
  unfold softsign_normr, softsign_derivr. rewrite (s_abs_R x). destruct (Rtotal_order x 0) as [Hx|[->|Hx]].
  - apply (D_neg (fun y => y / (1 - y))); [exact Hx| |].
    + intros y Hy. rewrite s_abs_R, Rabs_left by exact Hy. reflexivity.
    + scal. rewrite Rabs_left by exact Hx. apply is_derive_Reals. auto_derive; [lra|]. field. lra.
  - rewrite Rabs_R0. apply (D_ext (fun y => y / (1 + Rabs y)) _ _ (1 / ((1 + 0) * (1 + 0)))); [intros; rewrite s_abs_R; reflexivity|reflexivity|].
    intros eps He. exists (mkposreal eps He). intros h Hh Hlt. simpl in Hlt.
    rewrite Rplus_0_l, Rabs_R0. pose proof (Rabs_pos h).
    replace ((h / (1 + Rabs h) - 0 / (1 + 0)) / h - 1 / ((1 + 0) * (1 + 0))) with (- (Rabs h / (1 + Rabs h))).
    + rewrite Rabs_Ropp, Rabs_pos_eq by (apply Rdiv_le_0_compat; lra).
      apply (Rle_lt_trans _ (Rabs h)); [|exact Hlt]. 
      apply Rle_div_l; [lra|]. nra.
    + field. lra.
  - apply (D_pos (fun y => y / (1 + y))); [exact Hx| |].
    + intros y Hy. rewrite s_abs_R, Rabs_right by lra. reflexivity.
    + scal. rewrite Rabs_right by lra. apply is_derive_Reals. auto_derive; [lra|]. field. lra.
Qed.

Lemma D_erf x : D Rerf x (2 / sqrt PI * exp (- (x * x))).
Proof.
  apply is_derive_Reals. unfold Rerf. apply is_derive_scal.
  apply (is_derive_RInt (fun t => exp (- (t * t))) _ 0 x).
  - apply filter_forall. intros y. apply (RInt_correct (V := R_CompleteNormedModule)). apply (ex_RInt_continuous (V := R_CompleteNormedModule)). intros z _.
    apply (ex_derive_continuous (fun t => exp (- (t * t)))). auto_derive. auto.
  - apply (ex_derive_continuous (fun t => exp (- (t * t)))). auto_derive. auto.
Qed.
Lemma D_gaussian_cdf x : D gaussian_cdf_normr x (gaussian_cdf_derivr x).
Proof.
  scal. pose proof PI_RGT_0. assert (0 < sqrt 2) by (apply sqrt_lt_R0; lra). assert (0 < sqrt PI) by (apply sqrt_lt_R0; lra).
  apply is_derive_Reals.
  assert (is_derive Rerf (x / sqrt 2) (2 / sqrt PI * exp (- (x / sqrt 2 * (x / sqrt 2))))) as HE by apply is_derive_Reals, D_erf.
  evar_last.
  { apply is_derive_scal. apply (is_derive_plus (fun _ => 1) (fun z => Rerf (z / sqrt 2))).
    - apply is_derive_const.
    - apply (is_derive_comp Rerf (fun z => z / sqrt 2)); [exact HE|]. auto_derive; [exact I|]. reflexivity. }
  change plus with Rplus. change (@zero _) with 0. change scal with Rmult. 
  replace (x / sqrt 2 * (x / sqrt 2)) with (x * x / 2).
  2:{ unfold Rdiv. replace (x * / sqrt 2 * (x * / sqrt 2)) with (x * x * / (sqrt 2 * sqrt 2)) by (field; lra). rewrite sqrt_sqrt by lra. reflexivity. }
  rewrite sqrt_mult by lra. replace (- x * x / 2) with (- (x * x / 2)) by field. field. lra.
Qed.

Lemma D_const c x : D (fun _ => c) x 0.
Proof. apply is_derive_Reals. auto_derive; auto. Qed.
Lemma D_id x : D (fun y => y) x 1.
Proof. apply is_derive_Reals. auto_derive; auto. Qed.
Lemma D_relu x : x <> 0 -> D relu_normr x (relu_derivr x).
Proof.
  intros Hx. scal. destruct (Rdichotomy _ _ Hx).
  - apply (D_neg (fun _ => 0)); [auto| |]; [intros; rewrite Rmax_left by lra; auto|]. rif. apply D_const.
  - apply (D_pos (fun y => y)); [auto| |]; [intros; rewrite Rmax_right by lra; auto|]. rif. apply D_id.
Qed.
Lemma D_leaky_relu c x : c <= 1 -> x <> 0 -> D (fun z => leaky_relu_normr z c) x (leaky_relu_derivr x c).
Proof.
  intros Hc Hx. scal. destruct (Rdichotomy _ _ Hx).
  - apply (D_neg (fun y => c * y)); [auto| |]; [intros; rewrite Rmax_left by nra; auto|]. rif.
    apply is_derive_Reals. auto_derive; auto. ring.
  - apply (D_pos (fun y => y)); [auto| |]; [intros; rewrite Rmax_right by nra; auto|]. rif. apply D_id.
Qed.
Lemma D_elu c x : x <> 0 \/ c = 1 -> D (fun z => elu_normr z c) x (elu_derivr x c).
Proof.
  intros Hx. scal. destruct (Rtotal_order x 0) as [H|[->|H]].
  - apply (D_neg (fun y => c * (exp y - 1))); [auto|intros; rif; auto|]. rif.
    apply is_derive_Reals. auto_derive; auto. ring.
  - destruct Hx as [Hx| ->]; [lra|]. rif. rewrite exp_0.
    intros eps He.
    assert (D (fun y => exp y - 1) 0 1) as H1.
    { apply is_derive_Reals. auto_derive; auto. rewrite exp_0. ring. }
    destruct (H1 eps He) as [d Hd]. exists d. intros h Hh Hlt.
    destruct (Rlt_dec 0 0); [lra|]. destruct (Req_EM_T 0 0); [|lra]. cbn [orb].
    destruct (_ || _).
    + replace ((0 + h - 0) / h - 1 * 1) with 0 by (field; auto). rewrite Rabs_R0. exact He.
    + specialize (Hd h Hh Hlt). rewrite exp_0 in Hd. rewrite !Rmult_1_l.
      replace (exp (0 + h) - 1 - 0) with (exp (0 + h) - 1 - (1 - 1)) by ring. exact Hd.
  - apply (D_pos (fun y => y)); [auto|intros; rif; auto|]. rif. apply D_id.
Qed.
(** selu: the true derivative is [lambda] times what the code returns. *)
Lemma D_selu lambda c x : x <> 0 \/ c = 1 -> D (fun z => selu_normr z lambda c) x (lambda * selu_derivr x lambda c).
Proof.
  intros Hx. unfold selu_normr, selu_derivr. apply is_derive_Reals. apply is_derive_scal. apply is_derive_Reals, D_elu, Hx.
Qed.
Lemma D_sign x : x <> 0 -> D sign_normr x (sign_derivr x).
Proof.
  intros Hx. scal. destruct (Rdichotomy _ _ Hx).
  - apply (D_neg (fun _ => -1)); [auto|intros; rif; auto|]. apply D_const.
  - apply (D_pos (fun y => 1)); [auto|intros; rif; auto|]. apply D_const.
Qed.
Lemma D_unit_step x : x <> 0 -> D unit_step_normr x (unit_step_derivr x).
Proof.
  intros Hx. scal. destruct (Rdichotomy _ _ Hx).
  - apply (D_neg (fun _ => 0)); [auto|intros; rif; auto|]. apply D_const.
  - apply (D_pos (fun y => 1)); [auto|intros; rif; auto|]. apply D_const.
Qed.
Lemma sqrt_gt_abs x : Rabs x < sqrt (x * x + 1).
Proof. rewrite <- sqrt_Rsqr_abs. apply sqrt_lt_1; unfold Rsqr; nra. Qed.
Lemma D_arsinh x : D arsinh_normr x (arsinh_derivr x).
Proof.
  scal. pose proof (sqrt_gt_abs x) as Hs. assert (0 < x + sqrt (x * x + 1)) by (pose proof (Rle_abs (- x)); rewrite Rabs_Ropp in *; lra).
  assert (0 < x * x + 1) by nra. assert (0 < sqrt (x * x + 1)) by (apply sqrt_lt_R0; auto).
  apply is_derive_Reals. auto_derive; [auto|]. field. lra.
Qed.
Lemma D_arcosh x : 1 < x -> D arcosh_normr x (arcosh_derivr x).
Proof.
  intros Hx. scal. assert (0 < x * x - 1) by nra. assert (0 < sqrt (x * x - 1)) by (apply sqrt_lt_R0; auto).
  apply is_derive_Reals. auto_derive; [repeat split; unfold Rminus in *; lra|]. fold (x * x - 1). field. lra.
Qed.
Lemma D_artanh x : -1 < x < 1 -> D artanh_normr x (artanh_derivr x).
Proof.
  intros Hx. scal. apply is_derive_Reals. auto_derive.
  - split; [lra|]. split; [|auto]. apply (Rdiv_lt_0_compat (1 + x) (1 + - x)); lra.
  - field. repeat split; nra.
Qed.
Lemma D_arcoth x : x < -1 \/ 1 < x -> D arcoth_normr x (arcoth_derivr x).
Proof.
  intros Hx. scal. apply is_derive_Reals. auto_derive.
  - split; [lra|]. split; [|auto]. destruct Hx.
    + replace ((1 + x) * / (x + - (1))) with ((- (1 + x)) / (1 - x)) by (field; lra). apply Rdiv_lt_0_compat; lra.
    + apply (Rdiv_lt_0_compat (1 + x) (x + - (1))); lra.
  - field. repeat split; nra.
Qed.
Lemma D_arcsch x : x <> 0 -> D arcsch_normr x (arcsch_derivr x).
Proof.
  intros Hx. scal. assert (0 < x * x) by nra. assert (0 < / (x * x)) by (apply Rinv_0_lt_compat; auto).
  assert (0 < 1 + 1 / (x * x)) by (unfold Rdiv; lra). assert (0 < sqrt (1 + 1 / (x * x))) by (apply sqrt_lt_R0; auto).
  assert (0 < sqrt (1 + 1 / (x * x)) + 1 / x).
  { pose proof (sqrt_gt_abs (/ x)) as Hs. replace (/ x * / x + 1) with (1 + 1 / (x * x)) in Hs by (field; auto).
    pose proof (Rle_abs (- / x)). rewrite Rabs_Ropp in *. unfold Rdiv. unfold Rdiv in Hs. lra. }
  apply is_derive_Reals. auto_derive.
  - repeat split; auto; unfold Rdiv in *; try lra.
  - fold (1 / (x * x)). fold (1 / x). set (s := sqrt (1 + 1 / (x * x))) in *. field. repeat split; try lra.
    intros E. apply (Rlt_irrefl 0). apply (Rlt_le_trans _ _ _ H3). apply Req_le. field_simplify_eq; auto.
Qed.
Lemma D_mish x : x <> 0 -> D mish_normr x (mish_derivr x).
Proof.
  intros Hx. scal. pose proof (exp_pos x). 
  assert (is_derive (fun z => ln (1 + exp z)) x (1 / (1 + exp (- x)))) as HS by apply is_derive_Reals, (D_softplus x).
  set (s := fun z => ln (1 + exp z)) in *.
  assert (forall y, is_derive tanh y (/ cosh y * / cosh y)) as HT.
  { intros y. unfold tanh, sinh, cosh. pose proof (exp_pos y). pose proof (exp_pos (- y)). pose proof (exp_mul_opp y).
    auto_derive; [lra|]. field_simplify_eq; [|lra]. nra. }
  evar_last.
  { apply is_derive_Reals. apply (is_derive_mult (fun z => z) (fun z => tanh (s z)) x).
    - auto_derive; reflexivity.
    - apply (is_derive_comp tanh s); [apply HT|exact HS].
    - intros. apply Rmult_comm. }
  change plus with Rplus. change mult with Rmult. change scal with Rmult. fold (s x). pose proof (exp_pos (-x)).
  assert (0 < cosh (s x)) by (unfold cosh; pose proof (exp_pos (s x)); pose proof (exp_pos (- s x)); lra). field. lra.
Qed.

Lemma D_share K x : 0 < K + exp x -> D (fun t => exp t / (K + exp t)) x (exp x / (K + exp x) * (1 - exp x / (K + exp x))).
Proof. intros HK. apply is_derive_Reals. auto_derive; [lra|]. field. lra. Qed.
Lemma D_share2 E K x : 0 < K + exp x -> D (fun t => E / (K + exp t)) x (- (E / (K + exp x)) * (exp x / (K + exp x))).
Proof. intros HK. apply is_derive_Reals. auto_derive; [lra|]. field. lra. Qed.

(** ** C36 *)
(** Where the function is differentiable and the code's derivative is meant to apply.  GELU (rounded
    coefficients), SOFTMAX / ADJ_SOFTMAX (scalar forms are placeholders) and ARSECH (wrong formula) are excluded
    here and treated below. *)
Definition smooth_at (f : actfn) (x : R) : Prop :=
  match f with
  | SIN_C | MISH | RELU | SIGN | UNIT_STEP | CSCH | COTH | ARCSCH => x <> 0
  | LOGIT => 0 < x < 1
  | ARCOSH => 1 < x
  | ARTANH => -1 < x < 1
  | ARCOTH => x < -1 \/ 1 < x
  | GELU | SOFTMAX | ADJ_SOFTMAX | ARSECH => False
  | LINEAR | SIGMOID | SWISH | SOFTPLUS | SOFTSIGN | C_LOG_LOG | GAUSSIAN_CDF | SINH | COSH | TANH | SECH | ARSINH => True
  end.
(** The *_deriv function of each scalar activation is the derivative of its *_norm function. *)
Theorem C36_derivative f x : smooth_at f x -> D (run_norm_real f) x (derivr f x).
Proof.
  destruct f; intros Hx; cbn in Hx; try contradiction; cbn [run_norm_real derivr].
  - apply D_linear. - apply D_sigmoid. - apply D_swish. - apply D_mish, Hx. - apply D_sinc, Hx. - apply D_softplus. - apply D_softsign.
  - apply D_cloglog. - apply D_logit, Hx. - apply D_gaussian_cdf. - apply D_relu, Hx. - apply D_sign, Hx. - apply D_unit_step, Hx.
  - apply D_sinh. - apply D_cosh. - apply D_tanh. - apply D_csch, Hx. - apply D_sech. - apply D_coth, Hx. - apply D_arsinh.
  - apply D_arcosh, Hx. - apply D_artanh, Hx. - apply D_arcsch, Hx. - apply D_arcoth, Hx.
Qed.
(** The parameterised ones.  leaky_relu takes max(c*z, z), so it needs c <= 1. *)
Theorem C36_leaky_relu c x : c <= 1 -> x <> 0 -> D (fun z => leaky_relu_normr z c) x (leaky_relu_derivr x c).
Proof. apply D_leaky_relu. Qed.
Theorem C36_elu c x : x <> 0 \/ c = 1 -> D (fun z => elu_normr z c) x (elu_derivr x c).
Proof. apply D_elu. Qed.
(** selu_deriv forgets the factor lambda: correct only for lambda = 1. *)
Theorem C36_selu lambda c x : x <> 0 \/ c = 1 ->
  D (fun z => selu_normr z lambda c) x (lambda * selu_derivr x lambda c) /\
  (D (fun z => selu_normr z lambda c) x (selu_derivr x lambda c) <-> lambda = 1 \/ (x < 0 /\ c = 0)).
Proof.
  intros Hx. pose proof (D_selu lambda c x Hx) as HD. split; [exact HD|]. split.
  - intros H2. pose proof (uniqueness_limite _ _ _ _ HD H2) as E. unfold selu_derivr in E. cbn [elu_derivr] in E. revert E. scal.
    pose proof (exp_pos x). rif; intros E; try (left; lra).
    + destruct (Req_dec c 0); [right; lra|]. left. apply (Rmult_eq_reg_r (c * exp x)); [lra|]. apply Rmult_integral_contrapositive. lra.
    + left. destruct Hx as [Hx|Hx]; [lra|]. subst. rewrite exp_0 in E. lra.
  - intros [->|[Hl ->]]; [rewrite Rmult_1_l in HD; exact HD|]. revert HD. unfold selu_derivr. scal. rif.
    rewrite Rmult_0_l, Rmult_0_r. auto.
Qed.
(** arsech: the inner square roots are missing, so neither the value nor the derivative fit. *)
Theorem C36_arsech_refuted :
  cosh (arsech_normr (1 / 2)) <> / (1 / 2) /\ ~ D arsech_normr (1 / 2) (arsech_derivr (1 / 2)).
Proof.
  split.
  - scal. unfold cosh. replace (1 / (1 / 2) + (1 / (1 / 2) + 1) * (1 / (1 / 2) - 1)) with 5 by field.
    rewrite exp_Ropp, exp_ln by lra. lra.
  - intros HD. assert (D arsech_normr (1 / 2) (-4)) as H4.
    { scal. apply is_derive_Reals. auto_derive; [repeat split; lra|]. field. }
    pose proof (uniqueness_limite _ _ _ _ HD H4) as E. revert E. scal.
    replace (1 - 1 / 2 * (1 / 2)) with (3 / 4) by field. intros E.
    assert (0 < sqrt (3 / 4)) by (apply sqrt_lt_R0; lra). pose proof (sqrt_sqrt (3 / 4) ltac:(lra)) as Hs.
    assert (sqrt (3 / 4) = 1 / 2). { apply (Rmult_eq_compat_r (1 / 2 * sqrt (3 / 4))) in E. unfold Rdiv in E at 1. field_simplify in E; lra. }
    rewrite H0 in Hs. lra.
Qed.
(** The dispatch by enum: the derivative dispatch evaluates the function itself, whatever the flag. *)
Theorem C36_dispatch f x b : run_real f x b = run_norm_real f x.
Proof. destruct f, b; reflexivity. Qed.
Theorem C36_dispatch_refuted : ~ D (run_norm_real SIGMOID) 0 (run_deriv_real SIGMOID 0).
Proof.
  intros HD. pose proof (uniqueness_limite _ _ _ _ HD (D_sigmoid 0)) as E. revert E. cbn [run_deriv_real]. scal. rewrite Ropp_0, exp_0. lra.
Qed.

(** ** Inverse pairs and ranges (C38) *)
Theorem C38_inverse_functions :
  (forall x, sinh (arsinh_normr x) = x) /\
  (forall x, 1 <= x -> cosh (arcosh_normr x) = x) /\
  (forall x, -1 < x < 1 -> tanh (artanh_normr x) = x) /\
  (forall x, x <> 0 -> csch_normr (arcsch_normr x) = x) /\
  (forall x, x < -1 \/ 1 < x -> coth_normr (arcoth_normr x) = x) /\
  (forall x, logit_normr (sigmoid_normr x) = x) /\
  (forall x, 0 < x < 1 -> sigmoid_normr (logit_normr x) = x).
Proof.
  repeat split.
  - intros x. scal. unfold sinh. pose proof (sqrt_gt_abs x). pose proof (Rle_abs (- x)). rewrite Rabs_Ropp in *.
    rewrite exp_Ropp, exp_ln by lra. pose proof (sqrt_sqrt (x * x + 1) ltac:(nra)) as Hs. set (s := sqrt (x * x + 1)) in *.
    field_simplify_eq; [|lra]. nra.
  - intros x Hx. scal. unfold cosh. pose proof (sqrt_pos (x * x - 1)). rewrite exp_Ropp, exp_ln by lra.
    pose proof (sqrt_sqrt (x * x - 1) ltac:(nra)) as Hs. set (s := sqrt (x * x - 1)) in *. field_simplify_eq; [|lra]. nra.
  - intros x Hx. scal. assert (0 < (1 + x) / (1 - x)) as Hp by (apply Rdiv_lt_0_compat; lra). set (q := (1 + x) / (1 - x)) in *.
    unfold tanh, sinh, cosh. pose proof (exp_pos (1 / 2 * ln q)) as He. rewrite exp_Ropp. set (e := exp (1 / 2 * ln q)) in *.
    assert (e * e = q). { unfold e. rewrite <- exp_plus. replace (1 / 2 * ln q + 1 / 2 * ln q) with (ln q) by field. apply exp_ln, Hp. }
    assert ((e - / e) / 2 / ((e + / e) / 2) = (e * e - 1) / (e * e + 1)) as -> by (field; split; nra). rewrite H. unfold q. field. lra.
  - intros x Hx. scal. unfold sinh. assert (0 < x * x) by nra.
    assert (0 < sqrt (1 + 1 / (x * x)) + 1 / x).
    { pose proof (sqrt_gt_abs (/ x)) as Hs. replace (/ x * / x + 1) with (1 + 1 / (x * x)) in Hs by (field; auto).
      pose proof (Rle_abs (- / x)). rewrite Rabs_Ropp in *. unfold Rdiv. unfold Rdiv in Hs. lra. }
    rewrite exp_Ropp, exp_ln by auto. assert (0 < / (x * x)) by (apply Rinv_0_lt_compat; auto).
    pose proof (sqrt_sqrt (1 + 1 / (x * x)) ltac:(unfold Rdiv; lra)) as Hs. set (s := sqrt (1 + 1 / (x * x))) in *.
    assert (s + 1 / x - / (s + 1 / x) = 2 / x) as ->.
    { apply (Rmult_eq_reg_r (s + 1 / x)); [|lra]. rewrite Rmult_minus_distr_r, Rinv_l by lra.
      replace ((s + 1 / x) * (s + 1 / x)) with (s * s + 2 * s / x + 1 / (x * x)) by (field; auto). rewrite Hs. field. auto. }
    field. auto.
  - intros x Hx. scal. assert (0 < (1 + x) / (x - 1)) as Hp.
    { destruct Hx; [|apply Rdiv_lt_0_compat; lra]. replace ((1 + x) / (x - 1)) with ((- (1 + x)) / (1 - x)) by (field; lra). apply Rdiv_lt_0_compat; lra. }
    assert (1 <> (1 + x) / (x - 1)). { intros E. apply (Rmult_eq_compat_r (x - 1)) in E. unfold Rdiv in E. rewrite Rmult_assoc, Rinv_l in E by lra. lra. }
    set (q := (1 + x) / (x - 1)) in *.
    unfold tanh, sinh, cosh. pose proof (exp_pos (1 / 2 * ln q)) as He. rewrite exp_Ropp. set (e := exp (1 / 2 * ln q)) in *.
    assert (e * e = q). { unfold e. rewrite <- exp_plus. replace (1 / 2 * ln q + 1 / 2 * ln q) with (ln q) by field. apply exp_ln, Hp. }
    assert (1 / ((e - / e) / 2 / ((e + / e) / 2)) = (e * e + 1) / (e * e - 1)) as -> by (field; repeat split; nra). rewrite H0. unfold q. field. lra.
  - intros x. scal. pose proof (exp_pos (- x)). replace (1 / (1 + exp (- x)) / (1 - 1 / (1 + exp (- x)))) with (/ exp (- x)) by (field; lra).
    rewrite ln_Rinv by auto. rewrite ln_exp. lra.
  - intros x Hx. scal. rewrite <- ln_Rinv by (apply Rdiv_lt_0_compat; lra). rewrite exp_ln.
    + field. lra.
    + apply Rinv_0_lt_compat, Rdiv_lt_0_compat; lra.
Qed.
Theorem C38_ranges x :
  0 < sigmoid_normr x < 1 /\ -1 < tanh_normr x < 1 /\ -1 < softsign_normr x < 1 /\ 0 < softplus_normr x /\ x < softplus_normr x /\
  0 <= relu_normr x /\ 0 < cloglog_normr x < 1 /\ 0 < sech_normr x <= 1 /\ 0 < sigmoid_derivr x <= 1 / 4 /\
  (unit_step_normr x = 0 \/ unit_step_normr x = 1) /\ sigmoid_normr (- x) = 1 - sigmoid_normr x.
Proof.
  pose proof (exp_pos x). pose proof (exp_pos (- x)). pose proof (exp_mul_opp x) as E.
  assert (forall a b, 0 < b -> a < b -> a / b < 1) as Hlt1. { intros a b Hb Hab. apply (Rmult_lt_reg_r b); [auto|]. unfold Rdiv. rewrite Rmult_assoc, Rinv_l by lra. lra. }
  assert (forall a b, 0 < b -> - b < a -> -1 < a / b) as Hgt1. { intros a b Hb Hab. apply (Rmult_lt_reg_r b); [auto|]. unfold Rdiv. rewrite Rmult_assoc, Rinv_l by lra. lra. }
  assert (0 < sigmoid_normr x < 1) as Hsig.
  { scal. split; [apply Rdiv_lt_0_compat; lra|apply Hlt1; lra]. }
  repeat split; try apply Hsig.
  - scal. apply Hgt1; lra.
  - scal. apply Hlt1; lra.
  - unfold softsign_normr. rewrite s_abs_R. scal. pose proof (Rabs_pos x). apply Hgt1; [lra|]. pose proof (Rle_abs (- x)). rewrite Rabs_Ropp in *. lra.
  - unfold softsign_normr. rewrite s_abs_R. scal. pose proof (Rabs_pos x). apply Hlt1; [lra|]. pose proof (Rle_abs x). lra.
  - scal. rewrite <- ln_1. apply ln_increasing; lra.
  - scal. rewrite <- (ln_exp x) at 1. apply ln_increasing; lra.
  - scal. apply Rmax_l.
  - scal. assert (exp (- exp x) < exp 0) by (apply exp_increasing; lra). rewrite exp_0 in *. lra.
  - scal. pose proof (exp_pos (- exp x)). lra.
  - scal. unfold cosh. apply Rdiv_lt_0_compat; lra.
  - scal. unfold cosh. apply (Rmult_le_reg_r ((exp x + exp (- x)) / 2)); [lra|]. unfold Rdiv at 1. rewrite Rmult_assoc, Rinv_l by lra.
    assert (2 <= exp x + exp (- x)).
    { assert (0 <= (exp x - 1) * (exp x - 1) * exp (- x)) as Hq by (apply Rmult_le_pos; [apply Rle_0_sqr|lra]).
      replace ((exp x - 1) * (exp x - 1) * exp (- x)) with (exp x * (exp x * exp (- x)) - 2 * (exp x * exp (- x)) + exp (- x)) in Hq by ring. rewrite E in Hq. lra. }
    lra.
  - unfold sigmoid_derivr. cbv zeta. revert Hsig. generalize (sigmoid_normr x). intros s Hs. scal. apply Rmult_lt_0_compat; lra.
  - unfold sigmoid_derivr. cbv zeta. revert Hsig. generalize (sigmoid_normr x). intros s Hs. scal. pose proof (Rle_0_sqr (s - 1 / 2)) as Hq. unfold Rsqr in Hq. lra.
  - scal. rif; auto.
  - scal. rewrite Ropp_involutive. field_simplify_eq; [|lra]. nra.
Qed.
