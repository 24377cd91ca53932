(** * C37: the vector and matrix activations, C38: softmax. *)
From Verif Require Import Base BaseProofs Vec VecSpec VecProofs VecProofs2 Mat MatSpec MatProofs MatProofs2 MatProofs3 MatProofs4 MatProofs5 Frame Act ActProofs ActProofs2.
From Verif Require Import RErf RInst LibmR PropAct.
From Coq Require Import Reals Lra Lia.
Open Scope R_scope.
Implicit Types (h : heap R) (z o : loc).

(** A new object [d] holding [a] is returned and nothing else changes (all temporaries are released). *)
Definition returns (a : aobj R) h (o : option loc) h' : Prop :=
  exists d, o = Some d /\ abs h !! d = None /\ abs h' = <[d := a]> (abs h).
(** A null reference is returned and nothing changes. *)
Definition returns_null h (o : option loc) h' : Prop := o = None /\ abs h' = abs h.

Lemma Rpow_2 x : 0 < x -> Rpow x 2 = x * x.
Proof.
  intros Hx. unfold Rpow. destruct (Rlt_dec 0 x); [|lra]. replace 2 with (1 + 1) by ring. rewrite Rpower_plus, Rpower_1 by lra. reflexivity.
Qed.
Ltac asem_tac := cbn [asem e_one e_add e_sub e_mul e_div e_scale e_sadd e_exp e_log e_erf e_sqrt e_abs e_sin e_cos e_pow
   sigmoid_norm_e sigmoid_deriv_e gaussian_cdf_norm_e gaussian_cdf_deriv_e cloglog_norm_e logit_norm_e logit_deriv_e sinc_norm_e sinc_deriv_e
   sinh_norm_e cosh_norm_e sinh_deriv_e cosh_deriv_e tanh_norm_e tanh_deriv_e csch_norm_e sech_norm_e coth_norm_e csch_deriv_e sech_deriv_e coth_deriv_e
   arsinh_norm_e arsinh_deriv_e arcosh_norm_e arcosh_deriv_e artanh_norm_e arcsch_norm_e arsech_norm_e arsech_deriv_e arcoth_norm_e arcoth_deriv_e linear_deriv_e
   softplus_normv_e softplus_deriv_e softsign_normv_e softsign_derivv_e swish_normv_e swish_derivv_e mish_normv_e mish_derivv_e artanh_derivv_e arcsch_derivm_e].

Ltac vec1 := split; [assumption|eexists; split; [reflexivity|split; [assumption|]]].
Lemma run_exp_elem k e (g : R -> R) h z c w xs : wf h -> abs h !! z = Some (KObj k c w xs) ->
  atyp k e = Some k -> aoutc false e = OVal -> aowned e = true -> (forall x, asem e x = g x) ->
  runs (run_exp e (Some z)) h (returns (KObj k c w (g <$> xs)) h).
Proof.
  intros Hw Hz Ht Ho Hown Hg. apply runs_wp. eapply run_exp_val; [exact Hw|exact Hz|exact Ht|exact Ho|exact Hown|].
  intros o h' W N A. vec1. rewrite A. f_equal. f_equal. apply list_fmap_ext. intros; apply Hg.
Qed.
Lemma act_loop_elem k (g : R -> R) h z c w xs : wf h -> abs h !! z = Some (KObj k c w xs) ->
  runs (act_loop k g (Some z)) h (returns (KObj k c w (g <$> xs)) h).
Proof. intros Hw Hz. apply runs_wp. eapply act_loop_ok; [exact Hw|exact Hz|]. intros o h' W N A. vec1. exact A. Qed.

Lemma one_m_tanh x : -1 * (tanh_normr x * tanh_normr x + -1) = tanh_derivr x.
Proof. scal. unfold tanh, sinh, cosh. pose proof (exp_pos x). pose proof (exp_pos (- x)). field. lra. Qed.
Lemma sinh_eq x : sinh_normr x = sinh x. Proof. scal. unfold sinh. field. Qed.
Lemma cosh_eq x : cosh_normr x = cosh x. Proof. scal. unfold cosh. field. Qed.
Lemma tanh_eq x : tanh_normr x = tanh x.
Proof. scal. unfold tanh, sinh, cosh. pose proof (exp_pos x). pose proof (exp_pos (- x)). field. lra. Qed.

Lemma asem_sigmoid k x : asem (sigmoid_norm_e k) x = sigmoid_normr x.
Proof. asem_tac. scal. replace (x * -1) with (- x) by ring. reflexivity. Qed.
Lemma asem_sinh k x : asem (sinh_norm_e k) x = sinh_normr x.
Proof. asem_tac. scal. replace (x * -1) with (- x) by ring. ring. Qed.
Lemma asem_cosh k x : asem (cosh_norm_e k) x = cosh_normr x.
Proof. asem_tac. scal. replace (x * -1) with (- x) by ring. ring. Qed.
Lemma asem_tanh k x : asem (tanh_norm_e k) x = tanh_normr x.
Proof. asem_tac. scal. replace (x * -1) with (- x) by ring. reflexivity. Qed.
Lemma asem_csch k x : asem (csch_norm_e k) x = csch_normr x.
Proof. unfold csch_norm_e, e_div, e_one. cbn [asem]. rewrite asem_sinh, sinh_eq. reflexivity. Qed.
Lemma asem_sech k x : asem (sech_norm_e k) x = sech_normr x.
Proof. unfold sech_norm_e, e_div, e_one. cbn [asem]. rewrite asem_cosh, cosh_eq. reflexivity. Qed.
Lemma asem_coth k x : asem (coth_norm_e k) x = coth_normr x.
Proof. unfold coth_norm_e, e_div, e_one. cbn [asem]. rewrite asem_tanh, tanh_eq. reflexivity. Qed.
Lemma asem_swish x : asem swish_normv_e x = swish_normr x.
Proof. unfold swish_normv_e, e_mul. cbn [asem]. rewrite asem_sigmoid. reflexivity. Qed.
Lemma asem_mish x : asem mish_normv_e x = mish_normr x.
Proof. unfold mish_normv_e, e_mul. cbn [asem]. rewrite asem_tanh, tanh_eq. reflexivity. Qed.

(** *** Function values: every element of the result is the scalar function of the corresponding element. *)
Theorem C37_norm_vector f h z xs : wf h -> abs h !! z = Some (AVec xs) -> f <> SOFTMAX -> f <> ADJ_SOFTMAX ->
  runs (run_norm_vector f (Some z)) h (returns (AVec (run_norm_real f <$> xs)) h).
Proof.
  intros Hw Hz H1 H2.
  assert (HE : forall e (g : R -> R), atyp KV e = Some KV -> aoutc false e = OVal -> aowned e = true -> (forall x, asem e x = g x) ->
     runs (run_exp e (Some z)) h (returns (AVec (g <$> xs)) h)) by (intros; apply (run_exp_elem KV _ _ h z 0%nat 0%nat); auto).
  assert (HL : forall g : R -> R, runs (act_loop KV g (Some z)) h (returns (AVec (g <$> xs)) h)) by (intros; apply (act_loop_elem KV _ h z 0%nat 0%nat); auto).
  destruct f; cbn [run_norm_vector run_norm_real]; try congruence; try apply HL; try (apply HE; [reflexivity..|]; intros x).
  all: try solve [reflexivity].
  - apply runs_wp. unfold linear_normv. wbind. apply wp_ret. wbind. eapply wp_v_duplicate; [exact Hw|exact Hz|]. intros o h' W N A. apply wp_ret. vec1.
    rewrite A. do 2 f_equal. symmetry. apply list_fmap_id.
  - apply asem_sigmoid.
  - apply asem_swish.
  - apply asem_mish.
  - asem_tac. scal. replace (exp x * -1) with (- exp x) by ring. ring.
  - asem_tac. scal. replace (x * (1 / sqrt 2)) with (x / sqrt 2) by (unfold Rdiv; ring). ring.
  - apply asem_sinh.
  - apply asem_cosh.
  - apply asem_tanh.
  - apply asem_csch.
  - apply asem_sech.
  - apply asem_coth.
  - asem_tac. scal. ring.
  - asem_tac. scal. ring.
Qed.
Theorem C37_norm_matrix f h z c r xs : wf h -> abs h !! z = Some (AMat c r xs) -> f ∉ [SOFTMAX; ADJ_SOFTMAX; SOFTPLUS; SOFTSIGN; SWISH; MISH] ->
  runs (run_norm_matrix f (Some z)) h (returns (AMat c r (run_norm_real f <$> xs)) h).
Proof.
  intros Hw Hz Hf.
  assert (HE : forall e (g : R -> R), atyp KM e = Some KM -> aoutc false e = OVal -> aowned e = true -> (forall x, asem e x = g x) ->
     runs (run_exp e (Some z)) h (returns (AMat c r (g <$> xs)) h)) by (intros; apply (run_exp_elem KM _ _ h z c r); auto).
  assert (HL : forall g : R -> R, runs (act_loop KM g (Some z)) h (returns (AMat c r (g <$> xs)) h)) by (intros; apply (act_loop_elem KM _ h z c r); auto).
  destruct f; cbn [run_norm_matrix run_norm_real]; try (exfalso; set_solver); try apply HL; try (apply HE; [reflexivity..|]; intros x).
  all: try solve [reflexivity].
  - apply runs_wp. unfold linear_normm. wbind. apply wp_ret. wbind. eapply wp_m_duplicate; [exact Hw|exact Hz|]. intros o h' W N A. apply wp_ret. vec1.
    rewrite A. do 2 f_equal. symmetry. apply list_fmap_id.
  - apply asem_sigmoid.
  - asem_tac. scal. replace (exp x * -1) with (- exp x) by ring. ring.
  - asem_tac. scal. replace (x * (1 / sqrt 2)) with (x / sqrt 2) by (unfold Rdiv; ring). ring.
  - apply asem_sinh.
  - apply asem_cosh.
  - apply asem_tanh.
  - apply asem_csch.
  - apply asem_sech.
  - apply asem_coth.
  - asem_tac. scal. ring.
  - asem_tac. scal. ring.
Qed.

(** *** Derivatives *)
Theorem C37_deriv_vector f h z xs : wf h -> abs h !! z = Some (AVec xs) -> f ∉ [SOFTMAX; ADJ_SOFTMAX; C_LOG_LOG; ARCSCH] ->
  runs (run_deriv_vector f (Some z)) h (returns (AVec (derivr f <$> xs)) h).
Proof.
  intros Hw Hz Hf.
  assert (HE : forall e (g : R -> R), atyp KV e = Some KV -> aoutc false e = OVal -> aowned e = true -> (forall x, asem e x = g x) ->
     runs (run_exp e (Some z)) h (returns (AVec (g <$> xs)) h)) by (intros; apply (run_exp_elem KV _ _ h z 0%nat 0%nat); auto).
  assert (HL : forall g : R -> R, runs (act_loop KV g (Some z)) h (returns (AVec (g <$> xs)) h)) by (intros; apply (act_loop_elem KV _ h z 0%nat 0%nat); auto).
  destruct f; cbn [run_deriv_vector derivr]; try (exfalso; set_solver); try apply HL; try (apply HE; [reflexivity..|]; intros x).
  all: try solve [reflexivity].
  - unfold sigmoid_deriv_e. cbn [asem e_sub e_mul]. rewrite asem_sigmoid. unfold sigmoid_derivr. cbv zeta. generalize (sigmoid_normr x). intros. scal. ring.
  - unfold swish_derivv_e, e_add, e_sub, e_mul. cbn [asem]. rewrite asem_sigmoid, asem_swish. unfold swish_derivr.
    generalize (sigmoid_normr x), (swish_normr x). intros. scal. ring.
  - unfold mish_derivv_e, e_add, e_mul, e_div. cbn [asem]. rewrite asem_sigmoid, asem_mish, asem_sech. reflexivity.
  - apply asem_sigmoid.
  - unfold softsign_derivv_e, e_div, e_pow, e_add, e_one, e_abs. cbn [asem]. unfold softsign_derivr. rewrite s_abs_R. scal. cbn [s_pow].
    pose proof (Rabs_pos x). rewrite Rpow_2 by lra. reflexivity.
  - asem_tac. scal. rewrite Rmult_comm. f_equal. f_equal. field.
  - apply asem_cosh.
  - apply asem_sinh.
  - unfold tanh_deriv_e, e_scale, e_sadd, e_mul. cbn [asem]. rewrite asem_tanh. rewrite <- one_m_tanh. generalize (tanh_normr x). intros. scal. ring.
  - unfold csch_deriv_e, e_scale, e_mul. cbn [asem]. rewrite asem_csch, asem_coth. unfold csch_derivr. generalize (csch_normr x), (coth_normr x). intros. scal. ring.
  - unfold sech_deriv_e, e_scale, e_mul. cbn [asem]. rewrite asem_sech, asem_tanh. unfold sech_derivr. generalize (sech_normr x), (tanh_normr x). intros. scal. ring.
  - unfold coth_deriv_e, e_scale, e_mul. cbn [asem]. rewrite asem_csch. unfold coth_derivr. generalize (csch_normr x). intros. scal. ring.
Qed.
Theorem C37_deriv_matrix n f h z c r xs : wf h -> abs h !! z = Some (AMat c r xs) -> f ∉ [SOFTMAX; ADJ_SOFTMAX; C_LOG_LOG; SOFTSIGN; SWISH; MISH; ARTANH] ->
  runs (run_deriv_matrix n f (Some z)) h (returns (AMat c r (derivr f <$> xs)) h).
Proof.
  intros Hw Hz Hf.
  assert (HE : forall e (g : R -> R), atyp KM e = Some KM -> aoutc false e = OVal -> aowned e = true -> (forall x, asem e x = g x) ->
     runs (run_exp e (Some z)) h (returns (AMat c r (g <$> xs)) h)) by (intros; apply (run_exp_elem KM _ _ h z c r); auto).
  assert (HL : forall g : R -> R, runs (act_loop KM g (Some z)) h (returns (AMat c r (g <$> xs)) h)) by (intros; apply (act_loop_elem KM _ h z c r); auto).
  destruct f; cbn [run_deriv_matrix derivr]; try (exfalso; set_solver); try apply HL; try (apply HE; [reflexivity..|]; intros x).
  all: try solve [reflexivity].
  - unfold sigmoid_deriv_e. cbn [asem e_sub e_mul]. rewrite asem_sigmoid. unfold sigmoid_derivr. cbv zeta. generalize (sigmoid_normr x). intros. scal. ring.
  - apply asem_sigmoid.
  - asem_tac. scal. rewrite Rmult_comm. f_equal. f_equal. field.
  - apply asem_cosh.
  - apply asem_sinh.
  - unfold tanh_deriv_e, e_scale, e_sadd, e_mul. cbn [asem]. rewrite asem_tanh. rewrite <- one_m_tanh. generalize (tanh_normr x). intros. scal. ring.
  - unfold csch_deriv_e, e_scale, e_mul. cbn [asem]. rewrite asem_csch, asem_coth. unfold csch_derivr. generalize (csch_normr x), (coth_normr x). intros. scal. ring.
  - unfold sech_deriv_e, e_scale, e_mul. cbn [asem]. rewrite asem_sech, asem_tanh. unfold sech_derivr. generalize (sech_normr x), (tanh_normr x). intros. scal. ring.
  - unfold coth_deriv_e, e_scale, e_mul. cbn [asem]. rewrite asem_csch. unfold coth_derivr. generalize (csch_normr x). intros. scal. ring.
Qed.

(** *** The exceptions, as the code has them. *)
Theorem C37_matrix_null_refuted n h z c r xs : wf h -> abs h !! z = Some (AMat c r xs) ->
  (forall f, f ∈ [SOFTPLUS; SOFTSIGN; SWISH] -> runs (run_norm_matrix f (Some z)) h (returns_null h)) /\
  (forall f, f ∈ [SOFTSIGN; SWISH; ARTANH] -> runs (run_deriv_matrix n f (Some z)) h (returns_null h)) /\
  run_norm_matrix MISH (Some z) h = UB /\ run_deriv_matrix n MISH (Some z) h = UB.
Proof.
  intros Hw Hz.
  assert (HE : forall e, atyp KM e = Some KM -> aoutc false e = ONull -> runs (run_exp e (Some z)) h (returns_null h)).
  { intros e Ht Ho. apply runs_wp. eapply (run_exp_null e KM KM h z c r xs); [exact Hw|exact Hz|exact Ht|exact Ho|]. intros h' W A. split; [exact W|]. split; auto. }
  split; [|split; [|split]].
  - intros f Hf. destruct f; try (exfalso; set_solver); apply HE; reflexivity.
  - intros f Hf. destruct f; try (exfalso; set_solver); apply HE; reflexivity.
  - apply (run_exp_UB mish_normm_e KM KM h z c r xs); auto.
  - apply (run_exp_UB mish_derivm_e KM KM h z c r xs); auto.
Qed.
Theorem C37_arcsch_deriv_vector_refuted h z xs : wf h -> abs h !! z = Some (AVec xs) ->
  runs (run_deriv_vector ARCSCH (Some z)) h (returns_null h).
Proof.
  intros Hw Hz. apply runs_wp. eapply (run_exp_null arcsch_derivv_e KV KV h z 0%nat 0%nat xs); [exact Hw|exact Hz|reflexivity|reflexivity|].
  intros h' W A. split; [exact W|]. split; auto.
Qed.
(** cloglog: the vector and matrix derivatives compute exp(-exp x) instead of exp(x - exp x). *)
Theorem C37_cloglog_deriv_refuted n h z c r xs : wf h ->
  (abs h !! z = Some (AVec xs) -> runs (run_deriv_vector C_LOG_LOG (Some z)) h (returns (AVec ((fun x => exp (- exp x)) <$> xs)) h)) /\
  (abs h !! z = Some (AMat c r xs) -> runs (run_deriv_matrix n C_LOG_LOG (Some z)) h (returns (AMat c r ((fun x => exp (- exp x)) <$> xs)) h)) /\
  (forall x, exp (- exp x) = derivr C_LOG_LOG x <-> x = 0).
Proof.
  intros Hw. split; [|split].
  - intros Hz. apply (run_exp_elem KV (cloglog_deriv_e KV) _ h z 0%nat 0%nat xs Hw Hz); try reflexivity.
    intros x. unfold cloglog_deriv_e, e_exp, e_scale. cbn [asem]. scal. f_equal. ring.
  - intros Hz. apply (run_exp_elem KM (cloglog_deriv_e KM) _ h z c r xs Hw Hz); try reflexivity.
    intros x. unfold cloglog_deriv_e, e_exp, e_scale. cbn [asem]. scal. f_equal. ring.
  - intros x. cbn [derivr]. scal. split; [|intros ->; f_equal; ring]. intros E. apply exp_inv in E. lra.
Qed.
(** softmax_derivm recurses on its own argument: no recursion depth suffices. *)
Theorem C37_softmax_deriv_matrix_diverges n h z c rows : wf h -> abs h !! z = Some (Rows c rows) -> width c rows -> (Z.of_nat c <= int_max)%Z ->
  rows <> [] -> run_deriv_matrix n SOFTMAX (Some z) h = NoFuel.
Proof. intros. eapply softmax_derivm_diverges; eauto. Qed.

(** *** A null argument: a null result for the functions whose every library call checks, otherwise a null dereference. *)
Theorem C37_null_argument f h : wf h ->
  match f with
  | SIN_C | C_LOG_LOG | SINH | COSH | TANH => runs (run_norm_vector f None) h (returns_null h)
  | _ => run_norm_vector f None h = UB
  end.
Proof.
  intros Hw.
  assert (HE : forall e, atyp KV e = Some KV -> aoutc true e = ONull -> runs (run_exp e None) h (returns_null h)).
  { intros e Ht Ho. pose proof (run_exp_None e KV KV h Hw Ht) as G. rewrite Ho in G. apply runs_wp. eapply wp_mono; [exact G|].
    intros o h' (-> & W & A). split; [exact W|]. split; auto. }
  assert (HU : forall e, atyp KV e = Some KV -> aoutc true e = OUB -> run_exp e None h = UB).
  { intros e Ht Ho. pose proof (run_exp_None e KV KV h Hw Ht) as G. rewrite Ho in G. exact G. }
  destruct f;
    cbn [run_norm_vector]; first [apply HE; reflexivity|apply HU; reflexivity|reflexivity].
Qed.

(** *** Any arithmetic (floating point included): results are element-wise, in the same order, independent of the other elements. *)
Theorem C37_elementwise {F} `{Scalar F} `{Libm F} f : f <> SOFTMAX -> f <> ADJ_SOFTMAX -> exists g : F -> F,
  forall (h : heap F) z xs, wf h -> abs h !! z = Some (AVec xs) ->
  runs (run_norm_vector f (Some z)) h (fun (o : option loc) (h' : heap F) => exists d, o = Some d /\ abs h !! d = None /\ abs h' = <[d := AVec (g <$> xs)]> (abs h)).
Proof.
  intros H1 H2.
  assert (HE : forall e : aexp, atyp KV e = Some KV -> aoutc false e = OVal -> aowned e = true -> exists g : F -> F,
     forall (h : heap F) z xs, wf h -> abs h !! z = Some (AVec xs) ->
     runs (run_exp e (Some z)) h (fun (o : option loc) (h' : heap F) => exists d, o = Some d /\ abs h !! d = None /\ abs h' = <[d := AVec (g <$> xs)]> (abs h))).
  { intros e Ht Ho Hown. exists (asem e). intros h z xs Hw Hz. apply runs_wp. apply (run_exp_val e KV h z 0%nat 0%nat xs); auto.
    intros o h' W N A. split; [exact W|]. exists o. auto. }
  assert (HL : forall g0 : F -> F, exists g : F -> F, forall (h : heap F) z xs, wf h -> abs h !! z = Some (AVec xs) ->
     runs (act_loop KV g0 (Some z)) h (fun (o : option loc) (h' : heap F) => exists d, o = Some d /\ abs h !! d = None /\ abs h' = <[d := AVec (g <$> xs)]> (abs h))).
  { intros g0. exists g0. intros h z xs Hw Hz. apply runs_wp. apply (act_loop_ok KV g0 h z 0%nat 0%nat xs); auto.
    intros o h' W N A. split; [exact W|]. exists o. auto. }
  destruct f; cbn [run_norm_vector]; try congruence; try apply HL; try (apply HE; reflexivity).
  exists (fun x => x). intros h z xs Hw Hz. apply runs_wp. unfold linear_normv. wbind. apply wp_ret. wbind.
  eapply wp_v_duplicate; [exact Hw|exact Hz|]. intros o h' W N A. apply wp_ret. split; [exact W|]. exists o. rewrite list_fmap_id. auto.
Qed.

(** ** C38: softmax *)
Definition softmax (xs : list R) : list R := (fun x => exp x / rsum (exp <$> xs)) <$> xs.
Lemma softmax_l_R xs : softmax_l xs = softmax xs.
Proof. unfold softmax_l, softmax. cbv zeta. cbn [s_add s_zero s_exp s_div R_scalar]. rewrite foldl_Rplus. reflexivity. Qed.
Theorem C38_softmax_vector h z xs : wf h -> abs h !! z = Some (AVec xs) ->
  runs (run_norm_vector SOFTMAX (Some z)) h (returns (AVec (softmax xs)) h).
Proof.
  intros Hw Hz. apply runs_wp. cbn [run_norm_vector]. eapply wp_softmax_normv; [exact Hw|exact Hz|]. intros o h' W N A. vec1. rewrite A, softmax_l_R. reflexivity.
Qed.
Theorem C38_softmax_matrix h z c rows : wf h -> abs h !! z = Some (Rows c rows) -> width c rows -> (Z.of_nat c <= int_max)%Z ->
  runs (run_norm_matrix SOFTMAX (Some z)) h (returns (Rows c (softmax <$> rows)) h).
Proof.
  intros Hw Hz Hwd Hc. apply runs_wp. cbn [run_norm_matrix]. eapply wp_softmax_normm; [exact Hw|exact Hz|exact Hwd|exact Hc|]. intros o h' W N A. vec1.
  rewrite A. do 2 f_equal. apply list_fmap_ext. intros; apply softmax_l_R.
Qed.
Lemma rsum_exp_pos xs : xs <> [] -> 0 < rsum (exp <$> xs).
Proof.
  destruct xs as [|x xs]; [congruence|]. intros _. cbn. pose proof (exp_pos x). pose proof (rsum_map_nonneg exp xs (fun y => Rlt_le _ _ (exp_pos y))) as Hn.
  cbn in Hn. lra.
Qed.
(** A probability distribution, for every non-empty argument; adding a constant changes nothing; larger inputs get larger shares. *)
Theorem C38_softmax_distribution xs : xs <> [] ->
  Forall (fun p => 0 < p <= 1) (softmax xs) /\ rsum (softmax xs) = 1 /\ (forall c, softmax ((fun x => x + c) <$> xs) = softmax xs) /\
  (forall i j x y p q, xs !! i = Some x -> xs !! j = Some y -> softmax xs !! i = Some p -> softmax xs !! j = Some q -> (x < y <-> p < q)).
Proof.
  intros Hne. pose proof (rsum_exp_pos xs Hne) as Hs. assert (Hsum : rsum (softmax xs) = 1).
  { unfold softmax. rewrite (rsum_map_ext _ (fun x => / rsum (exp <$> xs) * exp x)) by (intros; unfold Rdiv; ring).
    rewrite (rsum_map_scal (/ rsum (exp <$> xs)) exp). field. lra. }
  assert (Hpos : Forall (fun p => 0 < p) (softmax xs)).
  { unfold softmax. apply Forall_fmap. apply Forall_true. intros x. cbn. apply Rdiv_lt_0_compat; [apply exp_pos|exact Hs]. }
  split; [|split; [exact Hsum|split]].
  - apply list.Forall_forall. intros p Hp. split; [exact (proj1 (list.Forall_forall _ _) Hpos p Hp)|].
    apply elem_of_list_split in Hp as (l1 & l2 & E). rewrite E in Hsum, Hpos. apply Forall_app in Hpos as [P1 P2]. apply Forall_cons_1 in P2 as [_ P2].
    rewrite rsum_app in Hsum. cbn in Hsum. assert (0 <= rsum l1) by (apply rsum_nonneg; eapply Forall_impl; [|exact P1]; intros; apply Rlt_le; auto).
    assert (0 <= rsum l2) by (apply rsum_nonneg; eapply Forall_impl; [|exact P2]; intros; apply Rlt_le; auto). lra.
  - intros c. unfold softmax. rewrite <- !list_fmap_compose.
    replace (rsum ((exp ∘ (fun x => x + c)) <$> xs)) with (exp c * rsum (exp <$> xs)).
    + apply list_fmap_ext. intros _ x _. cbn. rewrite exp_plus. pose proof (exp_pos c). field. lra.
    + rewrite <- rsum_map_scal. apply rsum_map_ext. intros x _. cbn. rewrite exp_plus. ring.
  - intros i j x y p q Hx Hy Hp Hq. unfold softmax in Hp, Hq. rewrite list_lookup_fmap, Hx in Hp. rewrite list_lookup_fmap, Hy in Hq.
    cbn in Hp, Hq. injection Hp as <-. injection Hq as <-. split.
    + intros Hxy. apply Rmult_lt_compat_r; [apply Rinv_0_lt_compat; exact Hs|]. apply exp_increasing, Hxy.
    + intros Hpq. apply Rmult_lt_reg_r in Hpq; [|apply Rinv_0_lt_compat; exact Hs]. apply exp_lt_inv, Hpq.
Qed.

(** The Jacobian returned for a vector is the matrix of partial derivatives of softmax. *)
Theorem C38_softmax_jacobian h z xs : wf h -> abs h !! z = Some (AVec xs) -> (Z.of_nat (length xs * length xs) <= int_max)%Z ->
  exists J : nat -> nat -> R,
  runs (softmax_deriv_normv (Some z)) h (returns (Mat (length xs) (length xs) J) h) /\
  forall i j x, (i < length xs)%nat -> xs !! j = Some x -> derivable_pt_lim (fun t => nth i (softmax (<[j := t]> xs)) 0) x (J i j).
Proof.
  intros Hw Hz Hm. exists (jac (softmax xs)). split.
  - apply runs_wp. eapply wp_softmax_deriv_normv; [exact Hw|exact Hz|exact Hm|]. intros o h' W N A. vec1. rewrite A, softmax_l_R. reflexivity.
  - intros i j x Hi Hj. destruct (lookup_lt_is_Some_2 xs i Hi) as [xi Hxi].
    set (K := rsum (exp <$> delete j xs)).
    assert (HK : forall t, rsum (exp <$> <[j := t]> xs) = K + exp t).
    { intros t. unfold K. clear - Hj. revert j Hj. induction xs as [|y ys IH]; intros [|j] Hj; try discriminate.
      - cbn. lra.
      - specialize (IH j Hj). change (exp y + rsum (exp <$> <[j:=t]> ys) = exp y + rsum (exp <$> delete j ys) + exp t). rewrite IH. lra. }
    assert (HKx : rsum (exp <$> xs) = K + exp x) by (rewrite <- (HK x), list_insert_id by exact Hj; reflexivity).
    assert (0 <= K) as HK0 by (apply rsum_map_nonneg; intros; apply Rlt_le, exp_pos). pose proof (exp_pos x).
    assert (Hsi : nth i (softmax xs) 0 = exp xi / (K + exp x)).
    { apply nth_lookup_Some. unfold softmax. rewrite list_lookup_fmap, Hxi, <- HKx. reflexivity. }
    assert (Hsj : nth j (softmax xs) 0 = exp x / (K + exp x)).
    { apply nth_lookup_Some. unfold softmax. rewrite list_lookup_fmap, Hj, <- HKx. reflexivity. }
    unfold jac. cbv zeta. cbn [s_zero s_mul s_sub s_one s_opp R_scalar]. rewrite Hsi, Hsj. destruct (decide (i = j)) as [->|Hne].
    + assert (xi = x) as -> by congruence. eapply D_ext; [|reflexivity|apply D_share; lra]. intros t. cbv beta. symmetry. apply nth_lookup_Some.
      unfold softmax. rewrite list_lookup_fmap, list_lookup_insert by exact Hi. cbn. rewrite <- HK. reflexivity.
    + eapply D_ext; [|reflexivity|apply D_share2; lra]. intros t. cbv beta. symmetry. apply nth_lookup_Some.
      unfold softmax. rewrite list_lookup_fmap, list_lookup_insert_ne by congruence. rewrite Hxi. cbn. rewrite <- HK. reflexivity.
Qed.

(** adj_softmax: the same values as softmax when every element converts to a 32-bit int, undefined behaviour otherwise. *)
Definition int_range (x : R) : Prop := -2147483649 < x < 2147483648.
Lemma Rto_int_Some xs : Forall int_range xs -> exists ks, Forall2 (fun x k => m_to_int x = Some k) xs ks.
Proof.
  induction 1 as [|x xs Hx _ [ks IH]]; [exists []; constructor|]. exists (Rtrunc x :: ks). constructor; [|exact IH].
  cbn. unfold Rto_int. destruct Hx. destruct (Rlt_dec _ _); [|lra]. destruct (Rlt_dec _ _); [reflexivity|lra].
Qed.
Lemma softmax_shift xs c : softmax ((fun x => x + c) <$> xs) = softmax xs.
Proof. destruct xs as [|x xs]; [reflexivity|]. apply C38_softmax_distribution. discriminate. Qed.
Theorem C38_adj_softmax_vector h z xs : wf h -> abs h !! z = Some (AVec xs) ->
  (Forall int_range xs -> runs (run_norm_vector ADJ_SOFTMAX (Some z)) h (returns (AVec (softmax xs)) h)) /\
  (~ Forall int_range xs -> run_norm_vector ADJ_SOFTMAX (Some z) h = UB).
Proof.
  intros Hw Hz. split.
  - intros Hr. destruct (Rto_int_Some xs Hr) as [ks Hk]. apply runs_wp. cbn [run_norm_vector]. eapply wp_adj_softmax_normv; [exact Hw|exact Hz|exact Hk|].
    intros o h' W N A. vec1. rewrite A, softmax_l_R. do 2 f_equal. apply softmax_shift.
  - intros Hn. assert (exists i x, xs !! i = Some x /\ ~ int_range x) as (i & x & Hx & Hr).
    { clear - Hn. induction xs as [|y ys IH]; [destruct Hn; constructor|].
      assert (int_range y \/ ~ int_range y) as [Hy|Hy] by (unfold int_range; destruct (Rlt_dec (-2147483649) y), (Rlt_dec y 2147483648); tauto).
      - destruct IH as (i & x & H1 & H2); [intros Hy'; apply Hn; constructor; auto|]. exists (S i), x. auto.
      - exists 0%nat, y. auto. }
    eapply adj_softmax_normv_UB; [exact Hw|exact Hz|exact Hx|]. cbn. unfold Rto_int. unfold int_range in Hr.
    destruct (Rlt_dec _ _); [|reflexivity]. destruct (Rlt_dec _ _); [tauto|reflexivity].
Qed.
Lemma adj_sm_rows_ok xs : Forall int_range xs -> forall h z (Q : option loc -> heap R -> Prop), wf h -> abs h !! z = Some (AVec xs) ->
  (forall o h', wf h' -> abs h !! o = None -> abs h' = <[o := AVec (softmax xs)]> (abs h) -> Q (Some o) h') -> wp (adj_softmax_normv (Some z)) h Q.
Proof.
  intros Hr h z Q Hw Hz HQ. destruct (Rto_int_Some xs Hr) as [ks Hk]. eapply wp_adj_softmax_normv; [exact Hw|exact Hz|exact Hk|].
  intros o h' W N A. apply HQ; auto. rewrite A, softmax_l_R. do 2 f_equal. apply softmax_shift.
Qed.
Theorem C38_adj_softmax_matrix h z c rows : wf h -> abs h !! z = Some (Rows c rows) -> width c rows -> (Z.of_nat c <= int_max)%Z ->
  Forall (Forall int_range) rows ->
  runs (run_norm_matrix ADJ_SOFTMAX (Some z)) h (returns (Rows c (softmax <$> rows)) h).
Proof.
  intros Hw Hz Hwd Hc Hr. apply runs_wp. cbn [run_norm_matrix]. unfold adj_softmax_normm.
  eapply (wp_adj_rows (Forall int_range) adj_softmax_normv softmax); [| |exact Hr|exact Hw|exact Hz|exact Hwd|exact Hc|].
  - intros h0 z0 xs0 Q0 W0 Z0 P0 HQ0. eapply adj_sm_rows_ok; eauto.
  - intros xs. apply fmap_length.
  - intros o h' W N A. vec1. exact A.
Qed.
Lemma Rtrunc_bound (b : Z) x : (0 <= b)%Z -> - IZR b <= x <= IZR b -> - IZR b <= IZR (Rtrunc x) <= IZR b.
Proof.
  intros Hb Hx. unfold Rtrunc. destruct (Rlt_dec x 0).
  - rewrite opp_IZR. destruct (base_Int_part (- x)). 
    assert (-1 < IZR (Int_part (- x))) by lra. assert (IZR 0 <= IZR (Int_part (- x))). { apply IZR_le. apply lt_IZR in H1. lia. } lra.
  - destruct (base_Int_part x). assert (-1 < IZR (Int_part x)) by lra. assert (IZR 0 <= IZR (Int_part x)). { apply IZR_le. apply lt_IZR in H1. lia. } 
    apply IZR_le in Hb. lra.
Qed.
(** The model of -inf over the reals is 0; see RInst. *)
Lemma adj_c_bound xs ks : Forall2 (fun x k => m_to_int x = Some k) xs ks -> Forall (fun x => -1073741823 <= x <= 1073741823) xs -> -1073741823 <= adj_c ks <= 1073741823.
Proof.
  intros Hk Hr. unfold adj_c. cbn [s_opp s_inf s_of_Z R_scalar].
  assert (G : forall c, -1073741823 <= c <= 1073741823 -> -1073741823 <= foldl imax c (IZR <$> ks) <= 1073741823).
  { induction Hk as [|x k xs ks E _ IH]; intros c Hc; [exact Hc|]. apply Forall_cons_1 in Hr as [Hx Hr]. cbn [fmap list_fmap foldl]. apply IH; [exact Hr|].
    unfold imax. destruct (s_lt _ _); [|exact Hc]. cbn in E. unfold Rto_int in E. destruct (Rlt_dec _ _); [|discriminate]. destruct (Rlt_dec _ _); [|discriminate].
    injection E as <-. pose proof (Rtrunc_bound 1073741823 x ltac:(lia)). lra. }
  specialize (G (-0)). lra.
Qed.
(** The "derivatives" of softmax and adj_softmax on vectors are softmax itself. *)
Theorem C38_softmax_deriv_vector_is_softmax h z xs : wf h -> abs h !! z = Some (AVec xs) ->
  runs (run_deriv_vector SOFTMAX (Some z)) h (returns (AVec (softmax xs)) h) /\
  (Forall (fun x => -1073741823 <= x <= 1073741823) xs -> runs (run_deriv_vector ADJ_SOFTMAX (Some z)) h (returns (AVec (softmax xs)) h)).
Proof.
  intros Hw Hz. split; [apply (C38_softmax_vector h z xs Hw Hz)|]. intros Hr.
  assert (Hr1 : Forall int_range xs) by (eapply Forall_impl; [|exact Hr]; unfold int_range; intros; cbv beta in *; lra).
  destruct (Rto_int_Some xs Hr1) as [ks Hk].
  assert (Hc : -1073741823 <= adj_c ks <= 1073741823) by (eapply adj_c_bound; eauto).
  assert (Hr2 : Forall int_range ((fun x => x + adj_c ks) <$> xs)).
  { apply Forall_fmap. eapply Forall_impl; [|exact Hr]. unfold int_range. intros x Hx. cbn in *. lra. }
  destruct (Rto_int_Some _ Hr2) as [ks' Hk']. apply Forall2_fmap_l in Hk'.
  apply runs_wp. cbn [run_deriv_vector]. eapply wp_adj_softmax_derivv; [exact Hw|exact Hz|exact Hk|exact Hk'|].
  intros o h' W N A. vec1. rewrite A, softmax_l_R. do 2 f_equal. cbn [s_add R_scalar].
  rewrite <- (softmax_shift xs (adj_c ks)), <- (softmax_shift ((fun x => x + adj_c ks) <$> xs) (adj_c ks')). rewrite <- list_fmap_compose. reflexivity.
Qed.
