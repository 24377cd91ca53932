(** * C41: what the costs are least at; C42: regularisation. *)
From Verif Require Import Base BaseProofs Vec VecSpec VecProofs VecProofs2 Mat MatSpec MatProofs MatProofs2 MatProofs3 MatProofs4 MatProofs5 Frame StatProofs Act ActProofs ActProofs2 Cost CostProofs.
From Verif Require Import RErf LibmR PropAct PropAct2 CostSpec CostMath PropCost.
From Coq Require Import Reals Lra Lia.
From Verif Require Import RInst.
Open Scope R_scope.
Implicit Types (h : heap R) (z o a b : loc) (xs ys ws : list R).

Lemma sum2_nonneg f xs : (forall x y, 0 <= f x y) -> forall ys, 0 <= sum2 f xs ys.
Proof. intros Hf. unfold sum2. induction xs as [|x xs IH]; intros [|y ys]; cbn; try lra. pose proof (IH ys). pose proof (Hf x y). lra. Qed.
Lemma sum2_zero (P : R -> R -> Prop) f xs : (forall x y, 0 <= f x y) -> (forall x y, f x y = 0 <-> P x y) -> forall ys, length xs = length ys ->
  (sum2 f xs ys = 0 <-> Forall2 P xs ys).
Proof.
  intros Hf HP. induction xs as [|x xs IH]; intros [|y ys] E; try discriminate; [split; intros; [constructor|reflexivity]|].
  injection E as E. specialize (IH ys E). pose proof (sum2_nonneg f xs Hf ys) as N. pose proof (Hf x y) as N1. unfold sum2 in *. cbn [zip_with rsum]. split.
  - intros Z. constructor; [apply HP; lra|apply IH; lra].
  - intros F. apply Forall2_cons_1 in F as [F1 F2]. apply HP in F1. apply IH in F2. lra.
Qed.
Lemma Forall2_eq_iff xs ys : Forall2 eq xs ys <-> xs = ys.
Proof. split; [induction 1; congruence|intros ->; induction ys; constructor; auto]. Qed.
Lemma div_zero x n : 0 < n -> (x / n = 0 <-> x = 0).
Proof.
  intros Hn. split; intros Z; [|rewrite Z; unfold Rdiv; lra]. apply (Rmult_eq_reg_r (/ n)); [|apply Rinv_neq_0_compat; lra]. unfold Rdiv in Z. lra.
Qed.
Lemma div_nonneg x n : 0 < n -> 0 <= x -> 0 <= x / n.
Proof. intros. unfold Rdiv. apply Rmult_le_pos; [assumption|]. left. apply Rinv_0_lt_compat. assumption. Qed.

(** The squared, root-mean-squared and absolute errors are non-negative and vanish exactly at the targets. *)
Theorem C41_error_costs k f h a b c w c' w' xs ys : wf h -> abs h !! a = Some (KObj k c w xs) -> abs h !! b = Some (KObj k c' w' ys) ->
  length xs = length ys -> xs <> [] -> f ∈ [MSE; RMSE; MAE] ->
  exists v, run_cost_norm k f (Some a) (Some b) h = Ok v h /\ 0 <= v /\ (v = 0 <-> xs = ys).
Proof.
  intros Hw Ha Hb E Hx Hf. assert (Hf' : f = MSE \/ f = RMSE \/ f = MAE) by (rewrite !elem_of_cons, elem_of_nil in Hf; tauto). clear Hf.
  pose proof (C39_cost_value k f h a b c w c' w' xs ys Hw Ha Hb E) as V. eexists. split; [exact V|]. clear V.
  pose proof (len_pos xs Hx) as Hl. pose proof (sqsum_nonneg xs ys) as HS. pose proof (sqsum_zero xs ys E) as HZ.
  assert (Q : forall q, 0 < q -> 0 <= sqrt (sqsum xs ys / q) /\ (sqrt (sqsum xs ys / q) = 0 <-> xs = ys)).
  { intros q Hq. split; [apply sqrt_pos|]. rewrite <- HZ, <- (div_zero (sqsum xs ys) q Hq). split; [apply sqrt_eq_0, div_nonneg; assumption|intros ->; apply sqrt_0]. }
  destruct Hf' as [-> |[-> | ->]]; cbn [cost_val].
  - split; [apply Rmult_le_pos; lra|]. rewrite <- HZ. split; intros Z; [|rewrite Z; lra]. apply Rmult_integral in Z as [Z|Z]; lra.
  - destruct k; [apply Q; exact Hl|]. apply Q. destruct (kobj_len h a KM c w xs Hw Ha) as [_ L]. apply lt_0_INR. destruct w; [|lia].
    rewrite Nat.mul_0_r in L. destruct xs; [congruence|discriminate].
  - unfold mae. split; [apply div_nonneg; [exact Hl|]; apply sum2_nonneg; intros; apply Rabs_pos|]. rewrite div_zero by exact Hl.
    rewrite (sum2_zero eq); [apply Forall2_eq_iff|intros; apply Rabs_pos| |exact E].
    intros x y. split; [|intros ->; rewrite Rminus_eq_0; apply Rabs_R0]. intros Z. destruct (Req_dec (x - y) 0); [lra|]. apply Rabs_pos_lt in H. lra.
Qed.
(** Hinge: non-negative, zero exactly when every margin is at least one. *)
Theorem C41_hinge k h a b c w c' w' xs ys : wf h -> abs h !! a = Some (KObj k c w xs) -> abs h !! b = Some (KObj k c' w' ys) ->
  length xs = length ys -> xs <> [] ->
  exists v, run_cost_norm k HINGE_LOSS (Some a) (Some b) h = Ok v h /\ 0 <= v /\ (v = 0 <-> Forall2 (fun x y => 1 <= y * x) xs ys).
Proof.
  intros Hw Ha Hb E Hx. pose proof (C39_cost_value k HINGE_LOSS h a b c w c' w' xs ys Hw Ha Hb E) as V. eexists. split; [exact V|]. clear V.
  pose proof (len_pos xs Hx) as Hl. cbn [cost_val]. unfold hinge. split; [apply div_nonneg; [exact Hl|]; apply sum2_nonneg; intros; apply Rmax_l|].
  rewrite div_zero by exact Hl. apply sum2_zero; [intros; apply Rmax_l| |exact E].
  intros x y. unfold Rmax. destruct (Rle_dec _ _); split; lra.
Qed.
(** Cross entropy over probability vectors is least at the targets (Gibbs). *)
Theorem C41_cross_entropy_minimum k h a b c w c' w' xs ys : wf h -> abs h !! a = Some (KObj k c w xs) -> abs h !! b = Some (KObj k c' w' ys) ->
  length xs = length ys -> Forall (fun x => 0 < x) xs -> Forall (fun y => 0 < y) ys -> rsum xs = rsum ys ->
  exists v v0, run_cost_norm k CROSS_ENTROPY (Some a) (Some b) h = Ok v h /\ run_cost_norm k CROSS_ENTROPY (Some b) (Some b) h = Ok v0 h /\ v0 <= v.
Proof.
  intros Hw Ha Hb E Px Py Hs. do 2 eexists. split; [apply (C39_cost_value k CROSS_ENTROPY h a b c w c' w' xs ys); assumption|].
  split; [apply (C39_cost_value k CROSS_ENTROPY h b b c' w' c' w' ys ys); auto|]. cbn [cost_val]. unfold cross_entropy.
  pose proof (gibbs xs ys E Px Py). lra.
Qed.
(** Huber lies between zero and the squared error, and vanishes exactly at the targets. *)
Theorem C41_huber k h a b c w c' w' xs ys d : wf h -> abs h !! a = Some (KObj k c w xs) -> abs h !! b = Some (KObj k c' w' ys) ->
  length xs = length ys -> 0 < d ->
  exists v, c_huber k (Some a) (Some b) d h = Ok v h /\ 0 <= v <= sqsum xs ys /\ (v = 0 <-> xs = ys).
Proof.
  intros Hw Ha Hb E Hd. pose proof (C39_huber_value k h a b c w c' w' xs ys d Hw Ha Hb) as V. rewrite decide_True in V by exact E. eexists. split; [exact V|]. clear V.
  unfold huber. assert (Hn : forall x y, 0 <= huber1_spec d x y) by (intros; apply huber1_range; lra). split; [split|].
  - apply sum2_nonneg. exact Hn.
  - clear Ha Hb. unfold sqsum, sum2. revert ys E. induction xs as [|x xs IH]; intros [|y ys] E; try discriminate; cbn [zip_with rsum]; [lra|]. injection E as E. specialize (IH ys E).
    pose proof (huber1_range d x y ltac:(lra)). replace ((x - y) * (x - y)) with ((y - x) * (y - x)) by ring. lra.
  - rewrite (sum2_zero eq); [apply Forall2_eq_iff|exact Hn| |exact E]. intros x y. unfold huber1_spec. destruct (Rle_dec (Rabs (y - x)) d) as [L|L]; split; intros Z.
    + apply Rsqr_0_uniq in Z. lra.
    + subst. ring.
    + assert (0 < 2 * d * Rabs (y - x) - d * d) by nra. lra.
    + subst. rewrite Rminus_eq_0, Rabs_R0 in L. lra.
Qed.

(** ** C42: regularisation *)
Definition penalty (lambda alpha : R) (t : regtype) ws : R :=
  match t with RRidge => ridge lambda ws | RLasso => lasso lambda ws | RElastic => elastic_net lambda alpha ws | RNone | RClip => 0 end.
Theorem C42_reg_term k h a c w ws lambda alpha t : wf h -> abs h !! a = Some (KObj k c w ws) ->
  reg_term k (Some a) lambda alpha t h = Ok (penalty lambda alpha t ws) h.
Proof.
  intros Hw Ha. rewrite (reg_term_ok k h a c w ws) by assumption. f_equal. destruct t; cbn [reg_val penalty]; unfold ridge, lasso, elastic_net, s_two; cbn; try reflexivity.
  - rewrite (foldl_add_acc (fun x => x * x)). lra.
  - rewrite (foldl_ext' _ (fun s x => s + Rabs x)) by (intros; rewrite s_abs_R; reflexivity). rewrite (foldl_add_acc Rabs). lra.
  - rewrite (foldl_ext' _ (fun s x => s + (alpha * Rabs x + (1 - alpha) / 2 * (x * x)))) by (intros; rewrite s_abs_R; lra).
    rewrite (foldl_add_acc (fun x => alpha * Rabs x + (1 - alpha) / 2 * (x * x))), rsum_map_plus, !rsum_map_scal. lra.
Qed.
Lemma sign_R x : x <> 0 -> sign_normr x = if Rlt_dec 0 x then 1 else -1.
Proof. intros Hx. unfold sign_normr. scal. rif; reflexivity. Qed.
(** reg_deriv_term returns the gradient of reg_term (away from the kink of |w|). *)
Theorem C42_reg_gradient k h a c w ws lambda alpha t : wf h -> abs h !! a = Some (KObj k c w ws) -> t ∈ [RNone; RRidge; RLasso; RElastic] ->
  (t = RLasso \/ t = RElastic -> Forall (fun x => x <> 0) ws) ->
  exists gs, runs (reg_deriv_term k (Some a) lambda alpha t) h (returns (KObj k c w gs) h) /\ gradient (penalty lambda alpha t) ws gs.
Proof.
  intros Hw Ha Ht Hnz. exists (reg_d1 lambda alpha t <$> ws). split.
  - apply runs_wp. eapply reg_deriv_ok; [exact Hw|exact Ha|]. intros. vec1. assumption.
  - assert (Gsq : gradient (fun v => rsum ((fun w => w * w) <$> v)) ws ((fun w => 2 * w) <$> ws)).
    { apply grad_sum1. intros x _. replace (2 * x) with (1 * x + x * 1) by lra. apply (derivable_pt_lim_mult id id); apply derivable_pt_lim_id. }
    assert (Gabs : Forall (fun x => x <> 0) ws -> gradient (fun v => rsum (Rabs <$> v)) ws (sign_normr <$> ws)).
    { intros Hz. apply grad_sum1. intros x Hx. rewrite Forall_forall in Hz. rewrite sign_R by (apply Hz, elem_of_list_In, Hx). apply D_abs. apply Hz, elem_of_list_In, Hx. }
    destruct t; cbn [penalty].
    + replace (reg_d1 lambda alpha RNone <$> ws) with (times 0 ((fun w => 2 * w) <$> ws)).
      2:{ unfold times. rewrite <- list_fmap_compose. apply list_fmap_ext. intros. cbn. lra. }
      eapply grad_scal; [exact Gsq|]. intros v _. cbn [penalty]. rewrite Rmult_0_l. reflexivity.
    + replace (reg_d1 lambda alpha RRidge <$> ws) with (times (lambda / 2) ((fun w => 2 * w) <$> ws)).
      2:{ unfold times. rewrite <- list_fmap_compose. apply list_fmap_ext. intros. cbn. lra. }
      eapply grad_scal; [exact Gsq|]. reflexivity.
    + replace (reg_d1 lambda alpha RLasso <$> ws) with (times lambda (sign_normr <$> ws)).
      2:{ unfold times. rewrite <- list_fmap_compose. reflexivity. }
      eapply grad_scal; [apply Gabs, Hnz; auto|]. reflexivity.
    + replace (reg_d1 lambda alpha RElastic <$> ws) with (zip_with Rplus (times (lambda * alpha) (sign_normr <$> ws)) (times (lambda * ((1 - alpha) / 2)) ((fun w => 2 * w) <$> ws))).
      2:{ unfold times. rewrite <- !list_fmap_compose, zip_with_fmap_same. apply list_fmap_ext. intros. cbn. lra. }
      eapply grad_ext; [apply grad_plus; [eapply grad_scal; [apply Gabs, Hnz; auto|reflexivity]|eapply grad_scal; [exact Gsq|reflexivity]]|].
      intros v _. cbn [penalty]. unfold elastic_net. ring.
    + rewrite !elem_of_cons, elem_of_nil in Ht. destruct Ht as [?|[?|[?|[?|[]]]]]; discriminate.
Qed.
(** reg_weights subtracts that gradient; with clipping every weight is moved into [lambda, alpha]. *)
Lemma reg_weights_ok k h a c w ws lambda alpha t : wf h -> abs h !! a = Some (KObj k c w ws) ->
  runs (reg_weights k (Some a) lambda alpha t) h (returns (KObj k c w (match t with RClip => reg_d1 lambda alpha t <$> ws | _ => (fun x => x - reg_d1 lambda alpha t x) <$> ws end)) h).
Proof.
  intros Hw Ha. apply runs_wp.
  assert (G : wp (let! d := reg_deriv_term k (Some a) lambda alpha t in let! x := la2 k s_sub (Some a) d in drop_ref true d ;;; ret x) h
     (fun (o : option loc) (h' : heap R) => wf h' /\ returns (KObj k c w ((fun x => x - reg_d1 lambda alpha t x) <$> ws)) h o h')).
  { wbind. eapply reg_deriv_ok; [exact Hw|exact Ha|]. intros d h1 W1 N1 A1. assert (a <> d) by congruence.
    wbind. eapply la2_ok; [exact W1|rewrite A1, lookup_insert_ne by congruence; exact Ha|rewrite A1; apply lookup_insert|rewrite fmap_length; reflexivity|].
    intros o h2 W2 N2 A2. assert (o <> d) by (intros ->; rewrite A1, lookup_insert in N2; discriminate). rewrite A1, lookup_insert_ne in N2 by congruence.
    wbind. cbn [drop_ref]. eapply wp_del; [exact W2|rewrite A2, lookup_insert_ne, A1 by congruence; apply lookup_insert|]. intros h3 W3 A3 _. apply wp_ret. vec1.
    assert (Z : zip_with (s_sub (F := R)) ws (reg_d1 lambda alpha t <$> ws) = (fun x => x - reg_d1 lambda alpha t x) <$> ws).
    { rewrite <- (list_fmap_id ws) at 1. rewrite zip_with_fmap_same. reflexivity. }
    rewrite A3, A2, A1, Z. mapeq. }
  destruct t; try exact G. unfold reg_weights. eapply reg_deriv_ok; [exact Hw|exact Ha|]. intros. vec1. assumption.
Qed.
Theorem C42_reg_weights k h a c w ws lambda alpha t : wf h -> abs h !! a = Some (KObj k c w ws) -> t <> RClip ->
  exists gs, runs (reg_deriv_term k (Some a) lambda alpha t) h (returns (KObj k c w gs) h) /\
    runs (reg_weights k (Some a) lambda alpha t) h (returns (KObj k c w (zip_with Rminus ws gs)) h).
Proof.
  intros Hw Ha Ht. exists (reg_d1 lambda alpha t <$> ws). split.
  - apply runs_wp. eapply reg_deriv_ok; [exact Hw|exact Ha|]. intros. vec1. assumption.
  - pose proof (reg_weights_ok k h a c w ws lambda alpha t Hw Ha) as G.
    replace (zip_with Rminus ws (reg_d1 lambda alpha t <$> ws)) with ((fun x => x - reg_d1 lambda alpha t x) <$> ws).
    2:{ rewrite <- (list_fmap_id ws) at 2. rewrite zip_with_fmap_same. reflexivity. }
    destruct t; try exact G. congruence.
Qed.
Theorem C42_clipping k h a c w ws lambda alpha : wf h -> abs h !! a = Some (KObj k c w ws) -> lambda <= alpha ->
  exists gs, runs (reg_weights k (Some a) lambda alpha RClip) h (returns (KObj k c w gs) h) /\
    Forall2 (fun x x' => lambda <= x' <= alpha /\ (lambda <= x <= alpha -> x' = x) /\ (x < lambda -> x' = lambda) /\ (alpha < x -> x' = alpha)) ws gs.
Proof.
  intros Hw Ha Hl. eexists. split; [apply (reg_weights_ok k h a c w ws lambda alpha RClip Hw Ha)|]. clear Ha.
  induction ws as [|x ws IH]; cbn; constructor; [|exact IH]. unfold Rltb. destruct (Rlt_dec alpha x); [|destruct (Rlt_dec x lambda)]; repeat split; lra.
Qed.
(** Ridge with a step in [0, 1] shrinks every weight and never changes its sign. *)
Theorem C42_ridge_shrinks k h a c w ws lambda alpha : wf h -> abs h !! a = Some (KObj k c w ws) -> 0 <= lambda <= 1 ->
  exists gs, runs (reg_weights k (Some a) lambda alpha RRidge) h (returns (KObj k c w gs) h) /\
    Forall2 (fun x x' => Rabs x' <= Rabs x /\ 0 <= x * x') ws gs.
Proof.
  intros Hw Ha Hl. eexists. split; [apply (reg_weights_ok k h a c w ws lambda alpha RRidge Hw Ha)|]. clear Ha.
  induction ws as [|x ws IH]; cbn; constructor; [|exact IH]. replace (x - lambda * x) with ((1 - lambda) * x) by ring. split.
  - rewrite Rabs_mult, (Rabs_right (1 - lambda)) by lra. pose proof (Rabs_pos x). nra.
  - replace (x * ((1 - lambda) * x)) with ((1 - lambda) * (x * x)) by ring. apply Rmult_le_pos; [lra|]. apply Rle_0_sqr.
Qed.
