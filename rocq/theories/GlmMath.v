(** * The steps of linear and logistic regression over the reals are the steps studied in [GdMath]. *)
From Verif Require Import Base BaseProofs VecSpec MatSpec MatProofs2 Act ActProofs Cost Glm GlmProofs CostSpec GdMath GlmSpec LibmR.
From Coq Require Import Reals Lra.
From Verif Require Import PropAct PropAct2 PropSvm RSum RInst.
Open Scope R_scope.

Definition J (c : cls) := match c with Lin => J_lin | Log => J_log end.
Definition cst (c : cls) : R := match c with Lin => 1 | Log => / 4 end.
(** Weights and bias as one vector of k + 1 coordinates; rows extended by 1. *)
Definition par (k : nat) (s : list R * R) (j : nat) : R := if decide (j < k)%nat then nth j s.1 0 else s.2.
Definition ext (k : nat) (X : nat -> nat -> R) (i j : nat) : R := if decide (j < k)%nat then X i j else 1.
(** Loss of one example as a function of its score, and its derivative. *)
Definition loss (c : cls) (y z : R) : R := match c with Lin => / 2 * (z - y) ^ 2 | Log => ln (1 + exp z) - y * z end.
Definition lossd (c : cls) (y z : R) : R := match c with Lin => z - y | Log => logistic z - y end.

Lemma lk_R c (z : R) : lk c z = match c with Lin => z | Log => logistic z end.
Proof. destruct c; [reflexivity|]. unfold lk. rewrite asem_sigmoid. unfold logistic. scal. reflexivity. Qed.
Lemma D_sp z : derivable_pt_lim (fun z => ln (1 + exp z)) z (logistic z).
Proof. exact (D_softplus z). Qed.
Lemma logistic_range z : 0 < logistic z < 1.
Proof. unfold logistic. pose proof (exp_pos (- z)). split; [apply Rdiv_lt_0_compat; lra|]. apply (Rmult_lt_reg_r (1 + exp (- z))); [lra|]. unfold Rdiv. rewrite Rmult_assoc, Rinv_l by lra. lra. Qed.
Lemma logistic_opp z : 1 - logistic z = / (1 + exp z).
Proof.
  unfold logistic. pose proof (exp_pos (- z)). pose proof (exp_pos z). assert (exp z * exp (- z) = 1) by (apply exp_mul_opp).
  apply (Rmult_eq_reg_r ((1 + exp z) * (1 + exp (- z)))); [|nra]. field_simplify; [nra|lra|lra].
Qed.
Lemma ln_logistic z : ln (logistic z) = z - ln (1 + exp z).
Proof.
  assert (E : logistic z = exp z / (1 + exp z)).
  { pose proof (logistic_opp z) as S. pose proof (exp_pos z). assert (E1 : logistic z = 1 - / (1 + exp z)) by lra. rewrite E1. field. lra. }
  pose proof (exp_pos z). rewrite E. unfold Rdiv. rewrite ln_mult by (try apply Rinv_0_lt_compat; lra). rewrite ln_exp, ln_Rinv by lra. lra.
Qed.
Lemma log_loss_eq y z : - (y * ln (logistic z) + (1 - y) * ln (1 - logistic z)) = loss Log y z.
Proof. rewrite ln_logistic, logistic_opp. pose proof (exp_pos z). rewrite ln_Rinv by lra. cbn. ring. Qed.
Lemma D_loss c y z : derivable_pt_lim (loss c y) z (lossd c y z).
Proof.
  destruct c; cbn [loss lossd].
  - assert (E : derivable_pt_lim (fun t => t - y) z 1).
    { replace 1 with (1 - 0) by ring. apply (derivable_pt_lim_minus id (fct_cte y) z); [apply derivable_pt_lim_id|apply derivable_pt_lim_const]. }
    apply (D_ext (fun t => / 2 * ((t - y) * (t - y))) (loss Lin y) z (z - y)); [intros t; cbn; ring|reflexivity|].
    replace (z - y) with (/ 2 * (1 * (z - y) + (z - y) * 1)) by field. apply (derivable_pt_lim_scal (fun t => (t - y) * (t - y)) (/ 2) z). apply (derivable_pt_lim_mult (fun t => t - y) (fun t => t - y) z); exact E.
  - replace (logistic z - y) with (logistic z - y * 1) by ring. apply (derivable_pt_lim_minus (fun z => ln (1 + exp z)) (fun z => y * z) z); [apply D_sp|]. apply (derivable_pt_lim_scal (fun z => z) y z), derivable_pt_lim_id.
Qed.
Definition lossdd (c : cls) (z : R) : R := match c with Lin => 1 | Log => logistic z * (1 - logistic z) end.
Lemma D_lossd c y z : derivable_pt_lim (lossd c y) z (lossdd c z).
Proof.
  destruct c; cbn [lossd lossdd].
  - replace 1 with (1 - 0) by ring. apply (derivable_pt_lim_minus id (fct_cte y) z); [apply derivable_pt_lim_id|apply derivable_pt_lim_const].
  - replace (logistic z * (1 - logistic z)) with (sigmoid_derivr z - 0). 2:{ unfold sigmoid_derivr. cbv zeta. change (sigmoid_normr z) with (logistic z). scal. ring. }
    apply (derivable_pt_lim_minus logistic (fct_cte y) z); [exact (D_sigmoid z)|apply derivable_pt_lim_const].
Qed.
Lemma lossdd_bound c z : 0 <= lossdd c z <= cst c.
Proof. destruct c; cbn [lossdd cst]; [lra|]. pose proof (logistic_range z) as S. generalize dependent (logistic z). intros s S. split; [apply Rmult_le_pos; lra|]. pose proof (Rle_0_sqr (s - / 2)) as Q. unfold Rsqr in Q. lra. Qed.
Lemma loss_convex c y : convex1 (loss c y) (lossd c y).
Proof. apply (convex1_of (loss c y) (lossd c y) (lossdd c) (cst c)); [apply D_loss|apply D_lossd|apply lossdd_bound]. Qed.
Lemma loss_smooth c y : smooth1 (cst c) (loss c y) (lossd c y).
Proof. apply (smooth1_of (loss c y) (lossd c y) (lossdd c) (cst c)); [apply D_loss|apply D_lossd|apply lossdd_bound]. Qed.
Lemma cst_pos c : 0 <= cst c. Proof. destruct c; cbn; lra. Qed.

Lemma ext_par k X s i : Rsum (S k) (fun j => ext k X i j * par k s j) = score k X s.1 s.2 i.
Proof.
  rewrite Rsum_S. unfold score. f_equal; [|unfold ext, par; rewrite !decide_False by lia; ring]. apply Rsum_ext. intros j Hj. unfold ext, par. rewrite !decide_True by exact Hj. reflexivity.
Qed.
Lemma ext_sq k X i : Rsum (S k) (fun j => ext k X i j * ext k X i j) = Rsum k (fun j => X i j ^ 2) + 1.
Proof.
  rewrite Rsum_S. f_equal; [|unfold ext; rewrite !decide_False by lia; ring]. apply Rsum_ext. intros j Hj. unfold ext. rewrite !decide_True by exact Hj. ring.
Qed.
Lemma J_risk c n k X ys s : J c n k X ys s.1 s.2 = risk n (S k) (ext k X) (fun i => loss c (nth i ys 0)) (par k s).
Proof.
  unfold risk. destruct c; cbn [J]; unfold J_lin, J_log; f_equal; apply Rsum_ext; intros i _; rewrite ext_par; [reflexivity|apply log_loss_eq].
Qed.
Lemma lips_power c n k X : lips n (S k) (ext k X) (cst c) = cst c * row_power n k X.
Proof. unfold lips, row_power, Rdiv. rewrite Rmult_assoc. do 2 f_equal. apply Rsum_ext. intros i _. apply ext_sq. Qed.
Lemma dist_par k s t : dist2 (S k) (par k s) (par k t) = model_dist2 k s.1 s.2 t.1 t.2.
Proof.
  unfold dist2, sqn, model_dist2. rewrite Rsum_S. f_equal; [|unfold par; rewrite !decide_False by lia; ring]. apply Rsum_ext. intros j Hj. unfold par. rewrite !decide_True by exact Hj. ring.
Qed.

(** Values the program computes, over the reals. *)
Lemma mv_row_R X ws k i : mv_row X ws k i = Rsum k (fun j => X i j * nth j ws 0).
Proof. unfold mv_row. rewrite lsum_Rsum. reflexivity. Qed.
Lemma nth_vlist n (f : nat -> R) i : (i < n)%nat -> nth i (vlist n f) 0 = f i.
Proof. intros Hi. apply nth_lookup_Some. apply vlist_lookup, Hi. Qed.
Lemma nth_fmap (f : R -> R) l i : (i < length l)%nat -> nth i (f <$> l) 0 = f (nth i l 0).
Proof. intros Hi. destruct (lookup_lt_is_Some_2 l i Hi) as [x Hx]. rewrite (nth_lookup_Some l i 0 x Hx). apply nth_lookup_Some. rewrite list_lookup_fmap, Hx. reflexivity. Qed.
Lemma nth_zip (f : R -> R -> R) l m i : (i < length l)%nat -> (i < length m)%nat -> nth i (zip_with f l m) 0 = f (nth i l 0) (nth i m 0).
Proof.
  intros Hl Hm. destruct (lookup_lt_is_Some_2 l i Hl) as [x Hx]. destruct (lookup_lt_is_Some_2 m i Hm) as [y Hy]. rewrite (nth_lookup_Some l i 0 x Hx), (nth_lookup_Some m i 0 y Hy).
  apply nth_lookup_Some. rewrite lookup_zip_with, Hx, Hy. reflexivity.
Qed.
Lemma preds_R c n k X ws b i : (i < n)%nat -> nth i (preds c n k X ws b) 0 = match c with Lin => score k X ws b i | Log => logistic (score k X ws b i) end.
Proof.
  intros Hi. unfold preds. rewrite nth_fmap by (rewrite vlist_length; exact Hi). rewrite nth_vlist by exact Hi. rewrite mv_row_R, lk_R. reflexivity.
Qed.
Lemma errs_R c n k X ys ws b i : length ys = n -> (i < n)%nat -> nth i (errs c n k X ys ws b) 0 = lossd c (nth i ys 0) (score k X ws b i).
Proof. intros E Hi. unfold errs. rewrite nth_zip by (rewrite ?preds_length; lia). rewrite preds_R by exact Hi. destruct c; reflexivity. Qed.
Lemma sumv_R es : sumv es = rsum es.
Proof. exact (foldl_Rplus es). Qed.
Lemma xt_e_R n k X es j : (j < k)%nat -> nth j (xt_e n k X es) 0 = Rsum n (fun i => X i j * nth i es 0).
Proof. intros Hj. unfold xt_e. rewrite nth_vlist by exact Hj. rewrite mv_row_R. reflexivity. Qed.
Lemma rw1_none la al (w : R) : rw1 la al RNone w = w.
Proof. unfold rw1, reg_d1. cbn. ring. Qed.
Lemma rw1_none_map la al ws : (rw1 la al RNone <$> ws : list R) = ws.
Proof. induction ws as [|w ws IH]; [reflexivity|]. cbn [fmap list_fmap]. rewrite rw1_none. f_equal. exact IH. Qed.

Section step.
Context (c : cls) (n k : nat) (X : nat -> nat -> R) (ys : list R) (la al : R).
Context (El : length ys = n) (Hn : (0 < n)%nat).
Notation A := (ext k X).
Notation L := (fun i => loss c (nth i ys 0)).
Notation G := (fun i => lossd c (nth i ys 0)).
Lemma grad_w s j : (j < k)%nat -> grad n (S k) A G (par k s) j = / INR n * nth j (xt_e n k X (errs c n k X ys s.1 s.2)) 0.
Proof using El Hn.
  intros Hj. unfold grad. rewrite xt_e_R by exact Hj. f_equal. apply Rsum_ext. intros i Hi. rewrite ext_par, errs_R by assumption. unfold ext. rewrite decide_True by exact Hj. ring.
Qed.
Lemma grad_b s : grad n (S k) A G (par k s) k = / INR n * rsum (errs c n k X ys s.1 s.2).
Proof using El Hn.
  unfold grad. f_equal. rewrite rsum_nth, errs_length by exact El. apply Rsum_ext. intros i Hi. rewrite ext_par, errs_R by assumption. unfold ext. rewrite decide_False by lia. ring.
Qed.
Lemma par_gd lr s j : length s.1 = k -> (j < S k)%nat -> par k (gd_pure c lr n k X ys RNone la al s) j = gdstep n (S k) A G lr (par k s) j.
Proof using El Hn.
  intros Hs Hj. assert (0 < INR n) by (apply lt_0_INR; exact Hn). unfold gdstep, gd_pure. cbv zeta. rewrite rw1_none_map. unfold par at 1. cbn [fst snd].
  change (s_of_Z (F := R) (Z.of_nat n)) with (IZR (Z.of_nat n)). rewrite <- INR_IZR_INZ.
  destruct (decide (j < k)%nat) as [D|D].
  - rewrite grad_w by exact D. unfold par. rewrite decide_True by exact D. rewrite nth_zip by (rewrite ?fmap_length, ?xt_e_length; lia). rewrite nth_fmap by (rewrite xt_e_length; lia). cbn [s_sub s_mul s_div R_scalar]. field. lra.
  - assert (j = k) by lia. subst j. rewrite grad_b. unfold par. rewrite decide_False by lia. rewrite sumv_R. cbn [s_sub s_mul s_div R_scalar]. field. lra.
Qed.
(** Coordinates beyond k + 1 do not matter. *)
Lemma risk_ext v w : (forall j, (j < S k)%nat -> v j = w j) -> risk n (S k) A L v = risk n (S k) A L w.
Proof. intros E. unfold risk. f_equal. apply Rsum_ext. intros i _. f_equal. apply Rsum_ext. intros j Hj. rewrite E by exact Hj. reflexivity. Qed.
Lemma gdstep_ext lr v w : (forall j, (j < S k)%nat -> v j = w j) -> forall j, (j < S k)%nat -> gdstep n (S k) A G lr v j = gdstep n (S k) A G lr w j.
Proof. intros E j Hj. unfold gdstep, grad. rewrite E by exact Hj. do 3 f_equal. apply Rsum_ext. intros i _. do 2 f_equal. apply Rsum_ext. intros j' Hj'. rewrite E by exact Hj'. reflexivity. Qed.
Definition gd_iter (lr : R) (T : nat) (s : list R * R) : list R * R := foldl (fun s _ => gd_pure c lr n k X ys RNone la al s) s (seq 0 T).
Lemma gd_iter_length lr T s : length s.1 = k -> length (gd_iter lr T s).1 = k.
Proof. intros Hs. unfold gd_iter. induction T as [|T IH]; [exact Hs|]. rewrite seq_S, foldl_app. cbn [foldl]. apply gd_pure_length, IH. Qed.
Lemma par_iter lr T s : length s.1 = k -> forall j, (j < S k)%nat -> par k (gd_iter lr T s) j = Nat.iter T (gdstep n (S k) A G lr) (par k s) j.
Proof using El Hn.
  intros Hs. induction T as [|T IH]; intros j Hj; [reflexivity|]. unfold gd_iter. rewrite seq_S, foldl_app. cbn [foldl Nat.iter]. fold (gd_iter lr T s).
  rewrite par_gd by (try apply gd_iter_length; assumption). apply gdstep_ext; [exact IH|exact Hj].
Qed.
Lemma J_descent lr T s : length s.1 = k -> 0 <= lr -> lr * (cst c * row_power n k X) <= 2 -> J c n k X ys (gd_iter lr T s).1 (gd_iter lr T s).2 <= J c n k X ys s.1 s.2.
Proof using El Hn.
  intros Hs H1 H2. rewrite !J_risk. rewrite (risk_ext (par k (gd_iter lr T s)) _ (par_iter lr T s Hs)). apply (gd_descent_iter n (S k) A L G (cst c)); [exact Hn|apply cst_pos| |exact H1|rewrite lips_power; exact H2]. intros i _. apply loss_smooth.
Qed.
Lemma J_rate lr T s us u : length s.1 = k -> 0 <= lr -> lr * (cst c * row_power n k X) <= 1 ->
  2 * lr * INR T * (J c n k X ys (gd_iter lr T s).1 (gd_iter lr T s).2 - J c n k X ys us u) <= model_dist2 k s.1 s.2 us u.
Proof using El Hn.
  intros Hs H1 H2. rewrite J_risk. pose proof (J_risk c n k X ys (us, u)) as E1. pose proof (dist_par k s (us, u)) as E2. cbn [fst snd] in E1, E2. rewrite E1, <- E2. rewrite (risk_ext (par k (gd_iter lr T s)) _ (par_iter lr T s Hs)).
  apply (gd_rate n (S k) A L G (cst c)); [exact Hn|apply cst_pos|intros i _; apply loss_convex|intros i _; apply loss_smooth|exact H1|rewrite lips_power; exact H2].
Qed.
End step.
