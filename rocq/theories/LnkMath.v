(** * The steps of the link-function regressions over exact reals. *)
From Verif Require Import Base BaseProofs Vec VecSpec VecProofs Mat MatSpec MatProofs2 Act ActProofs Cost Glm GlmProofs GlmProofs2 CostSpec GdMath GlmSpec GlmMath LibmR PropGlm PropGlm2 Lnk LnkProofs LnkProofs2 LnkSpec.
From Coq Require Import Reals Lra.
From Verif Require Import RErf PropAct PropAct2 PropSvm RSum RInst.
Open Scope R_scope.

(** The derivative vectors the code uses. *)
Definition cd (c : lcls) (z : R) : R := match c with CLogLog => exp (- exp z) | _ => link' c z end.
Lemma norm_v_R c z : asem (F := R) (norm_v c) z = link c z.
Proof.
  destruct c; cbn [norm_v link].
  - asem_tac. scal. replace (exp z * -1) with (- exp z) by ring. ring.
  - rewrite asem_tanh. apply tanh_eq.
  - asem_tac. scal. replace (z * (1 / sqrt 2)) with (z / sqrt 2) by (unfold Rdiv; ring). lra.
Qed.
Lemma norm_r_R c z : norm_r (F := R) c z = link c z.
Proof.
  destruct c; cbn [norm_r link].
  - scal. ring.
  - apply tanh_eq.
  - scal. lra.
Qed.
Lemma deriv_v_R c z : asem (F := R) (deriv_v c) z = cd c z.
Proof.
  destruct c; cbn [deriv_v cd link'].
  - unfold cloglog_deriv_e. asem_tac. scal. f_equal. ring.
  - unfold tanh_deriv_e, e_scale, e_sadd, e_mul. cbn [asem]. rewrite asem_tanh, tanh_eq. scal. ring.
  - asem_tac. scal. rewrite Rmult_comm. unfold Rdiv at 1. rewrite Rmult_1_l. f_equal. f_equal. field.
Qed.
Lemma sgd_slope_R c z : sgd_slope (F := R) c z (link c z) = link' c z.
Proof.
  destruct c; cbn [sgd_slope link link'].
  - scal. unfold Rminus. rewrite exp_plus. reflexivity.
  - scal. reflexivity.
  - scal. unfold Rdiv at 1. rewrite Rmult_1_l. f_equal. f_equal. field.
Qed.
Lemma D_link c z : derivable_pt_lim (link c) z (link' c z).
Proof.
  destruct c.
  - eapply D_ext; [| |apply (D_cloglog z)]; [intros y; scal; cbn [link]; ring|]. scal. cbn [link']. unfold Rminus. rewrite exp_plus. reflexivity.
  - eapply D_ext; [| |apply (D_tanh z)]; [intros y; apply tanh_eq|]. scal. reflexivity.
  - eapply D_ext; [| |apply (D_gaussian_cdf z)]; [intros y; scal; cbn [link]; lra|]. scal. cbn [link']. unfold Rdiv at 1. rewrite Rmult_1_l. f_equal. f_equal. field.
Qed.
Lemma lpre_R n k X ws b i : (i < n)%nat -> nth i (lpre (F := R) n k X ws b) 0 = score k X ws b i.
Proof. intros Hi. unfold lpre. rewrite nth_fmap by (rewrite vlist_length; exact Hi). rewrite nth_vlist by exact Hi. rewrite mv_row_R. reflexivity. Qed.
Lemma lpreds_R c n k X ws b i : (i < n)%nat -> nth i (lpreds (F := R) c n k X ws b) 0 = link c (score k X ws b i).
Proof. intros Hi. unfold lpreds. rewrite nth_fmap by (rewrite lpre_length; exact Hi). rewrite norm_v_R, lpre_R by exact Hi. reflexivity. Qed.
Definition sgn (c : lcls) (mle : bool) : R := match c, mle with Probit, true => -1 | _, _ => 1 end.
Lemma lerrs_R c mle n k X ys ws b i : length ys = n -> (i < n)%nat -> nth i (lerrs (F := R) c mle n k X ys ws b) 0 = sgn c mle * (link c (score k X ws b i) - nth i ys 0).
Proof.
  intros El Hi. unfold lerrs. assert (G : nth i (zip_with s_sub (lpreds (F := R) c n k X ws b) ys) 0 = link c (score k X ws b i) - nth i ys 0).
  { rewrite nth_zip by (rewrite ?lpreds_length; lia). rewrite lpreds_R by exact Hi. reflexivity. }
  destruct c, mle; cbn [sgn]; try (rewrite G; ring). rewrite nth_zip by (rewrite ?lpreds_length; lia). rewrite lpreds_R by exact Hi. cbn [s_sub R_scalar]. ring.
Qed.
Lemma lslope_R c es zs i : (i < length es)%nat -> length es = length zs -> nth i (lslope (F := R) c es zs) 0 = nth i es 0 * cd c (nth i zs 0).
Proof. intros Hi E. unfold lslope. rewrite nth_zip by (rewrite ?fmap_length; lia). rewrite nth_fmap by lia. rewrite deriv_v_R. reflexivity. Qed.

(** ** A batch step, coordinate by coordinate; coordinate 0 is the bias. *)
Definition co (X : nat -> nat -> R) (i p : nat) : R := match p with O => 1 | S j => X i j end.
(** The direction of the code: [d] is the divisor, [f'] the slope used. *)
Definition gdir (f f' : R -> R) (d : R) (n k : nat) X (ys ws : list R) (b : R) (p : nat) : R :=
  / d * Rsum n (fun i => (f (score k X ws b i) - nth i ys 0) * f' (score k X ws b i) * co X i p).
Lemma lmove_R op (sg : R) c lr d n k X es zs la al ws b : (forall a g, op a g = a - sg * g) -> length ws = k -> length es = n -> length zs = n -> d <> 0 ->
  model (lmove (F := R) op lr d n k X (lslope c es zs) (lslope c es zs) RNone la al (ws, b)) =
  step lr (b :: ws) ((fun p => sg * (/ d * Rsum n (fun i => nth i es 0 * cd c (nth i zs 0) * co X i p))) <$> seq 0 (S k)).
Proof.
  intros Hop Lw Le Lz Hd. unfold model, lmove. cbn [fst snd]. unfold step. change (seq 0 (S k)) with (0%nat :: seq 1 k). cbn [fmap list_fmap zip_with].
  assert (Lsl : length (lslope (F := R) c es zs) = n) by (rewrite lslope_length; congruence).
  f_equal.
  - rewrite Hop. rewrite sumv_R, rsum_nth, Lsl. cbn [s_div s_mul R_scalar]. rewrite (Rsum_ext n (fun i => nth i es 0 * cd c (nth i zs 0) * co X i 0) (fun i => nth i (lslope (F := R) c es zs) 0)).
    + field. exact Hd.
    + intros i Hi. cbn [co]. rewrite Rmult_1_r. symmetry. apply lslope_R; congruence.
  - rewrite rw1_none_map. apply list_eq. intros j. destruct (decide (j < k)%nat) as [Hj|Hj].
    2:{ rewrite !lookup_ge_None_2; [reflexivity| |]; rewrite zip_with_length, !fmap_length, ?seq_length, ?xt_e_length; lia. }
    destruct (lookup_lt_is_Some_2 ws j) as [w Hw]; [lia|].
    destruct (lookup_lt_is_Some_2 (xt_e (F := R) n k X (lslope c es zs)) j) as [v Hv]; [rewrite xt_e_length; exact Hj|].
    rewrite !lookup_zip_with, Hw, !list_lookup_fmap, Hv, lookup_seq_lt by exact Hj. cbn. f_equal. rewrite Hop. f_equal.
    apply (nth_lookup_Some _ _ 0) in Hv. rewrite xt_e_R in Hv by exact Hj. rewrite <- Hv.
    rewrite (Rsum_ext n (fun i => nth i es 0 * cd c (nth i zs 0) * X i j) (fun i => X i j * nth i (lslope (F := R) c es zs) 0)).
    + cbn [s_div s_mul R_scalar]. field. exact Hd.
    + intros i Hi. rewrite lslope_R by congruence. ring.
Qed.
Lemma lgd_R c mle lr n k X ys la al ws b : (0 < n)%nat -> length ws = k -> length ys = n ->
  model (lgd_pure (F := R) c mle lr n k X ys RNone la al (ws, b)) =
  step lr (b :: ws) ((fun p => (if mle then -1 else 1) * sgn c mle * gdir (link c) (cd c) (INR n) n k X ys ws b p) <$> seq 0 (S k)).
Proof.
  intros Hp Lw Ly. unfold lgd_pure. cbv zeta. cbn [fst snd]. change (s_of_Z (F := R) (Z.of_nat n)) with (IZR (Z.of_nat n)). rewrite <- INR_IZR_INZ. assert (0 < INR n) by (apply lt_0_INR; exact Hp).
  rewrite (lmove_R (dir mle) (if mle then -1 else 1)); [|destruct mle; intros; cbn; ring|exact Lw|apply lerrs_length; exact Ly|apply lpre_length|lra].
  f_equal. apply list_fmap_ext. intros _ p _. unfold gdir. rewrite Rmult_assoc. f_equal. rewrite <- (Rmult_assoc _ (/ INR n)), (Rmult_comm (sgn c mle)), Rmult_assoc. f_equal. rewrite <- Rsum_scal. apply Rsum_ext. intros i Hi. rewrite lerrs_R, lpre_R by assumption. ring.
Qed.
(** One stochastic step. *)
Lemma lsgd_R c lr k X ys la al i ws b : length ws = k ->
  model (lsgd_pure (F := R) c lr k X ys RNone la al i (ws, b)) =
  step lr (b :: ws) ((fun p => match c, p with Tanh, S _ => 0 | _, _ => (link c (score k X ws b i) - nth i ys 0) * link' c (score k X ws b i) * co X i p end) <$> seq 0 (S k)).
Proof.
  intros Lw. unfold model, lsgd_pure. cbv zeta. cbn [fst snd].
  assert (Ed : s_add (dotl (F := R) ws (vlist k (X i))) b = score k X ws b i) by (rewrite dotl_R by (rewrite ?vlist_length; congruence); rewrite vlist_length; unfold score; cbn [s_add R_scalar]; f_equal; apply Rsum_ext; intros j Hj; rewrite nth_vlist by exact Hj; reflexivity).
  assert (Et : lsgd_t (F := R) c lr k X ys i (ws, b) = lr * (link c (score k X ws b i) - nth i ys 0) * link' c (score k X ws b i)).
  { unfold lsgd_t. cbv zeta. cbn [fst snd]. rewrite Ed, norm_r_R, sgd_slope_R. reflexivity. }
  rewrite Et. set (e := (link c (score k X ws b i) - nth i ys 0)). set (f := link' c (score k X ws b i)).
  unfold step. change (seq 0 (S k)) with (0%nat :: seq 1 k). cbn [fmap list_fmap zip_with]. f_equal.
  - destruct c; cbn [co s_sub R_scalar]; ring.
  - rewrite rw1_none_map. apply list_eq. intros j. destruct (decide (j < k)%nat) as [Hj|Hj].
    2:{ rewrite !lookup_ge_None_2; [reflexivity| |]; destruct c; rewrite ?zip_with_length, ?fmap_length, ?seq_length, ?vlist_length; lia. }
    destruct (lookup_lt_is_Some_2 ws j) as [w Hw]; [lia|].
    destruct c; rewrite ?lookup_zip_with, Hw, ?list_lookup_fmap, ?vlist_lookup, ?lookup_seq_lt by exact Hj; cbn; f_equal; ring.
Qed.

(** ** The gradient *)
Lemma gdir_gradient c n k X ys ws b : length ws = k ->
  gradient (J_link c n k X ys) (b :: ws) (gdir (link c) (link' c) (INR n) n k X ys ws b <$> seq 0 (S k)).
Proof.
  intros El. split; [rewrite fmap_length, seq_length; cbn; lia|]. intros p x g Hx Hg. assert (Hp : (p < S k)%nat) by (apply lookup_lt_Some in Hx; cbn in Hx; lia).
  rewrite list_lookup_fmap, lookup_seq_lt in Hg by exact Hp. injection Hg as <-. cbn [plus]. assert (Ex : nth p (b :: ws) 0 = x) by (apply nth_lookup_Some, Hx).
  set (z := score k X ws b). set (L := fun i t => / 2 * (link c t - nth i ys 0) ^ 2).
  apply (D_ext (fun t => / INR n * Rsum n (fun i => L i (z i + co X i p * (t - x)))) _ x (gdir (link c) (link' c) (INR n) n k X ys ws b p)); [|reflexivity|].
  - intros t. unfold J_link. f_equal. apply Rsum_ext. intros i _. rewrite score_insert by assumption. rewrite Ex. reflexivity.
  - unfold gdir. apply (derivable_pt_lim_scal (fun t => Rsum n (fun i => L i (z i + co X i p * (t - x)))) (/ INR n) x).
    apply (Rsum_D n (fun i t => L i (z i + co X i p * (t - x)))). intros i _. set (a := co X i p). fold (z i).
    apply (derivable_pt_lim_comp (fun t => z i + a * (t - x)) (L i) x a ((link c (z i) - nth i ys 0) * link' c (z i))).
    + apply (D_ext (fun t => z i + a * (t - x)) _ x (0 + a * (1 - 0)) a); [reflexivity|ring|]. apply (derivable_pt_lim_plus (fct_cte (z i)) (fun t => a * (t - x)) x); [apply derivable_pt_lim_const|].
      apply (derivable_pt_lim_scal (fun t => t - x) a x). apply (derivable_pt_lim_minus (fun t => t) (fct_cte x) x); [apply derivable_pt_lim_id|apply derivable_pt_lim_const].
    + cbv beta. replace (z i + a * (x - x)) with (z i) by ring. unfold L.
      eapply D_ext; [intros y; reflexivity| |apply (derivable_pt_lim_scal (fun t => (link c t - nth i ys 0) ^ 2) (/ 2))].
      2:{ apply (derivable_pt_lim_comp (fun t => link c t - nth i ys 0) (fun u => u ^ 2) (z i)); [apply (derivable_pt_lim_minus (link c) (fct_cte (nth i ys 0))); [apply D_link|apply derivable_pt_lim_const]|apply derivable_pt_lim_pow]. }
      cbn [pred INR pow]. lra.
Qed.
(** ** The cost along a line *)
Lemma score_step k X ws b g t i : length ws = k -> length g = S k ->
  score k X (drop 1 (step t (b :: ws) g)) (nth 0 (step t (b :: ws) g) 0) i = score k X ws b i - t * Rsum (S k) (fun p => co X i p * nth p g 0).
Proof.
  intros Lw Lg. destruct g as [|g0 gs]; [discriminate|]. cbn in Lg. injection Lg as Lg. unfold step. cbn [zip_with drop nth]. unfold score. rewrite drop_0.
  rewrite (Rsum_ext k (fun j => X i j * nth j (zip_with (fun a b0 => a - t * b0) ws gs) 0) (fun j => X i j * nth j ws 0 + - t * (X i j * nth j gs 0))).
  2:{ intros j Hj. rewrite nth_zip by lia. ring. }
  rewrite Rsum_plus, Rsum_scal. rewrite (Rsum_split (S k) 1) by lia. replace (S k - 1)%nat with k by lia. cbn [plus co nth]. rewrite Rsum_S. cbn [co nth]. change (Rsum 0 _) with 0. ring.
Qed.

Lemma J_line c n k X ys ws b g : length ws = k -> length g = S k ->
  derivable_pt_lim (fun t => J_link c n k X ys (step t (b :: ws) g)) 0 (- Rsum (S k) (fun p => gdir (link c) (link' c) (INR n) n k X ys ws b p * nth p g 0)).
Proof.
  intros Lw Lg. set (z := score k X ws b). set (a := fun i => Rsum (S k) (fun p => co X i p * nth p g 0)).
  apply (D_ext (fun t => / INR n * Rsum n (fun i => / 2 * (link c (z i - t * a i) - nth i ys 0) ^ 2)) _ 0 (/ INR n * Rsum n (fun i => (link c (z i) - nth i ys 0) * link' c (z i) * - a i))).
  - intros t. unfold J_link. f_equal. apply Rsum_ext. intros i _. rewrite score_step by assumption. reflexivity.
  - unfold gdir. fold z. rewrite (Rsum_ext (S k) _ (fun p => / INR n * Rsum n (fun i => (link c (z i) - nth i ys 0) * link' c (z i) * co X i p * nth p g 0))).
    2:{ intros p _. rewrite Rmult_assoc. f_equal. rewrite <- Rsum_scal_r. reflexivity. }
    rewrite Rsum_scal, Rsum_swap. rewrite <- Ropp_mult_distr_r_reverse. f_equal. rewrite <- (Rmult_1_l (Rsum n (fun j => Rsum _ _))), Ropp_mult_distr_l, <- Rsum_scal. apply Rsum_ext. intros i _. unfold a.
    rewrite (Rsum_ext (S k) (fun p => (link c (z i) - nth i ys 0) * link' c (z i) * co X i p * nth p g 0) (fun p => (link c (z i) - nth i ys 0) * link' c (z i) * (co X i p * nth p g 0))) by (intros; ring). rewrite Rsum_scal. ring.
  - apply (derivable_pt_lim_scal (fun t => Rsum n (fun i => / 2 * (link c (z i - t * a i) - nth i ys 0) ^ 2)) (/ INR n) 0).
    apply (Rsum_D n (fun i t => / 2 * (link c (z i - t * a i) - nth i ys 0) ^ 2)). intros i _.
    eapply D_ext; [intros y; reflexivity| |apply (derivable_pt_lim_scal (fun t => (link c (z i - t * a i) - nth i ys 0) ^ 2) (/ 2))].
    2:{ apply (derivable_pt_lim_comp (fun t => link c (z i - t * a i) - nth i ys 0) (fun u => u ^ 2) 0); [|apply derivable_pt_lim_pow].
        apply (derivable_pt_lim_minus (fun t => link c (z i - t * a i)) (fct_cte (nth i ys 0))); [|apply derivable_pt_lim_const].
        apply (derivable_pt_lim_comp (fun t => z i - t * a i) (link c) 0 (- a i)); [|apply D_link].
        apply (D_ext (fun t => z i - a i * t) _ 0 (0 - a i * 1)); [intros; ring|ring|]. apply (derivable_pt_lim_minus (fct_cte (z i)) (fun t => a i * t)); [apply derivable_pt_lim_const|]. apply (derivable_pt_lim_scal (fun t => t)). apply derivable_pt_lim_id. }
    cbn [pred INR pow]. replace (z i - 0 * a i) with (z i) by ring. lra.
Qed.
(** A function with derivative d at 0 moves in the direction of the sign of d. *)
Lemma small_step (f : R -> R) d : derivable_pt_lim f 0 d -> d <> 0 -> exists t0, 0 < t0 /\ forall t, 0 < t < t0 -> (d < 0 -> f t < f 0) /\ (0 < d -> f 0 < f t).
Proof.
  intros HD Hd. assert (0 < Rabs d) as Hp by (apply Rabs_pos_lt; exact Hd). destruct (HD (Rabs d) Hp) as [[t0 Ht0] G]. exists t0. split; [exact Ht0|]. intros t Ht. cbn in G.
  specialize (G t ltac:(lra) ltac:(rewrite Rabs_pos_eq by lra; lra)). rewrite Rplus_0_l in G. apply Rabs_def2 in G as [G1 G2].
  assert (Q : f t - f 0 = (f t - f 0) / t * t) by (field; lra). set (q := (f t - f 0) / t) in *. split; intros Hs.
  - rewrite Rabs_left in G1 by exact Hs. assert (q < 0) by lra. nra.
  - rewrite Rabs_right in G2 by lra. assert (0 < q) by lra. nra.
Qed.
