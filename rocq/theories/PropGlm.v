(** * C50: training linear and logistic regression with all the data (gradient_descent, mle).
    [glmS base x y k n reg la al (ws, b) Yh o h]: the model object [o] in heap [h] has the data set x (n rows, k columns), labels y, weights ws
    and bias b; the rest of the heap is [base], which contains x and y. *)
From Verif Require Import Base BaseProofs Vec VecSpec VecProofs Mat MatSpec MatProofs2 Act Cost Glm GlmProofs CostSpec GdMath GlmSpec GlmMath LibmR.
From Coq Require Import Reals Lra.
From Verif Require Import PropAct PropSvm RSum RInst.

Lemma iter_foldl {A} (f : A -> A) T s : Nat.iter T f s = foldl (fun s _ => f s) s (seq 0 T).
Proof. induction T as [|T IH]; [reflexivity|]. rewrite seq_S, foldl_app. cbn [foldl]. rewrite <- IH. reflexivity. Qed.
(** ** Any arithmetic: the state after a run, and nothing else in the heap changes. *)
Section any.
Context {F : Type} `{Scalar F} `{Libm F}.
Theorem C50_gd_run c (lr : F) max base x y k n X ys reg la al s Yh o h :
  base !! x = Some (Mat k n X) -> base !! y = Some (AVec ys) -> length ys = n -> Z.of_nat n <= int_max -> Z.of_nat k <= int_max -> max < int_max ->
  glmS base x y k n reg la al s Yh o h ->
  runs (gradient_descent c lr max o) h (fun o' h' =>
    let s' := Nat.iter (Z.to_nat (Z.max 1 max)) (gd_pure c lr n k X ys reg la al) s in
    glmS base x y k n reg la al s' (AVec (preds c n k X s'.1 s'.2)) o' h').
Proof.
  intros Hx Hy El Hn Hk Hm HS. apply runs_wp. eapply (wp_gradient_descent base x y k n X ys reg la al); [exact Hx|exact Hy|exact El|exact Hn|exact Hk|exact Hm|exact HS|]. intros o' h' HS'.
  split; [apply HS'|]. cbv zeta. rewrite iter_foldl. exact HS'.
Qed.
(** Prediction: the vector of predictions of the n rows of another data set; the model and the heap are unchanged. *)
Theorem C50_evaluatem c base x y k n reg la al (s : list F * F) Yh o h z m Z_ :
  glmS base x y k n reg la al s Yh o h -> base !! z = Some (Mat k m Z_) -> Z.of_nat m <= int_max ->
  runs (model_set_test c o (Some z)) h (fun r h' => exists d, r = Some d /\ abs h !! d = None /\ abs h' = <[d := AVec (preds c m k Z_ s.1 s.2)]> (abs h)).
Proof.
  intros (W & Ls & lw & ly & -> & D & N1 & N2 & A) Hz Hm. apply runs_wp. unfold model_set_test. cbn [g_init mkglm].
  assert (z <> lw) by congruence. assert (z <> ly) by congruence.
  eapply (wp_evaluatem c _ h z lw k m Z_ s.1 s.2); [exact W|reflexivity|reflexivity| | |exact Ls|exact Hm|].
  - rewrite A, !lookup_insert_ne by congruence. exact Hz.
  - rewrite A, lookup_insert_ne by congruence. apply lookup_insert.
  - intros d h' W' N' A'. split; [exact W'|]. exists d. auto.
Qed.
End any.

Open Scope R_scope.
(** What the predictions are: the score, or the probability sigma(score). *)
Theorem C50_predictions c n k X ws b i : (i < n)%nat ->
  preds c n k X ws b !! i = Some (match c with Lin => score k X ws b i | Log => logistic (score k X ws b i) end).
Proof. intros Hi. destruct (lookup_lt_is_Some_2 (preds c n k X ws b) i) as [v Hv]; [rewrite preds_length; exact Hi|]. rewrite Hv. f_equal. rewrite <- (preds_R c n k X ws b i Hi). symmetry. apply nth_lookup_Some, Hv. Qed.

(** ** The step is a step against the gradient. *)
(** The cost as a function of the list bias :: weights. *)
Definition Jlist (c : cls) (n k : nat) X ys (v : list R) : R := J c n k X ys (drop 1 v) (nth 0 v 0).

Lemma score_insert k X ws b p t i : length ws = k -> (p < S k)%nat ->
  score k X (drop 1 (<[p := t]> (b :: ws))) (nth 0 (<[p := t]> (b :: ws)) 0) i =
  score k X ws b i + (match p with O => 1 | S j => X i j end) * (t - nth p (b :: ws) 0).
Proof.
  intros El Hp. destruct p as [|j].
  - change (score k X ws t i = score k X ws b i + 1 * (t - b)). unfold score. ring.
  - change (score k X (<[j := t]> ws) b i = score k X ws b i + X i j * (t - nth j ws 0)). unfold score. rewrite (Rsum_ext k (fun q => X i q * nth q (<[j := t]> ws) 0) (fun q => X i q * nth q ws 0 + (if decide (q = j) then 1 else 0) * (X i q * (t - nth j ws 0)))).
    + rewrite Rsum_plus, Rsum_delta by lia. ring.
    + intros q Hq. rewrite nth_insert by lia. destruct (decide (q = j)) as [->|]; ring.
Qed.
Lemma J_grad c n k X ys ws b : length ws = k -> length ys = n ->
  gradient (Jlist c n k X ys) (b :: ws) ((fun p => / INR n * Rsum n (fun i => lossd c (nth i ys 0) (score k X ws b i) * (match p with O => 1 | S j => X i j end))) <$> seq 0 (S k)).
Proof.
  intros El Ey. split; [rewrite fmap_length, seq_length; cbn; lia|]. intros p x g Hx Hg. assert (Hp : (p < S k)%nat) by (apply lookup_lt_Some in Hx; cbn in Hx; lia).
  rewrite list_lookup_fmap, lookup_seq_lt in Hg by exact Hp. injection Hg as <-. cbn [plus]. assert (Ex : nth p (b :: ws) 0 = x) by (apply nth_lookup_Some, Hx).
  apply (D_ext (fun t => / INR n * Rsum n (fun i => loss c (nth i ys 0) (score k X ws b i + (match p with O => 1 | S j => X i j end) * (t - x)))) _ x (/ INR n * Rsum n (fun i => lossd c (nth i ys 0) (score k X ws b i) * (match p with O => 1 | S j => X i j end)))).
  - intros t. unfold Jlist. destruct c; cbn [J]; unfold J_lin, J_log; f_equal; apply Rsum_ext; intros i _; rewrite score_insert by assumption; rewrite Ex; [reflexivity|]. rewrite log_loss_eq. reflexivity.
  - reflexivity.
  - apply (derivable_pt_lim_scal (fun t => Rsum n (fun i => loss c (nth i ys 0) (score k X ws b i + (match p with O => 1 | S j => X i j end) * (t - x)))) (/ INR n) x).
    apply (Rsum_D n (fun i t => loss c (nth i ys 0) (score k X ws b i + (match p with O => 1 | S j => X i j end) * (t - x)))). intros i _. set (a := match p with O => 1 | S j => X i j end). set (z := score k X ws b i).
    apply (derivable_pt_lim_comp (fun t => z + a * (t - x)) (loss c (nth i ys 0)) x a (lossd c (nth i ys 0) z)).
    + apply (D_ext (fun t => z + a * (t - x)) _ x (0 + a * (1 - 0)) a); [reflexivity|ring|]. apply (derivable_pt_lim_plus (fct_cte z) (fun t => a * (t - x)) x); [apply derivable_pt_lim_const|].
      apply (derivable_pt_lim_scal (fun t => t - x) a x). apply (derivable_pt_lim_minus (fun t => t) (fct_cte x) x); [apply derivable_pt_lim_id|apply derivable_pt_lim_const].
    + cbv beta. replace (z + a * (x - x)) with z by ring. apply D_loss.
Qed.

Section real.
Context (c : cls) (base : gmap loc (aobj R)) (x y : loc) (k n : nat) (X : nat -> nat -> R) (ys : list R) (la al : R).
Context (Hx : base !! x = Some (Mat k n X)) (Hy : base !! y = Some (AVec ys)) (El : length ys = n) (Hn : (Z.of_nat n <= int_max)%Z) (Hk : (Z.of_nat k <= int_max)%Z) (Hp : (0 < n)%nat).
Notation obj := (glmS base x y k n RNone la al).

(** One epoch without regularisation moves weights and bias by -lr times the gradient of the mean cost. *)
Theorem C50_gd_epoch lr ws b Yh o h : obj (ws, b) Yh o h ->
  runs (gradient_descent c lr 1 o) h (fun o' h' => exists g0 gs, gradient (Jlist c n k X ys) (b :: ws) (g0 :: gs) /\
    let ws' := zip_with (fun w g => w - lr * g) ws gs in let b' := b - lr * g0 in obj (ws', b') (AVec (preds c n k X ws' b')) o' h').
Proof using Hx Hy El Hn Hk Hp.
  intros HS. assert (Lw : length ws = k) by apply HS. destruct (C50_gd_run c lr 1 base x y k n X ys RNone la al (ws, b) Yh o h Hx Hy El Hn Hk ltac:(unfold int_max; lia) HS) as (o' & h' & E & W & HS'). exists o', h'. split; [exact E|]. split; [exact W|].
  pose proof (J_grad c n k X ys ws b Lw El) as G. cbn [seq fmap list_fmap] in G.
  eexists _, _. split; [exact G|]. cbv zeta. cbv zeta in HS'. replace (Z.to_nat (Z.max 1 1)) with 1%nat in HS' by lia. cbn [Nat.iter nat_rect] in HS'.
  set (s' := gd_pure c lr n k X ys RNone la al (ws, b)) in *. assert (0 < INR n) by (apply lt_0_INR; exact Hp).
  assert (E1 : s'.1 = zip_with (fun w g => w - lr * g) ws ((fun p => / INR n * Rsum n (fun i => lossd c (nth i ys 0) (score k X ws b i) * match p with O => 1 | S j => X i j end)) <$> seq 1 k)).
  { apply list_eq. intros j. destruct (decide (j < k)%nat) as [D|D].
    2:{ rewrite !lookup_ge_None_2; [reflexivity| |]; [rewrite zip_with_length, fmap_length, seq_length; lia|]. unfold s'. rewrite gd_pure_length by exact Lw. lia. }
    pose proof (par_gd c n k X ys la al El Hp lr (ws, b) j Lw ltac:(lia)) as Pj. unfold par in Pj at 1. rewrite decide_True in Pj by exact D. fold s' in Pj.
    destruct (lookup_lt_is_Some_2 s'.1 j) as [v Hv]; [unfold s'; rewrite gd_pure_length by exact Lw; exact D|]. rewrite (nth_lookup_Some _ _ 0 v Hv) in Pj. rewrite Hv.
    destruct (lookup_lt_is_Some_2 ws j) as [w Hw]; [lia|]. rewrite lookup_zip_with, Hw, list_lookup_fmap, lookup_seq_lt by exact D. cbn. f_equal. rewrite Pj. unfold gdstep, grad.
    unfold par at 1. rewrite decide_True by exact D. cbn [fst]. rewrite (nth_lookup_Some ws j 0 w Hw). do 3 f_equal. apply Rsum_ext. intros i Hi. rewrite ext_par. cbn [fst snd]. unfold ext. rewrite decide_True by exact D. reflexivity. }
  assert (E2 : s'.2 = b - lr * (/ INR n * Rsum n (fun i => lossd c (nth i ys 0) (score k X ws b i) * 1))).
  { pose proof (par_gd c n k X ys la al El Hp lr (ws, b) k Lw ltac:(lia)) as Pj. unfold par in Pj at 1. rewrite decide_False in Pj by lia. fold s' in Pj. rewrite Pj. unfold gdstep, grad.
    unfold par at 1. rewrite decide_False by lia. cbn [snd]. do 3 f_equal. apply Rsum_ext. intros i Hi. rewrite ext_par. unfold ext. rewrite decide_False by lia. reflexivity. }
  change (_ <$> seq 1 k) with ((fun p => / INR n * Rsum n (fun i => lossd c (nth i ys 0) (score k X ws b i) * match p with O => 1 | S j => X i j end)) <$> seq 1 k). rewrite <- E1, <- E2. destruct s' as [w' b']. exact HS'.
Qed.
(** Any number of epochs, learning rate at most 2 / L: the cost does not increase.  L is [row_power] (mean squared norm of the rows
    extended by 1), a quarter of it for logistic regression. *)
Theorem C50_gd_descent lr max ws b Yh o h : (max < int_max)%Z -> obj (ws, b) Yh o h ->
  0 <= lr -> lr * (match c with Lin => 1 | Log => / 4 end * row_power n k X) <= 2 ->
  runs (gradient_descent c lr max o) h (fun o' h' => exists ws' b', obj (ws', b') (AVec (preds c n k X ws' b')) o' h' /\
    J c n k X ys ws' b' <= J c n k X ys ws b).
Proof using Hx Hy El Hn Hk Hp.
  intros Hm HS H1 H2. destruct (C50_gd_run c lr max base x y k n X ys RNone la al (ws, b) Yh o h Hx Hy El Hn Hk Hm HS) as (o' & h' & E & W & HS'). exists o', h'. split; [exact E|]. split; [exact W|]. cbv zeta in HS'.
  set (T := Z.to_nat (Z.max 1 max)) in *. set (s' := Nat.iter T (gd_pure c lr n k X ys RNone la al) (ws, b)) in *. exists s'.1, s'.2. split; [destruct s'; exact HS'|].
  assert (Es : s' = gd_iter c n k X ys la al lr T (ws, b)) by apply iter_foldl.
  rewrite Es. apply (J_descent c n k X ys la al El Hp lr T (ws, b)); [apply HS|exact H1|exact H2].
Qed.
(** Learning rate at most 1 / L: after T epochs the cost exceeds that of ANY model u by at most |v0 - u|^2 / (2 lr T). *)
Theorem C50_gd_rate lr max ws b Yh o h : (max < int_max)%Z -> obj (ws, b) Yh o h ->
  0 < lr -> lr * (match c with Lin => 1 | Log => / 4 end * row_power n k X) <= 1 ->
  runs (gradient_descent c lr max o) h (fun o' h' => exists ws' b', obj (ws', b') (AVec (preds c n k X ws' b')) o' h' /\
    forall us u, J c n k X ys ws' b' - J c n k X ys us u <= model_dist2 k ws b us u / (2 * lr * IZR (Z.max 1 max))).
Proof using Hx Hy El Hn Hk Hp.
  intros Hm HS H1 H2. destruct (C50_gd_run c lr max base x y k n X ys RNone la al (ws, b) Yh o h Hx Hy El Hn Hk Hm HS) as (o' & h' & E & W & HS'). exists o', h'. split; [exact E|]. split; [exact W|]. cbv zeta in HS'.
  set (T := Z.to_nat (Z.max 1 max)) in *. set (s' := Nat.iter T (gd_pure c lr n k X ys RNone la al) (ws, b)) in *. exists s'.1, s'.2. split; [destruct s'; exact HS'|].
  assert (Es : s' = gd_iter c n k X ys la al lr T (ws, b)) by apply iter_foldl.
  intros us u. pose proof (J_rate c n k X ys la al El Hp lr T (ws, b) us u ltac:(apply HS) ltac:(lra) H2) as Rt. rewrite <- Es in Rt. cbn [fst snd] in Rt.
  assert (EI : IZR (Z.max 1 max) = INR T) by (unfold T; rewrite INR_IZR_INZ, Z2Nat.id by lia; reflexivity). rewrite EI. assert (0 < INR T) by (apply lt_0_INR; unfold T; lia).
  assert (0 < 2 * lr * INR T) by (apply Rmult_lt_0_compat; lra). apply (Rmult_le_reg_l (2 * lr * INR T)); [assumption|]. replace (2 * lr * INR T * (model_dist2 k ws b us u / (2 * lr * INR T))) with (model_dist2 k ws b us u) by (field; lra). exact Rt.
Qed.
End real.

(** mle (ascent on the likelihood) computes exactly what gradient_descent computes. *)
Theorem C50_mle_is_gd lr max base x y k n X ys reg la al s Yh o h :
  base !! x = Some (Mat k n X) -> base !! y = Some (AVec ys) -> length ys = n -> (Z.of_nat n <= int_max)%Z -> (Z.of_nat k <= int_max)%Z -> (max < int_max)%Z ->
  glmS base x y k n reg la al s Yh o h ->
  exists s', runs (gradient_descent Log lr max o) h (fun o' h' => glmS base x y k n reg la al s' (AVec (preds Log n k X s'.1 s'.2)) o' h') /\
             runs (mle lr max o) h (fun o' h' => glmS base x y k n reg la al s' (AVec (preds Log n k X s'.1 s'.2)) o' h').
Proof.
  intros Hx Hy El Hn Hk Hm HS. set (T := Z.to_nat (Z.max 1 max)). exists (foldl (fun s _ => gd_pure Log lr n k X ys reg la al s) s (seq 0 T)). split.
  - apply runs_wp. eapply (wp_gradient_descent base x y k n X ys reg la al); [exact Hx|exact Hy|exact El|exact Hn|exact Hk|exact Hm|exact HS|]. intros o' h' HS'. split; [apply HS'|exact HS'].
  - apply runs_wp. eapply (wp_mle base x y k n X ys reg la al); [exact Hx|exact Hy|exact El|exact Hn|exact Hk|exact Hm|exact HS|]. intros o' h' HS'. split; [apply HS'|].
    assert (E : forall s, mle_pure lr n k X ys reg la al s = gd_pure Log lr n k X ys reg la al s).
    { clear. intros [ws b]. unfold mle_pure, gd_pure. cbv zeta. cbn [fst snd]. set (p := preds Log n k X ws b). unfold errs. fold p.
      assert (Z1 : zip_with s_sub ys p = Ropp <$> zip_with s_sub p ys). { clearbody p. clear. revert p. induction ys as [|u ys IH]; intros [|v p]; try reflexivity. cbn [zip_with fmap list_fmap]. f_equal; [cbn; ring|]. apply IH. }
      rewrite Z1. set (e := zip_with s_sub p ys). f_equal.
      - f_equal. assert (Z2 : xt_e n k X (Ropp <$> e) = Ropp <$> xt_e n k X e).
        { unfold xt_e, vlist. rewrite <- list_fmap_compose. apply list_fmap_ext. intros q j _. cbn. rewrite !mv_row_R. assert (O : forall u : nat -> R, Rsum n (fun i => - u i) = - Rsum n u) by (intros u; replace (- Rsum n u) with ((-1) * Rsum n u) by ring; rewrite <- Rsum_scal; apply Rsum_ext; intros; ring). rewrite <- O. apply Rsum_ext. intros i _.
          destruct (decide (i < length e)%nat) as [D|D]; [rewrite nth_fmap by exact D; ring|]. rewrite !nth_overflow by (rewrite ?fmap_length; lia). ring. }
        rewrite Z2. clear. generalize (xt_e n k X e). intros g. revert g. induction ws as [|w ws IH]; intros [|a g]; try reflexivity. cbn [zip_with fmap list_fmap]. f_equal; [cbn; ring|]. apply IH.
      - rewrite !sumv_R. replace (rsum (Ropp <$> e)) with (- rsum e). 2:{ clear. induction e as [|a e IH]; cbn; [ring|]. rewrite <- IH. ring. } cbn [s_add s_sub s_mul s_div R_scalar]. unfold Rdiv. ring. }
    replace (foldl (fun s _ => gd_pure Log lr n k X ys reg la al s) s (seq 0 T)) with (foldl (fun s _ => mle_pure lr n k X ys reg la al s) s (seq 0 T)); [exact HS'|].
    clear - E. generalize (seq 0 T). intros l. revert s. induction l as [|a l IH]; intros s; [reflexivity|]. cbn [foldl]. rewrite E. apply IH.
Qed.
