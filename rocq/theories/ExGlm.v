(** * Concrete cases for C50 - C54: X = [[1 1] [1 2] [1 3]], y = [2; 3; 4] (fitted exactly by weights [0; 1], bias 1), built, constructed and
      trained through the API. *)
From Verif Require Import Base BaseProofs Vec VecSpec VecProofs VecProofs2 Mat MatSpec MatProofs MatProofs2 MatProofs3 MatProofs4 MatProofs5 Act Cost Svm Util UtilProofs Glm GlmProofs GlmProofs2 GlmProofs3 GlmProofs4 GlmProofs5 GlmProofs6 ExBuild.
From Verif Require Import CostSpec GlmSpec GlmSpec2 GlmMath GlmMath3 PropGlm PropGlm2 PropGlm3 PropGlm4 PropGlm5 PropGlm6 PropUtil ExNum.
From Verif Require Import RErf LibmR LsqMath RSum ExLin.
From Coq Require Import Reals Lra Lia.
From Verif Require Import PropSvm RInst.
Open Scope R_scope.

Definition ys0 : list R := [2;3;4].
Lemma small3 : (Z.of_nat 3 <= int_max)%Z. Proof. vm_compute; discriminate. Qed.
Lemma small2 : (Z.of_nat 2 <= int_max)%Z. Proof. vm_compute; discriminate. Qed.
Lemma small4 : (Z.of_nat (2 * 2) <= int_max)%Z. Proof. vm_compute; discriminate. Qed.
Lemma data : exists (h : heap R) x y, wf h /\ abs h !! x = Some (Mat 2 3 B) /\ abs h !! y = Some (AVec ys0).
Proof. reach [LM 2 [[1;1];[1;2];[1;3]]; LV ys0]. rewrite Rows_Mat in Hd by (repeat constructor). exists h, d, d0. auto. Qed.
(** A freshly constructed linear model with weights [5; -5] and bias 1/2 (any draw). *)
Lemma lin_model reg : exists (h : heap R) x y Yh o h', wf h /\ abs h !! x = Some (Mat 2 3 B) /\ abs h !! y = Some (AVec ys0) /\
  glmS (abs h) x y 2 3 reg 3 0 ([5;-5], 1/2) Yh o h'.
Proof.
  destruct data as (h & x & y & W & Hx & Hy). 
  destruct (C54_new_lin h x y 2 3 B reg 3 0 3 0 (fun j => if Z.eqb j 0 then 5 else -5) (1/2) W Hx small3 small2) as (o & h' & _ & W' & HS).
  - rewrite to_int_in by (unfold PropGlm5.in_int; lra). f_equal. unfold Rtrunc. destruct (Rlt_dec 3 0); [lra|]. destruct (base_Int_part 3) as [B1 B2]. assert (G1 : IZR (Int_part 3) < IZR 4) by lra. assert (G2 : IZR 2 < IZR (Int_part 3)) by lra. apply lt_IZR in G1, G2. lia.
  - rewrite to_int_in by (unfold PropGlm5.in_int; lra). f_equal. apply Rtrunc_small. lra.
  - eexists h, x, y, _, o, h'. split; [exact W|]. split; [exact Hx|]. split; [exact Hy|]. exact HS.
Qed.
Lemma power : row_power 3 2 B = 20 / 3.
Proof. unfold row_power, B, Rsum. cbn. lra. Qed.
(** 1000 epochs from these weights reach a cost of at most 0.31 (the starting cost is above 40): the bound against the exact fit. *)
Example ex_C50 : exists base x y Yh o (h : heap R), glmS base x y 2 3 RNone 3 0 ([5;-5], 1/2) Yh o h /\
  runs (gradient_descent Lin (1/10) 1000 o) h (fun o' h' => exists ws b, glmS base x y 2 3 RNone 3 0 (ws, b) (AVec (preds Lin 3 2 B ws b)) o' h' /\ J_lin 3 2 B ys0 ws b <= 31 / 100) /\ 40 < J_lin 3 2 B ys0 [5;-5] (1/2).
Proof.
  destruct (lin_model RNone) as (h0 & x & y & Yh & o & h & W & Hx & Hy & HS). exists (abs h0), x, y, Yh, o, h. split; [exact HS|]. split.
  - destruct (C50_gd_rate Lin (abs h0) x y 2 3 B ys0 3 0 Hx Hy eq_refl small3 small2 ltac:(lia) (1/10) 1000 [5;-5] (1/2) Yh o h ltac:(vm_compute; reflexivity) HS ltac:(lra)) as (o' & h' & E & W' & ws & b & HS' & G).
    + rewrite power. lra.
    + exists o', h'. split; [exact E|]. split; [exact W'|]. exists ws, b. split; [exact HS'|]. specialize (G [0;1] 1). unfold J in G. change (IZR (Z.max 1 1000)) with 1000 in G. unfold model_dist2 in G.
      assert (Z0 : J_lin 3 2 B ys0 [0;1] 1 = 0) by (unfold J_lin, score, Rsum, B; cbn; lra). rewrite Z0 in G. unfold Rsum in G. cbn in G. lra.
  - unfold J_lin, score, Rsum, B. cbn. lra.
Qed.
Example ex_C50_descent : exists base x y Yh o (h : heap R), glmS base x y 2 3 RNone 3 0 ([5;-5], 1/2) Yh o h /\
  runs (gradient_descent Lin (1/4) 7 o) h (fun o' h' => exists ws b, glmS base x y 2 3 RNone 3 0 (ws, b) (AVec (preds Lin 3 2 B ws b)) o' h' /\ J Lin 3 2 B ys0 ws b <= J Lin 3 2 B ys0 [5;-5] (1/2)).
Proof.
  destruct (lin_model RNone) as (h0 & x & y & Yh & o & h & W & Hx & Hy & HS). exists (abs h0), x, y, Yh, o, h. split; [exact HS|].
  apply (C50_gd_descent Lin (abs h0) x y 2 3 B ys0 3 0 Hx Hy eq_refl small3 small2 ltac:(lia) (1/4) 7 [5;-5] (1/2) Yh o h ltac:(vm_compute; reflexivity) HS ltac:(lra)). rewrite power. lra.
Qed.
(** Training on the draws 0, 2, 1, 0, 2, 1, ... never moves away from the exact fit. *)
Example ex_C51 : exists base x y Yh o (h : heap R), glmS base x y 2 3 RNone 3 0 ([5;-5], 1/2) Yh o h /\
  runs (sgd Lin (1/10) 50 (fun e => Z.of_nat ((2 * Z.to_nat (e - 1)) mod 3)) o) h (fun o' h' => exists ws b, glmS base x y 2 3 RNone 3 0 (ws, b) (AVec (preds Lin 3 2 B ws b)) o' h' /\ model_dist2 2 ws b [0;1] 1 <= model_dist2 2 [5;-5] (1/2) [0;1] 1).
Proof.
  destruct (lin_model RNone) as (h0 & x & y & Yh & o & h & W & Hx & Hy & HS). exists (abs h0), x, y, Yh, o, h. split; [exact HS|].
  apply (C51_sgd_lin_contracts (1/10) 50 _ (fun e => (2 * e) mod 3)%nat (abs h0) x y 2 3 B ys0 3 0 [5;-5] (1/2) [0;1] 1 Yh o h Hx Hy eq_refl small3 small2 ltac:(vm_compute; reflexivity)); [|exact HS| |lra|].
  - intros e _. split; [do 4 f_equal; lia|]. apply Nat.mod_upper_bound. lia.
  - intros [|[|[|i]]] Hi; try lia; unfold score, Rsum, B, ys0; cbn; lra.
  - intros [|[|[|i]]] Hi; try lia; unfold row_sq, Rsum, B; cbn; lra.
Qed.
Example ex_C51_mbgd : exists base x y Yh o (h : heap R) s', glmS base x y 2 3 RRidge 3 0 ([5;-5], 1/2) Yh o h /\
  runs (mbgd Lin (1/10) 4 2 o) h (fun o' h' => glmS base x y 2 3 RRidge 3 0 s' (AVec (preds Lin 3 2 B s'.1 s'.2)) o' h') /\
  runs (gradient_descent Lin (1/10) 4 o) h (fun o' h' => glmS base x y 2 3 RRidge 3 0 s' (AVec (preds Lin 3 2 B s'.1 s'.2)) o' h') /\
  mbgd Lin (1/10) 4 0 o h = UB.
Proof.
  destruct (lin_model RRidge) as (h0 & x & y & Yh & o & h & W & Hx & Hy & HS).
  destruct (C51_mbgd_one_batch Lin (1/10) 4 2 (abs h0) x y 2 3 B ys0 RRidge 3 0 ([5;-5], 1/2) Yh o h Hx Hy eq_refl small3 small2 ltac:(vm_compute; reflexivity) ltac:(lia) ltac:(lia) HS) as (s' & E1 & E2).
  exists (abs h0), x, y, Yh, o, h, s'. split; [exact HS|]. split; [exact E1|]. split; [exact E2|]. eapply C51_mbgd_bad_size_UB; [exact Hx|exact HS|left; reflexivity].
Qed.
(** normal_equation: here
    the data is fitted exactly by [1; 1] with bias 0, which it finds. *)
Example ex_C52 : exists base x y Yh o (h : heap R), glmS base x y 2 3 RNone 3 0 ([5;-5], 1/2) Yh o h /\
  runs (normal_equation o) h (fun o' h' => exists ws b, glmS base x y 2 3 RNone 3 0 (ws, b) (AVec (preds Lin 3 2 B ws b)) o' h' /\ ws = [1;1] /\ b = 0).
Proof.
  destruct (lin_model RNone) as (h0 & x & y & Yh & o & h & W & Hx & Hy & HS). exists (abs h0), x, y, Yh, o, h. split; [exact HS|].
  destruct (C52_normal_equation (abs h0) x y 2 3 B ys0 RNone 3 0 Hx Hy eq_refl small3 small4 ltac:(lia) B_ind ([5;-5], 1/2) Yh o h ltac:(cbn; lra) HS) as (o' & h' & E & W' & ws & b & HS' & G1 & G2 & G3).
  exists o', h'. split; [exact E|]. split; [exact W'|]. exists ws, b. split; [exact HS'|].
  assert (Ew : ws = [1;1]).
  { symmetry. apply (G2 [1;1] eq_refl). apply Rle_antisym.
    - eapply Rle_trans with 0; [|unfold rss]. + unfold rss, LsqMath.apply, Rsum, B, ys0. cbn. lra. + apply Rplus_le_le_0_compat; [apply Rsum_nonneg; intros; apply pow2_ge_0|]. rewrite Rmult_0_l. apply Rle_refl.
    - apply (G1 [1;1] eq_refl). }
  split; [exact Ew|]. rewrite Ew in G3. unfold score, Rsum, B, ys0 in G3. cbn in G3. lra.
Qed.
Example ex_C52_newton : exists base x y Yh o (h : heap R), glmS base x y 2 3 RNone 3 0 ([5;-5], 1/2) Yh o h /\
  runs (newton_raphson (INR 3) 1 o) h (fun o' h' => exists ws' b', glmS base x y 2 3 RNone 3 0 (ws', b') (AVec (preds Lin 3 2 B ws' b')) o' h' /\
    (forall us, length us = 2%nat -> J_lin 3 2 B ys0 ws' (1/2) <= J_lin 3 2 B ys0 us (1/2)) /\ b' = 1/2 - Rsum 3 (fun i => score 2 B [5;-5] (1/2) i - nth i ys0 0)).
Proof.
  destruct (lin_model RNone) as (h0 & x & y & Yh & o & h & W & Hx & Hy & HS). exists (abs h0), x, y, Yh, o, h. split; [exact HS|].
  apply (C52_newton_full_step (abs h0) x y 2 3 B ys0 RNone 3 0 Hx Hy eq_refl small3 small4 ltac:(lia) B_ind [5;-5] (1/2) Yh o h eq_refl HS).
Qed.
(** 10 epochs of Adam with batches of two rows: the weights are still [5; -5]. *)
Example ex_C53 : exists base x y Yh o (h : heap R), glmS base x y 2 3 RNone 3 0 ([5;-5], 1/2) Yh o h /\
  runs (adaptive (Adam (9/10) (99/100) (1/1000)) (1/10) 10 2 o) h (fun o' h' => exists b', glmS base x y 2 3 RNone 3 0 ([5;-5], b') (AVec (preds Lin 3 2 B [5;-5] b')) o' h').
Proof.
  destruct (lin_model RNone) as (h0 & x & y & Yh & o & h & W & Hx & Hy & HS). exists (abs h0), x, y, Yh, o, h. split; [exact HS|].
  apply (C53_weights_frozen_refuted (abs h0) x y 2 3 B ys0) with (m := 2%nat) (Yh := Yh) (b := 1/2); try assumption; try reflexivity; try exact small3; try exact small2; try lia; try (vm_compute; reflexivity). cbn. lra.
Qed.
Example ex_C54 : exists (h : heap R) x y, abs h !! x = Some (Mat 2 3 B) /\ abs h !! y = Some (AVec [0;0;1]) /\
  runs (let! o := g_new Log (Some x) (Some y) RNone (1/2) 0 (fun _ => 0) 0 in gradient_descent Log (1/10) 100 o) h (fun o' h' => exists ws b, holds o' h' ws b /\ length ws = 2%nat /\
    forall us u, J Log 3 2 B [0;0;1] ws b - J Log 3 2 B [0;0;1] us u <= model_dist2 2 [0;0] 0 us u / 20).
Proof.
  reach [LM 2 [[1;1];[1;2];[1;3]]; LV [0;0;1]]. rewrite Rows_Mat in Hd by (repeat constructor). exists h, d, d0. split; [exact Hd|]. split; [exact Hd0|].
  destruct (C54_fit Log h d d0 2 3 B [0;0;1] (1/2) 0 (fun _ => 0) 0 (1/10) 100 W Hd Hd0 eq_refl ltac:(lia) small3 small2 ltac:(vm_compute; reflexivity)) as (o' & h' & E & W' & ws & b & G1 & G2 & G3); try (unfold PropGlm5.in_int; lra); [rewrite power; lra|].
  exists o', h'. split; [exact E|]. split; [exact W'|]. exists ws, b. split; [exact G1|]. split; [exact G2|]. intros us u. specialize (G3 us u). change (vlist 2 _) with [0;0] in G3. change (IZR (Z.max 1 100)) with 100 in G3. replace (2 * (1/10) * 100) with 20 in G3 by lra. exact G3.
Qed.
(** Constructed with weights [5; -5] and bias 1/2, asked at (10, 1): 45.5. *)
Example ex_C54_model_test : exists (h : heap R) x y p, abs h !! x = Some (Mat 2 3 B) /\ abs h !! y = Some (AVec ys0) /\ abs h !! p = Some (AVec [10;1]) /\
  runs (let! o := g_new Lin (Some x) (Some y) RNone 0 0 (fun j => if Z.eqb j 0 then 5 else -5) (1/2) in model_test Lin o (Some p)) h (fun r h' => r = 455 / 10).
Proof.
  reach [LM 2 [[1;1];[1;2];[1;3]]; LV ys0; LV [10;1]]. rewrite Rows_Mat in Hd by (repeat constructor). exists h, d, d0, d1. split_and!; [exact Hd|exact Hd0|exact Hd1|].
  eapply runs_seq; [apply (C54_new_lin h d d0 2 3 B RNone 0 0 0 0 _ (1/2) W Hd small3 small2); rewrite to_int_in by (unfold PropGlm5.in_int; lra); f_equal; apply Rtrunc_small; lra|].
  cbv beta. intros o h' HS. pose proof HS as (W' & _ & lw & ly & E & D & N1 & N2 & A). eexists _, h'. split; [|split; [exact W'|]].
  - eapply C54_model_test; [exact W'|rewrite E; reflexivity|eapply glmS_holds; exact HS|rewrite A, !lookup_insert_ne by congruence; exact Hd1|reflexivity].
  - change (vlist 2 _) with [5;-5]. cbv zeta. unfold Rsum. cbn. lra.
Qed.
(** After training the object's predictions are a vector of its own: with predictions [0.9; 0.2; 3] for labels [1; 0; 4] the score is 2/3. *)
Example ex_C54_score : exists (h : heap R) a b, abs h !! a = Some (AVec [9/10; 2/10; 3]) /\ abs h !! b = Some (AVec [1;0;4]) /\
  g_score Rround (Glm None (Some b) (Some a) None 0 3 0 RNone 0 0 true) h = Ok (2 / 3) h.
Proof.
  assert (E1 : Rround (9/10) = 1) by (apply (round_lit 1); lra || lia). assert (E2 : Rround (2/10) = 0) by (apply (round_lit 0); lra || lia). assert (E4 : Rround 3 = 3) by (apply (round_lit 3); lra || lia).
  reach [LV [9/10; 2/10; 3]; LV [1;0;4]]. exists h, d, d0. split_and!; auto. erewrite C54_score; [|exact W|reflexivity|reflexivity|reflexivity|exact Hd|exact Hd0|reflexivity| |].
  - f_equal. cbn [zip zip_with length]. rewrite !countb_cons. unfold right_label. cbn [fst snd]. rewrite E1, E2, E4. repeat (destruct (Req_EM_T _ _); try lra). unfold countb. cbn. lra.
  - rewrite !list.Forall_cons. rewrite E1, E2, E4. split_and!; [exists 1%Z|exists 0%Z|exists 3%Z|constructor]; split; try reflexivity; lia.
  - rewrite !list.Forall_cons. split_and!; [exists 1%Z|exists 0%Z|exists 4%Z|constructor]; split; try reflexivity; lia.
Qed.
