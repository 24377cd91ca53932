(** * The hypotheses of C69-C72 are met by concrete objects: X = [[1 2] [3 4] [5 6]], y = [1/4; 1/2; 1/3], weights [1; -1], bias 1/2. *)
From Verif Require Import Base BaseProofs Vec VecSpec VecProofs VecProofs2 Mat MatSpec MatProofs MatProofs2 MatProofs3 MatProofs4 MatProofs5 Act Cost CostSpec Util Glm GlmProofs GlmSpec GlmMath RInst LibmR PropSvm Lnk LnkProofs LnkSpec LnkMath PropLnk PropLnk2 ExBuild ExAnn.
From Coq Require Import Reals Lra.
Open Scope R_scope.
Implicit Types (h : heap R).
Definition yl : list R := [1/4; 1/2; 1/3].
Definition draw (j : Z) : R := if Z.eqb j 0 then 1 else -1.
Lemma lnk_obj c reg : exists h0 h x y r o, wf h0 /\ abs h0 !! x = Some (Mat 2 3 X32) /\ abs h0 !! y = Some (AVec yl) /\ abs h0 !! r = Some (AVec [3; 4]) /\ ready c x y 2 3 reg 1 0 (abs h0) ([1; -1], 1/2) o h /\
  match c with CLogLog => l_z o = None | _ => z_len o h 0 end.
Proof.
  reach [LM 2 [[1;2];[3;4];[5;6]]; LV yl; LV [3;4]]. assert (Hx : abs h !! d = Some (Mat 2 3 X32)) by (eapply Mat_of; [exact Hd|repeat constructor|reflexivity|cells]).
  destruct (C69_new c h d d0 2 3 X32 yl reg 1 0 draw (1/2) W Hx Hd0 ltac:(apply sm; lia) ltac:(apply sm; lia)) as (o & h' & _ & _ & HR & Hz).
  exists h, h', d, d0, d1, o. split_and!; try assumption.
Qed.
Example ex_C69 c : exists h o r z, runs (l_model_test c o (Some r)) h (fun v h' => v = link c (- 1/2) /\ h' = h) /\
  runs (l_model_set_test c o (Some z)) h (fun rr h' => exists d vs, rr = Some d /\ abs h' !! d = Some (AVec vs) /\ nth 1 vs 0 = link c (- 1/2)).
Proof.
  destruct (lnk_obj c RRidge) as (h0 & h & x & y & r & o & W & Hx & Hy & Hr & HR & _). exists h, o, r, x. split.
  - destruct (C69_model_test c x y 2 3 X32 RRidge 1 0 _ _ o h r _ Hx HR Hr eq_refl) as (v & h' & E & W' & -> & ->). exists (link c (Rsum 2 (fun j => nth j [3;4] 0 * nth j [1;-1] 0) + 1/2)), h. split; [exact E|]. split; [exact W'|]. split; [|reflexivity]. f_equal. rewrite !Rsum_S. change (Rsum 0 _) with 0. cbn [nth]. lra.
  - destruct (C69_model_set_test c x y 2 3 X32 RRidge 1 0 _ _ o h x 3 X32 Hx HR Hx ltac:(apply sm; lia)) as (v & h' & E & W' & d & vs & -> & _ & A & _ & G). exists (Some d), h'. split; [exact E|]. split; [exact W'|]. exists d, vs. split; [reflexivity|]. split; [rewrite A; apply lookup_insert|].
    rewrite G by lia. f_equal. unfold score. rewrite !Rsum_S. change (Rsum 0 _) with 0. cbn [nth X32 row2 fst snd]. lra.
Qed.
Example ex_C69_refuses : exists h o (r : loc), refuses Tanh (l_set_output_set Tanh (Some r) o) h /\ ~ refuses Tanh o h.
Proof.
  destruct (lnk_obj Tanh RNone) as (h0 & h & x & y & r & o & W & Hx & Hy & Hr & HR & _). exists h, o, r. split; [apply C69_tanh_set_output_set_refuted|]. intros (_ & G & _).
  destruct (C69_model_set_test Tanh x y 2 3 X32 RNone 1 0 _ _ o h x 3 X32 Hx HR Hx ltac:(apply sm; lia)) as (v & h' & E & W' & d & vs & -> & _). rewrite (G (Some x)) in E. discriminate.
Qed.
Example ex_C70 : exists h o, forall max, (max < int_max)%Z -> exists s, runs (l_gradient_descent Tanh false (1/10) max o) h (fun o' h' => exists x y base, trained Tanh x y 2 3 X32 RNone 1 0 base s o' h').
Proof.
  destruct (lnk_obj Tanh RNone) as (h0 & h & x & y & r & o & W & Hx & Hy & Hr & HR & _). exists h, o. intros max Hm.
  destruct (C70_gd_path Tanh false (1/10) _ x y 2 3 X32 yl 1 0 ([1;-1], 1/2) o h (or_introl (conj eq_refl eq_refl)) Hx Hy eq_refl ltac:(lia) ltac:(apply sm; lia) ltac:(apply sm; lia) HR) as (st & _ & _ & G). exists (st (Z.to_nat (Z.max 1 max))).
  destruct (G max Hm) as (o' & h' & E & W' & T). exists o', h'. split; [exact E|]. split; [exact W'|]. eauto.
Qed.
(** Here the gradient is not zero: every label is positive and every prediction of MLPPTanhReg with this model negative. *)
Example ex_C70_small_rate : exists h o s, forall base x y, ready Tanh x y 2 3 RNone 1 0 base s o h -> base !! x = Some (Mat 2 3 X32) -> base !! y = Some (AVec yl) -> exists lr0, 0 < lr0 /\ forall lr, 0 < lr < lr0 ->
  runs (l_gradient_descent Tanh false lr 1 o) h (fun o' h' => exists s', trained Tanh x y 2 3 X32 RNone 1 0 base s' o' h' /\ J_link Tanh 3 2 X32 yl (model s') < J_link Tanh 3 2 X32 yl (model s)).
Proof.
  destruct (lnk_obj Tanh RNone) as (h0 & h & x0 & y0 & r & o & W & _ & _ & Hr & HR0 & _). exists h, o, ([1; -1], 1/2). intros base x y HR Hx Hy.
  assert (Hg := gdir_gradient Tanh 3 2 X32 yl [1;-1] (1/2) eq_refl).
  eapply (C70_small_rate Tanh false base x y 2 3 X32 yl 1 0 ([1;-1], 1/2) o h _ (or_introl (conj eq_refl eq_refl)) Hx Hy eq_refl ltac:(lia) ltac:(apply sm; lia) ltac:(apply sm; lia) HR Hg).
  eexists 0%nat, _. split; [reflexivity|]. unfold gdir. rewrite !Rsum_S. change (Rsum 0 _) with 0. cbn [INR co yl nth].
  assert (S0 : forall i, (i < 3)%nat -> score 2 X32 [1;-1] (1/2) i = - (1/2)) by (intros [|[|[|i]]] Hi; try lia; unfold score; rewrite !Rsum_S; change (Rsum 0 _) with 0; cbn [nth X32 row2]; lra). rewrite !S0 by lia.
  set (t := link Tanh (- (1/2))). assert (Ht : t < 0). { assert (G := C69_link_increasing Tanh (- (1/2)) 0 ltac:(lra)). replace (link Tanh 0) with 0 in G; [exact G|]. cbn [link]. unfold tanh, sinh. rewrite Ropp_0, Rminus_diag_eq by reflexivity. unfold Rdiv. rewrite !Rmult_0_l. reflexivity. }
  assert (Hp : 0 < link' Tanh (- (1/2))). { cbn [link']. fold t. change (tanh (- (1/2))) with t. assert (Hb : -1 < t). { unfold t. cbn [link]. unfold tanh. assert (0 < cosh (- (1/2))) by (unfold cosh; assert (0 < exp (- (1/2))) by apply exp_pos; assert (0 < exp (- - (1/2))) by apply exp_pos; lra). apply (Rmult_lt_reg_r (cosh (- (1/2)))); [assumption|]. unfold Rdiv. rewrite Rmult_assoc, Rinv_l by lra. unfold sinh, cosh. assert (0 < exp (- (1/2))) by apply exp_pos. lra. } nra. }
  set (q := link' Tanh (- (1/2))) in *. nra.
Qed.
Example ex_C70_cloglog : exists h o s', runs (l_gradient_descent CLogLog true (1/10) 5 o) h (fun o' h' => exists x y base, trained CLogLog x y 2 3 X32 RNone 1 0 base s' o' h').
Proof.
  destruct (lnk_obj CLogLog RNone) as (h0 & h & x & y & r & o & W & Hx & Hy & Hr & HR & _). destruct (C70_cloglog_path true (1/10) _ x y 2 3 X32 yl 1 0 ([1;-1], 1/2) o h Hx Hy eq_refl ltac:(lia) ltac:(apply sm; lia) ltac:(apply sm; lia) HR) as (st & _ & _ & G).
  destruct (G 5%Z ltac:(unfold int_max; lia)) as (o' & h' & E & W' & T). eexists h, o, _, o', h'. split; [exact E|]. split; [exact W'|]. eauto.
Qed.
(** An object meeting the hypotheses of C70_cloglog_mle_refuted: a label above 1 is never predicted. *)
Example ex_C70_mle : exists h o x y base, ready CLogLog x y 1 1 RNone 1 0 base ([1], 1/2) o h /\ base !! x = Some (Mat 1 1 (fun _ _ => 3)) /\ base !! y = Some (AVec [2]) /\ link CLogLog (score 1 (fun _ _ => 3) [1] (1/2) 0) <> 2.
Proof.
  reach [LM 1 [[3]]; LV [2]]. assert (Hx : abs h !! d = Some (Mat 1 1 (fun _ _ => 3))) by (eapply Mat_of; [exact Hd|repeat constructor|reflexivity|cells]).
  destruct (C69_new CLogLog h d d0 1 1 _ [2] RNone 1 0 draw (1/2) W Hx Hd0 ltac:(apply sm; lia) ltac:(apply sm; lia)) as (o & h' & _ & _ & HR & _). exists h', o, d, d0, (abs h). split; [exact HR|]. split; [exact Hx|]. split; [exact Hd0|].
  cbn [link]. set (u := exp (- _)). assert (0 < u) by apply exp_pos. lra.
Qed.
Example ex_C71 : exists h o s', runs (l_sgd Probit (1/10) 50 (fun e => Z.of_nat ((2 * Z.to_nat (e - 1)) mod 3)) o) h (fun o' h' => exists x y base, trained Probit x y 2 3 X32 RNone 1 0 base s' o' h').
Proof.
  destruct (lnk_obj Probit RNone) as (h0 & h & x & y & r & o & W & Hx & Hy & Hr & HR & _).
  destruct (C71_sgd_path Probit (1/10) 50 (fun e => Z.of_nat ((2 * Z.to_nat (e - 1)) mod 3)) (fun e => (2 * e) mod 3)%nat _ x y 2 3 X32 yl 1 0 ([1;-1], 1/2) o h ltac:(discriminate) Hx Hy eq_refl ltac:(apply sm; lia) ltac:(apply sm; lia) ltac:(unfold int_max; lia)) as (st & _ & _ & G); [|exact HR|].
  - intros e _. split; [do 4 f_equal; lia|]. apply Nat.mod_upper_bound. lia.
  - destruct G as (o' & h' & E & W' & T). eexists h, o, _, o', h'. split; [exact E|]. split; [exact W'|]. eauto.
Qed.
Example ex_C71_tanh : exists h o b, runs (l_sgd Tanh (1/10) 50 (fun e => Z.of_nat ((2 * Z.to_nat (e - 1)) mod 3)) o) h (fun o' h' => exists x y base, trained Tanh x y 2 3 X32 RNone 1 0 base ([1; -1], b) o' h').
Proof.
  destruct (lnk_obj Tanh RNone) as (h0 & h & x & y & r & o & W & Hx & Hy & Hr & HR & _).
  destruct (C71_tanh_sgd_weights_refuted (1/10) 50 (fun e => Z.of_nat ((2 * Z.to_nat (e - 1)) mod 3)) (fun e => (2 * e) mod 3)%nat _ x y 2 3 X32 yl 1 0 ([1;-1], 1/2) o h Hx Hy eq_refl ltac:(apply sm; lia) ltac:(apply sm; lia) ltac:(unfold int_max; lia)) as (st & _ & _ & G); [|exact HR|].
  - intros e _. split; [do 4 f_equal; lia|]. apply Nat.mod_upper_bound. lia.
  - destruct G as (o' & h' & E & W' & T). eexists h, o, _, o', h'. split; [exact E|]. split; [exact W'|]. eauto.
Qed.
Example ex_C72 : exists h o s', runs (l_mbgd CLogLog (1/10) 4 1 o) h (fun o' h' => exists x y base, trained CLogLog x y 2 3 X32 RNone 1 0 base s' o' h').
Proof.
  destruct (lnk_obj CLogLog RNone) as (h0 & h & x & y & r & o & W & Hx & Hy & Hr & HR & _).
  destruct (C72_mbgd_path (1/10) 4 1 _ x y 2 3 X32 yl 1 0 ([1;-1], 1/2) o h Hx Hy eq_refl ltac:(apply sm; lia) ltac:(apply sm; lia) ltac:(unfold int_max; lia) ltac:(lia) HR) as (st & _ & _ & _ & o' & h' & E & W' & T).
  eexists h, o, _, o', h'. split; [exact E|]. split; [exact W'|]. eauto.
Qed.
(** A fresh MLPPTanhReg: _z is empty, so mbgd is undefined behaviour; after gradient_descent too. *)
Example ex_C72_tanh : exists h o, l_mbgd Tanh (1/10) 4 1 o h = UB /\ runs (l_gradient_descent Tanh false (1/10) 5 o) h (fun o' h' => l_mbgd Tanh (1/10) 4 1 o' h' = UB).
Proof.
  destruct (lnk_obj Tanh RNone) as (h0 & h & x & y & r & o & W & Hx & Hy & Hr & HR & Hz). exists h, o. split.
  - exact (C72_tanh_mbgd_UB (1/10) 4 1 (abs h0) x y 2 3 X32 yl RNone 1 0 ([1;-1], 1/2) o h 0%nat Hx Hy eq_refl ltac:(apply sm; lia) ltac:(apply sm; lia) ltac:(lia) HR Hz ltac:(discriminate)).
  - destruct (C70_gd_run Tanh false (1/10) 5 _ x y 2 3 X32 yl RNone 1 0 ([1;-1], 1/2) o h Hx Hy eq_refl ltac:(apply sm; lia) ltac:(apply sm; lia) ltac:(unfold int_max; lia) HR) as (o' & h' & E & W' & T). exists o', h'. split; [exact E|]. split; [exact W'|].
    exact (C72_tanh_mbgd_UB_trained (1/10) 4 1 _ x y 2 3 X32 yl RNone 1 0 _ o' h' Hx Hy eq_refl ltac:(apply sm; lia) ltac:(apply sm; lia) ltac:(lia) ltac:(lia) T).
Qed.
