(** * Concrete cases for C60 and C61, built and constructed through the API. *)
From Verif Require Import Base BaseProofs Vec VecSpec VecProofs VecProofs2 Mat MatSpec MatProofs MatProofs2 MatProofs3 MatProofs4 MatProofs5 Act Cost Svm Util UtilProofs Glm GlmProofs GlmProofs2 Mlp MlpProofs MlpProofs2 MlpProofs3 MlpProofs4 MlpProofs5 MlpProofs6 ExBuild.
From Verif Require Import CostSpec GlmSpec GlmMath MlpSpec MlpMath PropMlp PropMlp2 PropUtil ExNum LibmR RSum.
From Coq Require Import Reals Lra Lia.
From Verif Require Import PropSvm RInst.
Open Scope R_scope.

(** Two rows of one input. *)
Definition X2 (i j : nat) : R := match i with O => 1 | _ => -1 end.
Lemma sm (n : nat) : (n <= 100)%nat -> (Z.of_nat n <= int_max)%Z. Proof. unfold int_max. lia. Qed.
Definition p0 : MlpProofs.par (F := R) := Par (fun _ _ => 0) [0] [0] 0.
(** A network with one hidden unit whose parameters were all drawn 0, on the rows 1, -1 with labels ys. *)
Lemma mlp_data ys : length ys = 2%nat -> exists (h : heap R) x y o h', wf h /\ abs h !! x = Some (Mat 1 2 X2) /\ abs h !! y = Some (AVec ys) /\
  p_new (Some x) (Some y) 1 RNone 0 0 (fun _ => 0) (fun _ => 0) (Some (fun _ => 0)) 0 h = Ok o h' /\ mlpS (abs h) x y 1 2 1 RNone 0 0 p0 None o h'.
Proof.
  intros El. assert (D : exists (h : heap R) x y, wf h /\ abs h !! x = Some (Mat 1 2 X2) /\ abs h !! y = Some (AVec ys)).
  { destruct ys as [|a [|b [|? ?]]]; try discriminate. reach [LM 1 [[1];[-1]]; LV [a;b]]. rewrite Rows_Mat in Hd by (repeat constructor). exists h, d, d0. split; [exact W|]. split; [|exact Hd0]. rewrite Hd. reflexivity. }
  destruct D as (h & x & y & W & Hx & Hy).
  destruct (C60_new h x y 1 2 1 X2 RNone 0 0 (fun _ => 0) (fun _ => 0) (fun _ => 0) 0 W Hx ltac:(lia) ltac:(apply sm; lia) ltac:(apply sm; lia) ltac:(apply sm; lia)) as (o & h' & E & W' & S).
  exists h, x, y, o, h'. split; [exact W|]. split; [exact Hx|]. split; [exact Hy|]. split; [exact E|exact S].
Qed.
Lemma half : logistic 0 = 1 / 2. Proof. unfold logistic. rewrite Ropp_0, exp_0. lra. Qed.
Lemma hid0 x j : hidden 1 (net_of p0) x j = 1 / 2.
Proof. unfold hidden. cbn [net_of p0 inw inb t_w1 t_b1]. rewrite (Rsum_ext 1 _ (fun _ => 0)) by (intros; ring). rewrite Rsum_zero. replace (0 + nth j [0] 0) with 0 by (destruct j as [|[|j]]; cbn; ring). apply half. Qed.
Lemma out0 x : output 1 1 (net_of p0) x = 1 / 2.
Proof. unfold output. rewrite (Rsum_ext 1 _ (fun _ => 0)) by (intros [|j] Hj; [cbn; ring|lia]). rewrite Rsum_zero. replace (0 + outb (net_of p0)) with 0 by (cbn; ring). apply half. Qed.

Example ex_C60 : exists base x y o (h : heap R), mlpS base x y 1 2 1 RNone 0 0 p0 None o h /\ runs (p_gradient_descent (1/2) 3 o) h (fun o' h' => exists p', mlpS base x y 1 2 1 RNone 0 0 p' (Some (outs 2 1 1 X2 p')) o' h').
Proof.
  destruct (mlp_data [1;1] eq_refl) as (h0 & x & y & o & h & W & Hx & Hy & E & S). exists (abs h0), x, y, o, h. split; [exact S|].
  destruct (C60_gd_run (abs h0) x y 1 2 1 X2 [1;1] RNone 0 0 Hx Hy eq_refl ltac:(apply sm; lia) ltac:(apply sm; lia) ltac:(apply sm; lia) ltac:(apply sm; lia) ltac:(apply sm; lia) (1/2) 3 p0 None o h ltac:(vm_compute; reflexivity) S) as (o' & h' & E' & W' & S').
  exists o', h'. split; [exact E'|]. split; [exact W'|]. eexists. exact S'.
Qed.
Example ex_C60_first_use : exists (h : heap R) x y, wf h /\ abs h !! x = Some (Mat 1 2 X2) /\ (let! o := p_new (Some x) (Some y) 1 RNone 0 0 (fun _ => 0) (fun _ => 0) None 0 in p_gradient_descent (1/2) 3 o) h = UB.
Proof.
  destruct (mlp_data [1;1] eq_refl) as (h & x & y & _ & _ & W & Hx & Hy & _). exists h, x, y. split; [exact W|]. split; [exact Hx|].
  apply (C60_first_use_UB h x y 1 2 1 X2 RNone 0 0 (fun _ => 0) (fun _ => 0) 0 W Hx); try lia; apply sm; lia.
Qed.
(** Labels 1, 1: not a stationary point, small steps improve the cost. *)
Lemma grad11 : outb (dJ 2 1 1 X2 [1;1] (net_of p0)) = - (1 / 2).
Proof. cbn [dJ outb]. unfold err. rewrite (Rsum_ext 2 _ (fun _ => - (1/2))); [unfold Rsum; cbn; lra|]. intros [|[|i]] Hi; try lia; rewrite out0; cbn; lra. Qed.
Example ex_C61_descends : exists base x y o (h : heap R), mlpS base x y 1 2 1 RNone 0 0 p0 None o h /\ exists lr, 0 < lr /\
  runs (p_gradient_descent lr 1 o) h (fun o' h' => exists N', holds_net o' h' 1 1 N' /\ J_net 2 1 1 X2 [1;1] N' < J_net 2 1 1 X2 [1;1] (net_of p0)).
Proof.
  destruct (mlp_data [1;1] eq_refl) as (h0 & x & y & o & h & W & Hx & Hy & E & S). exists (abs h0), x, y, o, h. split; [exact S|].
  destruct (C61_gd_descends (abs h0) x y 1 2 1 X2 [1;1] 0 0 Hx Hy eq_refl ltac:(lia) ltac:(apply sm; lia) ltac:(apply sm; lia) ltac:(apply sm; lia) ltac:(apply sm; lia) ltac:(apply sm; lia) p0 _ (dJ_gradient 2 1 1 X2 [1;1] (net_of p0))) as (d & Hd & G).
  - intros (_ & _ & _ & Z). rewrite grad11 in Z. cbn in Z. lra.
  - exists (d / 2). split; [lra|]. apply (G (d / 2) None o h); [lra|exact S].
Qed.
(** Labels 1, 0 (balanced): the network with all parameters 0 is stationary, training never moves it. *)
Example ex_C61_stuck : exists base x y o (h : heap R), mlpS base x y 1 2 1 RNone 0 0 p0 None o h /\ runs (p_gradient_descent (1/2) 1 o) h (fun o' h' => holds_net o' h' 1 1 (net_of p0)).
Proof.
  destruct (mlp_data [1;0] eq_refl) as (h0 & x & y & o & h & W & Hx & Hy & E & S). exists (abs h0), x, y, o, h. split; [exact S|].
  apply (C61_gd_fixed_points (abs h0) x y 1 2 1 X2 [1;0] 0 0 Hx Hy eq_refl ltac:(lia) ltac:(apply sm; lia) ltac:(apply sm; lia) ltac:(apply sm; lia) ltac:(apply sm; lia) ltac:(apply sm; lia) (1/2) p0 None o h ltac:(lra) S).
  exists (dJ 2 1 1 X2 [1;0] (net_of p0)). split; [apply dJ_gradient|].
  assert (R2 : forall u : nat -> R, Rsum 2 u = u 0%nat + u 1%nat) by (intros u; rewrite !Rsum_S; cbn; ring).
  split; [|split; [|split]]; cbn [dJ inw inb outw outb]; unfold err, gate; intros; rewrite R2, !out0, ?hid0; cbn [nth net_of outw p0 t_w2]; try (destruct j as [|j]; [|lia]); cbn; lra.
Qed.
(** Output weight 0: the hidden bias has gradient 0 and moves. *)
Example ex_C61_hidden : exists base x y o (h : heap R), mlpS base x y 1 2 1 RNone 0 0 p0 None o h /\ runs (p_gradient_descent 1 1 o) h (fun o' h' => exists N', holds_net o' h' 1 1 N' /\ inb N' 0 = 1 / 32).
Proof.
  destruct (mlp_data [1;1] eq_refl) as (h0 & x & y & o & h & W & Hx & Hy & E & S). exists (abs h0), x, y, o, h. split; [exact S|].
  assert (R2 : forall u : nat -> R, Rsum 2 u = u 0%nat + u 1%nat) by (intros u; rewrite !Rsum_S; cbn; ring).
  destruct (C61_gd (abs h0) x y 1 2 1 X2 [1;1] 0 0 Hx Hy eq_refl ltac:(lia) ltac:(apply sm; lia) ltac:(apply sm; lia) ltac:(apply sm; lia) ltac:(apply sm; lia) ltac:(apply sm; lia) 1 1 p0 None o h ltac:(vm_compute; reflexivity) S) as (o' & h' & E' & W' & Ho & _).
  exists o', h'. split; [exact E'|]. split; [exact W'|]. eexists. split; [exact Ho|]. change (Nat.iter (Z.to_nat (Z.max 1 1)) (net_step 2 1 1 X2 [1;1] 1) (net_of p0)) with (net_step 2 1 1 X2 [1;1] 1 (net_of p0)).
  cbn [net_step inb]. unfold err, gate. rewrite !R2, !out0, !hid0. cbn. lra.
Qed.
