(** * The hypotheses of C77-C80 are met by concrete objects: X = [[1 2] [3 4] [5 6]], y = [1; -1; 1], weights [1; -1], bias 1/2. *)
From Verif Require Import Base BaseProofs Vec VecSpec Mat MatSpec MatProofs MatProofs2 MatProofs4 Glm GlmSpec RInst LibmR PropSvm Lnk Svc SvcProofs SvcSpec SvcMath PropSvc PropSvc2 PropUtil ExBuild ExAnn ExLnk.
From Coq Require Import Reals Lra.
Open Scope R_scope.
Implicit Types (h : heap R).
Definition ysv : list R := [1; -1; 1].
Lemma svc_obj : exists h0 h x y r o, wf h0 /\ abs h0 !! x = Some (Mat 2 3 X32) /\ abs h0 !! y = Some (AVec ysv) /\ abs h0 !! r = Some (AVec [3; 4]) /\ v_ready x y 2 3 (1/2) (abs h0) ([1; -1], 1/2) o h.
Proof.
  reach [LM 2 [[1;2];[3;4];[5;6]]; LV ysv; LV [3;4]]. assert (Hx : abs h !! d = Some (Mat 2 3 X32)) by (eapply Mat_of; [exact Hd|repeat constructor|reflexivity|cells]).
  destruct (C77_new h d d0 2 3 X32 ysv (1/2) draw (1/2) W Hx Hd0 ltac:(apply sm; lia) ltac:(apply sm; lia)) as (o & h' & _ & _ & HR). exists h, h', d, d0, d1, o. split_and!; assumption.
Qed.
Lemma score32 i : score 2 X32 [1;-1] (1/2) i = -1/2.
Proof. unfold score. rewrite !Rsum_S. change (Rsum 0 _) with 0. destruct i as [|[|i]]; cbn [nth X32 row2]; lra. Qed.
Example ex_C77 : exists h o r z, runs (v_model_test o (Some r)) h (fun v h' => v = -1 /\ h' = h) /\ runs (v_model_set_test o (Some z)) h (fun rr h' => exists d vs, rr = Some d /\ abs h' !! d = Some (AVec vs) /\ nth 1 vs 0 = -1) /\
  v_refuses (v_set_output (Some r) o) h /\ ~ v_refuses o h.
Proof.
  destruct svc_obj as (h0 & h & x & y & r & o & W & Hx & Hy & Hr & HR). exists h, o, r, x.
  destruct (C77_model_set_test x y 2 3 X32 (1/2) _ _ o h x 3 X32 Hx HR Hx ltac:(apply sm; lia)) as (v2 & h2 & E2 & W2 & d & vs & -> & _ & A & _ & G). split; [|split; [|split]].
  - destruct (C77_model_test x y 2 3 X32 (1/2) _ _ o h r _ Hx HR Hr eq_refl) as (v & h' & E & W' & -> & ->). exists (-1), h. split; [|split; [exact W'|auto]]. rewrite E. do 2 f_equal. unfold sgnR. rewrite !Rsum_S. change (Rsum 0 _) with 0. cbn [nth fst snd]. destruct (Rlt_dec _ _); [reflexivity|lra].
  - exists (Some d), h2. split; [exact E2|]. split; [exact W2|]. exists d, vs. split; [reflexivity|]. split; [rewrite A; apply lookup_insert|]. rewrite G by lia. cbn [fst snd]. rewrite score32. unfold sgnR. destruct (Rlt_dec _ _); [reflexivity|lra].
  - apply C77_set_output_set_refuted.
  - intros (_ & Q & _). rewrite (Q (Some x)) in E2. discriminate.
Qed.
(** Every label is on the wrong side of the margin except the second row's sign. *)
Example ex_C79 : exists h o s, runs (v_gd 1 1 o) h (fun o' h' => exists x y base, v_trained x y 2 3 X32 (1/2) base s o' h') /\ nth 0 s.1 0 = 1 /\ s.2 = 1/6.
Proof.
  destruct svc_obj as (h0 & h & x & y & r & o & W & Hx & Hy & Hr & HR).
  destruct (C79_gd_path (1/2) 1 _ x y 2 3 X32 ysv _ o h Hx Hy eq_refl ltac:(lia) ltac:(apply sm; lia) ltac:(apply sm; lia) HR) as (st & E0 & Hst & G). destruct (G 1%Z ltac:(unfold int_max; lia)) as (o' & h' & E & W' & T). exists h, o, (st 1%nat).
  destruct (Hst 0%nat) as (_ & Hw & _ & Hb). rewrite E0 in Hw, Hb. split; [exists o', h'; split; [exact E|]; split; [exact W'|]; eauto|]. split.
  - rewrite Hw by lia. cbn [fst snd]. rewrite !Rsum_S. change (Rsum 0 _) with 0. rewrite !score32. cbn [nth ysv X32 row2]. destruct (Rlt_dec (1 * (-1/2)) 1); [|lra]. destruct (Rlt_dec (-1 * (-1/2)) 1); [|lra]. replace (INR 3) with 3 by (cbn; lra). lra.
  - rewrite Hb. cbn [fst snd]. rewrite !Rsum_S. change (Rsum 0 _) with 0. rewrite !score32. cbn [nth ysv]. assert (Es : sgnR (-1/2) = -1) by (unfold sgnR; destruct (Rlt_dec _ _); lra). rewrite Es. destruct (Rlt_dec (1 * -1) 1); [|lra]. destruct (Rlt_dec (-1 * -1) 1); [lra|]. replace (INR 3) with 3 by (cbn; lra). lra.
Qed.
Example ex_C79_bias : exists h o x y base, v_ready x y 1 1 1 base ([1], -1) o h /\ base !! x = Some (Mat 1 1 (fun _ _ => 0)) /\ base !! y = Some (AVec [1]).
Proof.
  reach [LM 1 [[0]]; LV [1]]. assert (Hx : abs h !! d = Some (Mat 1 1 (fun _ _ => 0))) by (eapply Mat_of; [exact Hd|repeat constructor|reflexivity|cells]).
  destruct (C77_new h d d0 1 1 _ [1] 1 draw (-1) W Hx Hd0 ltac:(apply sm; lia) ltac:(apply sm; lia)) as (o & h' & _ & _ & HR). exists h', o, d, d0, (abs h). split; [exact HR|]. split; [exact Hx|exact Hd0].
Qed.
Example ex_C78 : exists h o s', runs (v_sgd (1/10) 50 (fun e => Z.of_nat ((2 * Z.to_nat (e - 1)) mod 3)) o) h (fun o' h' => exists x y base, v_trained x y 2 3 X32 (1/2) base s' o' h') /\ Rabs (nth 0 s'.1 0) <= 6 /\ Rabs (s'.2 - 1/2) <= 50 * (1/20).
Proof.
  destruct svc_obj as (h0 & h & x & y & r & o & W & Hx & Hy & Hr & HR).
  assert (Hix : forall e, ((2 * e) mod 3 < 3)%nat) by (intros; apply Nat.mod_upper_bound; lia).
  destruct (C78_sgd_path (1/2) (1/10) 50 (fun e => Z.of_nat ((2 * Z.to_nat (e - 1)) mod 3)) (fun e => (2 * e) mod 3)%nat _ x y 2 3 X32 ysv ([1;-1], 1/2) o h Hx Hy eq_refl ltac:(apply sm; lia) ltac:(apply sm; lia) ltac:(unfold int_max; lia)) as (st & E0 & Hst & G); [|exact HR|].
  - intros e _. split; [do 4 f_equal; lia|apply Hix].
  - destruct G as (o' & h' & E & W' & T). eexists h, o, _. split; [exists o', h'; split; [exact E|]; split; [exact W'|]; eauto|].
    pose proof (C78_sgd_bounded (1/2) (1/10) 2 X32 ysv (fun e => (2 * e) mod 3)%nat st 3 6 6) as B.
    destruct (B ltac:(lra) ltac:(lra) Hix) with (t := Z.to_nat (Z.max 1 50)) as [B1 B2]; [| |exact Hst| |lra|].
    + intros [|[|[|i]]] [|[|j]] Hi Hj; try lia; cbn [X32 row2]; rewrite Rabs_right; lra.
    + intros [|[|[|i]]] Hi; try lia; cbn [nth ysv]; try (rewrite Rabs_right; lra). rewrite Rabs_left; lra.
    + rewrite E0. intros [|[|j]] Hj; try lia; cbn [nth fst]; [rewrite Rabs_right|rewrite Rabs_left]; lra.
    + split; [apply B1; lia|]. rewrite E0 in B2. cbn [snd] in B2. replace (INR (Z.to_nat (Z.max 1 50))) with 50 in B2 by (rewrite INR_IZR_INZ; reflexivity). lra.
Qed.
Example ex_C80 : exists h o b', runs (v_mbgd (3/2) 2 1 o) h (fun o' h' => exists x y base, v_trained x y 2 3 X32 (1/2) base ((fun w => (1/2)^6 * w) <$> [1; -1], b') o' h').
Proof.
  destruct svc_obj as (h0 & h & x & y & r & o & W & Hx & Hy & Hr & HR).
  destruct (C80_mbgd_weights_refuted (1/2) (3/2) 2 1 _ x y 2 3 X32 ysv _ o h Hx Hy eq_refl ltac:(apply sm; lia) ltac:(apply sm; lia) ltac:(unfold int_max; lia) ltac:(lia) HR) as (o' & h' & E & W' & b' & T). exists h, o, b', o', h'. split; [exact E|]. split; [exact W'|]. exists x, y, (abs h0).
  assert (E1 : 1 - 3/2 / INR 3 = 1/2) by (cbn; lra). rewrite E1 in T. exact T.
Qed.
