(** * C54, continued: what a trained linear or logistic regression answers, and its score. *)
From Verif Require Import Base BaseProofs Vec VecSpec VecProofs VecProofs2 Mat MatSpec MatProofs MatProofs2 Act Sym Svm Cost Util UtilProofs Glm GlmProofs GlmProofs2 CostSpec GdMath GlmSpec GlmMath LibmR PropGlm PropGlm2 PropGlm5.
From Coq Require Import Reals Lra.
From Verif Require Import PropAct PropSvm RSum PropUtil RInst.
Open Scope R_scope.

(** [model_test]: the linear form of the weights and bias the object holds, at the given point; through the logistic function for MLPPLogReg; nothing is changed. *)
Theorem C54_model_test c (o : glm (F := R)) h ws b p xs : wf h -> g_init o = true -> holds o h ws b -> abs h !! p = Some (AVec xs) -> length ws = length xs ->
  model_test c o (Some p) h = Ok (let z := Rsum (length xs) (fun j => nth j xs 0 * nth j ws 0) + b in match c with Lin => z | Log => logistic z end) h.
Proof.
  intros W I (w & Ew & Hw & Eb) Hp El. unfold model_test. rewrite I.
  pose proof (wp_evaluatev c o h w b p xs ws (fun v h' => v = pred1 c xs (ws, b) /\ h' = h) W Ew Eb Hw Hp El (conj eq_refl eq_refl)) as G.
  unfold wp in G. destruct (evaluatev c o (Some p) h) as [v h'| | |]; try contradiction. destruct G as [-> ->]. f_equal. unfold pred1. cbv zeta. cbn [fst snd]. rewrite (dotl_R ws xs El). destruct c; [reflexivity|].
  change (sigmoid_normr ?z) with (logistic z). reflexivity.
Qed.
(** [model_set_test]: a fresh vector with that value for each row of the given matrix; everything else as before. *)
Theorem C54_model_set_test c (o : glm (F := R)) h ws b p k n X : wf h -> g_init o = true -> holds o h ws b -> abs h !! p = Some (Mat k n X) -> length ws = k -> (Z.of_nat n <= int_max)%Z ->
  runs (model_set_test c o (Some p)) h (fun r h' => exists l ps, r = Some l /\ abs h !! l = None /\ abs h' = <[l := AVec ps]> (abs h) /\ length ps = n /\
    forall i, (i < n)%nat -> nth i ps 0 = let z := Rsum k (fun j => X i j * nth j ws 0) + b in match c with Lin => z | Log => logistic z end).
Proof.
  intros W I (w & Ew & Hw & Eb) Hp El Hn. apply runs_wp. unfold model_set_test. rewrite I.
  eapply (wp_evaluatem c o h p w k n X ws b); try eassumption. intros d h' W' N A. split; [exact W'|]. exists d, (preds c n k X ws b). split; [reflexivity|]. split; [exact N|]. split; [exact A|]. split; [unfold preds; try rewrite fmap_length; apply vlist_length|].
  intros i Hi. rewrite preds_R by exact Hi. unfold score. reflexivity.
Qed.
(** [score] after training: the fraction of the training predictions that round to their label. *)
Theorem C54_score (o : glm (F := R)) h a b ps ys : wf h -> g_init o = true -> g_yh o = Some a -> g_y o = Some b -> abs h !! a = Some (AVec ps) -> abs h !! b = Some (AVec ys) -> length ps = length ys ->
  Forall (fun x => small_int (Rround x)) ps -> Forall small_int ys ->
  g_score Rround o h = Ok (INR (countb right_label (zip ps ys)) / INR (length ps)) h.
Proof. intros W I Ea Eb Ha Hb El F1 F2. unfold g_score. rewrite I, Ea, Eb. apply C49_performance_vec; assumption. Qed.
(** An object that was never given data answers 0, null and 0, and changes nothing. *)
Theorem C54_uninitialised c (o : glm (F := R)) p h rnd : g_init o = false -> model_test c o p h = Ok 0 h /\ model_set_test c o p h = Ok None h /\ g_score rnd o h = Ok 0 h.
Proof. intros I. unfold model_test, model_set_test, g_score. rewrite I. auto. Qed.
