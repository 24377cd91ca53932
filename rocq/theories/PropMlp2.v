(** * C61: what a perceptron answers and what training does to its cost, over exact reals. *)
From Verif Require Import Base BaseProofs Vec VecSpec VecProofs VecProofs2 Mat MatSpec MatProofs MatProofs2 MatProofs4 Act ActProofs Sym Svm Cost Util UtilProofs Glm GlmProofs GlmProofs2 CostSpec GlmSpec GlmMath Mlp MlpProofs MlpProofs2 MlpProofs3 MlpProofs4 MlpProofs5 MlpProofs6 PropMlp MlpSpec MlpMath LibmR PropGlm PropGlm2 PropGlm5.
From Coq Require Import Reals Lra.
From Verif Require Import PropAct PropAct2 PropSvm RSum PropUtil RInst.
Open Scope R_scope.

(** The network the parameters stand for. *)
Definition net_of (p : MlpProofs.par (F := R)) : net := Net (t_w1 p) (fun j => nth j (t_b1 p) 0) (fun j => nth j (t_w2 p) 0) (t_b2 p).
(** The network the object [o] holds in heap [h]. *)
Definition holds_net (o : mlp (F := R)) (h : heap R) (k hh : nat) (N : net) : Prop := exists b1 w2,
  abs h !! p_w1 o = Some (Mat hh k (inw N)) /\ abs h !! p_b1 o = Some (AVec b1) /\ abs h !! p_w2 o = Some (AVec w2) /\ length b1 = hh /\ length w2 = hh /\
  (forall j, (j < hh)%nat -> nth j b1 0 = inb N j /\ nth j w2 0 = outw N j) /\ p_b2 o = outb N.
Lemma mlpS_holds base x y k n hh reg la al p Y o h : mlpS base x y k n hh reg la al p Y o h -> holds_net o h k hh (net_of p).
Proof. intros S. exists (t_b1 p), (t_w2 p). destruct (ms_shape S) as [S1 S2]. split_and!; try apply S; try assumption; [intros; split; reflexivity|]. rewrite (ms_obj S). reflexivity. Qed.

Lemma sg_R kd z : sg kd z = logistic z.
Proof. unfold sg. rewrite asem_sigmoid. reflexivity. Qed.
Lemma sgd_R kd z : sgd kd z = logistic z * (1 - logistic z).
Proof. unfold sgd, sigmoid_deriv_e. cbn [asem e_sub e_mul]. rewrite !asem_sigmoid. change (sigmoid_normr z) with (logistic z). generalize (logistic z). intros. scal. ring. Qed.
Lemma ha_R k X p i j : ha k X p i j = hidden k (net_of p) (X i) j.
Proof. unfold ha, hz, add_rows, mat_mul, hidden. rewrite sg_R, lsum_Rsum. reflexivity. Qed.
Lemma outs_R n k hh X p i : (i < n)%nat -> nth i (outs n k hh X p) 0 = output k hh (net_of p) (X i).
Proof. intros Hi. unfold outs. rewrite preds_R by exact Hi. unfold score, output. do 2 f_equal. apply Rsum_ext. intros j _. rewrite ha_R. reflexivity. Qed.
Lemma hzv_R k hh xs p j : shaped hh p -> (j < hh)%nat -> nth j (sg KV <$> hzv k hh (t_w1 p) (t_b1 p) xs) 0 = hidden k (net_of p) (fun r => nth r xs 0) j.
Proof.
  intros [S1 S2] Hj. unfold hzv. rewrite nth_fmap by (rewrite zip_with_length, xt_e_length; lia). rewrite nth_zip by (rewrite ?xt_e_length; lia). rewrite xt_e_R by exact Hj. rewrite sg_R. unfold hidden. cbn [net_of inw inb]. scal. do 2 f_equal. apply Rsum_ext. intros; ring.
Qed.
Lemma out1_R k hh xs p : shaped hh p -> out1 k hh xs p = output k hh (net_of p) (fun r => nth r xs 0).
Proof.
  intros S. unfold out1. change (sigmoid_normr ?z) with (logistic z). unfold output. f_equal. scal. f_equal. pose proof S as [S1 S2].
  rewrite dotl_R by (unfold hzv; rewrite fmap_length, zip_with_length, xt_e_length; lia). unfold hzv at 1. rewrite fmap_length, zip_with_length, xt_e_length, S1, Nat.min_id. apply Rsum_ext. intros j Hj. rewrite hzv_R by assumption. reflexivity.
Qed.
Lemma sub_rows_R hh m D v j : length v = hh -> (j < hh)%nat -> nth j (sub_rows ((fun i => vlist hh (fun j => D i j)) <$> seq 0 m) v) 0 = nth j v 0 - Rsum m (fun i => D i j).
Proof.
  intros El Hj. induction m as [|m IH]; [cbn; lra|]. rewrite seq_S, fmap_app. unfold sub_rows. rewrite foldl_app. cbn [fmap list_fmap foldl]. fold (sub_rows ((fun i => vlist hh (fun j => D i j)) <$> seq 0 m) v).
  rewrite nth_zip by (rewrite ?vlist_length, ?sub_rows_vlist_length by exact El; lia). rewrite IH, nth_vlist by exact Hj. rewrite Rsum_S. scal. cbn. lra.
Qed.
(** The training step of the program is [net_step]. *)
Lemma mgd_R lr n k hh X ys la al p : shaped hh p -> length ys = n -> (0 < n)%nat -> net_eq k hh (net_of (mgd lr n k hh X ys RNone la al p)) (net_step n k hh X ys lr (net_of p)).
Proof.
  intros [S1 S2] El Hn. assert (Pn : 0 < INR n) by (apply lt_0_INR; exact Hn). set (es := zip_with Rminus (outs n k hh X p) ys).
  assert (Ee : forall i, (i < n)%nat -> nth i es 0 = err k hh X ys (net_of p) i) by (intros i Hi; unfold es; rewrite nth_zip by (rewrite ?outs_length; lia); rewrite outs_R by exact Hi; reflexivity).
  assert (Lw : length (zip_with Rminus (t_w2 p) ((fun x => x * (lr / IZR (Z.of_nat n))) <$> xt_e n hh (ha k X p) es)) = hh) by (rewrite zip_with_length, fmap_length, xt_e_length; lia).
  assert (Ew : forall j, (j < hh)%nat -> nth j (rw1 la al RNone <$> zip_with Rminus (t_w2 p) ((fun x => x * (lr / IZR (Z.of_nat n))) <$> xt_e n hh (ha k X p) es)) 0 = outw (net_step n k hh X ys lr (net_of p)) j).
  { intros j Hj. rewrite rw1_none_map, nth_zip by (rewrite ?fmap_length, ?xt_e_length; lia). rewrite nth_fmap by (rewrite xt_e_length; lia). rewrite xt_e_R by exact Hj. cbn [net_step outw net_of]. rewrite <- INR_IZR_INZ.
    rewrite (Rsum_ext n _ (fun i => err k hh X ys (net_of p) i * hidden k (net_of p) (X i) j)) by (intros i Hi; rewrite ha_R, Ee by exact Hi; ring). field. lra. }
  unfold mgd. change (zip_with s_sub (outs n k hh X p) ys) with es. unfold bp. cbv zeta.
  split; [|split; [|split]]; cbn [net_of t_w1 t_b1 t_w2 t_b2 inw inb outw outb].
  - intros r j Hr Hj. rewrite rw1_none. scal. unfold mat_mul, mat_tr. rewrite lsum_Rsum. rewrite <- INR_IZR_INZ. change (inw (net_step n k hh X ys lr (net_of p)) r j) with (t_w1 p r j - lr * (/ INR n * Rsum n (fun i => err k hh X ys (net_of p) i * outw (net_step n k hh X ys lr (net_of p)) j * gate k X (net_of p) i j * X i r))).
    match goal with |- _ - ?A * _ = _ => assert (E : A = Rsum n (fun i => err k hh X ys (net_of p) i * outw (net_step n k hh X ys lr (net_of p)) j * gate k X (net_of p) i j * X i r)) end; [|rewrite E; field; lra].
    apply Rsum_ext. intros i Hi. rewrite Ee by exact Hi. rewrite <- (Ew j Hj), INR_IZR_INZ. rewrite sgd_R. unfold gate. rewrite <- ha_R. unfold ha. rewrite sg_R. scal. ring.
  - intros j Hj. rewrite sub_rows_R by assumption. rewrite Rsum_scal_r. scal. rewrite <- INR_IZR_INZ. change (inb (net_step n k hh X ys lr (net_of p)) j) with (nth j (t_b1 p) 0 - lr * (/ INR n * Rsum n (fun i => err k hh X ys (net_of p) i * outw (net_step n k hh X ys lr (net_of p)) j * gate k X (net_of p) i j))).
    match goal with |- _ - ?A * _ = _ => assert (E : A = Rsum n (fun i => err k hh X ys (net_of p) i * outw (net_step n k hh X ys lr (net_of p)) j * gate k X (net_of p) i j)) end; [|rewrite E; field; lra].
    apply Rsum_ext. intros i Hi. rewrite Ee by exact Hi. rewrite <- (Ew j Hj), INR_IZR_INZ. rewrite sgd_R. unfold gate. rewrite <- ha_R. unfold ha. rewrite sg_R. scal. ring.
  - exact Ew.
  - scal. rewrite sumv_R, rsum_nth. unfold es at 1. rewrite zip_with_length, outs_length, El, Nat.min_id, <- INR_IZR_INZ. cbn [net_step outb]. rewrite (Rsum_ext n _ (err k hh X ys (net_of p)) Ee). cbn. field. lra.
Qed.
Lemma net_eq_sym k hh N M : net_eq k hh N M -> net_eq k hh M N.
Proof. intros (E1 & E2 & E3 & E4). split; [|split; [|split]]; intros; symmetry; auto. Qed.
Lemma net_eq_trans k hh N M L : net_eq k hh N M -> net_eq k hh M L -> net_eq k hh N L.
Proof. intros (E1 & E2 & E3 & E4) (F1 & F2 & F3 & F4). split; [|split; [|split]]; intros; [rewrite E1, F1 by assumption|rewrite E2, F2 by assumption|rewrite E3, F3 by assumption|rewrite E4, F4]; reflexivity. Qed.
Lemma step_ext n k hh X ys lr N M : net_eq k hh N M -> net_eq k hh (net_step n k hh X ys lr N) (net_step n k hh X ys lr M).
Proof.
  intros E. rewrite (net_step_eq n k hh X ys lr N), (net_step_eq n k hh X ys lr M). pose proof E as (E1 & E2 & E3 & E4). pose proof (dJ_ext n k hh X ys _ _ E) as (_ & _ & F3 & F4).
  assert (Ee : forall i, err k hh X ys N i = err k hh X ys M i) by (intros i; unfold err; rewrite (output_ext k hh N M) by exact E; reflexivity).
  assert (Eg : forall i j, (j < hh)%nat -> gate k X N i j = gate k X M i j) by (intros i j Hj; unfold gate; rewrite (hidden_ext k hh N M) by assumption; reflexivity).
  split; [|split; [|split]]; cbn [step' inw inb outw outb].
  - intros r j Hr Hj. rewrite E1 by assumption. do 3 f_equal. apply Rsum_ext. intros i _. rewrite Ee, Eg, E3, F3 by exact Hj. reflexivity.
  - intros j Hj. rewrite E2 by assumption. do 3 f_equal. apply Rsum_ext. intros i _. rewrite Ee, Eg, E3, F3 by exact Hj. reflexivity.
  - intros j Hj. rewrite E3, F3 by exact Hj. reflexivity.
  - rewrite E4, F4. reflexivity.
Qed.
Lemma holds_ext o h k hh N M : holds_net o h k hh N -> net_eq k hh N M -> holds_net o h k hh M.
Proof.
  intros (b1 & w2 & H1 & H2 & H3 & L1 & L2 & Hj & Hb) (E1 & E2 & E3 & E4). exists b1, w2. split_and!; try assumption; [|intros j J; destruct (Hj j J); rewrite <- E2, <- E3 by exact J; split; assumption|congruence].
  rewrite H1. f_equal. apply Mat_ext. intros i j Hi Hjj. apply E1; assumption.
Qed.

Lemma Mat_agree c r (f g : nat -> nat -> R) : Mat c r f = Mat c r g -> forall i j, (i < r)%nat -> (j < c)%nat -> f i j = g i j.
Proof.
  intros E i j Hi Hj. assert (E' : Some <$> mlist c r f = Some <$> mlist c r g) by exact (f_equal snd E). apply (inj (fmap Some)) in E'. pose proof (mlist_lookup c r f i j Hi Hj) as C. rewrite E', mlist_lookup in C by assumption. congruence.
Qed.
(** ** Answers *)
(** [model_test]: the output of the network at the given point. *)
Theorem C61_model_test base x y k n hh reg la al p Y o h t xs : mlpS base x y k n hh reg la al p Y o h -> (Z.of_nat hh <= int_max)%Z -> base !! t = Some (AVec xs) -> length xs = k ->
  runs (p_model_test o (Some t)) h (fun v h' => v = output k hh (net_of p) (fun r => nth r xs 0) /\ abs h' = abs h).
Proof.
  intros S Hh Ht El. apply runs_wp. destruct (obj_in S Ht) as [Vt _]. eapply (wp_p_evaluatev o hh k p); [apply S|exact Hh|rewrite (ms_obj S); reflexivity|apply S|exact (obj_pars S)|exact Vt|exact El|].
  intros h' W' A'. split; [exact W'|]. split; [apply out1_R, S|exact A'].
Qed.
(** [model_set_test]: a new vector with that value for each row; everything else as before.  So the two agree. *)
Theorem C61_model_set_test base x y k n hh reg la al p Y o h t m T : mlpS base x y k n hh reg la al p Y o h -> base !! t = Some (Mat k m T) -> (Z.of_nat m <= int_max)%Z -> (Z.of_nat (m * hh) <= int_max)%Z ->
  runs (p_model_set_test o (Some t)) h (fun r h' => exists l ps, r = Some l /\ abs h !! l = None /\ abs h' = <[l := AVec ps]> (abs h) /\ length ps = m /\ forall i, (i < m)%nat -> nth i ps 0 = output k hh (net_of p) (T i)).
Proof.
  intros S Ht Hm Hl. apply runs_wp. destruct (obj_in S Ht) as [Vt _]. eapply (wp_p_evaluatem o hh k p); [apply S|rewrite (ms_obj S); reflexivity|apply S|exact (obj_pars S)|exact Vt|exact Hm|exact Hl|].
  intros d h' W' N' A'. split; [exact W'|]. exists d, (outs m k hh T p). split_and!; [reflexivity|exact N'|exact A'|apply outs_length|]. intros i Hi. apply outs_R, Hi.
Qed.
(** [score]: the fraction of the stored predictions that round to their label. *)
Theorem C61_score base x y k n hh reg la al p ps ys o h : mlpS base x y k n hh reg la al p (Some ps) o h -> base !! y = Some (AVec ys) -> length ps = length ys ->
  Forall (fun x => small_int (Rround x)) ps -> Forall small_int ys -> p_score Rround o h = Ok (INR (countb right_label (zip ps ys)) / INR (length ps)) h.
Proof.
  intros S Hy El F1 F2. destruct (obj_in S Hy) as [Vy _]. unfold p_score. destruct (obj_fields _ _ _ _ _ _ _ _ _ _ _ _ _ S) as (_ & Ey & _). rewrite Ey. apply C49_performance_vec; try assumption; [apply S|exact (ms_yh S)].
Qed.

(** ** Training without regularisation *)
Section train.
Context (base : gmap loc (aobj R)) (x y : loc) (k n hh : nat) (X : nat -> nat -> R) (ys : list R) (la al : R).
Context (Hx : base !! x = Some (Mat k n X)) (Hy : base !! y = Some (AVec ys)) (El : length ys = n) (Hn0 : (0 < n)%nat).
Context (Hn : (Z.of_nat n <= int_max)%Z) (Hk : (Z.of_nat k <= int_max)%Z) (Hh : (Z.of_nat hh <= int_max)%Z) (Hnh : (Z.of_nat (n * hh) <= int_max)%Z) (Hkh : (Z.of_nat (k * hh) <= int_max)%Z).
Notation obj := (mlpS base x y k n hh RNone la al).
Notation J := (J_net n k hh X ys).
(** gradient_descent with T = max(1, max_epoch) epochs takes T steps, and the stored predictions are the outputs of the trained network. *)
Theorem C61_gd lr max p Y o h : (max < int_max)%Z -> obj p Y o h ->
  runs (p_gradient_descent lr max o) h (fun o' h' => holds_net o' h' k hh (Nat.iter (Z.to_nat (Z.max 1 max)) (net_step n k hh X ys lr) (net_of p)) /\
    exists p' ps, obj p' (Some ps) o' h' /\ length ps = n /\ forall i, (i < n)%nat -> nth i ps 0 = output k hh (net_of p') (X i)).
Proof using All.
  intros Hm S. destruct (C60_gd_run base x y k n hh X ys RNone la al Hx Hy El Hn Hk Hh Hnh Hkh lr max p Y o h Hm S) as (o' & h' & E & W & S'). exists o', h'. split; [exact E|]. split; [exact W|]. cbv zeta in S'.
  split; [|eexists _, _; split; [exact S'|]; split; [apply outs_length|intros; apply outs_R; assumption]].
  eapply holds_ext; [eapply mlpS_holds; exact S'|]. pose proof (ms_shape S) as Sh. clear - Sh El Hn0. generalize (Z.to_nat (Z.max 1 max)). intros T.
  assert (G : shaped hh (Nat.iter T (mgd lr n k hh X ys RNone la al) p) /\ net_eq k hh (net_of (Nat.iter T (mgd lr n k hh X ys RNone la al) p)) (Nat.iter T (net_step n k hh X ys lr) (net_of p))); [|apply G].
  induction T as [|T [IH1 IH2]]; [split; [exact Sh|]; split; [|split; [|split]]; reflexivity|]. rewrite !Nat.iter_succ. split; [apply bp_shaped, IH1|]. eapply net_eq_trans; [apply mgd_R; assumption|]. apply step_ext, IH2.
Qed.
(** One epoch: the output weights and the output bias take a gradient step of the mean log-loss. *)
Theorem C61_gd_output_layer lr p Y o h : obj p Y o h ->
  exists G, net_gradient k hh J (net_of p) G /\
  runs (p_gradient_descent lr 1 o) h (fun o' h' => exists N', holds_net o' h' k hh N' /\ (forall j, (j < hh)%nat -> outw N' j = outw (net_of p) j - lr * outw G j) /\ outb N' = outb (net_of p) - lr * outb G).
Proof using All.
  intros S. exists (dJ n k hh X ys (net_of p)). split; [apply dJ_gradient|]. destruct (C61_gd lr 1 p Y o h ltac:(unfold int_max; lia) S) as (o' & h' & E & W & Ho & _). exists o', h'. split; [exact E|]. split; [exact W|].
  eexists. split; [exact Ho|]. split; [intros j Hj; reflexivity|reflexivity].
Qed.
(** For a small enough learning rate one epoch lowers the cost, whenever the network is not at a stationary point: there is a bound d > 0 depending only on data and parameters. *)
Theorem C61_gd_descends p G : net_gradient k hh J (net_of p) G -> ~ net_zero k hh G ->
  exists d, 0 < d /\ forall lr Y o h, 0 < lr < d -> obj p Y o h -> runs (p_gradient_descent lr 1 o) h (fun o' h' => exists N', holds_net o' h' k hh N' /\ J N' < J (net_of p)).
Proof using All.
  intros HG NZ. destruct (step_descends n k hh X ys (net_of p)) as (d & Hd & D).
  { intros Z. apply NZ. destruct HG as (G1 & G2 & G3 & G4). destruct (dJ_gradient n k hh X ys (net_of p)) as (D1 & D2 & D3 & D4). destruct Z as (Z1 & Z2 & Z3 & Z4).
    split; [|split; [|split]].
    - intros r j Hr Hj. rewrite <- Z1 by assumption. eapply uniqueness_limite; [apply G1; assumption|apply D1; assumption].
    - intros j Hj. rewrite <- Z2 by assumption. eapply uniqueness_limite; [apply G2; assumption|apply D2; assumption].
    - intros j Hj. rewrite <- Z3 by assumption. eapply uniqueness_limite; [apply G3; assumption|apply D3; assumption].
    - rewrite <- Z4. eapply uniqueness_limite; [exact G4|exact D4]. }
  exists d. split; [exact Hd|]. intros lr Y o h Hlr S. destruct (C61_gd lr 1 p Y o h ltac:(unfold int_max; lia) S) as (o' & h' & E & W & Ho & _). exists o', h'. split; [exact E|]. split; [exact W|]. eexists. split; [exact Ho|]. apply (D lr Hlr).
Qed.
(** Training stands still exactly at the stationary points of the cost. *)
Theorem C61_gd_fixed_points lr p Y o h : lr <> 0 -> obj p Y o h ->
  (runs (p_gradient_descent lr 1 o) h (fun o' h' => holds_net o' h' k hh (net_of p)) <-> exists G, net_gradient k hh J (net_of p) G /\ net_zero k hh G).
Proof using All.
  intros Hlr S. destruct (C61_gd lr 1 p Y o h ltac:(unfold int_max; lia) S) as (o' & h' & E & W & Ho & _). change (Nat.iter (Z.to_nat (Z.max 1 1)) (net_step n k hh X ys lr) (net_of p)) with (net_step n k hh X ys lr (net_of p)) in Ho.
  split.
  - intros (o2 & h2 & E2 & W2 & Ho2). rewrite E in E2. injection E2 as <- <-. exists (dJ n k hh X ys (net_of p)). split; [apply dJ_gradient|]. apply (step_fixed n k hh X ys lr (net_of p) Hlr).
    destruct Ho as (b1 & w2 & A1 & A2 & A3 & L1 & L2 & Aj & Ab). destruct Ho2 as (b1' & w2' & B1 & B2 & B3 & M1 & M2 & Bj & Bb).
    rewrite A2 in B2. rewrite A3 in B3. apply (inj Some) in B2, B3. unfold AVec in B2, B3. injection B2 as _ B2. injection B3 as _ B3. apply (inj (fmap Some)) in B2, B3. subst b1' w2'.
    split; [|split; [|split]].
    + intros r j Hr Hj. rewrite A1 in B1. apply (inj Some) in B1. exact (Mat_agree _ _ _ _ B1 r j Hr Hj).
    + intros j Hj. destruct (Aj j Hj) as [<- _]. destruct (Bj j Hj) as [<- _]. reflexivity.
    + intros j Hj. destruct (Aj j Hj) as [_ <-]. destruct (Bj j Hj) as [_ <-]. reflexivity.
    + congruence.
  - intros (G & HG & GZ). exists o', h'. split; [exact E|]. split; [exact W|]. eapply holds_ext; [exact Ho|]. apply step_fixed; [exact Hlr|].
    destruct HG as (G1 & G2 & G3 & G4). destruct (dJ_gradient n k hh X ys (net_of p)) as (D1 & D2 & D3 & D4). destruct GZ as (Z1 & Z2 & Z3 & Z4).
    split; [|split; [|split]].
    + intros r j Hr Hj. rewrite <- Z1 by assumption. eapply uniqueness_limite; [apply D1; assumption|apply G1; assumption].
    + intros j Hj. rewrite <- Z2 by assumption. eapply uniqueness_limite; [apply D2; assumption|apply G2; assumption].
    + intros j Hj. rewrite <- Z3 by assumption. eapply uniqueness_limite; [apply D3; assumption|apply G3; assumption].
    + rewrite <- Z4. eapply uniqueness_limite; [exact D4|exact G4].
Qed.
(** Defect: the hidden layer does not take a gradient step, because the errors are propagated through the output weights already updated in the same epoch.
    E.g. with all output weights 0 the gradient in the hidden parameters is 0, and yet hidden unit j moves by the square of the learning rate times the output gradient. *)
Theorem C61_gd_hidden_layer_refuted lr p Y o h : obj p Y o h -> (forall j, (j < hh)%nat -> outw (net_of p) j = 0) ->
  exists G, net_gradient k hh J (net_of p) G /\ (forall j, (j < hh)%nat -> inb G j = 0) /\
  runs (p_gradient_descent lr 1 o) h (fun o' h' => exists N', holds_net o' h' k hh N' /\
    forall j, (j < hh)%nat -> inb N' j = inb (net_of p) j + lr * lr * outw G j * (/ INR n * Rsum n (fun i => err k hh X ys (net_of p) i * gate k X (net_of p) i j))).
Proof using All.
  intros S Hz. exists (dJ n k hh X ys (net_of p)). split; [apply dJ_gradient|]. split.
  { intros j Hj. cbn [dJ inb]. rewrite (Rsum_ext n _ (fun _ => 0)) by (intros i _; rewrite Hz by exact Hj; ring). rewrite Rsum_zero. ring. }
  destruct (C61_gd lr 1 p Y o h ltac:(unfold int_max; lia) S) as (o' & h' & E & W & Ho & _). exists o', h'. split; [exact E|]. split; [exact W|].
  eexists. split; [exact Ho|]. intros j Hj. change (Nat.iter (Z.to_nat (Z.max 1 1)) (net_step n k hh X ys lr) (net_of p)) with (net_step n k hh X ys lr (net_of p)). rewrite net_step_eq. cbn [step' inb].
  rewrite (Rsum_ext n _ (fun i => (- lr * outw (dJ n k hh X ys (net_of p)) j) * (err k hh X ys (net_of p) i * gate k X (net_of p) i j))) by (intros i _; rewrite Hz by exact Hj; ring). rewrite Rsum_scal. ring.
Qed.
(** sgd: one such step on the single drawn row per epoch. *)
Theorem C61_sgd lr max (idx : Z -> Z) (ix : nat -> nat) p Y o h : (max < int_max)%Z -> (forall e, (Z.of_nat e < Z.max 1 max)%Z -> idx (Z.of_nat e + 1)%Z = Z.of_nat (ix e) /\ (ix e < n)%nat) -> obj p Y o h ->
  runs (p_sgd lr max idx o) h (fun o' h' => holds_net o' h' k hh (foldl (fun N i => net_step 1 k hh (fun _ => X i) [nth i ys 0] lr N) (net_of p) (ix <$> seq 0 (Z.to_nat (Z.max 1 max))))).
Proof using All.
  intros Hm Hi S. destruct (C60_sgd_run base x y k n hh X ys RNone la al Hx Hy El Hn Hk Hh Hnh Hkh lr max idx ix p Y o h Hm Hi S) as (o' & h' & E & W & S'). exists o', h'. split; [exact E|]. split; [exact W|]. cbv zeta in S'.
  eapply holds_ext; [eapply mlpS_holds; exact S'|]. pose proof (ms_shape S) as Sh. clear - Sh.
  assert (St : forall i p, shaped hh p -> net_eq k hh (net_of (msgd lr k hh X ys RNone la al i p)) (net_step 1 k hh (fun _ => X i) [nth i ys 0] lr (net_of p))).
  { clear. intros i p Sh. pose proof Sh as [S1 S2]. unfold msgd. cbv zeta. set (xs := vlist k (X i)). set (zs := hzv k hh (t_w1 p) (t_b1 p) xs). assert (Lz : length zs = hh) by (unfold zs, hzv; rewrite zip_with_length, xt_e_length; lia).
    set (e := out1 k hh xs p - nth i ys 0). assert (Ex : forall j, hidden k (net_of p) (fun r => nth r xs 0) j = hidden k (net_of p) (X i) j) by (intros j; unfold hidden; do 2 f_equal; apply Rsum_ext; intros r Hr; unfold xs; rewrite nth_vlist by exact Hr; reflexivity).
    assert (Ee : err k hh (fun _ => X i) [nth i ys 0] (net_of p) 0 = e). { unfold err, e. rewrite out1_R by exact Sh. cbn [nth]. f_equal. unfold output. do 2 f_equal. apply Rsum_ext. intros j _. rewrite Ex. reflexivity. }
    assert (Ez : forall j, (j < hh)%nat -> nth j (sg KV <$> zs) 0 = hidden k (net_of p) (X i) j) by (intros j Hj; unfold zs; rewrite hzv_R by assumption; apply Ex).
    assert (R1 : forall u : nat -> R, Rsum 1 u = u 0%nat) by (intros u; rewrite Rsum_S; cbn; ring).
    assert (Ew : forall j, (j < hh)%nat -> nth j (rw1 la al RNone <$> zip_with s_sub (t_w2 p) ((fun x => s_mul x lr) <$> ((fun x => s_mul x e) <$> (sg KV <$> zs)))) 0 = outw (net_step 1 k hh (fun _ => X i) [nth i ys 0] lr (net_of p)) j).
    { intros j Hj. rewrite rw1_none_map, nth_zip by (rewrite ?fmap_length; lia). rewrite !(nth_fmap (fun x => s_mul x _)) by (rewrite ?fmap_length; lia). rewrite Ez by exact Hj. cbn [net_step outw net_of]. rewrite R1, Ee. scal. cbn [INR]. field. }
    set (w2' := rw1 la al RNone <$> _) in *. assert (Lw : length w2' = hh) by (unfold w2'; rewrite fmap_length, zip_with_length, !fmap_length; lia).
    assert (Ed : forall j, (j < hh)%nat -> nth j (zip_with s_mul ((fun x => s_mul x e) <$> w2') (sgd KV <$> zs)) 0 = e * outw (net_step 1 k hh (fun _ => X i) [nth i ys 0] lr (net_of p)) j * gate k (fun _ => X i) (net_of p) 0 j).
    { intros j Hj. rewrite nth_zip by (rewrite ?fmap_length; lia). rewrite !nth_fmap by lia. rewrite Ew by exact Hj. rewrite sgd_R. specialize (Ez j Hj). rewrite nth_fmap, sg_R in Ez by lia. rewrite Ez. unfold gate. scal. ring. }
    assert (Ld : length (zip_with s_mul ((fun x => s_mul x e) <$> w2') (sgd KV <$> zs)) = hh) by (rewrite zip_with_length, !fmap_length; lia). set (d := zip_with s_mul _ _) in *.
    split; [|split; [|split]]; cbn [net_of t_w1 t_b1 t_w2 t_b2 inw inb outw outb].
    - intros r j Hr Hj. rewrite rw1_none. unfold outer. scal. change (s_zero (F := R)) with 0. rewrite Ed by exact Hj. unfold xs. rewrite nth_vlist by exact Hr.
      change (inw (net_step 1 k hh (fun _ => X i) [nth i ys 0] lr (net_of p)) r j) with (t_w1 p r j - lr * (/ INR 1 * Rsum 1 (fun i' => err k hh (fun _ => X i) [nth i ys 0] (net_of p) i' * outw (net_step 1 k hh (fun _ => X i) [nth i ys 0] lr (net_of p)) j * gate k (fun _ => X i) (net_of p) i' j * X i r))). rewrite R1, Ee. cbn [INR]. field.
    - intros j Hj. rewrite nth_zip by (rewrite ?fmap_length; lia). rewrite (nth_fmap (fun x => s_mul x lr)) by lia. rewrite Ed by exact Hj. scal.
      change (inb (net_step 1 k hh (fun _ => X i) [nth i ys 0] lr (net_of p)) j) with (nth j (t_b1 p) 0 - lr * (/ INR 1 * Rsum 1 (fun i' => err k hh (fun _ => X i) [nth i ys 0] (net_of p) i' * outw (net_step 1 k hh (fun _ => X i) [nth i ys 0] lr (net_of p)) j * gate k (fun _ => X i) (net_of p) i' j))). rewrite R1, Ee. cbn [INR]. field.
    - exact Ew.
    - cbn [net_step outb net_of]. rewrite R1, Ee. scal. cbn [INR]. change (t_b2 p - lr * e = t_b2 p - lr * (/ 1 * e)). field. }
  generalize (ix <$> seq 0 (Z.to_nat (Z.max 1 max))). intros l. assert (G : forall p N, shaped hh p -> net_eq k hh (net_of p) N -> net_eq k hh (net_of (foldl (fun p i => msgd lr k hh X ys RNone la al i p) p l)) (foldl (fun N i => net_step 1 k hh (fun _ => X i) [nth i ys 0] lr N) N l)).
  { induction l as [|i l IH]; intros q N Sq E; [exact E|]. cbn [foldl]. apply IH; [apply msgd_shaped, Sq|]. eapply net_eq_trans; [apply St, Sq|]. apply step_ext, E. }
  apply G; [exact Sh|]. split; [|split; [|split]]; reflexivity.
Qed.
End train.
