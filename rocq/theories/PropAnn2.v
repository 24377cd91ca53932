(** * C66: training a feed-forward network without hidden layers. *)
From Verif Require Import Base BaseProofs Vec VecSpec VecProofs VecProofs2 Mat MatSpec MatProofs MatProofs2 MatProofs3 MatProofs4 MatProofs5 Act Sym StatProofs ActProofs Util UtilProofs PropUtil Cost CostSpec CostProofs PropCost PropCost2 Glm GlmProofs GlmProofs2
  Mlp MlpProofs MlpProofs6 Layer Ann RInst LibmR PropAct PropAct2 PropSvm LsqMath GlmMath PropGlm2 LayerSpec LayerProofs PropLayer AnnSpec AnnProofs PropAnn Svm.
From Coq Require Import Reals Lra.
Open Scope R_scope.
Implicit Types (h : heap R) (ws xs ys zs gs : list R).

(** ** Specification *)
(** Derivative of the cost with respect to the predictions [xs], as the library computes it (C40 relates it to the gradient). *)
Definition cost_d (c : costfn) xs ys : list R :=
  match c with
  | MSE => zip_with (fun x y => x - y) xs ys
  | RMSE => zip_with (fun x y => (x - y) / (2 * sqrt (sqsum xs ys / 2 * INR (length xs)))) xs ys
  | MAE => map (fun x => if Rle_dec x (-1) then -1 else if Rlt_dec x 1 then 0 else 1) xs
  | MBE => map (fun _ => 1) xs
  | LOGISTIC_LOSS => zip_with (fun x y => - (y / x) + (1 - y) / (1 - x)) xs ys
  | CROSS_ENTROPY => zip_with (fun x y => - (y / x)) xs ys
  | HINGE_LOSS => zip_with (fun x y => if Rlt_dec (y * x) 1 then - y else 0) xs ys
  | WASSERSTEIN_LOSS => map (fun y => - y) ys
  end.
(** The mean absolute error's derivative truncates the predictions to int. *)
Definition cost_d_ok (c : costfn) xs : Prop := c = MAE -> Forall int_range xs.
Definition act_d_ok (f : actfn) : Prop := f ∉ [SOFTMAX; ADJ_SOFTMAX; C_LOG_LOG; ARCSCH].
(** One gradient step for n rows from pre-activations [zs], predictions [ps], labels [ys]; [N] is the divisor. *)
Definition delta c f zs ps ys : list R := zip_with Rmult (cost_d c ps ys) (derivr f <$> zs).
Definition step_w (k n N : nat) X (lr : R) reg la al ws ds : list R :=
  map (fun j => nth j ws 0 - lr / INR N * (Rsum n (fun i => X i j * nth i ds 0) + reg_d1 la al reg (nth j ws 0))) (seq 0 k).
Definition step_b (N : nat) (lr b : R) (ds : list R) : R := b - lr * rsum ds / INR N.

(** ** Proofs *)
Lemma zip_ext {A B C} (f g : A -> B -> C) (l : list A) (m : list B) : (forall a b, f a b = g a b) -> zip_with f l m = zip_with g l m.
Proof. intros E. revert m. induction l as [|a l IH]; intros [|b m]; cbn; [reflexivity..|]. rewrite E, IH. reflexivity. Qed.
Lemma times_zip (f : R -> R -> R) cc xs ys : times cc (zip_with f xs ys) = zip_with (fun x y => cc * f x y) xs ys.
Proof. revert ys. induction xs as [|x xs IH]; intros [|y ys]; cbn; [reflexivity..|]. f_equal. apply IH. Qed.
Lemma zip_swap (f : R -> R -> R) xs ys : zip_with f ys xs = zip_with (fun x y => f y x) xs ys.
Proof. revert ys. induction xs as [|x xs IH]; intros [|y ys]; cbn; [reflexivity..|]. f_equal. apply IH. Qed.
Lemma runs_ret_eq h (m : M R (option loc)) a a' : a = a' -> runs m h (returns a h) -> runs m h (returns a' h).
Proof. intros ->. auto. Qed.
Lemma cost_d_run c h a b xs ys : wf h -> abs h !! a = Some (AVec xs) -> abs h !! b = Some (AVec ys) -> length xs = length ys -> cost_d_ok c xs ->
  runs (run_cost_deriv KV c (Some a) (Some b)) h (returns (AVec (cost_d c xs ys)) h).
Proof.
  intros V Ha Hb E Hc. destruct c; cbn [cost_d].
  - apply runs_wp. eapply (la2_ok KV) with (c := 0%nat) (w := 0%nat); [exact V|exact Ha|exact Hb|exact E|]. intros. vec1. assumption.
  - cbn [run_cost_deriv]. unfold d_rmse. pose proof (C39_cost_value KV MSE h a b 0%nat 0%nat 0%nat 0%nat xs ys V Ha Hb E) as G. cbn [run_cost_norm cost_val] in G.
    eapply runs_bind_pure; [exact G|]. eapply runs_ret_eq; [|apply (la2_scale_ok KV _ _ h a b 0%nat 0%nat xs ys); assumption]. cbn [KObj]. f_equal. rewrite times_zip. apply zip_ext. intros x y. cbn. unfold s_two. cbn. unfold len, Rdiv. lra.
  - apply (C40_mae_deriv_value KV h a (Some b) 0%nat 0%nat xs V Ha). apply Hc. reflexivity.
  - apply runs_wp. cbn [run_cost_deriv]. unfold d_mbe. wbind. apply wp_ret. wbind. eapply wp_v_size_vec; [exact Ha|].
    pose proof (avec_len _ _ _ V Ha). wbind. apply wp_v_full; [exact V|lia|]. intros o h' W N A. apply wp_ret. rewrite Nat2Z.id in A. vec1. rewrite A. do 2 f_equal. clear. induction xs; cbn; [reflexivity|]. f_equal. exact IHxs.
  - eapply runs_ret_eq; [|apply (log_loss_deriv_run KV h a b 0%nat 0%nat xs ys V Ha Hb E)]. cbn [KObj]. f_equal. apply zip_ext. intros x y. unfold Rdiv. replace ((y + -1) * -1) with (1 - y) by lra. replace ((x + -1) * -1) with (1 - x) by lra. lra.
  - eapply runs_ret_eq; [|apply (la2_scale_ok KV Rdiv (-1) h b a 0%nat 0%nat ys xs V Hb Ha); congruence]. cbn [KObj]. f_equal. rewrite times_zip, zip_swap. apply zip_ext. intros; lra.
  - apply runs_wp. eapply (d_loop_ok KV) with (c := 0%nat) (w := 0%nat) (c' := 0%nat) (w' := 0%nat); [exact V|exact Ha|exact Hb|exact E|]. intros o h' W N A. vec1. rewrite A. f_equal. match goal with |- _ = AVec ?l => change (AVec (zip_with hinge_d1 xs ys) = AVec l) end. f_equal. apply zip_ext. intros x y. unfold hinge_d1. cbn. unfold Rltb. destruct (Rlt_dec 0 (1 - y * x)), (Rlt_dec (y * x) 1); lra.
  - apply runs_wp. eapply (la_scale_ok KV) with (c := 0%nat) (w := 0%nat); [exact V|exact Hb|]. intros o h' W N A. vec1. rewrite A. f_equal. match goal with |- _ = AVec ?l => change (AVec ((fun x => x * -1) <$> ys) = AVec l) end. f_equal. apply list_fmap_ext. intros; lra.
Qed.
Lemma cost_d_len c xs ys : length xs = length ys -> length (cost_d c xs ys) = length xs.
Proof. intros E. destruct c; cbn; rewrite ?zip_with_length, ?map_length; lia. Qed.

(** The network between prediction and step, for the data at hand ([rx]: n rows, the output layer's input). *)
Record tstate h (o : ann R) out (x z wo : loc) (k n : nat) X zs ws : Prop := TS {
  ts_wf : wf h; ts_net : an_net o = []; ts_out : an_out o = Some out; ts_in : ol_in out = Some x; ts_w : ol_w out = Some wo; ts_z : ol_z out = Some z;
  ts_hx : abs h !! x = Some (Mat k n X); ts_hz : abs h !! z = Some (AVec zs); ts_hw : abs h !! wo = Some (AVec ws); ts_lz : length zs = n; ts_lw : length ws = k }.
Lemma foldl_rsum ds : foldl (s_add (F := R)) s_zero ds = rsum ds.
Proof. change (foldl (fun s x => s + x) 0 ds = rsum ds). rewrite (foldl_add_acc (fun x => x)). rewrite list_fmap_id. lra. Qed.
Lemma wp_gradients out x z wo (k n : nat) X zs ws a b ps ys h (Q : olayer R * loc -> heap R -> Prop) : wf h -> ol_in out = Some x -> ol_w out = Some wo -> ol_z out = Some z -> abs h !! x = Some (Mat k n X) -> abs h !! z = Some (AVec zs) -> abs h !! wo = Some (AVec ws) ->
  length zs = n -> length ws = k -> (Z.of_nat k <= int_max)%Z -> act_d_ok (ol_act out) -> cost_d_ok (ol_cost out) ps ->
  abs h !! a = Some (AVec ps) -> abs h !! b = Some (AVec ys) -> length ps = n -> length ys = n ->
  (forall d u h', let ds := delta (ol_cost out) (ol_act out) zs ps ys in wf h' -> abs h !! d = None -> abs h !! u = None -> d <> u -> length ds = n -> abs h' = <[u := AVec (zip_with s_add (xt_e n k X ds) (reg_d1 (ol_la out) (ol_al out) (ol_reg out) <$> ws))]> (<[d := AVec ds]> (abs h)) ->
    Q (ol_set (ODelta (Some d)) out, u) h') -> wp (an_gradients (Some a) (Some b) out) h Q.
Proof.
  intros V T3 T4 T5 T6 T7 T8 T9 T10 Hk Hf Hc Ha Hb Lp Ly HQ.
  unfold an_gradients. wbind. pose proof (cost_d_run (ol_cost out) h a b ps ys V Ha Hb ltac:(congruence) Hc) as G. apply wp_runs in G. eapply wp_mono; [exact G|]. cbv beta. intros rg h1 [W1 (g & -> & N1 & A1)]. clear G.
  pose proof (cost_d_len (ol_cost out) ps ys ltac:(congruence)) as Lg. set (gs := cost_d (ol_cost out) ps ys) in *.
  assert (x <> g /\ z <> g /\ wo <> g) as (? & ? & ?) by (split_and!; congruence).
  wbind. apply wp_deref_Some. rewrite T5. wbind. pose proof (C37_deriv_vector (ol_act out) h1 z zs W1) as G. rewrite A1, lookup_insert_ne in G by congruence. specialize (G T7 Hf). apply wp_runs in G. eapply wp_mono; [exact G|]. cbv beta. intros rs h2 [W2 (s & -> & N2 & A2)]. clear G.
  rewrite A1 in N2, A2. apply lookup_insert_None in N2 as [N2 D2]. assert (x <> s /\ z <> s /\ wo <> s) as (? & ? & ?) by (split_and!; congruence).
  assert (Ls : length (derivr (ol_act out) <$> zs) = n) by (rewrite fmap_length; exact T9).
  wbind. unfold v_hadamardn. eapply (wp_v_op2n_early s_mul h2 g s gs (derivr (ol_act out) <$> zs)); [exact W2|rewrite A2, lookup_insert_ne, lookup_insert by congruence; reflexivity|rewrite A2; apply lookup_insert| |intros; exfalso; congruence].
  intros _ d h3 W3 N3 A3. rewrite A2 in N3, A3. apply lookup_insert_None in N3 as [N3 D3]. apply lookup_insert_None in N3 as [N3 D3']. change (zip_with s_mul gs (derivr (ol_act out) <$> zs)) with (delta (ol_cost out) (ol_act out) zs ps ys) in A3. set (ds := delta (ol_cost out) (ol_act out) zs ps ys) in *.
  assert (Lds : length ds = n) by (unfold ds, delta; rewrite zip_with_length; fold gs; lia).
  assert (x <> d /\ z <> d /\ wo <> d) as (? & ? & ?) by (split_and!; congruence).
  wbind. cbn [drop_ref]. eapply wp_del; [exact W3|rewrite A3, lookup_insert_ne, lookup_insert by congruence; reflexivity|]. intros h4 W4 A4 _.
  wbind. eapply wp_del; [exact W4|rewrite A4, lookup_delete_ne, A3, lookup_insert_ne, lookup_insert_ne, lookup_insert by congruence; reflexivity|]. intros h5 W5 A5 _.
  assert (A5' : abs h5 = <[d := AVec ds]> (abs h)).
  { rewrite A5, A4, A3. apply map_eq. intros l. destruct (decide (g = l)) as [<-|]; [rewrite lookup_delete, lookup_insert_ne, N1 by congruence; reflexivity|]. rewrite lookup_delete_ne by assumption.
    destruct (decide (s = l)) as [<-|]; [rewrite lookup_delete, lookup_insert_ne, N2 by congruence; reflexivity|]. rewrite lookup_delete_ne by assumption. destruct (decide (d = l)) as [<-|]; [rewrite !lookup_insert; reflexivity|]. rewrite !lookup_insert_ne by congruence. reflexivity. }
  clear A5 A4 A3 A2 A1. cbn [ol_set ol_in ol_delta ol_w ol_la ol_al ol_reg]. rewrite T3, T4.
  wbind. eapply (wp_xt_vec h5 x d k n X ds); [exact W5|look|look|exact Lds|exact Hk|]. intros u h6 W6 N6 A6. rewrite A5' in N6, A6. apply lookup_insert_None in N6 as [N6 D6].
  wbind. apply wp_deref_Some. wbind. eapply (reg_deriv_ok KV h6 wo 0 0 ws); [exact W6|cbn [KObj]; rewrite A6, !lookup_insert_ne by congruence; exact T8|]. intros t h7 W7 N7 A7. rewrite A6 in N7, A7. apply lookup_insert_None in N7 as [N7 D7]. apply lookup_insert_None in N7 as [N7 D7']. cbn [KObj] in A7.
  wbind. eapply (wp_v_op2 s_add h7 u t); [exact W7|rewrite A7, lookup_insert_ne, lookup_insert by congruence; reflexivity|rewrite A7; apply lookup_insert|]. intros h8 W8 A8. rewrite xt_e_length, fmap_length, decide_True in A8 by congruence.
  wbind. cbn [drop_ref]. eapply wp_del; [exact W8|rewrite A8, lookup_insert_ne, A7, lookup_insert by congruence; reflexivity|]. intros h9 W9 A9 _. apply wp_ret.
  set (us := zip_with s_add (xt_e n k X ds) (reg_d1 (ol_la out) (ol_al out) (ol_reg out) <$> ws)) in *.
  assert (A9' : abs h9 = <[u := AVec us]> (<[d := AVec ds]> (abs h))).
  { rewrite A9, A8, A7. apply map_eq. intros l. destruct (decide (t = l)) as [<-|]; [rewrite lookup_delete, !lookup_insert_ne, N7 by congruence; reflexivity|]. rewrite lookup_delete_ne by assumption.
    destruct (decide (u = l)) as [<-|]; [rewrite !lookup_insert; reflexivity|]. destruct (decide (d = l)) as [<-|]; [|rewrite !lookup_insert_ne by congruence; reflexivity]. rewrite !(lookup_insert_ne _ u) by congruence. rewrite (lookup_insert_ne _ t) by congruence. rewrite ?(lookup_insert_ne _ u) by congruence. reflexivity. }
  clear A9 A8 A7 A6 A5'.
  rewrite <- T3, <- T4. apply HQ; assumption.
Qed.
Lemma wp_update (n : nat) out wo d u ws us ds lr h (Q : olayer R -> heap R -> Prop) : wf h -> ol_w out = Some wo -> ol_delta out = Some d -> abs h !! wo = Some (AVec ws) -> abs h !! u = Some (AVec us) -> abs h !! d = Some (AVec ds) -> length us = length ws ->
  (forall w' h', wf h' -> abs h !! w' = None -> abs h' = <[w' := AVec (zip_with s_sub ws us)]> (abs h) -> Q (ol_set (OBias (step_b n lr (ol_b out) ds)) (ol_set (OWeights (Some w')) out)) h') ->
  wp (an_update (Z.of_nat n) (Some u) lr out) h Q.
Proof.
  intros V Ew Ed Hw Hu Hd El HQ. unfold an_update. rewrite Ew. wbind. apply wp_deref_Some. wbind. unfold v_subn. eapply (wp_v_op2n s_sub h wo u ws us); [exact V|exact Hw|exact Hu| |intros; exfalso; congruence]. intros _ w' h1 W1 N1 A1. assert (w' <> d) by congruence.
  cbn [ol_set ol_delta]. rewrite Ed. wbind. apply wp_deref_Some. wbind. eapply wp_v_sum; [exact W1|rewrite A1, lookup_insert_ne by congruence; exact Hd|]. apply wp_ret.
  assert (E : s_sub (ol_b out) (s_div (s_mul lr (foldl s_add s_zero ds)) (s_of_Z (Z.of_nat n))) = step_b n lr (ol_b out) ds).
  { unfold step_b. rewrite foldl_rsum. change (s_of_Z (F := R) (Z.of_nat n)) with (IZR (Z.of_nat n)). rewrite <- INR_IZR_INZ. reflexivity. }
  cbn [ol_b]. rewrite E. specialize (HQ w' h1 W1 N1 A1). cbn [ol_set] in HQ |- *. rewrite Ed in HQ. exact HQ.
Qed.
Lemma step_w_eq (k n N : nat) X lr reg la al ws ds : length ws = k -> zip_with s_sub ws ((fun v => s_mul v (s_div lr (s_of_Z (Z.of_nat N)))) <$> zip_with s_add (xt_e n k X ds) (reg_d1 la al reg <$> ws)) = step_w k n N X lr reg la al ws ds.
Proof.
  intros T10. assert (Lu : length (zip_with s_add (xt_e n k X ds) (reg_d1 la al reg <$> ws)) = k) by (rewrite zip_with_length, xt_e_length, fmap_length, T10; apply Nat.min_id).
  apply (nth_ext _ _ 0 0); [unfold step_w; rewrite zip_with_length, fmap_length, map_length, seq_length, T10, Lu; apply Nat.min_id|]. rewrite zip_with_length, fmap_length, T10, Lu, Nat.min_id. intros j Hj.
  unfold step_w. change (map ?f (seq 0 k)) with (vlist k f). rewrite nth_vlist by exact Hj. rewrite GlmMath.nth_zip by (rewrite ?fmap_length, ?T10, ?Lu; exact Hj). rewrite GlmMath.nth_fmap by (rewrite Lu; exact Hj).
  rewrite GlmMath.nth_zip by (rewrite ?xt_e_length, ?fmap_length, ?T10; exact Hj). rewrite GlmMath.nth_fmap by (rewrite T10; exact Hj). rewrite xt_e_R by exact Hj. change (s_of_Z (F := R) (Z.of_nat N)) with (IZR (Z.of_nat N)). rewrite <- INR_IZR_INZ. cbn. rewrite Rmult_comm. reflexivity.
Qed.
(** cost, compute_gradients, scaling and update_parameters: one gradient step, stored in a new weight vector; every earlier object keeps its contents. *)
Theorem C66_step (o : ann R) out x z wo (k n N : nat) X zs ws lr a b ps ys h : tstate h o out x z wo k n X zs ws -> (Z.of_nat k <= int_max)%Z -> an_n o = Z.of_nat N -> act_d_ok (ol_act out) -> cost_d_ok (ol_cost out) ps ->
  abs h !! a = Some (AVec ps) -> abs h !! b = Some (AVec ys) -> length ps = n -> length ys = n ->
  runs (an_step lr (Some a) (Some b) o) h (fun o' h' => exists out' w' d', let ds := delta (ol_cost out) (ol_act out) zs ps ys in
    o' = an_put o [] out' /\ ol_w out' = Some w' /\ ol_delta out' = Some d' /\ abs h !! w' = None /\ abs h !! d' = None /\ ol_init out' = false /\
    (forall key, key ∉ [KWeights; KBias; KDelta] -> ol_get key out' = ol_get key out) /\
    abs h' !! d' = Some (AVec ds) /\ abs h' !! w' = Some (AVec (step_w k n N X lr (ol_reg out) (ol_la out) (ol_al out) ws ds)) /\ ol_b out' = step_b N lr (ol_b out) ds /\
    forall l, abs h !! l <> None -> abs h' !! l = abs h !! l).
Proof.
  intros [V T1 T2 T3 T4 T5 T6 T7 T8 T9 T10] Hk En Hf Hc Ha Hb Lp Ly. apply runs_wp. unfold an_step. rewrite T2.
  wbind. pose proof (C65_cost o out [] wo ws a b ps ys h V T2 ltac:(rewrite T1; constructor) T4 T8 Ha Hb ltac:(congruence)) as C. unfold wp at 1. rewrite C. clear C.
  wbind. eapply wp_gradients; [exact V|exact T3|exact T4|exact T5|exact T6|exact T7|exact T8|exact T9|exact T10|exact Hk|exact Hf|exact Hc|exact Ha|exact Hb|exact Lp|exact Ly|]. intros d u h1. cbv zeta. remember (delta (ol_cost out) (ol_act out) zs ps ys) as ds eqn:Eds. clear Eds. intros W1 N1 N2 D Lds A1. cbn [fst snd]. rewrite En.
  generalize (step_w_eq k n N X lr (ol_reg out) (ol_la out) (ol_al out) ws ds T10). intros Ew.
  assert (Lu : length (zip_with s_add (xt_e n k X ds) (reg_d1 (ol_la out) (ol_al out) (ol_reg out) <$> ws)) = length ws) by (rewrite zip_with_length, xt_e_length, fmap_length, T10; apply Nat.min_id).
  revert A1 Ew Lu. generalize (zip_with s_add (xt_e n k X ds) (reg_d1 (ol_la out) (ol_al out) (ol_reg out) <$> ws)) as us. intros us A1 Ew Lu. assert (wo <> u /\ wo <> d) as [? ?] by (split; congruence).
  wbind. unfold v_scalar_multiply. eapply wp_v_map; [exact W1|rewrite A1; apply lookup_insert|]. intros h2 W2 A2. rewrite A1, insert_insert in A2.
  wbind. eapply (wp_update N _ wo d u ws _ ds lr); [exact W2|exact T4|reflexivity|rewrite A2, !lookup_insert_ne by congruence; exact T8|rewrite A2; apply lookup_insert|rewrite A2, lookup_insert_ne, lookup_insert by congruence; reflexivity|rewrite fmap_length; exact Lu|].
  intros w' h3 W3 N3 A3. rewrite Ew in A3. rewrite A2 in N3, A3. apply lookup_insert_None in N3 as [N3 D3]. apply lookup_insert_None in N3 as [N3 D3'].
  wbind. eapply wp_del; [exact W3|rewrite A3, lookup_insert_ne, lookup_insert by congruence; reflexivity|]. intros h4 W4 A4 _. apply wp_ret. split; [exact W4|]. rewrite A3 in A4. rewrite T1.
  eexists _, w', d. cbv zeta. split; [reflexivity|]. split_and!; try reflexivity; try assumption.
  - intros [] Hkey; try reflexivity; rewrite !elem_of_cons in Hkey; exfalso; tauto.
  - rewrite A4, lookup_delete_ne, !lookup_insert_ne, lookup_insert by congruence. reflexivity.
  - rewrite A4, lookup_delete_ne, lookup_insert by congruence. reflexivity.
  - intros l Hl. rewrite A4. rewrite lookup_delete_ne by congruence. rewrite !lookup_insert_ne by congruence. reflexivity.
Qed.
