(** * C65: prediction with the feed-forward network. *)
From Verif Require Import Base BaseProofs Vec VecSpec VecProofs VecProofs2 Mat MatSpec MatProofs MatProofs2 MatProofs3 MatProofs4 MatProofs5 Act Sym StatProofs ActProofs Util UtilProofs PropUtil Cost CostSpec CostProofs PropCost PropCost2 Glm GlmProofs GlmProofs2
  Mlp MlpProofs MlpProofs6 Layer Ann RInst LibmR PropAct PropAct2 PropSvm LsqMath GlmMath PropGlm2 LayerSpec LayerProofs PropLayer AnnSpec AnnProofs Svm.
From Coq Require Import Reals Lra.
Open Scope R_scope.
Implicit Types (h : heap R).

Lemma lin_out (d : draws R) f wi ss (k n : nat) X : let N := net_fun (dr_h d) k X ss in
  run_norm_real f <$> lin n N.1 N.2 (drawn_v wi N.1 (dr_o d)) (dr_b d) = net_out d f wi ss k n X.
Proof.
  cbv zeta. unfold lin, net_out. rewrite net_fun_width. unfold vlist. rewrite <- list_fmap_compose. apply list_fmap_ext. intros i x Hi. unfold compose. f_equal. f_equal. apply Rsum_ext. intros t Ht. f_equal.
  change (nth t (vlist (net_width k ss) (fun i => dist_v wi (net_width k ss) (dr_o d (Z.of_nat i)))) 0 = dist_v wi (net_width k ss) (dr_o d (Z.of_nat t))). apply nth_vlist. exact Ht.
Qed.
(** model_set_test on n rows, any number of hidden layers: the outputs are those of the network whose weights (and output bias) are the values drawn during the call; the network can be used again; nothing else changes. *)
Theorem C65_model_set_test (o : ann R) out is wo x (k n : nat) X d h : net_ready h o out is wo x k n -> abs h !! x = Some (Mat k n X) ->
  runs (an_model_set_test d (Some x) o) h (fun p h' => exists a out', p.2 = Some a /\ abs h !! a = None /\ abs h' !! a = Some (AVec (net_out d (ol_act out) (ol_wi out) (li_s <$> is) k n X)) /\
    ol_act out' = ol_act out /\ ol_wi out' = ol_wi out /\ ol_cost out' = ol_cost out /\ an_y p.1 = an_y o /\ an_x p.1 = an_x o /\ net_ready h' p.1 out' is wo x k n /\
    (forall l, abs h !! l <> None -> l ∉ li_locs is -> l <> wo -> abs h' !! l = abs h !! l)).
Proof.
  intros (V & Eo & HF & ND & Nx & Nb & Hfit & HO & Hn & Hk) Hx. apply runs_wp. pose proof HO as (E1 & E2 & E3 & E4).
  eapply wp_model_set_test; [exact V|exact HF|exact ND|exact Nx|exact Nb|exact Eo|exact Hx|exact Hfit|rewrite net_fun_width; exact HO|exact Hn|rewrite net_fun_width; exact Hk|].
  intros ls' xin z a h' W' HF' _ D Nz Na _ Hwo _ Ha Fr. split; [exact W'|]. rewrite lin_out in Ha. cbn [fst snd an_put an_y an_x].
  exists a, (ol_put_za (ol_ready (ol_set (OInput (Some xin)) out) (dr_b d)) (Some z) (Some a)). split_and!; try reflexivity; try assumption; try (cbn; reflexivity). split_and!; try reflexivity; try assumption.
  split_and!; [exact E1|exact E2|exact E3|]. eexists _, _. exact Hwo.
Qed.
(** Corollary: whatever the networks have learned, they predict the same. *)
Theorem C65_learned_weights_ignored_refuted (o1 o2 : ann R) out1 out2 is1 is2 wo1 wo2 x1 x2 (k n : nat) X d h1 h2 : net_ready h1 o1 out1 is1 wo1 x1 k n -> net_ready h2 o2 out2 is2 wo2 x2 k n ->
  abs h1 !! x1 = Some (Mat k n X) -> abs h2 !! x2 = Some (Mat k n X) -> li_s <$> is1 = li_s <$> is2 -> ol_act out1 = ol_act out2 -> ol_wi out1 = ol_wi out2 ->
  exists ys, runs (an_model_set_test d (Some x1) o1) h1 (fun p h' => exists a, p.2 = Some a /\ abs h' !! a = Some (AVec ys)) /\
             runs (an_model_set_test d (Some x2) o2) h2 (fun p h' => exists a, p.2 = Some a /\ abs h' !! a = Some (AVec ys)).
Proof.
  intros R1 R2 H1 H2 E1 E2 E3. exists (net_out d (ol_act out1) (ol_wi out1) (li_s <$> is1) k n X). split.
  - pose proof (C65_model_set_test o1 out1 is1 wo1 x1 k n X d h1 R1 H1) as G. apply wp_runs in G. apply runs_wp. eapply wp_mono; [exact G|]. cbv beta. intros p h' [W' (a & out' & Ep & _ & Ha & _)]. split; [exact W'|]. exists a. tauto.
  - pose proof (C65_model_set_test o2 out2 is2 wo2 x2 k n X d h2 R2 H2) as G. apply wp_runs in G. apply runs_wp. eapply wp_mono; [exact G|]. cbv beta. intros p h' [W' (a & out' & Ep & _ & Ha & _)]. split; [exact W'|]. exists a. split; [exact Ep|]. rewrite E1, E2, E3. exact Ha.
Qed.
(** forward_pass: the same on the training inputs; the outputs become y_hat. *)
Theorem C65_forward (o : ann R) out is wo x (k n : nat) X d h : net_ready h o out is wo x k n -> an_x o = Some x -> abs h !! x = Some (Mat k n X) ->
  runs (an_forward d o) h (fun o' h' => exists a out', an_yh o' = Some a /\ abs h !! a = None /\ abs h' !! a = Some (AVec (net_out d (ol_act out) (ol_wi out) (li_s <$> is) k n X)) /\
    ol_act out' = ol_act out /\ ol_wi out' = ol_wi out /\ ol_cost out' = ol_cost out /\ an_y o' = an_y o /\ an_x o' = Some x /\ net_ready h' o' out' is wo x k n /\
    (forall l, abs h !! l <> None -> l ∉ li_locs is -> l <> wo -> abs h' !! l = abs h !! l)).
Proof.
  intros R Ex Hx. apply runs_wp. unfold an_forward. rewrite Ex. wbind. pose proof (C65_model_set_test o out is wo x k n X d h R Hx) as G. apply wp_runs in G. eapply wp_mono; [exact G|]. cbv beta. intros p h' [W' (a & out' & Ep & Na & Ha & F1 & F2 & F3 & F4 & F5 & F6 & F7)].
  apply wp_ret. split; [exact W'|]. exists a, out'. cbn [an_put_yh an_yh an_y an_x]. split_and!; try assumption; congruence.
Qed.
(** score: a fresh forward pass, then the fraction of outputs that round to their label. *)
Theorem C65_score (o : ann R) out is wo x y ys (k n : nat) X d h : net_ready h o out is wo x k n -> an_x o = Some x -> an_y o = Some y -> abs h !! x = Some (Mat k n X) -> abs h !! y = Some (AVec ys) -> length ys = n -> y <> wo ->
  let ps := net_out d (ol_act out) (ol_wi out) (li_s <$> is) k n X in Forall (fun p => small_int (Rround p)) ps -> Forall small_int ys ->
  runs (an_score Rround d o) h (fun p h' => p.2 = INR (countb right_label (zip ps ys)) / INR n).
Proof.
  intros R Ex Ey Hx Hy El Dy ps F1 F2. apply runs_wp. unfold an_score. wbind. pose proof (C65_forward o out is wo x k n X d h R Ex Hx) as G. apply wp_runs in G. eapply wp_mono; [exact G|]. cbv beta.
  intros o' h' [W' (a & out' & Ea & Na & Ha & _ & _ & _ & Ey' & _ & _ & Fr)]. fold ps in Ha. rewrite Ea, Ey', Ey. assert (Len : length ps = n) by (unfold ps, net_out; rewrite map_length; apply seq_length).
  assert (Hy' : abs h' !! y = Some (AVec ys)).
  { rewrite Fr; [exact Hy|congruence| |exact Dy]. destruct R as (V & Eo & HF & _). clear - HF Hy. intros Hl. apply elem_of_list_In, in_flat_map in Hl as (i' & Hi & Hl). apply elem_of_list_In in Hi. apply elem_of_list_lookup in Hi as [q Hq]. destruct (Forall2_lookup_r _ _ _ _ _ HF Hq) as (o' & _ & (_&_&_&_&_&_&_&(?&?&?&G1)&(?&?&?&G2)&_)).
    cbn in Hl. destruct Hl as [E|[E|[]]]; rewrite E in *; rewrite Hy in *; discriminate. }
  wbind. pose proof (C49_performance_vec h' a y ps ys W' Ha Hy' ltac:(congruence) F1 F2) as P. unfold wp. rewrite P. rewrite Len. split; [exact W'|reflexivity].
Qed.
(** model_test after a forward pass: the stored weights are used, layer after layer. *)
Record tlayer := TL { tl_act : actfn; tl_u : nat; tl_W : nat -> nat -> R; tl_bs : list R }.
Fixpoint tnet_fun (k : nat) (v : nat -> R) (ls : list tlayer) : nat -> R :=
  match ls with
  | [] => v
  | l :: ls => tnet_fun (tl_u l) (fun j => run_norm_real (tl_act l) (Rsum k (fun t => v t * tl_W l t j) + nth j (tl_bs l) 0)) ls
  end.
Fixpoint tnet_at h (k : nat) (ls : list (hlayer R)) (ss : list tlayer) : Prop :=
  match ls, ss with
  | [], [] => True
  | o :: ls, s :: ss => (exists w b, hl_init o = true /\ hl_act o = tl_act s /\ hl_w o = Some w /\ hl_b o = Some b /\ v_ok (tl_act s) /\ abs h !! w = Some (Mat (tl_u s) k (tl_W s)) /\ abs h !! b = Some (AVec (tl_bs s)) /\
      length (tl_bs s) = tl_u s /\ (Z.of_nat (tl_u s) <= int_max)%Z) /\ tnet_at h (tl_u s) ls ss
  | _, _ => False
  end.
Definition twidth (k : nat) (ss : list tlayer) : nat := match list.last ss with Some s => tl_u s | None => k end.
Lemma tnet_at_mono h h' : forall ls ss k, tnet_at h k ls ss -> (forall l, abs h !! l <> None -> abs h' !! l = abs h !! l) -> tnet_at h' k ls ss.
Proof.
  induction ls as [|o ls IH]; intros [|s ss] k G Fr; cbn in *; try exact G. destruct G as [(w & b & G1 & G2 & G3 & G4 & G5 & G6 & G7 & G8) G]. split; [|apply IH; assumption].
  exists w, b. split_and!; try assumption; try tauto; rewrite Fr by congruence; assumption.
Qed.
Lemma twidth_cons s ss k : twidth k (s :: ss) = twidth (tl_u s) ss.
Proof. unfold twidth. destruct ss as [|s' ss]; [reflexivity|]. change (list.last (s :: s' :: ss)) with (list.last (s' :: ss)). destruct (list.last (s' :: ss)) eqn:E; [reflexivity|]. apply last_None in E. discriminate. Qed.
Lemma tnet_ext : forall ss k v v', (forall t, (t < k)%nat -> v t = v' t) -> forall j, (j < twidth k ss)%nat -> tnet_fun k v ss j = tnet_fun k v' ss j.
Proof.
  induction ss as [|s ss IH]; intros k v v' E j Hj; cbn; [apply E; exact Hj|]. rewrite twidth_cons in Hj. apply IH; [|exact Hj]. intros t Ht. do 2 f_equal. apply Rsum_ext. intros q Hq. rewrite E by exact Hq. reflexivity.
Qed.
Lemma wp_net_test : forall ls ss raw x (k : nat) xs h (Q : list (hlayer R) * option loc -> heap R -> Prop), wf h -> tnet_at h k ls ss -> abs h !! x = Some (AVec xs) -> length xs = k ->
  (forall ls' a ys h', wf h' -> abs h' !! a = Some (AVec ys) -> length ys = twidth k ss -> (forall j, (j < length ys)%nat -> nth j ys 0 = tnet_fun k (fun t => nth t xs 0) ss j) -> tnet_at h' k ls' ss -> (forall l, abs h !! l <> None -> abs h' !! l = abs h !! l) -> Q (ls', Some a) h') ->
  wp (net_test raw (Some x) ls) h Q.
Proof.
  induction ls as [|o ls IH]; intros [|s ss] raw x k xs h Q V HT Hx Ek HQ; cbn [tnet_at] in HT; try contradiction; cbn [net_test].
  - apply wp_ret. eapply HQ; try eassumption; try reflexivity. auto.
  - destruct HT as [(w & b & G1 & G2 & G3 & G4 & G5 & G6 & G7 & G8 & G9) HT]. wbind. unfold hl_test, hl_initialize. wbind. rewrite G1. apply wp_ret.
    eapply (wp_test_body o h x w b k (tl_u s) xs (tl_W s) (tl_bs s)); [exact V|exact G3|exact G4|rewrite G2; exact G5|exact Hx|exact Ek|exact G6|exact G7|exact G8|exact G9|]. intros zt a h1 W1 N1 N2 D A1.
    assert (Fr : forall l, abs h !! l <> None -> abs h1 !! l = abs h !! l) by (intros l Hl; rewrite A1, !lookup_insert_ne by congruence; reflexivity).
    wbind. eapply (IH ss (fun i => raw (S i)) a (tl_u s)); [exact W1|eapply tnet_at_mono; eassumption|rewrite A1; apply lookup_insert|unfold dense1; rewrite fmap_length; apply vlist_length|].
    intros ls' a' ys h2 W2 Ha' El Hys HT2 Fr2. apply wp_ret. cbn [fst snd]. eapply (HQ _ _ ys); [exact W2|exact Ha'|rewrite twidth_cons; exact El| | |].
    + intros j Hj. rewrite Hys by exact Hj. cbn [tnet_fun]. apply tnet_ext; [|rewrite <- El; exact Hj]. intros t Ht. rewrite GlmMath.nth_fmap by (unfold dense1; rewrite vlist_length; exact Ht). rewrite G2. f_equal. unfold dense1. rewrite nth_vlist by exact Ht. reflexivity.
    + cbn [tnet_at]. split; [|exact HT2]. exists w, b. cbn [hl_put_zt hl_init hl_act hl_w hl_b]. split_and!; try assumption; rewrite Fr2 by (rewrite Fr; congruence); rewrite Fr by congruence; assumption.
    + intros l Hl. rewrite Fr2 by (rewrite Fr; assumption). apply Fr. exact Hl.
Qed.
Theorem C65_model_test (o : ann R) out ss (k : nat) x xs wo ws d h : wf h -> tnet_at h k (an_net o) ss -> an_out o = Some out -> ol_init out = true -> ol_w out = Some wo -> abs h !! wo = Some (AVec ws) -> length ws = twidth k ss ->
  abs h !! x = Some (AVec xs) -> length xs = k ->
  runs (an_model_test d (Some x) o) h (fun p h' => p.2 = run_norm_real (ol_act out) (Rsum (length ws) (fun t => tnet_fun k (fun i => nth i xs 0) ss t * nth t ws 0) + ol_b out) /\
    tnet_at h' k (an_net p.1) ss /\ (exists out', an_out p.1 = Some out' /\ ol_init out' = true /\ ol_w out' = Some wo /\ ol_b out' = ol_b out /\ ol_act out' = ol_act out) /\ forall l, abs h !! l <> None -> abs h' !! l = abs h !! l).
Proof.
  intros V HT Eo Ei Ew Hw El Hx Ek. apply runs_wp. unfold an_model_test. rewrite Eo. wbind. eapply wp_net_test; [exact V|exact HT|exact Hx|exact Ek|]. intros ls' a ys h1 W1 Ha Ey Hys HT1 Fr. cbn [fst snd].
  wbind. pose proof (C64_test out (dr_o d) (dr_b d) h1 a wo (length ws) ys ws W1 Ei Ew Ha) as G. rewrite Fr in G by congruence. specialize (G Hw ltac:(congruence) eq_refl). apply wp_runs in G. eapply wp_mono; [exact G|]. cbv beta. intros out' h2 [W2 (G1 & G2 & G3 & G4 & A2)].
  apply wp_ret. split; [exact W2|]. cbn [fst snd an_put an_net an_out]. rewrite A2. split_and!.
  - rewrite G2, G1. f_equal. f_equal. apply Rsum_ext. intros t Ht. f_equal. apply Hys. lia.
  - eapply tnet_at_mono; [exact HT1|]. intros l _. rewrite A2. reflexivity.
  - exists out'. split_and!; try reflexivity; try exact G4.
    + pose proof (G3 KWeights ltac:(discriminate) ltac:(discriminate)) as E. cbn in E. congruence.
    + pose proof (G3 KBias ltac:(discriminate) ltac:(discriminate)) as E. cbn in E. congruence.
    + pose proof (G3 KAct ltac:(discriminate) ltac:(discriminate)) as E. cbn in E. congruence.
  - exact Fr.
Qed.

(** cost: the output layer's cost and regularization term plus the terms of the hidden layers, without the last hidden layer's. *)
Definition hid_is h (o : hlayer R) (p : nat * nat * list R) : Prop := exists w, hl_w o = Some w /\ abs h !! w = Some (AMat p.1.1 p.1.2 p.2).
Fixpoint hid_penalty (ls : list (hlayer R)) (Ws : list (list R)) : R :=
  match ls, Ws with l :: ls, W :: Ws => penalty (hl_la l) (hl_al l) (hl_reg l) W + hid_penalty ls Ws | _, _ => 0 end.
Lemma wp_reg_terms : forall ls ps acc h, wf h -> Forall2 (hid_is h) ls ps -> reg_terms ls acc h = Ok (acc + hid_penalty ls (snd <$> ps)) h.
Proof.
  induction ls as [|l ls IH]; intros ps acc h V HF; inversion HF; subst; cbn [reg_terms fmap list_fmap hid_penalty].
  - unfold ret. f_equal. lra.
  - match goal with A : hid_is _ _ _ |- _ => destruct A as (w & Ew & Hw) end. unfold bind. rewrite Ew. rewrite (C42_reg_term KM h w _ _ _ _ _ _ V Hw). rewrite (IH _ _ _ V) by eassumption. f_equal. cbn. lra.
Qed.
Theorem C65_cost (o : ann R) out ps wo ws a b xs ys h : wf h -> an_out o = Some out -> Forall2 (hid_is h) (take (length (an_net o) - 1) (an_net o)) ps -> ol_w out = Some wo -> abs h !! wo = Some (AVec ws) ->
  abs h !! a = Some (AVec xs) -> abs h !! b = Some (AVec ys) -> length xs = length ys ->
  an_cost o (Some a) (Some b) h = Ok (cost_val KV 0 (ol_cost out) xs ys + hid_penalty (take (length (an_net o) - 1) (an_net o)) (snd <$> ps) + penalty (ol_la out) (ol_al out) (ol_reg out) ws) h.
Proof.
  intros V Eo HF Ew Hw Ha Hb El. unfold an_cost. rewrite Eo. unfold bind. rewrite (wp_reg_terms _ _ _ _ V HF). rewrite (C39_cost_value KV (ol_cost out) h a b 0 0 0 0 xs ys V Ha Hb El). rewrite Ew, (C42_reg_term KV h wo 0 0 ws _ _ _ V Hw).
  unfold ret. f_equal. cbn. lra.
Qed.
(** A single hidden layer: its weights never enter the cost, whatever its regularization. *)
Theorem C65_cost_single_hidden_refuted (o : ann R) out l wo ws a b xs ys h : wf h -> an_out o = Some out -> an_net o = [l] -> ol_w out = Some wo -> abs h !! wo = Some (AVec ws) ->
  abs h !! a = Some (AVec xs) -> abs h !! b = Some (AVec ys) -> length xs = length ys ->
  an_cost o (Some a) (Some b) h = Ok (cost_val KV 0 (ol_cost out) xs ys + penalty (ol_la out) (ol_al out) (ol_reg out) ws) h.
Proof. intros V Eo En Ew Hw Ha Hb El. rewrite (C65_cost o out [] wo ws a b xs ys h) by (try assumption; rewrite En; constructor). rewrite En. cbn [length Nat.sub take hid_penalty]. f_equal. cbn. lra. Qed.
(** add_layer on a network for non-empty data reads the new layer's uninitialised biases. *)
Theorem C65_add_layer_UB (o : ann R) (u : nat) f t reg la al raw raw' h x (k n : nat) X : wf h -> match an_net o with [] => an_x o | _ => match list.last (an_net o) with Some l => hl_a l | None => None end end = Some x ->
  abs h !! x = Some (Mat k n X) -> (1 <= u)%nat -> (1 <= n)%nat -> (Z.of_nat (n * u) <= int_max)%Z -> (Z.of_nat (u * k) <= int_max)%Z -> (Z.of_nat (u + k) <= int_max)%Z ->
  an_add_layer (Z.of_nat u) f t reg la al raw raw' o h = UB.
Proof.
  intros V Ex Hx Hu Hn L1 L2 L3. unfold an_add_layer. pose proof (C63_new_UB u f h x k n X t reg la al raw raw' V Hu Hn Hx L1 L2 L3) as G.
  assert (E : match List.rev (an_net o) with [] => an_x o | l :: _ => hl_a l end = Some x).
  { destruct (an_net o) as [|l0 ls] eqn:En using rev_ind; [exact Ex|]. rewrite List.rev_unit. rewrite last_snoc in Ex. destruct (ls ++ [l0]) eqn:E'; [destruct ls; discriminate|exact Ex]. }
  rewrite E. unfold bind in *. destruct (hl_new (Z.of_nat u) f (Some x) t reg la al raw h); try discriminate; try reflexivity. rewrite G. reflexivity.
Qed.
(** The constructor with arguments: as many inputs as the training matrix has columns, as many points as it has rows; no layers, no outputs yet, rate schedule NONE; nothing is allocated. *)
Theorem C65_new x ry (k n : nat) X h : abs h !! x = Some (Mat k n X) ->
  an_new (F := R) (Some x) ry h = Ok (Ann (Some x) ry None [] None (Z.of_nat n) (Z.of_nat k) SchedNone 0 0) h.
Proof.
  intros Hx. assert (G : wp (an_new (F := R) (Some x) ry) h (fun o h' => o = Ann (Some x) ry None [] None (Z.of_nat n) (Z.of_nat k) SchedNone 0 0 /\ h' = h)).
  { unfold an_new. wbind. apply wp_deref_Some. wbind. eapply wp_m_size; [exact Hx|]. apply wp_ret. split; reflexivity. }
  unfold wp in G. destruct (an_new (Some x) ry h) as [v h'| | |]; try contradiction. destruct G as [-> ->]. reflexivity.
Qed.
(** add_output_layer: a new initialised layer with one weight per column of its input. *)
Theorem C65_add_output_layer (o : ann R) (u : nat) f c t reg la al raw rb h : wf h -> (Z.of_nat u <= int_max)%Z ->
  match list.last (an_net o) with Some l => hl_n l | None => an_k o end = Z.of_nat u ->
  runs (an_add_output_layer f c t reg la al raw rb o) h (fun o' h' => exists out w, an_out o' = Some out /\ an_net o' = an_net o /\ an_x o' = an_x o /\ an_y o' = an_y o /\ an_yh o' = an_yh o /\ an_n o' = an_n o /\ an_k o' = an_k o /\
    ol_w out = Some w /\ abs h !! w = None /\ abs h' !! w = Some (AVec (drawn_v t u raw)) /\ ol_b out = rb /\ ol_init out = true /\ ol_in out = match list.last (an_net o) with Some l => hl_a l | None => an_x o end /\ ol_act out = f /\ ol_cost out = c /\
    ol_reg out = reg /\ ol_la out = la /\ ol_al out = al /\ ol_wi out = t /\ ol_n out = Z.of_nat u /\ forall l, abs h !! l <> None -> abs h' !! l = abs h !! l).
Proof.
  intros V Hu En. apply runs_wp. unfold an_add_output_layer. wbind.
  assert (E : (match List.rev (an_net o) with [] => ol_new (an_k o) f c (an_x o) t reg la al raw rb | l :: _ => ol_new (hl_n l) f c (hl_a l) t reg la al raw rb end) =
    ol_new (Z.of_nat u) f c (match list.last (an_net o) with Some l => hl_a l | None => an_x o end) t reg la al raw rb).
  { destruct (an_net o) as [|l0 ls] eqn:Eq using rev_ind; [cbn in *; rewrite En; reflexivity|]. rewrite List.rev_unit. rewrite last_snoc in *. rewrite En. reflexivity. }
  rewrite E. pose proof (C64_new u f c (match list.last (an_net o) with Some l => hl_a l | None => an_x o end) t reg la al raw rb h V Hu) as G. apply wp_runs in G. eapply wp_mono; [exact G|]. cbv beta.
  intros out h' [W' (w & G')]. apply wp_ret. split; [exact W'|]. exists out, w. cbn [an_put an_out an_net an_x an_y an_yh an_n an_k]. split_and!; try reflexivity; tauto.
Qed.
