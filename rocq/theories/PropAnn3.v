(** * C66, continued: whole training runs of a network without hidden layers; learning-rate schedules. *)
From Verif Require Import Base BaseProofs Vec VecSpec VecProofs VecProofs2 Mat MatSpec MatProofs MatProofs2 MatProofs3 MatProofs4 MatProofs5 Act Sym StatProofs ActProofs Util UtilProofs PropUtil Cost CostSpec CostProofs PropCost PropCost2 Glm GlmProofs GlmProofs2
  Mlp MlpProofs MlpProofs6 Layer Ann RInst LibmR PropAct PropAct2 PropSvm LsqMath GlmMath PropGlm2 PropGlm4 LayerSpec LayerProofs PropLayer AnnSpec AnnProofs PropAnn PropAnn2 Svm.
From Coq Require Import Reals Lra.
Open Scope R_scope.
Implicit Types (h : heap R) (ws xs ys zs gs : list R) (base : gmap loc (aobj R)).

(** ** Learning-rate schedules *)
Theorem C66_rate (o : ann R) lr e h : 
  an_rate (an_set_scheduler SchedNone (an_decay o) o) lr e h = Ok lr h /\
  (forall c, an_rate (an_set_scheduler SchedTime c o) lr e h = Ok (lr / (1 + c * IZR e)) h) /\
  (forall c, an_rate (an_set_scheduler SchedEpoch c o) lr e h = Ok (lr * (c / sqrt (IZR e))) h) /\
  (forall c, an_rate (an_set_scheduler SchedExp c o) lr e h = Ok (lr * exp (- c * IZR e)) h).
Proof. split_and!; reflexivity. Qed.
(** The stepwise schedule multiplies the rate by [c] once per [drop] epochs (drop > 0). *)
Theorem C66_rate_step (o : ann R) c (drop e : Z) lr h : (0 < drop)%Z -> (1 <= e < int_max)%Z ->
  an_rate (an_set_scheduler_drop SchedStep c (IZR drop) o) lr e h = Ok (lr * c ^ Z.to_nat ((1 + e) / drop)) h.
Proof.
  intros Hd He. unfold an_rate. cbn [an_set_scheduler_drop an_sched an_decay an_drop].
  assert (Hdr : 0 < IZR drop) by (apply (IZR_lt 0); exact Hd).
  assert (Hq0 : (0 <= (1 + e) / drop)%Z) by (apply Z.div_pos; lia).
  assert (E : m_to_int (s_div (s_add s_one (s_of_Z e)) (IZR drop)) = Some ((1 + e) / drop)%Z).
  { change (Rto_int ((1 + IZR e) / IZR drop) = Some ((1 + e) / drop)%Z). rewrite <- (plus_IZR 1 e).
    pose proof (Z_div_mod_eq_full (1 + e) drop) as Em. pose proof (Z.mod_pos_bound (1 + e) drop Hd) as Hm. set (q := ((1 + e) / drop)%Z) in *. set (r := ((1 + e) mod drop)%Z) in *.
    assert (Ev : IZR (1 + e) / IZR drop = IZR q + IZR r / IZR drop) by (rewrite Em, plus_IZR, mult_IZR; field; lra).
    assert (Hr : 0 <= IZR r / IZR drop < 1).
    { split; [apply Rmult_le_pos; [apply (IZR_le 0); lia|left; apply Rinv_0_lt_compat, Hdr]|]. apply (Rmult_lt_reg_r (IZR drop)); [exact Hdr|]. unfold Rdiv. rewrite Rmult_assoc, Rinv_l, Rmult_1_r, Rmult_1_l by lra. apply IZR_lt. lia. }
    assert (Hq1 : (q <= 1 + e)%Z) by (subst q; apply Z.div_le_upper_bound; nia). 
    assert (Hqr : 0 <= IZR q) by (apply (IZR_le 0); exact Hq0).
    assert (Hb : IZR q + IZR r / IZR drop < 2147483648).
    { rewrite <- Ev. apply Rle_lt_trans with (IZR (1 + e)); [|apply (IZR_lt _ 2147483648); unfold int_max in He; lia].
      apply (Rmult_le_reg_r (IZR drop)); [exact Hdr|]. unfold Rdiv. rewrite Rmult_assoc, Rinv_l, Rmult_1_r by lra. rewrite <- mult_IZR. apply IZR_le. nia. }
    unfold Rto_int. rewrite Ev. destruct (Rlt_dec (-2147483649) _); [|lra]. destruct (Rlt_dec _ 2147483648); [|lra]. f_equal. unfold Rtrunc. destruct (Rlt_dec _ 0); [lra|].
    unfold Int_part. rewrite <- (tech_up _ (q + 1)); [lia| |]; rewrite plus_IZR; lra. }
  rewrite E. unfold ret. f_equal. change (lr * Rpow c (IZR ((1 + e) / drop)) = lr * c ^ Z.to_nat ((1 + e) / drop)). f_equal.
  rewrite <- (Z2Nat.id ((1 + e) / drop)) at 1 by exact Hq0. apply Rpow_nat.
Qed.
(** No schedule with a positive decay constant raises the rate from one epoch to the next. *)
Theorem C66_rate_decreases (o : ann R) t lr e h : t ∈ [SchedNone; SchedTime; SchedEpoch; SchedExp] -> 0 <= lr -> 0 <= an_decay o -> (1 <= e)%Z ->
  exists q q', an_rate (an_set_scheduler t (an_decay o) o) lr e h = Ok q h /\ an_rate (an_set_scheduler t (an_decay o) o) lr (e + 1) h = Ok q' h /\ 0 <= q' <= q.
Proof.
  intros Ht Hl Hc He. assert (He1 : 1 <= IZR e) by (apply (IZR_le 1); exact He). assert (Ee : IZR (e + 1) = IZR e + 1) by (rewrite plus_IZR; lra). set (c := an_decay o) in *.
  destruct (C66_rate o lr e h) as (R1 & R2 & R3 & R4). destruct (C66_rate o lr (e + 1) h) as (S1 & S2 & S3 & S4). rewrite !elem_of_cons, elem_of_nil in Ht. destruct Ht as [->|[->|[->|[->|[]]]]].
  - exists lr, lr. split; [exact R1|]. split; [exact S1|]. lra.
  - eexists _, _. split; [apply R2|]. split; [apply S2|]. rewrite Ee. assert (0 < 1 + c * IZR e) by nra. assert (0 < 1 + c * (IZR e + 1)) by nra. split; [apply Rmult_le_pos; [exact Hl|left; apply Rinv_0_lt_compat; assumption]|].
    unfold Rdiv. apply Rmult_le_compat_l; [exact Hl|]. apply Rinv_le_contravar; nra.
  - eexists _, _. split; [apply R3|]. split; [apply S3|]. rewrite Ee. pose proof (sqrt_lt_R0 (IZR e) ltac:(lra)) as P. pose proof (sqrt_lt_R0 (IZR e + 1) ltac:(lra)) as P'. pose proof (sqrt_le_1 (IZR e) (IZR e + 1) ltac:(lra) ltac:(lra) ltac:(lra)) as Hs.
    assert (I0 : 0 <= c / sqrt (IZR e + 1)) by (apply Rmult_le_pos; [exact Hc|left; apply Rinv_0_lt_compat; exact P']). split; [apply Rmult_le_pos; assumption|]. apply Rmult_le_compat_l; [exact Hl|]. unfold Rdiv. apply Rmult_le_compat_l; [exact Hc|]. apply Rinv_le_contravar; assumption.
  - eexists _, _. split; [apply R4|]. split; [apply S4|]. rewrite Ee. split; [apply Rmult_le_pos; [exact Hl|left; apply exp_pos]|]. apply Rmult_le_compat_l; [exact Hl|]. destruct (Req_dec c 0) as [E0|]; [rewrite E0; right; f_equal; lra|]. left. apply exp_increasing. nra.
Qed.

(** ** Training runs *)
(** The learning rate of epoch [e] is defined (the stepwise schedule converts a quotient to int). *)
Definition rate_ok (o : ann R) (e : Z) : Prop := an_sched o = SchedStep -> int_range ((1 + IZR e) / an_drop o).
Lemma rate_run (o : ann R) lr e h : rate_ok o e -> exists q, an_rate o lr e h = Ok q h.
Proof.
  intros Hr. unfold an_rate, rate_ok in *. destruct (an_sched o); try (eexists; reflexivity). specialize (Hr eq_refl). destruct Hr as [H1 H2].
  assert (E : m_to_int (s_div (s_add s_one (s_of_Z e)) (an_drop o)) = Some (Rtrunc ((1 + IZR e) / an_drop o))).
  { change (Rto_int ((1 + IZR e) / an_drop o) = Some (Rtrunc ((1 + IZR e) / an_drop o))). unfold Rto_int. destruct (Rlt_dec _ _); [|contradiction]. destruct (Rlt_dec _ _); [reflexivity|contradiction]. }
  rewrite E. eexists. reflexivity.
Qed.
(** A network without hidden layers, ready to train on object [x] (n rows, k columns) with labels [y]. *)
Record trainable h (o : ann R) out (x y w : loc) (k n : nat) X ys : Prop := TR {
  tr_wf : wf h; tr_net : an_net o = []; tr_out : an_out o = Some out; tr_x : an_x o = Some x; tr_y : an_y o = Some y; tr_n : an_n o = Z.of_nat n; tr_w : ol_w out = Some w; tr_k : ol_n out = Z.of_nat k;
  tr_act : v_ok (ol_act out); tr_actd : act_d_ok (ol_act out); tr_hx : abs h !! x = Some (Mat k n X); tr_hy : abs h !! y = Some (AVec ys); tr_hw : exists m cs, abs h !! w = Some (SVec m, cs); tr_yw : y <> w;
  tr_len : length ys = n; tr_hn : (Z.of_nat n <= int_max)%Z; tr_hk : (Z.of_nat k <= int_max)%Z }.
Section run.
Context (base : gmap loc (aobj R)) (w0 : loc) (o0 : ann R) (out0 : olayer R) (k : nat).
Context (Hk : (Z.of_nat k <= int_max)%Z) (Hact : v_ok (ol_act out0)) (Hactd : act_d_ok (ol_act out0)) (Hk0 : ol_n out0 = Z.of_nat k) (Hw0 : exists m cs, base !! w0 = Some (SVec m, cs)).
(** Same configuration, possibly another weight vector, earlier objects untouched. *)
Record rel h (o : ann R) out wo : Prop := Rel {
  rl_wf : wf h; rl_net : an_net o = []; rl_out : an_out o = Some out; rl_w : ol_w out = Some wo; rl_wo : wo = w0 \/ base !! wo = None; rl_hw : exists m cs, abs h !! wo = Some (SVec m, cs);
  rl_cfg : ol_n out = ol_n out0 /\ ol_act out = ol_act out0 /\ ol_wi out = ol_wi out0 /\ ol_cost out = ol_cost out0;
  rl_o : an_x o = an_x o0 /\ an_y o = an_y o0 /\ an_n o = an_n o0 /\ an_sched o = an_sched o0 /\ an_decay o = an_decay o0 /\ an_drop o = an_drop o0;
  rl_fr : forall l, base !! l <> None -> l <> w0 -> abs h !! l = base !! l; rl_w0 : abs h !! w0 <> None }.
Definition pred (d : draws R) (n : nat) X : list R := net_out d (ol_act out0) (ol_wi out0) [] k n X.
Definition pre (d : draws R) (n : nat) X : list R := lin n k X (drawn_v (ol_wi out0) k (dr_o d)) (dr_b d).
Lemma rel_fresh h o out wo l : rel h o out wo -> abs h !! l = None -> base !! l = None.
Proof. intros R Hl. destruct (base !! l) eqn:E; [|reflexivity]. exfalso. destruct (decide (l = w0)) as [->|D]; [exact (rl_w0 _ _ _ _ R Hl)|]. rewrite (rl_fr _ _ _ _ R) in Hl by congruence. congruence. Qed.
Lemma wp_fwd h o out wo x (n : nat) X d (Q : ann R * option loc -> heap R -> Prop) : rel h o out wo -> base !! x = Some (Mat k n X) -> (Z.of_nat n <= int_max)%Z ->
  (forall o' out' xin z a h', rel h' o' out' wo -> tstate h' o' out' xin z wo k n X (pre d n X) (drawn_v (ol_wi out0) k (dr_o d)) -> base !! a = None -> abs h' !! a = Some (AVec (pred d n X)) -> ol_b out' = dr_b d -> ol_init out' = true -> Q (o', Some a) h') ->
  wp (an_model_set_test d (Some x) o) h Q.
Proof using Hk Hact Hk0 Hw0.
  intros R Hx Hn HQ. pose proof R as [V R1 R2 R3 R4 (m & cs & R5) (C1 & C2 & C3 & C4) (O1 & O2 & O3 & O4 & O5 & O6) R8 R9]. destruct Hw0 as (m0 & cs0 & Hw0').
  assert (Dx : x <> w0) by (intros ->; rewrite Hx in Hw0'; discriminate). assert (Hx' : abs h !! x = Some (Mat k n X)) by (rewrite R8 by congruence; exact Hx).
  eapply (wp_model_set_test [] o out wo d x k n X); [exact V|rewrite R1; constructor|constructor|apply not_elem_of_nil|apply not_elem_of_nil|exact R2|exact Hx'|exact I| |exact Hn|exact Hk|].
  { split_and!; [exact R3|rewrite C1; exact Hk0|rewrite C2; exact Hact|]. eexists _, _. exact R5. }
  cbn [net_fun fmap list_fmap fst snd]. intros ls' xin z a h' W' HF _ D Nz Na Hin Hwo Hz Ha Fr. inversion HF; subst ls'. rewrite C2, C3 in *. 
  eapply (HQ _ (ol_put_za (ol_ready (ol_set (OInput (Some xin)) out) (dr_b d)) (Some z) (Some a)) xin z a).
  - constructor; try assumption; try reflexivity.
    + eexists _, _. exact Hwo.
    + cbn. split_and!; assumption.
    + cbn. split_and!; assumption.
    + intros l Hl Dl. assert (l <> wo) by (destruct R4 as [->|R4]; congruence). rewrite Fr; [apply R8; assumption|rewrite R8 by assumption; exact Hl|apply not_elem_of_nil|assumption].
    + destruct (decide (w0 = wo)) as [<-|Dw]; [rewrite Hwo; discriminate|]. rewrite Fr; [exact R9|exact R9|apply not_elem_of_nil|exact Dw].
  - constructor; try assumption; try reflexivity.
    + unfold pre, lin. apply vlist_length.
    + unfold drawn_v. rewrite map_length. apply seq_length.
  - eapply rel_fresh; [exact R|exact Na].
  - rewrite Ha. do 2 f_equal. exact (lin_out d (ol_act out0) (ol_wi out0) [] k n X).
  - reflexivity.
  - reflexivity.
Qed.
Lemma wp_stp h o out wo xin z a b (n N : nat) X zs ws ps ys lr (Q : ann R -> heap R -> Prop) : rel h o out wo -> tstate h o out xin z wo k n X zs ws -> an_n o0 = Z.of_nat N -> cost_d_ok (ol_cost out0) ps -> abs h !! a = Some (AVec ps) -> abs h !! b = Some (AVec ys) -> length ps = n -> length ys = n ->
  (forall o' out' wo' h', rel h' o' out' wo' -> (forall l, abs h !! l <> None -> abs h' !! l = abs h !! l) -> Q o' h') ->
  wp (an_step lr (Some a) (Some b) o) h Q.
Proof using Hk Hactd.
  intros R T En Hc Ha Hb Lp Ly HQ. pose proof R as [V R1 R2 R3 R4 R5 (C1 & C2 & C3 & C4) (O1 & O2 & O3 & O4 & O5 & O6) R8 R9].
  pose proof (C66_step o out xin z wo k n N X zs ws lr a b ps ys h T Hk ltac:(congruence) ltac:(rewrite C2; exact Hactd) ltac:(rewrite C4; exact Hc) Ha Hb Lp Ly) as G. apply wp_runs in G. eapply wp_mono; [exact G|]. cbv beta zeta.
  intros o' h' [W' (out' & w' & d' & -> & Ew & _ & Nw & _ & _ & Hkey & _ & Hw' & _ & Fr)]. eapply (HQ _ out' w'); [|exact Fr]. constructor; try assumption; try reflexivity.
  - right. eapply rel_fresh; eassumption.
  - eexists _, _. exact Hw'.
  - pose proof (Hkey KN) as K1. pose proof (Hkey KAct) as K2. pose proof (Hkey KWInit) as K3. pose proof (Hkey KCost) as K4. cbn in K1, K2, K3, K4. rewrite !elem_of_cons, elem_of_nil in *.
    assert (E1 : ol_n out' = ol_n out) by (assert (J := K1 ltac:(intuition discriminate)); congruence).
    assert (E2 : ol_act out' = ol_act out) by (assert (J := K2 ltac:(intuition discriminate)); congruence).
    assert (E3 : ol_wi out' = ol_wi out) by (assert (J := K3 ltac:(intuition discriminate)); congruence).
    assert (E4 : ol_cost out' = ol_cost out) by (assert (J := K4 ltac:(intuition discriminate)); congruence).
    split_and!; congruence.
  - cbn. split_and!; assumption.
  - intros l Hl Dl. rewrite Fr; [apply R8; assumption|rewrite R8 by assumption; exact Hl].
  - rewrite Fr by exact R9. exact R9.
Qed.
End run.
Lemma pred_len out0 k d n X : length (pred out0 k d n X) = n.
Proof. unfold pred, net_out. rewrite map_length. apply seq_length. Qed.
Lemma rel_start h o out x y w k n X ys : trainable h o out x y w k n X ys -> rel (abs h) w o out h o out w.
Proof. intros []. constructor; try assumption; try tauto. destruct tr_hw0 as (m & cs & E). rewrite E. discriminate. Qed.

(** gradient_descent: whatever the learning rate, the labels and the number of epochs, the weights and the bias are at the end the values drawn for the last prediction, and y_hat the predictions with them. *)
Definition last_draws {A} (d : Z -> A) (max : Z) : A := d (Z.max 1 max).
Theorem C66_gradient_descent (o : ann R) out x y w (k n : nat) X ys lr max d h : trainable h o out x y w k n X ys -> (max < int_max)%Z -> (forall e, rate_ok o e) ->
  (forall e, cost_d_ok (ol_cost out) (net_out (d e) (ol_act out) (ol_wi out) [] k n X)) ->
  runs (an_gradient_descent lr max d o) h (fun o' h' => exists out' w' a, let D := last_draws d max in
    an_out o' = Some out' /\ ol_w out' = Some w' /\ abs h' !! w' = Some (AVec (drawn_v (ol_wi out) k (dr_o D))) /\ ol_b out' = dr_b D /\
    an_yh o' = Some a /\ abs h' !! a = Some (AVec (net_out D (ol_act out) (ol_wi out) [] k n X)) /\ forall l, abs h !! l <> None -> l <> w -> abs h' !! l = abs h !! l).
Proof.
  intros T Hm Hr Hc. pose proof T as []. apply runs_wp. unfold an_gradient_descent. wbind. unfold an_forward. rewrite tr_x0.
  set (I := fun (i : nat) (o1 : ann R) (h1 : heap R) => exists out1 wo xin z a, rel (abs h) w o out h1 o1 out1 wo /\ tstate h1 o1 out1 xin z wo k n X (pre out k (d (Z.of_nat i)) n X) (drawn_v (ol_wi out) k (dr_o (d (Z.of_nat i)))) /\
    an_yh o1 = Some a /\ abs h1 !! a = Some (AVec (pred out k (d (Z.of_nat i)) n X)) /\ ol_b out1 = dr_b (d (Z.of_nat i))).
  wbind. eapply (wp_fwd (abs h) w o out k tr_hk0 tr_act0 tr_k0 tr_hw0 h o out w x n X (d 0%Z)); [eapply rel_start; exact T|exact tr_hx0|exact tr_hn0|].
  intros o1 out1 xin z a h1 R1 T1 Na Ha Eb _. apply wp_ret. eapply (wp_train I); [exact Hm| | |].
  - exists out1, w, xin, z, a. split_and!; [destruct R1; constructor; assumption|destruct T1; constructor; assumption|reflexivity|exact Ha|exact Eb].
  - clear - T Hr Hc Hm tr_hk0 tr_act0 tr_actd0 tr_k0 tr_hw0 tr_hx0 tr_hy0 tr_yw0 tr_n0 tr_x0 tr_y0 tr_len0 tr_hn0. intros i o1 h1 Hi (out1 & wo & xin & z & a & R1 & T1 & Ea & Ha & Eb).
    unfold an_gd_epoch. wbind. assert (Hr1 : rate_ok o1 (Z.of_nat i + 1)) by (destruct (rl_o _ _ _ _ _ _ _ _ R1) as (_ & _ & _ & E1 & E2 & E3); unfold rate_ok; rewrite E1, E3; apply Hr).
    destruct (rate_run o1 lr (Z.of_nat i + 1) h1 Hr1) as [q Eq]. unfold wp at 1. rewrite Eq.
    destruct (rl_o _ _ _ _ _ _ _ _ R1) as (Ex & Ey & En & _). rewrite Ea, Ey, tr_y0.
    wbind. eapply (wp_stp (abs h) w o out k tr_hk0 tr_actd0 h1 o1 out1 wo xin z a y n n X); [exact R1|exact T1|exact tr_n0|apply Hc|exact Ha| |apply pred_len|exact tr_len0|].
    { rewrite (rl_fr _ _ _ _ _ _ _ _ R1) by congruence. exact tr_hy0. }
    intros o2 out2 wo2 h2 R2 Fr. unfold an_forward. destruct (rl_o _ _ _ _ _ _ _ _ R2) as (Ex2 & _). rewrite Ex2, tr_x0.
    wbind. eapply (wp_fwd (abs h) w o out k tr_hk0 tr_act0 tr_k0 tr_hw0 h2 o2 out2 wo2 x n X); [exact R2|exact tr_hx0|exact tr_hn0|].
    intros o3 out3 xin3 z3 a3 h3 R3 T3 Na3 Ha3 Eb3 _. apply wp_ret. replace (Z.of_nat i + 1)%Z with (Z.of_nat (S i)) in * by lia.
    exists out3, wo2, xin3, z3, a3. split_and!; [destruct R3; constructor; assumption|destruct T3; constructor; assumption|reflexivity|exact Ha3|exact Eb3].
  - intros o1' h1' (out1' & wo & xin' & z' & a' & R1' & T1' & Ea & Ha' & Eb'). rewrite Z2Nat.id in * by lia. split; [apply R1'|]. exists out1', wo, a'. cbv zeta. unfold last_draws. split_and!; [apply R1'|apply R1'|apply T1'|exact Eb'|exact Ea|exact Ha'|].
    intros l Hl Dl. apply (rl_fr _ _ _ _ _ _ _ _ R1'); assumption.
Qed.
(** Hence nothing is learned: other labels, another rate, cost or penalty give the same predictions. *)
Theorem C66_nothing_learned_refuted (o1 o2 : ann R) out1 out2 x1 y1 w1 x2 y2 w2 (k n : nat) X ys1 ys2 lr1 lr2 max d h1 h2 : trainable h1 o1 out1 x1 y1 w1 k n X ys1 -> trainable h2 o2 out2 x2 y2 w2 k n X ys2 -> (max < int_max)%Z ->
  (forall e, rate_ok o1 e) -> (forall e, rate_ok o2 e) -> ol_act out1 = ol_act out2 -> ol_wi out1 = ol_wi out2 -> ol_cost out1 <> MAE -> ol_cost out2 <> MAE ->
  exists ps, runs (an_gradient_descent lr1 max d o1) h1 (fun o' h' => exists a, an_yh o' = Some a /\ abs h' !! a = Some (AVec ps)) /\
             runs (an_gradient_descent lr2 max d o2) h2 (fun o' h' => exists a, an_yh o' = Some a /\ abs h' !! a = Some (AVec ps)).
Proof.
  intros T1 T2 Hm R1 R2 E1 E2 C1 C2. exists (net_out (last_draws d max) (ol_act out1) (ol_wi out1) [] k n X). split.
  - pose proof (C66_gradient_descent o1 out1 x1 y1 w1 k n X ys1 lr1 max d h1 T1 Hm R1 ltac:(intros e E; congruence)) as G. apply wp_runs in G. apply runs_wp. eapply wp_mono; [exact G|]. cbv beta. intros p h' [W' (out' & w' & a & _ & _ & _ & _ & Ea & Ha & _)]. split; [exact W'|]. exists a. split; assumption.
  - pose proof (C66_gradient_descent o2 out2 x2 y2 w2 k n X ys2 lr2 max d h2 T2 Hm R2 ltac:(intros e E; congruence)) as G. apply wp_runs in G. apply runs_wp. eapply wp_mono; [exact G|]. cbv beta. intros p h' [W' (out' & w' & a & _ & _ & _ & _ & Ea & Ha & _)]. split; [exact W'|]. exists a. rewrite E1, E2. split; assumption.
Qed.
(** mbgd (batch size between 1 and n): likewise, with the draws of the last prediction. *)
Lemma wp_del_batches : forall bs h (Q : unit -> heap R -> Prop), wf h -> NoDup (blocs bs) -> (forall l, l ∈ blocs bs -> abs h !! l <> None) ->
  (forall h', wf h' -> (forall l, l ∉ blocs bs -> abs h' !! l = abs h !! l) -> Q tt h') -> wp (del_batches bs) h Q.
Proof.
  induction bs as [|b bs IH]; intros h Q V ND Ha HQ; cbn [del_batches]; [apply wp_ret; apply HQ; auto|]. change (blocs (b :: bs)) with (b.1 :: b.2 :: blocs bs) in *. apply list.NoDup_cons in ND as [D1 ND]. apply list.NoDup_cons in ND as [D2 ND]. rewrite elem_of_cons in D1.
  destruct (abs h !! b.1) as [v1|] eqn:E1; [|exfalso; apply (Ha b.1); [apply elem_of_list_here|exact E1]]. destruct (abs h !! b.2) as [v2|] eqn:E2; [|exfalso; apply (Ha b.2); [apply elem_of_list_further, elem_of_list_here|exact E2]].
  wbind. eapply wp_del; [exact V|exact E1|]. intros h1 W1 A1 _. wbind. eapply wp_del; [exact W1|rewrite A1, lookup_delete_ne by (intros E; apply D1; left; congruence); exact E2|]. intros h2 W2 A2 _. rewrite A1 in A2.
  apply IH; [exact W2|exact ND| |].
  - intros l Hl. rewrite A2, !lookup_delete_ne by (intros E; subst l; tauto). apply Ha. apply elem_of_list_further, elem_of_list_further, Hl.
  - intros h' W' Fr. apply HQ; [exact W'|]. intros l Hl. rewrite !elem_of_cons in Hl. rewrite Fr by tauto. rewrite A2, !lookup_delete_ne by (intros E; apply Hl; rewrite <- E; tauto). reflexivity.
Qed.
Lemma wp_an_batches base w0 o0 out0 (k m N : nat) ls lr : (Z.of_nat k <= int_max)%Z -> v_ok (ol_act out0) -> act_d_ok (ol_act out0) -> ol_n out0 = Z.of_nat k -> (exists m cs, base !! w0 = Some (SVec m, cs)) -> an_n o0 = Z.of_nat N -> ol_cost out0 <> MAE ->
  length ls = m -> (Z.of_nat m <= int_max)%Z ->
  forall bs d d' h o out wo (Q : ann R -> heap R -> Prop), (forall b, b ∈ bs -> b.2 <> w0 /\ base !! b.2 = Some (AVec ls) /\ exists X, base !! b.1 = Some (Mat k m X)) -> rel base w0 o0 out0 h o out wo ->
  (forall o' out' wo' h', rel base w0 o0 out0 h' o' out' wo' -> Q o' h') -> wp (an_batches lr d d' bs o) h Q.
Proof.
  intros Hk Ha Had Hk0 Hw0 Hn Hc Hl Hm. induction bs as [|[bi bo] bs IH]; intros d d' h o out wo Q Hb R HQ; cbn [an_batches]; [apply wp_ret; eapply HQ; exact R|].
  destruct (Hb (bi, bo) (elem_of_list_here _ _)) as (D & Ho & X & Hi). cbn in D, Ho, Hi.
  wbind. eapply (wp_fwd base w0 o0 out0 k Hk Ha Hk0 Hw0); [exact R|exact Hi|exact Hm|]. intros o1 out1 xin z a h1 R1 T1 _ Ha1 _ _. cbn [fst snd].
  wbind. eapply (wp_stp base w0 o0 out0 k Hk Had h1 o1 out1 wo xin z a bo m N); [exact R1|exact T1|exact Hn|intros E; contradiction|exact Ha1|rewrite (rl_fr _ _ _ _ _ _ _ _ R1) by congruence; exact Ho|apply pred_len|exact Hl|].
  intros o2 out2 wo2 h2 R2 _. wbind. eapply (wp_fwd base w0 o0 out0 k Hk Ha Hk0 Hw0); [exact R2|exact Hi|exact Hm|]. intros o3 out3 xin3 z3 a3 h3 R3 _ _ _ _ _. cbn [fst snd].
  eapply IH; [|exact R3|exact HQ]. intros b I. apply Hb. apply elem_of_list_further, I.
Qed.
Theorem C66_mbgd (o : ann R) out x y w (k n size : nat) X ys lr max d d' dl h : trainable h o out x y w k n X ys -> (max < int_max)%Z -> (forall e, rate_ok o e) -> ol_cost out <> MAE -> (1 <= size <= n)%nat ->
  runs (an_mbgd lr max (Z.of_nat size) d d' dl o) h (fun o' h' => exists out' w' a,
    an_out o' = Some out' /\ ol_w out' = Some w' /\ abs h' !! w' = Some (AVec (drawn_v (ol_wi out) k (dr_o dl))) /\ ol_b out' = dr_b dl /\
    an_yh o' = Some a /\ abs h' !! a = Some (AVec (net_out dl (ol_act out) (ol_wi out) [] k n X)) /\ forall l, abs h !! l <> None -> l <> w -> abs h' !! l = abs h !! l).
Proof.
  intros T Hm Hr Hc Hs. pose proof T as []. apply runs_wp. unfold an_mbgd. rewrite tr_n0, tr_x0, tr_y0. wbind. apply wp_idiv_nat; [lia|exact tr_hn0|].
  assert (Hnb : (0 < n / size)%nat) by (apply Nat.div_str_pos; lia). set (nb := (n / size)%nat) in *.
  wbind. eapply wp_mini_batches_mv; [exact tr_wf0|exact tr_hx0|exact tr_hy0|exact tr_len0|exact Hnb|exact tr_hn0|exact tr_hk0|]. intros bs h1 W1 Lb [B1 B2 B3 B4].
  assert (Hmb : (n / nb <= n)%nat) by (apply Nat.div_le_upper_bound; nia). set (m := (n / nb)%nat) in *.
  assert (Keep : forall l, abs h !! l <> None -> abs h1 !! l = abs h !! l) by (intros l Hl; apply B4; intros I; apply Hl, B2, I).
  assert (Hw1 : exists m cs, abs h1 !! w = Some (SVec m, cs)) by (destruct tr_hw0 as (m1 & cs & E); exists m1, cs; rewrite Keep by congruence; exact E).
  assert (R0 : rel (abs h1) w o out h1 o out w).
  { constructor; try assumption; try tauto. destruct Hw1 as (m1 & cs & E). congruence. }
  assert (Hbs : forall b, b ∈ bs -> b.2 <> w /\ abs h1 !! b.2 = Some (AVec (take m ys)) /\ exists X, abs h1 !! b.1 = Some (Mat k m X)).
  { intros b I. apply elem_of_list_lookup in I as [i Hi]. destruct (B3 i b Hi) as [G1 G2]. split_and!; [|exact G2|eexists; exact G1]. intros E. destruct (blocs_in bs i b Hi) as [_ J]. apply B2 in J. rewrite E in J. destruct tr_hw0 as (? & ? & ?). congruence. }
  wbind. eapply (wp_train (fun _ o1 h2 => exists out1 wo, rel (abs h1) w o out h2 o1 out1 wo)); [exact Hm|exists out, w; exact R0| |].
  - intros i o1 h2 Hi (out1 & wo & R1). assert (Hr1 : rate_ok o1 (Z.of_nat i + 1)) by (destruct (rl_o _ _ _ _ _ _ _ _ R1) as (_ & _ & _ & E1 & E2 & E3); unfold rate_ok; rewrite E1, E3; apply Hr).
    destruct (rate_run o1 lr (Z.of_nat i + 1) h2 Hr1) as [q Eq]. wbind. unfold wp at 1. rewrite Eq.
    eapply (wp_an_batches (abs h1) w o out k m n (take m ys)); try eassumption; [rewrite take_length; lia|lia|]. intros o' out' wo' h' R'. exists out', wo'. exact R'.
  - intros o1 h2 (out1 & wo & R1). unfold an_forward. destruct (rl_o _ _ _ _ _ _ _ _ R1) as (Ex & _). rewrite Ex, tr_x0. wbind. wbind. eapply (wp_fwd (abs h1) w o out k tr_hk0 tr_act0 tr_k0 Hw1); [exact R1|rewrite Keep by congruence; exact tr_hx0|exact tr_hn0|].
    intros o2 out2 xin z a h3 R2 T2 Na Ha Eb _. apply wp_ret. wbind.
    assert (Nb : forall l, l ∈ blocs bs -> l <> w /\ abs h1 !! l <> None).
    { intros l I. split; [intros ->; apply B2 in I; destruct tr_hw0 as (? & ? & ?); congruence|]. unfold blocs in I. apply elem_of_list_bind in I as (b & I & J). apply elem_of_list_lookup in J as [i Hi]. destruct (B3 i b Hi) as [G1 G2]. rewrite !elem_of_cons, elem_of_nil in I. destruct I as [->|[->|[]]]; congruence. }
    eapply wp_del_batches; [apply R2|exact B1|intros l I; destruct (Nb l I); rewrite (rl_fr _ _ _ _ _ _ _ _ R2) by assumption; assumption|]. intros h4 W4 Fr. apply wp_ret. split; [exact W4|]. exists out2, wo, a. cbn [fst snd an_put_yh an_out an_yh]. split_and!; try reflexivity; try apply R2; try apply T2.
    + rewrite Fr; [apply T2|]. intros I. destruct (Nb _ I) as [N1 N2]. destruct (rl_wo _ _ _ _ _ _ _ _ R2) as [->|G]; congruence.
    + exact Eb.
    + rewrite Fr; [exact Ha|]. intros I. destruct (Nb _ I) as [N1 N2]. congruence.
    + intros l Hl Dl. rewrite Fr by (intros I; apply Hl, B2, I). rewrite (rl_fr _ _ _ _ _ _ _ _ R2) by (rewrite ?Keep; assumption). apply Keep, Hl.
Qed.
(** sgd: the output layer's stored pre-activations belong to the last full pass (n of them; none before it), not to the drawn example: unless there is exactly one, the first epoch dereferences a null reference. *)
Theorem C66_sgd_UB (o : ann R) out x y w z (k n i : nat) X ys ws zs lr max (idx : Z -> Z) d d' dl h : trainable h o out x y w k n X ys -> ol_init out = true -> ol_in out = Some x -> abs h !! w = Some (AVec ws) -> length ws = k -> ol_z out = Some z -> abs h !! z = Some (AVec zs) -> length zs <> 1%nat ->
  rate_ok o 1 -> ol_cost out <> MAE -> idx 1%Z = Z.of_nat i -> (i < n)%nat ->
  an_sgd lr max idx d d' dl o h = UB.
Proof.
  intros T Ei Ein Hw Lw Ez Hz Lz Hr Hc Hidx Hi. pose proof T as []. clear tr_hw0. unfold an_sgd.
  apply bind_UB. apply wp_v_new; [exact tr_wf0|]. intros row h1 W1 N1 A1 _. apply bind_UB. rewrite tr_x0. apply wp_deref_Some. apply bind_UB. assert (x <> row) by congruence. eapply wp_m_size; [rewrite A1, lookup_insert_ne by congruence; exact tr_hx0|]. cbn [fst snd].
  apply bind_UB. eapply wp_v_resize; [exact W1|rewrite A1; apply lookup_insert|lia|]. intros h2 W2 A2 _. rewrite A1, insert_insert in A2. clear A1.
  apply bind_UB. apply wp_v_new; [exact W2|]. intros yt h3 W3 N3 A3 _. rewrite A2 in N3, A3. apply lookup_insert_None in N3 as [N3 D3]. apply bind_UB. eapply wp_v_resize; [exact W3|rewrite A3; apply lookup_insert|lia|]. intros h4 W4 A4 _. rewrite A3, insert_insert in A4.
  apply bind_UB. apply wp_v_new; [exact W4|]. intros ot h5 W5 N5 A5 _. rewrite A4 in N5, A5. apply lookup_insert_None in N5 as [N5 D5]. apply lookup_insert_None in N5 as [N5 D5']. apply bind_UB. eapply wp_v_resize; [exact W5|rewrite A5; apply lookup_insert|lia|]. intros h6 W6 A6 _. rewrite A5, insert_insert in A6.
  assert (x <> yt /\ x <> ot /\ y <> row /\ y <> yt /\ y <> ot /\ w <> row /\ w <> yt /\ w <> ot /\ z <> row /\ z <> yt /\ z <> ot) as (? & ? & ? & ? & ? & ? & ? & ? & ? & ? & ?) by (split_and!; congruence).
  clear A2 A3 A4 A5. apply bind_UB_first. unfold train. cbn [epochs]. apply bind_UB_first. unfold an_sgd_epoch. destruct (rate_run o lr 1 h6 Hr) as [q Eq]. apply bind_UB. unfold wp. rewrite Eq.
  rewrite tr_x0, tr_y0, Hidx. apply bind_UB. apply wp_deref_Some. apply bind_UB. eapply (wp_row_into h6 x row k n X i); [exact W6|rewrite A6, !lookup_insert_ne by congruence; exact tr_hx0|rewrite A6, !lookup_insert_ne by congruence; apply lookup_insert|reflexivity|exact Hi|]. intros h7 W7 A7.
  apply bind_UB. apply wp_deref_Some. apply bind_UB. eapply wp_v_get; [exact W7|rewrite A7, A6, !lookup_insert_ne by congruence; exact tr_hy0|]. match goal with |- context [v_set ot 0 ?v] => generalize v; intros yv end.
  apply bind_UB. eapply wp_v_set; [exact W7|rewrite A7, lookup_insert_ne, A6, lookup_insert by congruence; reflexivity|]. intros h8 W8 _ A8. cbn [Z.ltb Z.compare] in A8. change (Z.to_nat 0) with 0%nat in A8. change (Some <$> []) with (@nil (option R)) in A8. change (<[0%nat := Some yv]> (resize (Z.to_nat 1) None (@nil (option R)))) with (Some <$> [yv]) in A8.
  assert (F8 : forall l, abs h !! l <> None -> abs h8 !! l = abs h !! l) by (intros l Hl; rewrite A8, A7, A6, !lookup_insert_ne by congruence; reflexivity).
  assert (O8 : abs h8 !! ot = Some (AVec [yv])) by (rewrite A8, lookup_insert; reflexivity). assert (R8 : abs h8 !! row = Some (AVec (vlist k (X i)))) by (rewrite A8, lookup_insert_ne, A7, lookup_insert by congruence; reflexivity).
  assert (Y8 : abs h8 !! yt = Some (SVec 1, [None])) by (rewrite A8, lookup_insert_ne, A7, lookup_insert_ne, A6, lookup_insert_ne, lookup_insert by congruence; reflexivity). clear A8 A7 A6.
  apply bind_UB. pose proof (C65_model_test o out [] k row (vlist k (X i)) w ws (d 1%Z) h8 W8 ltac:(rewrite tr_net0; exact I) tr_out0 Ei tr_w0 ltac:(rewrite F8 by congruence; exact Hw) Lw R8 (vlist_length _ _)) as G.
  unfold an_model_test in *. rewrite tr_net0, tr_out0 in *. cbn [net_test] in *.
  clear G. wbind. apply wp_ret. cbn [snd fst]. wbind. pose proof (C64_test out (dr_o (d 1%Z)) (dr_b (d 1%Z)) h8 row w k (vlist k (X i)) ws W8 Ei tr_w0 R8 ltac:(rewrite F8 by congruence; exact Hw) (vlist_length _ _) Lw) as G. apply wp_runs in G. eapply wp_mono; [exact G|]. cbv beta.
  intros out1 h9 [W9 (_ & _ & G3 & _ & A9)]. clear G. apply wp_ret. cbn [fst snd].
  apply bind_UB. eapply wp_v_set; [exact W9|rewrite A9; exact Y8|]. intros h10 W10 _ A10. cbn [Z.ltb Z.compare] in A10. rewrite A9 in A10. set (pv := ol_at out1) in *. change (Z.to_nat 0) with 0%nat in A10. change (<[0%nat := Some pv]> [None]) with (Some <$> [pv]) in A10.
  assert (F10 : forall l, abs h !! l <> None -> abs h10 !! l = abs h !! l) by (intros l Hl; rewrite A10, lookup_insert_ne by congruence; apply F8; exact Hl).
  assert (O10 : abs h10 !! ot = Some (AVec [yv])) by (rewrite A10, lookup_insert_ne by congruence; exact O8). assert (Y10 : abs h10 !! yt = Some (AVec [pv])) by (rewrite A10, lookup_insert; reflexivity). clear A10.
  assert (E1 : ol_w out1 = Some w) by (pose proof (G3 KWeights ltac:(discriminate) ltac:(discriminate)) as E; cbn in E; congruence). assert (E2 : ol_z out1 = Some z) by (pose proof (G3 KZ ltac:(discriminate) ltac:(discriminate)) as E; cbn in E; congruence).
  assert (E3 : ol_act out1 = ol_act out) by (pose proof (G3 KAct ltac:(discriminate) ltac:(discriminate)) as E; cbn in E; congruence). assert (E4 : ol_cost out1 = ol_cost out) by (pose proof (G3 KCost ltac:(discriminate) ltac:(discriminate)) as E; cbn in E; congruence).
  assert (E5 : ol_in out1 = Some x) by (pose proof (G3 KInput ltac:(discriminate) ltac:(discriminate)) as E; cbn in E; congruence).
  apply bind_UB_first. unfold an_step. apply bind_UB. pose proof (C65_cost (an_put o [] out1) out1 [] w ws yt ot [pv] [yv] h10 W10 eq_refl ltac:(constructor) E1 ltac:(rewrite F10 by congruence; exact Hw) Y10 O10 eq_refl) as C. unfold wp. rewrite C. clear C. cbn [an_put an_out].
  apply bind_UB_first. unfold an_gradients. apply bind_UB. pose proof (cost_d_run (ol_cost out1) h10 yt ot [pv] [yv] W10 Y10 O10 eq_refl ltac:(intros E; congruence)) as G. apply wp_runs in G. eapply wp_mono; [exact G|]. cbv beta. intros rg h11 [W11 (g & -> & N11 & A11)]. clear G.
  pose proof (cost_d_len (ol_cost out1) [pv] [yv] eq_refl) as Lg. cbn [length] in Lg. apply bind_UB. apply wp_deref_Some. apply bind_UB. rewrite E2. assert (z <> g) by (intros ->; rewrite F10 in N11 by congruence; congruence).
  pose proof (C37_deriv_vector (ol_act out1) h11 z zs W11) as G. rewrite A11, lookup_insert_ne, F10 in G by congruence. specialize (G Hz ltac:(rewrite E3; exact tr_actd0)). apply wp_runs in G. eapply wp_mono; [exact G|]. cbv beta. intros rs h12 [W12 (s & -> & N12 & A12)]. clear G. rewrite A11 in N12, A12. apply lookup_insert_None in N12 as [N12 D12].
  apply bind_UB. unfold v_hadamardn. eapply (wp_v_op2n_early s_mul h12 g s); [exact W12|rewrite A12, lookup_insert_ne, lookup_insert by congruence; reflexivity|rewrite A12; apply lookup_insert|intros E; exfalso; rewrite Lg, fmap_length in E; congruence|]. intros _ h13 W13 A13. rewrite A12 in A13.
  apply bind_UB. cbn [drop_ref]. eapply wp_del; [exact W13|rewrite A13; apply lookup_insert|]. intros h14 W14 A14 _. apply bind_UB. eapply wp_del; [exact W14|rewrite A14, lookup_delete_ne, A13, lookup_insert_ne, lookup_insert by congruence; reflexivity|]. intros h15 W15 A15 _. cbn [ol_set ol_in ol_delta]. rewrite E5.
  assert (x <> g /\ x <> s) as [? ?] by (split; intros ->; [rewrite F10 in N11 by congruence|rewrite F10 in N12 by congruence]; congruence).
  apply bind_UB. unfold xt_vec. wbind. apply wp_deref_Some. wbind. eapply wp_m_transposen; [exact W15|rewrite A15, lookup_delete_ne, A14, lookup_delete_ne, A13, !lookup_insert_ne, F10 by congruence; exact tr_hx0|]. intros tt' h16 W16 N16 A16. wbind. cbn [m_mult_vec]. apply wp_ret. wbind. eapply wp_del; [exact W16|rewrite A16; apply lookup_insert|]. intros h17 W17 A17 _. apply wp_ret.
  reflexivity.
Qed.
