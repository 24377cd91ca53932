(** * C53: the adaptive optimisers of linear regression (momentum, nag, adagrad, adadelta, adam, adamax, nadam). *)
From Verif Require Import Base BaseProofs Vec VecSpec VecProofs Mat MatSpec MatProofs MatProofs2 MatProofs5 Act Cost Util UtilProofs Glm GlmProofs GlmProofs2 GlmProofs4 GlmProofs5 GlmProofs6 CostSpec GdMath GlmSpec GlmMath LibmR PropGlm PropGlm2.
From Coq Require Import Reals Lra.
From Verif Require Import PropAct PropSvm RSum RInst GlmSpec2.

(** ** Any arithmetic *)
Theorem C53_adaptive_run {F} `{Scalar F} `{Libm F} kk (lr : F) max m base x y k n X ys reg la al s Yh o h :
  base !! x = Some (Mat k n X) -> base !! y = Some (AVec ys) -> length ys = n -> (Z.of_nat n <= int_max)%Z -> (Z.of_nat k <= int_max)%Z -> (max < int_max)%Z ->
  (0 < m <= n)%nat -> glmS base x y k n reg la al s Yh o h ->
  runs (adaptive kk lr max (Z.of_nat m) o) h (fun o' h' =>
    let nb := (n / m)%nat in
    let s' := (adaptive_pure k X ys reg la al kk lr (Z.to_nat (Z.max 1 max)) (n / nb) nb s).1 in
    glmS base x y k n reg la al s' (AVec (preds Lin n k X s'.1 s'.2)) o' h').
Proof.
  intros Hx Hy El Hn Hk Hm Hi HS. apply runs_wp. eapply (wp_adaptive base x y k n X ys reg la al); [exact Hx|exact Hy|exact El|exact Hn|exact Hk|exact Hm|exact Hi|exact HS|]. intros o' h'. cbv zeta. intros HS'. split; [apply HS'|exact HS'].
Qed.

Open Scope R_scope.
(** ** The recurrences over the reals *)
Lemma Rpow_nat b t : Rpow b (IZR (Z.of_nat t)) = b ^ t.
Proof.
  unfold Rpow. destruct (Rlt_dec 0 b) as [Hb|Hb]; [rewrite <- INR_IZR_INZ; apply Rpower_pow, Hb|].
  assert (E : Int_part (IZR (Z.of_nat t)) = Z.of_nat t). { unfold Int_part. rewrite <- (tech_up (IZR (Z.of_nat t)) (Z.of_nat t + 1)); [lia|rewrite plus_IZR; lra|rewrite plus_IZR; lra]. }
  rewrite E. destruct (Req_EM_T (IZR (Z.of_nat t)) (IZR (Z.of_nat t))); [|contradiction]. symmetry. apply pow_powerRZ.
Qed.
Lemma Rpow_two x : Rpow x 2 = x ^ 2.
Proof. exact (Rpow_nat x 2). Qed.
Lemma corr_R b (t : nat) : corr (F := R) b (Z.of_nat t) = 1 / (1 - b ^ t).
Proof. unfold corr. cbn [s_div s_one s_sub s_pow s_of_Z R_scalar]. rewrite Rpow_nat. reflexivity. Qed.
Lemma s_max_R a b : s_max (F := R) a b = Rmax a b.
Proof. unfold s_max, s_lt. cbn. unfold Rltb, Rmax. destruct (Rlt_dec b a), (Rle_dec a b); lra. Qed.
Lemma s_abs_R a : s_abs (F := R) a = Rabs a.
Proof. unfold s_abs, s_lt. cbn. unfold Rltb, Rabs. destruct (Rlt_dec a 0), (Rcase_abs a); lra. Qed.

(** A list state and a function state agree on the first k coordinates. *)
Definition rep (k : nat) (s : (list R * R) * (list R * list R)) (f : ost) : Prop :=
  st_len k s /\ s.1.2 = o_b f /\ forall j, (j < k)%nat -> nth j s.1.1 0 = o_w f j /\ nth j s.2.1 0 = o_m f j /\ nth j s.2.2 0 = o_v f j.
Lemma nth_axpy a (vs : list R) b gs j : (j < length vs)%nat -> (j < length gs)%nat -> nth j (axpy a vs b gs) 0 = nth j vs 0 * a + nth j gs 0 * b.
Proof. intros H1 H2. unfold axpy. rewrite nth_zip by (rewrite fmap_length; assumption). rewrite !nth_fmap by assumption. reflexivity. Qed.
Lemma nth_descend lr (ws ds : list R) j : (j < length ws)%nat -> (j < length ds)%nat -> nth j (descend lr ws ds) 0 = nth j ws 0 - nth j ds 0 * lr.
Proof. intros H1 H2. unfold descend. rewrite nth_zip by (rewrite ?fmap_length; assumption). rewrite nth_fmap by assumption. reflexivity. Qed.
Ltac len := repeat first [rewrite axpy_length | rewrite fmap_length | rewrite zip_with_length]; lia.
Ltac nths := repeat first [rewrite nth_descend by len | rewrite nth_axpy by len | rewrite nth_zip by len | rewrite nth_fmap by len].
Lemma opt_pure_coord kk lr (t : nat) (ws ms vs gs : list R) k j : length ws = k -> length ms = k -> length vs = k -> length gs = k -> (j < k)%nat ->
  let u := opt_pure kk lr (Z.of_nat t) ws ms vs gs in
  (nth j u.1 0, nth j u.2.1 0, nth j u.2.2 0) = coord kk lr t (nth j gs 0) (nth j ws 0) (nth j ms 0) (nth j vs 0).
Proof.
  intros L1 L2 L3 L4 Hj. cbv zeta. destruct kk; cbn [opt_pure coord fst snd]; nths; rewrite ?corr_R, ?s_max_R, ?s_abs_R; cbn [s_add s_sub s_mul s_div s_sqrt s_pow s_one s_of_Z R_scalar]; unfold s_two; cbn [s_add s_one R_scalar]; rewrite ?Rpow_nat;
    replace (1 + 1) with 2 by ring; rewrite ?Rpow_two.
  - f_equal; [f_equal|]; ring.
  - f_equal; [f_equal|]; ring.
  - f_equal; f_equal. ring.
  - f_equal; [f_equal|ring]. rewrite (Rmult_comm lr). do 3 f_equal. f_equal. ring.
  - set (m' := nth j ms 0 * b1 + nth j gs 0 * (1 - b1)). replace (b1 * nth j ms 0 + (1 - b1) * nth j gs 0) with m' by (unfold m'; ring).
    set (v' := nth j vs 0 * b2 + nth j gs 0 ^ 2 * (1 - b2)). replace (b2 * nth j vs 0 + (1 - b2) * nth j gs 0 ^ 2) with v' by (unfold v'; ring).
    f_equal; f_equal. rewrite (Rmult_comm lr). do 2 f_equal. unfold Rdiv. rewrite !Rmult_1_l. reflexivity.
  - set (m' := nth j ms 0 * b1 + nth j gs 0 * (1 - b1)). replace (b1 * nth j ms 0 + (1 - b1) * nth j gs 0) with m' by (unfold m'; ring).
    rewrite (Rmult_comm b2). f_equal; f_equal. rewrite (Rmult_comm lr). do 2 f_equal. unfold Rdiv. rewrite !Rmult_1_l. reflexivity.
  - set (m' := nth j ms 0 * b1 + nth j gs 0 * (1 - b1)). replace (b1 * nth j ms 0 + (1 - b1) * nth j gs 0) with m' by (unfold m'; ring).
    set (v' := nth j vs 0 * b2 + nth j gs 0 ^ 2 * (1 - b2)). replace (b2 * nth j vs 0 + (1 - b2) * nth j gs 0 ^ 2) with v' by (unfold v'; ring).
    f_equal; f_equal. rewrite (Rmult_comm lr). do 2 f_equal. unfold Rdiv. rewrite !Rmult_1_l. ring.
Qed.
Lemma quot1 m : (0 < m)%nat -> IZR (Z.quot 1 (Z.of_nat m)) = if decide (m = 1%nat) then 1 else 0.
Proof. intros Hm. destruct (decide (m = 1%nat)) as [->|D]; [reflexivity|]. rewrite Z.quot_small by lia. reflexivity. Qed.
Lemma rep_batch kk lr t m k X ys reg la al s f : (0 < m)%nat -> length ys = m -> rep k s f ->
  rep k (opt_batch_pure kk lr (Z.of_nat t) m k X ys reg la al s) (spec_batch kk lr t m k X (fun r => nth r ys 0) reg la al f).
Proof.
  intros Hm Ey (SL & Eb & Ef). split; [apply opt_batch_length, SL|]. destruct SL as (L1 & L2 & L3).
  assert (Lp : length (look_ahead kk s.1.1 s.2.2) = k) by (apply look_ahead_length; assumption).
  assert (Ep : forall j, (j < k)%nat -> nth j (look_ahead kk s.1.1 s.2.2) 0 = point kk f j).
  { intros j Hj. destruct (Ef j Hj) as (E1 & E2 & E3). unfold look_ahead, point. destruct kk; try exact E1. rewrite nth_descend by lia. rewrite E1, E3. ring. }
  set (p := look_ahead kk s.1.1 s.2.2) in *.
  assert (Ee : forall r, (r < m)%nat -> nth r (errs Lin m k X ys p s.1.2) 0 = batch_err k X (fun r => nth r ys 0) (point kk f) (o_b f) r).
  { intros r Hr. rewrite errs_R by assumption. unfold lossd, batch_err, score. rewrite Eb. cbv beta. f_equal. f_equal. apply Rsum_ext. intros j Hj. rewrite Ep by exact Hj. reflexivity. }
  assert (Eg : forall j, (j < k)%nat -> nth j (batch_grad m k X ys reg la al p s.1.2) 0 = batch_g m k X (fun r => nth r ys 0) reg la al (point kk f) (o_b f) j).
  { intros j Hj. unfold batch_grad, batch_g. rewrite nth_zip by (rewrite !fmap_length, ?xt_e_length; lia). rewrite !nth_fmap by (rewrite ?xt_e_length; lia). rewrite xt_e_R by exact Hj. rewrite Ep by exact Hj.
    cbn [s_add s_mul s_of_Z R_scalar]. rewrite quot1 by exact Hm. rewrite Rmult_comm. f_equal. f_equal. apply Rsum_ext. intros r Hr. rewrite Ee by exact Hr. reflexivity. }
  unfold opt_batch_pure, spec_batch. cbn [fst snd o_w o_b o_m o_v]. fold p. split.
  - rewrite Eb. cbn [s_sub s_mul s_div s_of_Z R_scalar]. rewrite sumv_R, rsum_nth, errs_length by exact Ey. rewrite <- INR_IZR_INZ. do 3 f_equal. apply Rsum_ext. intros r Hr. rewrite <- Ee by exact Hr. rewrite ?Eb. reflexivity.
  - intros j Hj. destruct (Ef j Hj) as (E1 & E2 & E3).
    pose proof (opt_pure_coord kk lr t p s.2.1 s.2.2 (batch_grad m k X ys reg la al p s.1.2) k j Lp L2 L3 ltac:(apply batch_grad_length; exact Lp) Hj) as C. cbv zeta in C.
    rewrite Eg, Ep, E2, E3 in C by exact Hj. rewrite <- C. repeat split.
Qed.
Lemma rep_epoch kk lr t m nb k X ys reg la al s f : (0 < m <= length ys)%nat -> rep k s f ->
  rep k (opt_epoch_pure kk lr (Z.of_nat t) m nb k X ys reg la al s) (spec_epoch kk lr t m nb k X (fun r => nth r (take m ys) 0) reg la al f).
Proof.
  intros Hm. unfold opt_epoch_pure, spec_epoch. generalize (seq 0 nb). intros l. revert s f. induction l as [|i l IH]; intros s f R; [exact R|]. cbn [foldl]. apply IH. apply rep_batch; [lia|rewrite take_length; lia|exact R].
Qed.
Lemma rep_run kk lr T m nb k X ys reg la al s : (0 < m <= length ys)%nat -> length s.1 = k ->
  rep k (adaptive_pure k X ys reg la al kk lr T m nb s) (spec_run kk lr T m nb k X (fun r => nth r (take m ys) 0) reg la al (fun j => nth j s.1 0) s.2).
Proof.
  intros Hm Ls. unfold adaptive_pure, spec_run. rewrite <- fmap_S_seq.
  assert (R0 : rep k (s, (replicate k s_zero, replicate k s_zero)) (OSt (fun j => nth j s.1 0) s.2 (fun _ => 0) (fun _ => 0))).
  { split; [repeat split; [exact Ls|apply replicate_length..]|]. split; [reflexivity|]. intros j Hj. cbn [fst snd o_w o_m o_v]. repeat split; apply nth_lookup_Some, lookup_replicate_2, Hj. }
  revert R0. generalize (s, (replicate k (s_zero (F := R)), replicate k s_zero)) (OSt (fun j => nth j s.1 0) s.2 (fun _ => 0) (fun _ => 0)). generalize (seq 0 T). intros l. induction l as [|t l IH]; intros s0 f0 R0; [exact R0|]. cbn [fmap list_fmap foldl].
  apply IH. replace (Z.of_nat t + 1)%Z with (Z.of_nat (S t)) by lia. apply rep_epoch; [exact Hm|exact R0].
Qed.

Section real.
Context (base : gmap loc (aobj R)) (x y : loc) (k n : nat) (X : nat -> nat -> R) (ys : list R) (reg : regtype) (la al : R).
Context (Hx : base !! x = Some (Mat k n X)) (Hy : base !! y = Some (AVec ys)) (El : length ys = n) (Hn : (Z.of_nat n <= int_max)%Z) (Hk : (Z.of_nat k <= int_max)%Z).

(** Every optimiser follows its textbook recurrence (GlmSpec2), with n / m batches of n / (n / m) rows. *)
Theorem C53_adaptive_textbook kk lr max m ws b Yh o h : (max < int_max)%Z -> (0 < m <= n)%nat -> glmS base x y k n reg la al (ws, b) Yh o h ->
  runs (adaptive kk lr max (Z.of_nat m) o) h (fun o' h' => exists ws' b', glmS base x y k n reg la al (ws', b') (AVec (preds Lin n k X ws' b')) o' h' /\
    let nb := (n / m)%nat in let size := (n / nb)%nat in
    let f := spec_run kk lr (Z.to_nat (Z.max 1 max)) size nb k X (fun r => nth r (take size ys) 0) reg la al (fun j => nth j ws 0) b in
    b' = o_b f /\ forall j, (j < k)%nat -> nth j ws' 0 = o_w f j).
Proof using Hx Hy El Hn Hk.
  intros Hm Hmn HS. assert (Lw : length ws = k) by apply HS. destruct (C53_adaptive_run kk lr max m base x y k n X ys reg la al (ws, b) Yh o h Hx Hy El Hn Hk Hm Hmn HS) as (o' & h' & E & W & HS'). cbv zeta in HS'.
  exists o', h'. split; [exact E|]. split; [exact W|]. eexists _, _. split; [rewrite <- surjective_pairing; exact HS'|]. cbv zeta.
  assert (Hnb : (0 < n / m)%nat) by (apply Nat.div_str_pos; exact Hmn). assert (Hnn : (n / m <= n)%nat) by (apply Nat.div_le_upper_bound; nia). set (nb := (n / m)%nat) in *.
  assert (Hm0 : (0 < n / nb)%nat) by (apply Nat.div_str_pos; lia). assert (n / nb <= n)%nat by (apply Nat.div_le_upper_bound; nia).
  destruct (rep_run kk lr (Z.to_nat (Z.max 1 max)) (n / nb) nb k X ys reg la al (ws, b)) as (_ & Eb & Ef); [lia|exact Lw|]. cbn [fst snd] in *. split; [exact Eb|]. intros j Hj. apply Ef, Hj.
Qed.
(** Parameters for which the recurrence never divides by zero when the gradient vanishes (adamax divides by the running maximum |g| = 0). *)
Definition sane (kk : opt (F := R)) : Prop :=
  match kk with
  | Momentum _ | Nag _ => True | Adagrad e | Adadelta _ e => 0 < e
  | Adam b1 b2 e | Nadam b1 b2 e => 0 < e /\ 0 <= b1 < 1 /\ 0 <= b2 < 1
  | Adamax _ _ => False
  end.
Lemma coord_zero kk lr t w : (coord kk lr t 0 w 0 0).1.1 = w /\ (coord kk lr t 0 w 0 0).1.2 = 0 /\ ((coord kk lr t 0 w 0 0).2 = 0).
Proof.
  destruct kk; cbn [coord fst snd]; repeat split; try ring; unfold Rdiv; rewrite ?Rmult_0_r, ?Rplus_0_r, ?Rmult_0_l, ?Rmult_0_r; try ring.
  all: rewrite ?Rabs_R0; try (rewrite Rmax_left; lra).
Qed.
Lemma spec_frozen kk lr T m nb w b yf : (2 <= m)%nat -> let f := spec_run kk lr T m nb k X yf RNone la al w b in forall j, o_w f j = w j /\ o_m f j = 0 /\ o_v f j = 0.
Proof.
  intros Hm. cbv zeta. unfold spec_run. assert (G : forall l s, (forall j, o_w s j = w j /\ o_m s j = 0 /\ o_v s j = 0) -> forall j, let f := foldl (fun s t => spec_epoch kk lr t m nb k X yf RNone la al s) s l in o_w f j = w j /\ o_m f j = 0 /\ o_v f j = 0).
  { induction l as [|t l IH]; intros s Hs j; [apply Hs|]. cbn [foldl]. apply IH. clear IH j. unfold spec_epoch. revert s Hs. generalize (seq 0 nb). induction l0 as [|i l0 IH]; intros s Hs; [exact Hs|]. cbn [foldl]. apply IH. intros j. destruct (Hs j) as (E1 & E2 & E3).
    unfold spec_batch. cbn [o_w o_m o_v]. assert (Ep : point kk s j = w j) by (unfold point; destruct kk; try exact E1; rewrite E1, E3; ring).
    assert (Eg : batch_g m k (fun r j => X (m * i + r)%nat j) yf RNone la al (point kk s) (o_b s) j = 0) by (unfold batch_g; rewrite decide_False by lia; cbn; ring). rewrite Eg, Ep, E2, E3. apply coord_zero. }
  apply G. intros j. auto.
Qed.

End real.

Section real2.
Context (base : gmap loc (aobj R)) (x y : loc) (k n : nat) (X : nat -> nat -> R) (ys : list R) (la al : R).
Context (Hx : base !! x = Some (Mat k n X)) (Hy : base !! y = Some (AVec ys)) (El : length ys = n) (Hn : (Z.of_nat n <= int_max)%Z) (Hk : (Z.of_nat k <= int_max)%Z).
(** Defect: with a requested batch size of at least 2 and no regularisation the weights never change, whatever the data, learning rate and number of epochs. *)
Theorem C53_weights_frozen_refuted kk lr max m ws b Yh o h : sane kk -> (max < int_max)%Z -> (2 <= m <= n)%nat -> glmS base x y k n RNone la al (ws, b) Yh o h ->
  runs (adaptive kk lr max (Z.of_nat m) o) h (fun o' h' => exists b', glmS base x y k n RNone la al (ws, b') (AVec (preds Lin n k X ws b')) o' h').
Proof using Hx Hy El Hn Hk.
  intros _ Hm Hmn HS. assert (Lw : length ws = k) by apply HS. destruct (C53_adaptive_textbook base x y k n X ys RNone la al Hx Hy El Hn Hk kk lr max m ws b Yh o h Hm ltac:(lia) HS) as (o' & h' & E & W & ws' & b' & HS' & _ & Ew). cbv zeta in Ew.
  exists o', h'. split; [exact E|]. split; [exact W|]. exists b'. replace ws with ws'; [exact HS'|]. assert (Lw' : length ws' = k) by apply HS'.
  assert (Hs : (2 <= n / (n / m))%nat). { assert (0 < n / m)%nat by (apply Nat.div_str_pos; lia). pose proof (Nat.mul_div_le n m ltac:(lia)). apply Nat.div_le_lower_bound; [lia|]. nia. }
  apply list_eq. intros j. destruct (decide (j < k)%nat) as [D|D]; [|rewrite !lookup_ge_None_2 by lia; reflexivity].
  destruct (lookup_lt_is_Some_2 ws j ltac:(lia)) as [u Hu]. destruct (lookup_lt_is_Some_2 ws' j ltac:(lia)) as [u' Hu']. rewrite Hu, Hu'. f_equal.
  specialize (Ew j D). rewrite (nth_lookup_Some ws' j 0 u' Hu') in Ew. rewrite Ew. etransitivity; [eapply spec_frozen; eauto|]. apply nth_lookup_Some, Hu.
Qed.
End real2.

(** Defect: the weights learnt from two or more rows depend on the labels only through the first one. *)
Theorem C53_only_first_label_refuted kk lr max m base base' x y k n X ys ys' la al ws b Yh o o' h h' : sane kk ->
  base !! x = Some (Mat k n X) -> base !! y = Some (AVec ys) -> length ys = n -> base' !! x = Some (Mat k n X) -> base' !! y = Some (AVec ys') -> length ys' = n ->
  (Z.of_nat n <= int_max)%Z -> (Z.of_nat k <= int_max)%Z -> (max < int_max)%Z -> (0 < m <= n)%nat -> nth 0 ys 0 = nth 0 ys' 0 ->
  glmS base x y k n RNone la al (ws, b) Yh o h -> glmS base' x y k n RNone la al (ws, b) Yh o' h' -> (2 <= n)%nat ->
  exists ws', runs (adaptive kk lr max (Z.of_nat m) o) h (fun o1 h1 => exists b1 P, glmS base x y k n RNone la al (ws', b1) P o1 h1) /\
              runs (adaptive kk lr max (Z.of_nat m) o') h' (fun o1 h1 => exists b1 P, glmS base' x y k n RNone la al (ws', b1) P o1 h1).
Proof.
  intros Sk Hx Hy El Hx' Hy' El' Hn Hk Hm Hmn E0 HS HS' Hn2. destruct (decide (m = 1%nat)) as [->|D].
  - pose proof (C53_adaptive_run kk lr max 1 base x y k n X ys RNone la al (ws, b) Yh o h Hx Hy El Hn Hk Hm Hmn HS) as R1.
    pose proof (C53_adaptive_run kk lr max 1 base' x y k n X ys' RNone la al (ws, b) Yh o' h' Hx' Hy' El' Hn Hk Hm Hmn HS') as R2.
    assert (Et : adaptive_pure k X ys RNone la al kk lr (Z.to_nat (Z.max 1 max)) (n / (n / 1)) (n / 1) (ws, b) = adaptive_pure k X ys' RNone la al kk lr (Z.to_nat (Z.max 1 max)) (n / (n / 1)) (n / 1) (ws, b)).
    { rewrite Nat.div_1_r, Nat.div_same by lia. assert (E1 : take 1 ys = take 1 ys') by (destruct ys as [|a ys], ys' as [|a' ys']; cbn in E0, El, El'; [lia|lia|lia|]; cbn; rewrite E0; reflexivity). unfold adaptive_pure, opt_epoch_pure. rewrite E1. reflexivity. }
    eexists. split; [destruct R1 as (o1 & h1 & E & W & S1)|destruct R2 as (o1 & h1 & E & W & S1)]; exists o1, h1; (split; [exact E|]); (split; [exact W|]); cbv zeta in S1; eexists _, _; [rewrite <- surjective_pairing; exact S1|].
    rewrite <- Et in S1. rewrite <- surjective_pairing. exact S1.
  - exists ws. split.
    + destruct (C53_weights_frozen_refuted base x y k n X ys la al Hx Hy El Hn Hk kk lr max m ws b Yh o h Sk Hm ltac:(lia) HS) as (o1 & h1 & E & W & b1 & S1). exists o1, h1. eauto.
    + destruct (C53_weights_frozen_refuted base' x y k n X ys' la al Hx' Hy' El' Hn Hk kk lr max m ws b Yh o' h' Sk Hm ltac:(lia) HS') as (o1 & h1 & E & W & b1 & S1). exists o1, h1. eauto.
Qed.
(** Adagrad: every batch moves every weight by at most |lr|. *)
Theorem C53_adagrad_bounded e lr max m base x y k n X ys reg la al ws b Yh o h : 0 < e ->
  base !! x = Some (Mat k n X) -> base !! y = Some (AVec ys) -> length ys = n -> (Z.of_nat n <= int_max)%Z -> (Z.of_nat k <= int_max)%Z -> (max < int_max)%Z -> (0 < m <= n)%nat ->
  glmS base x y k n reg la al (ws, b) Yh o h ->
  runs (adaptive (Adagrad e) lr max (Z.of_nat m) o) h (fun o' h' => exists ws' b' P, glmS base x y k n reg la al (ws', b') P o' h' /\
    forall j, (j < k)%nat -> Rabs (nth j ws' 0 - nth j ws 0) <= INR (Z.to_nat (Z.max 1 max) * (n / m)) * Rabs lr).
Proof.
  intros He Hx Hy El Hn Hk Hm Hmn HS. destruct (C53_adaptive_textbook base x y k n X ys reg la al Hx Hy El Hn Hk (Adagrad e) lr max m ws b Yh o h Hm Hmn HS) as (o' & h' & E & W & ws' & b' & HS' & _ & Ew). cbv zeta in Ew.
  exists o', h'. split; [exact E|]. split; [exact W|]. exists ws', b'. eexists. split; [exact HS'|]. intros j Hj. rewrite Ew by exact Hj. clear Ew. set (T := Z.to_nat (Z.max 1 max)). set (nb := (n / m)%nat). set (size := (n / nb)%nat). set (yf := fun r => nth r (take size ys) 0). clearbody T nb yf size. clear - He.
  assert (Bt : forall t m X s, Rabs (o_w (spec_batch (Adagrad e) lr t m k X yf reg la al s) j - o_w s j) <= Rabs lr).
  { intros t m' X' s. unfold spec_batch. cbn [o_w point coord fst snd]. set (g := batch_g m' k X' yf reg la al _ (o_b s) j). replace (o_w s j - lr * (g / sqrt (g * g + e)) - o_w s j) with (lr * (- (g / sqrt (g * g + e)))) by ring. rewrite Rabs_mult, Rabs_Ropp.
    rewrite <- (Rmult_1_r (Rabs lr)) at 2. apply Rmult_le_compat_l; [apply Rabs_pos|]. assert (0 <= g * g) by nra. assert (Hs : 0 < sqrt (g * g + e)) by (apply sqrt_lt_R0; lra). unfold Rdiv. rewrite Rabs_mult, (Rabs_right (/ _)) by (left; apply Rinv_0_lt_compat, Hs).
    apply (Rmult_le_reg_r (sqrt (g * g + e)) _ _ Hs). rewrite Rmult_assoc, Rinv_l, Rmult_1_r, Rmult_1_l by lra. rewrite <- sqrt_Rsqr_abs. apply sqrt_le_1; unfold Rsqr; lra. }
  assert (Ep : forall t nb s, Rabs (o_w (spec_epoch (Adagrad e) lr t size nb k X yf reg la al s) j - o_w s j) <= INR nb * Rabs lr).
  { intros t nb0 s. unfold spec_epoch. induction nb0 as [|q IH]; [cbn; rewrite Rminus_diag_eq by reflexivity; rewrite Rabs_R0; lra|]. rewrite seq_S, foldl_app. cbn [foldl plus]. set (s1 := foldl _ s (seq 0 q)) in *. rewrite S_INR.
    match goal with |- Rabs (o_w ?a j - _) <= _ => set (s2 := a) end. assert (B := Bt t size (fun r j => X (size * q + r)%nat j) s1). fold s2 in B.
    replace (o_w s2 j - o_w s j) with ((o_w s2 j - o_w s1 j) + (o_w s1 j - o_w s j)) by ring. eapply Rle_trans; [apply Rabs_triang|]. lra. }
  unfold spec_run. generalize 1%nat. intros st. change (nth j ws 0) with (o_w (OSt (fun j => nth j ws 0) b (fun _ => 0) (fun _ => 0)) j). generalize (OSt (fun j => nth j ws 0) b (fun _ => 0) (fun _ => 0)). intros s.
  induction T as [|T IH]; [cbn; rewrite Rminus_diag_eq by reflexivity; rewrite Rabs_R0; lra|]. rewrite seq_S, foldl_app. cbn [foldl]. set (s1 := foldl _ s (seq st T)) in *. specialize (Ep (st + T)%nat nb s1). set (s2 := spec_epoch _ _ (st + T)%nat _ _ _ _ _ _ _ _ s1) in *.
  replace (o_w s2 j - o_w s j) with ((o_w s2 j - o_w s1 j) + (o_w s1 j - o_w s j)) by ring. eapply Rle_trans; [apply Rabs_triang|]. cbn [Nat.mul]. rewrite plus_INR. lra.
Qed.
