(** * C69-C72 over exact reals.  [link], [link'], [J_link], [step], [model]: LnkSpec.  [ready], [trained]: PropLnk. *)
From Verif Require Import Base BaseProofs Vec VecSpec VecProofs VecProofs2 Mat MatSpec MatProofs MatProofs2 MatProofs5 Act ActProofs Sym Svm Cost CostSpec Util UtilProofs Glm GlmProofs GlmProofs2 GdMath GlmSpec GlmMath LibmR PropGlm PropGlm2 PropGlm5 Lnk LnkProofs LnkProofs2 LnkProofs3 LnkSpec LnkMath PropLnk.
From Coq Require Import Reals Lra.
From Verif Require Import RErf PropAct PropAct2 PropSvm RSum RInst.
Open Scope R_scope.

(** ** C69 *)
Theorem C69_link_derivative c z : derivable_pt_lim (link c) z (link' c z).
Proof. apply D_link. Qed.
(** [score k X ws b i]: the inner product of row i and the weights, plus the bias (GlmSpec). *)
Theorem C69_model_test c x y k n X reg la al base s o (h : heap R) r xs : base !! x = Some (Mat k n X) -> ready c x y k n reg la al base s o h -> base !! r = Some (AVec xs) -> length xs = k ->
  runs (l_model_test c o (Some r)) h (fun v h' => v = link c (Rsum k (fun j => nth j xs 0 * nth j s.1 0) + s.2) /\ h' = h).
Proof.
  intros Hx HR Hr Lx. apply runs_wp. eapply wp_mono; [exact (C69_model_test_any c x y k n X reg la al base s o h r xs Hx HR Hr Lx)|]. cbv beta. intros v h' [-> ->]. split; [exact (ready_wf _ _ _ _ _ _ _ _ _ _ _ _ HR)|]. split; [|reflexivity].
  rewrite norm_r_R. f_equal. assert (Lw := ready_len _ _ _ _ _ _ _ _ _ _ _ _ HR). rewrite dotl_R by congruence. rewrite Lx. cbn [s_add R_scalar]. reflexivity.
Qed.
Theorem C69_model_set_test c x y k n X reg la al base s o (h : heap R) z m Z_ : base !! x = Some (Mat k n X) -> ready c x y k n reg la al base s o h -> base !! z = Some (Mat k m Z_) -> (Z.of_nat m <= int_max)%Z ->
  runs (l_model_set_test c o (Some z)) h (fun r h' => exists d vs, r = Some d /\ abs h !! d = None /\ abs h' = <[d := AVec vs]> (abs h) /\ length vs = m /\
    forall i, (i < m)%nat -> nth i vs 0 = link c (score k Z_ s.1 s.2 i)).
Proof.
  intros Hx HR Hz Hm. destruct (C69_model_set_test_any c x y k n X reg la al base s o h z m Z_ Hx HR Hz Hm) as (r & h' & E & W & d & Er & N & A). exists r, h'. split; [exact E|]. split; [exact W|]. eexists d, _. split; [exact Er|]. split; [exact N|]. split; [exact A|].
  split; [apply lpreds_length|]. intros i Hi. apply lpreds_R, Hi.
Qed.
(** Predictions are probabilities (CLogLog, Probit) or in (-1, 1) (Tanh), and increase with the score. *)
Theorem C69_link_increasing c z1 z2 : z1 < z2 -> link c z1 < link c z2.
Proof.
  intros Hz. assert (Hd : derivable (link c)) by (intros z; exists (link' c z); apply D_link).
  apply (positive_derivative (link c) Hd); [|exact Hz]. intros z. replace (derive_pt (link c) z (Hd z)) with (link' c z).
  - destruct c; cbn [link'].
    + apply Rmult_lt_0_compat; apply exp_pos.
    + assert (B := tanh_eq z). unfold tanh. rewrite <- (Rmult_1_l 1). unfold sinh, cosh. assert (0 < exp z) by apply exp_pos. assert (0 < exp (- z)) by apply exp_pos.
      replace (1 * 1 - (exp z - exp (- z)) / 2 / ((exp z + exp (- z)) / 2) * ((exp z - exp (- z)) / 2 / ((exp z + exp (- z)) / 2))) with (4 * (exp z * exp (- z)) / ((exp z + exp (- z)) * (exp z + exp (- z)))) by (field; lra).
      apply Rdiv_lt_0_compat; [|apply Rmult_lt_0_compat; lra]. assert (0 < exp z * exp (- z)) by (apply Rmult_lt_0_compat; assumption). lra.
    + apply Rmult_lt_0_compat; [|apply exp_pos]. apply Rinv_0_lt_compat. apply sqrt_lt_R0. assert (0 < PI) by apply PI_RGT_0. lra.
  - symmetry. apply derive_pt_eq_0, D_link.
Qed.
(** ** C70 *)
Lemma sgn_one c mle : (c = Tanh /\ mle = false \/ c = Probit) -> (if mle then -1 else 1) * sgn c mle = 1 /\ cd c = link' c.
Proof. intros [[-> ->]| ->]; [|destruct mle]; cbn [sgn]; split; reflexivity || lra. Qed.
Lemma step_0 v g : length g = length v -> step 0 v g = v.
Proof. revert g. unfold step. induction v as [|a v IH]; intros [|q g] L; try discriminate; [reflexivity|]. cbn in L. cbn. rewrite IH by lia. f_equal. ring. Qed.
Lemma step_neg lr v (f : nat -> R) l : step lr v ((fun p => -1 * f p) <$> l) = step (- lr) v (f <$> l).
Proof. unfold step. revert l. induction v as [|a v IH]; intros [|q l]; try reflexivity. cbn [fmap list_fmap zip_with]. rewrite <- (IH l). f_equal. ring. Qed.
Lemma nth_gdir f f' d n k X ys ws b p : (p < S k)%nat -> nth p (gdir f f' d n k X ys ws b <$> seq 0 (S k)) 0 = gdir f f' d n k X ys ws b p.
Proof. intros Hp. apply nth_lookup_Some. rewrite list_lookup_fmap, lookup_seq_lt by exact Hp. reflexivity. Qed.
(** Full-batch training of MLPPTanhReg and MLPPProbitReg (both methods) follows the gradient of the cost. *)
Theorem C70_gd_path c mle lr base x y k n X ys la al s o (h : heap R) : (c = Tanh /\ mle = false \/ c = Probit) ->
  base !! x = Some (Mat k n X) -> base !! y = Some (AVec ys) -> length ys = n -> (0 < n)%nat -> (Z.of_nat n <= int_max)%Z -> (Z.of_nat k <= int_max)%Z -> ready c x y k n RNone la al base s o h ->
  exists st : nat -> list R * R, st 0%nat = s /\
    (forall t, exists g, gradient (J_link c n k X ys) (model (st t)) g /\ model (st (S t)) = step lr (model (st t)) g) /\
    forall max, (max < int_max)%Z -> runs (l_gradient_descent c mle lr max o) h (fun o' h' => trained c x y k n X RNone la al base (st (Z.to_nat (Z.max 1 max))) o' h').
Proof.
  intros Hc Hx Hy El Hp Hn Hk HR. assert (Ls := ready_len _ _ _ _ _ _ _ _ _ _ _ _ HR). set (f := lgd_pure (F := R) c mle lr n k X ys RNone la al). exists (fun t => Nat.iter t f s). split; [reflexivity|]. split.
  - intros t. assert (Lt : length (Nat.iter t f s).1 = k). { induction t as [|t IH]; [exact Ls|]. rewrite Nat.iter_succ. unfold f at 1. cbn. rewrite fmap_length, zip_with_length, fmap_length, xt_e_length. lia. }
    destruct (Nat.iter t f s) as [ws b] eqn:Es. cbn in Lt. eexists. split; [apply gdir_gradient, Lt|]. rewrite Nat.iter_succ, Es. unfold f. rewrite lgd_R by assumption. f_equal. apply list_fmap_ext. intros _ p _.
    destruct (sgn_one c mle Hc) as [E1 E2]. rewrite E1, E2. apply Rmult_1_l.
  - intros max Hm. exact (C70_gd_run c mle lr max base x y k n X ys RNone la al s o h Hx Hy El Hn Hk Hm HR).
Qed.
Lemma gradient_unique C v g g' : gradient C v g -> gradient C v g' -> g = g'.
Proof.
  intros [L D] [L' D']. apply list_eq. intros i. destruct (v !! i) as [x|] eqn:E.
  - assert (Hi := lookup_lt_Some _ _ _ E). destruct (lookup_lt_is_Some_2 g i) as [a Ha]; [lia|]. destruct (lookup_lt_is_Some_2 g' i) as [a' Ha']; [lia|]. rewrite Ha, Ha'. f_equal. exact (uniqueness_limite _ _ _ _ (D i x a E Ha) (D' i x a' E Ha')).
  - apply lookup_ge_None in E. rewrite !lookup_ge_None_2 by lia. reflexivity.
Qed.
Lemma Rsum_sq_pos n (f : nat -> R) p : (p < n)%nat -> f p <> 0 -> 0 < Rsum n (fun i => f i * f i).
Proof.
  intros Hp Hf. rewrite (Rsum_split n p) by lia. assert (0 <= Rsum p (fun i => f i * f i)) by (apply Rsum_nonneg; intros; apply Rle_0_sqr).
  rewrite (Rsum_split (n - p) 1) by lia. rewrite Rsum_S. change (Rsum 0 _) with 0. assert (0 <= Rsum (n - p - 1) (fun i => f (p + (1 + i))%nat * f (p + (1 + i))%nat)) by (apply Rsum_nonneg; intros; apply Rle_0_sqr).
  cbv beta. rewrite Nat.add_0_r. assert (0 < f p * f p) by (apply Rsqr_pos_lt in Hf; exact Hf). lra.
Qed.
(** A non-zero gradient has some non-zero component; then one epoch with a small enough rate lowers the cost. *)
Theorem C70_small_rate c mle base x y k n X ys la al s o (h : heap R) g : (c = Tanh /\ mle = false \/ c = Probit) ->
  base !! x = Some (Mat k n X) -> base !! y = Some (AVec ys) -> length ys = n -> (0 < n)%nat -> (Z.of_nat n <= int_max)%Z -> (Z.of_nat k <= int_max)%Z -> ready c x y k n RNone la al base s o h ->
  gradient (J_link c n k X ys) (model s) g -> (exists p gp, g !! p = Some gp /\ gp <> 0) ->
  exists lr0, 0 < lr0 /\ forall lr, 0 < lr < lr0 ->
    runs (l_gradient_descent c mle lr 1 o) h (fun o' h' => exists s', trained c x y k n X RNone la al base s' o' h' /\ J_link c n k X ys (model s') < J_link c n k X ys (model s)).
Proof.
  intros Hc Hx Hy El Hp Hn Hk HR Hg (p & gp & Ep & Hnz). assert (Ls := ready_len _ _ _ _ _ _ _ _ _ _ _ _ HR). destruct s as [ws b]. cbn [fst] in Ls. unfold model at 1 in Hg. cbn [fst snd] in Hg.
  assert (Eg := gradient_unique _ _ _ _ Hg (gdir_gradient c n k X ys ws b Ls)). assert (Lg : length g = S k) by (rewrite Eg, fmap_length, seq_length; reflexivity).
  assert (HJ := J_line c n k X ys ws b g Ls Lg). set (d := - Rsum _ _) in HJ.
  assert (Hpk : (p < S k)%nat) by (apply lookup_lt_Some in Ep; lia).
  assert (Hd : d < 0).
  { unfold d. rewrite (Rsum_ext (S k) _ (fun q => gdir (link c) (link' c) (INR n) n k X ys ws b q * gdir (link c) (link' c) (INR n) n k X ys ws b q)).
    - assert (0 < Rsum (S k) (fun q => gdir (link c) (link' c) (INR n) n k X ys ws b q * gdir (link c) (link' c) (INR n) n k X ys ws b q)); [|lra]. apply (Rsum_sq_pos _ _ p Hpk). rewrite Eg, list_lookup_fmap, lookup_seq_lt in Ep by exact Hpk. injection Ep as Ep. cbn [plus] in Ep. congruence.
    - intros q Hq. f_equal. rewrite Eg. apply nth_gdir, Hq. }
  destruct (small_step _ d HJ) as (t0 & Ht0 & G); [lra|]. exists t0. split; [exact Ht0|]. intros lr Hlr. destruct (G lr Hlr) as [G1 _]. specialize (G1 Hd).
  destruct (C70_gd_run c mle lr 1 base x y k n X ys RNone la al (ws, b) o h Hx Hy El Hn Hk ltac:(unfold int_max; lia) HR) as (o' & h' & E & W & T). exists o', h'. split; [exact E|]. split; [exact W|]. eexists. split; [exact T|].
  change (Z.to_nat (Z.max 1 1)) with 1%nat. cbn [Nat.iter nat_rect]. rewrite lgd_R by assumption. unfold model. cbn [fst snd].
  replace ((fun q => (if mle then -1 else 1) * sgn c mle * gdir (link c) (cd c) (INR n) n k X ys ws b q) <$> seq 0 (S k)) with g.
  - rewrite step_0 in G1 by (cbn; lia). exact G1.
  - rewrite Eg. destruct (sgn_one c mle Hc) as [E1 E2]. rewrite E1, E2. apply list_fmap_ext. intros _ q _. symmetry. apply Rmult_1_l.
Qed.
(** MLPPCLogLogReg: the slope used is exp(-exp z) instead of exp z * exp(-exp z), and mle steps in the opposite direction. *)
Definition cll_direction (n k : nat) (X : nat -> nat -> R) (ys : list R) (v : list R) (p : nat) : R :=
  / INR n * Rsum n (fun i => let z := score k X (drop 1 v) (nth 0 v 0) i in (link CLogLog z - nth i ys 0) * exp (- exp z) * match p with O => 1 | S j => X i j end).
Theorem C70_cloglog_path (mle : bool) lr base x y k n X ys la al s o (h : heap R) :
  base !! x = Some (Mat k n X) -> base !! y = Some (AVec ys) -> length ys = n -> (0 < n)%nat -> (Z.of_nat n <= int_max)%Z -> (Z.of_nat k <= int_max)%Z -> ready CLogLog x y k n RNone la al base s o h ->
  exists st : nat -> list R * R, st 0%nat = s /\
    (forall t, model (st (S t)) = step (if mle then - lr else lr) (model (st t)) (cll_direction n k X ys (model (st t)) <$> seq 0 (S k))) /\
    forall max, (max < int_max)%Z -> runs (l_gradient_descent CLogLog mle lr max o) h (fun o' h' => trained CLogLog x y k n X RNone la al base (st (Z.to_nat (Z.max 1 max))) o' h').
Proof.
  intros Hx Hy El Hp Hn Hk HR. assert (Ls := ready_len _ _ _ _ _ _ _ _ _ _ _ _ HR). set (f := lgd_pure (F := R) CLogLog mle lr n k X ys RNone la al). exists (fun t => Nat.iter t f s). split; [reflexivity|]. split.
  - intros t. assert (Lt : length (Nat.iter t f s).1 = k). { induction t as [|t IH]; [exact Ls|]. rewrite Nat.iter_succ. unfold f at 1. cbn. rewrite fmap_length, zip_with_length, fmap_length, xt_e_length. lia. }
    destruct (Nat.iter t f s) as [ws b] eqn:Es. cbn in Lt. rewrite Nat.iter_succ, Es. unfold f. rewrite lgd_R by assumption. 
    unfold model. cbn [fst snd]. destruct mle; cbn [sgn].
    + rewrite <- step_neg. f_equal. apply list_fmap_ext. intros _ p _. rewrite Rmult_1_r. reflexivity.
    + f_equal. apply list_fmap_ext. intros _ p _. rewrite !Rmult_1_l. reflexivity.
  - intros max Hm. exact (C70_gd_run CLogLog mle lr max base x y k n X ys RNone la al s o h Hx Hy El Hn Hk Hm HR).
Qed.
Lemma cll_epoch lr (n k : nat) X ys ws b (mle : bool) la al : (0 < n)%nat -> length ws = k -> length ys = n -> 
  model (lgd_pure (F := R) CLogLog mle lr n k X ys RNone la al (ws, b)) = step lr (b :: ws) ((fun p => (if mle then -1 else 1) * gdir (link CLogLog) (cd CLogLog) (INR n) n k X ys ws b p) <$> seq 0 (S k)).
Proof. intros Hp Lw Ly. rewrite lgd_R by assumption. f_equal. apply list_fmap_ext. intros _ p _. cbn [sgn]. destruct mle; ring. Qed.
(** For some data every sufficiently small rate makes gradient_descent increase the cost. *)
Definition Xc (i j : nat) : R := match i with O => 0 | _ => / 10 end.
Definition yc : list R := [link CLogLog 0 - 2 * exp 1; link CLogLog (ln 4) + exp 4].
Definition sc : list R * R := ([10 * ln 4], 0).
Theorem C70_cloglog_gd_refuted : exists (X : nat -> nat -> R) ys s lr0, length ys = 2%nat /\ length s.1 = 1%nat /\ 0 < lr0 /\
  forall lr base x y la al o (h : heap R), 0 < lr < lr0 -> base !! x = Some (Mat 1 2 X) -> base !! y = Some (AVec ys) -> ready CLogLog x y 1 2 RNone la al base s o h ->
    runs (l_gradient_descent CLogLog false lr 1 o) h (fun o' h' => exists s', trained CLogLog x y 1 2 X RNone la al base s' o' h' /\ J_link CLogLog 2 1 X ys (model s) < J_link CLogLog 2 1 X ys (model s')).
Proof.
  set (g := (fun p => 1 * gdir (link CLogLog) (cd CLogLog) (INR 2) 2 1 Xc yc [10 * ln 4] 0 p) <$> seq 0 2).
  assert (S0 : score 1 Xc [10 * ln 4] 0 0 = 0) by (unfold score; rewrite Rsum_S; change (Rsum 0 _) with 0; cbn; ring).
  assert (S1 : score 1 Xc [10 * ln 4] 0 1 = ln 4) by (unfold score; rewrite Rsum_S; change (Rsum 0 _) with 0; cbn [Xc nth]; field).
  assert (Ex : exp (ln 4) = 4) by (apply exp_ln; lra). assert (E1 : exp 1 * exp (-1) = 1) by (rewrite <- exp_plus, Rplus_opp_r; apply exp_0). assert (E4 : exp 4 * exp (-4) = 1) by (rewrite <- exp_plus, Rplus_opp_r; apply exp_0).
  assert (Hg : forall f' p, gdir (link CLogLog) f' (INR 2) 2 1 Xc yc [10 * ln 4] 0 p = / 2 * (2 * exp 1 * f' 0 * co Xc 0 p - exp 4 * f' (ln 4) * co Xc 1 p)).
  { intros f' p. unfold gdir. rewrite !Rsum_S. change (Rsum 0 _) with 0. rewrite S0, S1. cbn [yc nth INR]. field. }
  assert (C0 : cd CLogLog 0 = exp (-1)) by (cbn [cd]; rewrite exp_0; f_equal; lra). assert (C1 : cd CLogLog (ln 4) = exp (-4)) by (cbn [cd]; rewrite Ex; reflexivity).
  assert (L0 : link' CLogLog 0 = exp (-1)) by (cbn [link']; rewrite exp_0; rewrite Rmult_1_l; f_equal; lra). assert (L1 : link' CLogLog (ln 4) = 4 * exp (-4)) by (cbn [link']; rewrite Ex; reflexivity).
  assert (HJ := J_line CLogLog 2 1 Xc yc [10 * ln 4] 0 g eq_refl eq_refl). set (d := - Rsum _ _) in HJ.
  assert (Hd : d = 49 / 100).
  { unfold d, g. rewrite !Rsum_S. change (Rsum 0 _) with 0. cbn [seq fmap list_fmap nth]. rewrite !Hg, C0, C1, L0, L1. unfold co, Xc.
    replace (2 * exp 1 * exp (-1)) with 2 by (rewrite Rmult_assoc, E1; lra). replace (exp 4 * (4 * exp (-4))) with (4 * (exp 4 * exp (-4))) by ring. rewrite E4. lra. }
  destruct (small_step _ d HJ) as (t0 & Ht0 & G); [lra|]. exists Xc, yc, sc, t0. split; [reflexivity|]. split; [reflexivity|]. split; [exact Ht0|].
  intros lr base x y la al o h Hlr Hx Hy HR. destruct (G lr Hlr) as [_ G2]. specialize (G2 ltac:(lra)). rewrite step_0 in G2 by reflexivity.
  destruct (C70_gd_run CLogLog false lr 1 base x y 1 2 Xc yc RNone la al sc o h Hx Hy eq_refl ltac:(unfold int_max; lia) ltac:(unfold int_max; lia) ltac:(unfold int_max; lia) HR) as (o' & h' & E & W & T). exists o', h'. split; [exact E|]. split; [exact W|]. eexists. split; [exact T|].
  change (Z.to_nat (Z.max 1 1)) with 1%nat. cbn [Nat.iter nat_rect]. unfold sc at 2. rewrite cll_epoch by (reflexivity || lia). exact G2.
Qed.
(** MLPPCLogLogReg::mle on a single example: wherever the gradient is not zero, every sufficiently small rate increases the cost. *)
Theorem C70_cloglog_mle_refuted base x y k X y0 la al s o (h : heap R) :
  base !! x = Some (Mat k 1 X) -> base !! y = Some (AVec [y0]) -> (Z.of_nat k <= int_max)%Z -> ready CLogLog x y k 1 RNone la al base s o h -> link CLogLog (score k X s.1 s.2 0) <> y0 ->
  exists lr0, 0 < lr0 /\ forall lr, 0 < lr < lr0 ->
    runs (l_gradient_descent CLogLog true lr 1 o) h (fun o' h' => exists s', trained CLogLog x y k 1 X RNone la al base s' o' h' /\ J_link CLogLog 1 k X [y0] (model s) < J_link CLogLog 1 k X [y0] (model s')).
Proof.
  intros Hx Hy Hk HR Hne. assert (Ls := ready_len _ _ _ _ _ _ _ _ _ _ _ _ HR). destruct s as [ws b]. cbn [fst snd] in *.
  set (g := (fun p => -1 * gdir (link CLogLog) (cd CLogLog) (INR 1) 1 k X [y0] ws b p) <$> seq 0 (S k)). assert (Lg : length g = S k) by (unfold g; rewrite fmap_length; apply seq_length).
  assert (HJ := J_line CLogLog 1 k X [y0] ws b g Ls Lg). set (d := - Rsum _ _) in HJ. set (z := score k X ws b 0) in *.
  assert (Hg : forall f' p, gdir (link CLogLog) f' (INR 1) 1 k X [y0] ws b p = (link CLogLog z - y0) * f' z * co X 0 p).
  { intros f' p. unfold gdir. rewrite Rsum_S. change (Rsum 0 _) with 0. cbn [nth INR]. fold z. field. }
  assert (Hd : 0 < d).
  { unfold d. rewrite (Rsum_ext (S k) _ (fun p => - ((link CLogLog z - y0) * (link CLogLog z - y0) * link' CLogLog z * cd CLogLog z) * (co X 0 p * co X 0 p))).
    - rewrite Rsum_scal. assert (0 < Rsum (S k) (fun p => co X 0 p * co X 0 p)) by (apply (Rsum_sq_pos _ _ 0%nat); [lia|cbn; lra]).
      assert (0 < (link CLogLog z - y0) * (link CLogLog z - y0)) by (apply Rsqr_pos_lt; lra). assert (0 < link' CLogLog z) by (cbn [link']; apply Rmult_lt_0_compat; apply exp_pos). assert (0 < cd CLogLog z) by apply exp_pos.
      assert (0 < (link CLogLog z - y0) * (link CLogLog z - y0) * link' CLogLog z * cd CLogLog z) by (apply Rmult_lt_0_compat; [apply Rmult_lt_0_compat|]; assumption).
      rewrite <- Ropp_mult_distr_l, Ropp_involutive. apply Rmult_lt_0_compat; assumption.
    - intros p Hp. unfold g. rewrite (nth_lookup_Some _ p 0 (-1 * gdir (link CLogLog) (cd CLogLog) (INR 1) 1 k X [y0] ws b p)) by (rewrite list_lookup_fmap, lookup_seq_lt by exact Hp; reflexivity). rewrite !Hg. ring. }
  destruct (small_step _ d HJ) as (t0 & Ht0 & G); [lra|]. exists t0. split; [exact Ht0|]. intros lr Hlr. destruct (G lr Hlr) as [_ G2]. specialize (G2 Hd). rewrite step_0 in G2 by (rewrite Lg, <- Ls; reflexivity).
  destruct (C70_gd_run CLogLog true lr 1 base x y k 1 X [y0] RNone la al (ws, b) o h Hx Hy eq_refl ltac:(unfold int_max; lia) Hk ltac:(unfold int_max; lia) HR) as (o' & h' & E & W & T). exists o', h'. split; [exact E|]. split; [exact W|]. eexists. split; [exact T|].
  change (Z.to_nat (Z.max 1 1)) with 1%nat. cbn [Nat.iter nat_rect]. rewrite cll_epoch by (assumption || reflexivity || lia). exact G2.
Qed.
(** ** C71 *)
(** sgd of MLPPCLogLogReg and MLPPProbitReg follows the gradient of the cost of the drawn example. *)
Theorem C71_sgd_path c lr max (idx : Z -> Z) (ix : nat -> nat) base x y k n X ys la al s o (h : heap R) : c <> Tanh ->
  base !! x = Some (Mat k n X) -> base !! y = Some (AVec ys) -> length ys = n -> (Z.of_nat n <= int_max)%Z -> (Z.of_nat k <= int_max)%Z -> (max < int_max)%Z ->
  (forall e, (Z.of_nat e < Z.max 1 max)%Z -> idx (Z.of_nat e + 1)%Z = Z.of_nat (ix e) /\ (ix e < n)%nat) -> ready c x y k n RNone la al base s o h ->
  exists st : nat -> list R * R, st 0%nat = s /\
    (forall e, exists g, gradient (J_link c 1 k (fun _ => X (ix e)) [nth (ix e) ys 0]) (model (st e)) g /\ model (st (S e)) = step lr (model (st e)) g) /\
    runs (l_sgd c lr max idx o) h (fun o' h' => trained c x y k n X RNone la al base (st (Z.to_nat (Z.max 1 max))) o' h').
Proof.
  intros Hc Hx Hy El Hn Hk Hm Hix HR. assert (Ls := ready_len _ _ _ _ _ _ _ _ _ _ _ _ HR). set (f := fun s i => lsgd_pure (F := R) c lr k X ys RNone la al i s). exists (fun e => foldl f s (ix <$> seq 0 e)). split; [reflexivity|]. split.
  - intros e. assert (Lt : length (foldl f s (ix <$> seq 0 e)).1 = k). { induction e as [|e IH]; [exact Ls|]. rewrite seq_S, fmap_app, foldl_app. cbn [fmap list_fmap foldl]. unfold f at 1. apply lsgd_pure_length, IH. }
    rewrite seq_S, fmap_app, foldl_app. cbn [fmap list_fmap foldl]. destruct (foldl f s (ix <$> seq 0 e)) as [ws b]. cbn [fst] in Lt. cbn [plus]. eexists. split; [apply gdir_gradient, Lt|]. unfold f. rewrite lsgd_R by exact Lt. unfold model at 1. cbn [fst snd]. f_equal. apply list_fmap_ext. intros _ p _.
    unfold gdir. rewrite Rsum_S. change (Rsum 0 _) with 0. cbn [nth INR]. change (score k (fun _ => X (ix e)) ws b 0) with (score k X ws b (ix e)). change (co (fun _ => X (ix e)) 0 p) with (co X (ix e) p). destruct c; [|congruence|]; destruct p; field.
  - exact (C71_sgd_run c lr max idx ix base x y k n X ys RNone la al s o h Hx Hy El Hn Hk Hm Hix HR).
Qed.
(** MLPPTanhReg::sgd never changes the weights without regularisation: only the bias follows the gradient. *)
Theorem C71_tanh_sgd_weights_refuted lr max (idx : Z -> Z) (ix : nat -> nat) base x y k n X ys la al s o (h : heap R) :
  base !! x = Some (Mat k n X) -> base !! y = Some (AVec ys) -> length ys = n -> (Z.of_nat n <= int_max)%Z -> (Z.of_nat k <= int_max)%Z -> (max < int_max)%Z ->
  (forall e, (Z.of_nat e < Z.max 1 max)%Z -> idx (Z.of_nat e + 1)%Z = Z.of_nat (ix e) /\ (ix e < n)%nat) -> ready Tanh x y k n RNone la al base s o h ->
  exists bs : nat -> R, bs 0%nat = s.2 /\
    (forall e, exists g, derivable_pt_lim (fun b => J_link Tanh 1 k (fun _ => X (ix e)) [nth (ix e) ys 0] (b :: s.1)) (bs e) g /\ bs (S e) = bs e - lr * g) /\
    runs (l_sgd Tanh lr max idx o) h (fun o' h' => trained Tanh x y k n X RNone la al base (s.1, bs (Z.to_nat (Z.max 1 max))) o' h').
Proof.
  intros Hx Hy El Hn Hk Hm Hix HR. assert (Ls := ready_len _ _ _ _ _ _ _ _ _ _ _ _ HR). set (f := fun s i => lsgd_pure (F := R) Tanh lr k X ys RNone la al i s).
  assert (K : forall e, foldl f s (ix <$> seq 0 e) = (s.1, (foldl f s (ix <$> seq 0 e)).2)).
  { intros e. assert (E1 : (foldl f s (ix <$> seq 0 e)).1 = s.1); [|rewrite <- E1; apply surjective_pairing]. induction e as [|e IH]; [reflexivity|]. rewrite seq_S, fmap_app, foldl_app. cbn [fmap list_fmap foldl]. unfold f at 1. cbn [lsgd_pure fst]. rewrite rw1_none_map. exact IH. }
  exists (fun e => (foldl f s (ix <$> seq 0 e)).2). split; [reflexivity|]. split.
  - intros e. rewrite seq_S, fmap_app, foldl_app. cbn [fmap list_fmap foldl]. rewrite (K e). cbn [plus snd]. set (b := (foldl f s (ix <$> seq 0 e)).2). destruct (gdir_gradient Tanh 1 k (fun _ => X (ix e)) [nth (ix e) ys 0] s.1 b Ls) as [_ G].
    eexists. split; [exact (G 0%nat b _ eq_refl eq_refl)|]. pose proof (lsgd_R Tanh lr k X ys la al (ix e) s.1 b Ls) as E. unfold f. apply (f_equal (fun l => nth 0 l 0)) in E. cbn [model nth] in E. etransitivity; [exact E|].
    unfold step. change (seq 0 (S k)) with (0%nat :: seq 1 k). cbn [fmap list_fmap zip_with nth]. unfold gdir. rewrite Rsum_S. change (Rsum 0 _) with 0. cbn [nth INR]. change (score k (fun _ => X (ix e)) s.1 b 0) with (score k X s.1 b (ix e)). cbn [co plus]. field.
  - rewrite <- K. exact (C71_sgd_run Tanh lr max idx ix base x y k n X ys RNone la al s o h Hx Hy El Hn Hk Hm Hix HR).
Qed.
(** ** C72 *)
(** MLPPCLogLogReg::mbgd, batch by batch: [st e i] is the model after e epochs and i batches.  Batch i has the m rows m*i, m*i+1, ...
    but always the first m labels, and the sum over the batch is divided by the number n of all rows. *)
Definition mb_direction (n m k : nat) (X : nat -> nat -> R) (ys : list R) (i : nat) (v : list R) (p : nat) : R :=
  / INR n * Rsum m (fun r => let z := score k X (drop 1 v) (nth 0 v 0) (m * i + r) in (link CLogLog z - nth r ys 0) * exp (- exp z) * match p with O => 1 | S j => X (m * i + r)%nat j end).
Theorem C72_mbgd_path lr max b base x y k n X ys la al s o (h : heap R) : base !! x = Some (Mat k n X) -> base !! y = Some (AVec ys) -> length ys = n -> (Z.of_nat n <= int_max)%Z -> (Z.of_nat k <= int_max)%Z -> (max < int_max)%Z -> (0 < b <= n)%nat ->
  ready CLogLog x y k n RNone la al base s o h ->
  exists st : nat -> nat -> list R * R, let nb := (n / b)%nat in st 0%nat 0%nat = s /\ (forall e, st (S e) 0%nat = st e nb) /\
    (forall e i, model (st e (S i)) = step lr (model (st e i)) (mb_direction n (n / nb) k X ys i (model (st e i)) <$> seq 0 (S k))) /\
    runs (l_mbgd CLogLog lr max (Z.of_nat b) o) h (fun o' h' => trained CLogLog x y k n X RNone la al base (st (Z.to_nat (Z.max 1 max)) 0%nat) o' h').
Proof.
  intros Hx Hy El Hn Hk Hm Hb HR. assert (Ls := ready_len _ _ _ _ _ _ _ _ _ _ _ _ HR). pose proof (C72_mbgd_run lr max b base x y k n X ys RNone la al s o h Hx Hy El Hn Hk Hm Hb HR) as Run. cbv zeta in Run |- *.
  assert (Hnb : (1 <= n / b)%nat) by (apply Nat.div_le_lower_bound; lia). set (nb := (n / b)%nat) in *. set (m := (n / nb)%nat) in *. assert (Hmn : (m <= n)%nat) by (apply Nat.div_le_upper_bound; nia). 
  assert (Ed : s_of_Z (F := R) (Z.of_nat n) = INR n) by (change (s_of_Z (F := R) (Z.of_nat n)) with (IZR (Z.of_nat n)); rewrite <- INR_IZR_INZ; reflexivity). rewrite Ed in Run.
  assert (Hd : INR n <> 0) by (apply not_0_INR; lia).
  set (f := fun (s : list R * R) i => let Xb := fun r j => X (m * i + r)%nat j in let p := lslope CLogLog (lerrs CLogLog false m k Xb (take m ys) s.1 s.2) (lpre m k Xb s.1 s.2) in lmove (F := R) s_sub lr (INR n) m k Xb p p RNone la al s).
  assert (Lf : forall s i, length s.1 = k -> length (f s i).1 = k). { intros s0 i L. unfold f. cbn. rewrite fmap_length, zip_with_length, fmap_length, xt_e_length. lia. }
  assert (Lfl : forall l s, length s.1 = k -> length (foldl f s l).1 = k). { induction l as [|i l IH]; intros s0 L; [exact L|]. cbn. apply IH, Lf, L. }
  set (E := lmb_pure (F := R) CLogLog lr (INR n) m nb k X ys RNone la al) in *. assert (EE : forall s, E s = foldl f s (seq 0 nb)) by reflexivity.
  assert (Li : forall e, length (Nat.iter e E s).1 = k). { induction e as [|e IH]; [exact Ls|]. rewrite Nat.iter_succ, EE. apply Lfl, IH. }
  exists (fun e i => foldl f (Nat.iter e E s) (seq 0 i)). split; [reflexivity|]. split; [intros e; reflexivity|]. split; [|exact Run].
  intros e i. rewrite seq_S, foldl_app. cbn [foldl plus]. assert (L := Lfl (seq 0 i) _ (Li e)). destruct (foldl f (Nat.iter e E s) (seq 0 i)) as [ws b0]. cbn [fst] in L. unfold f. cbv zeta.
  assert (Lt : length (take m ys) = m) by (rewrite take_length; lia).
  rewrite (lmove_R s_sub 1); [|intros; cbn; ring|exact L|apply lerrs_length, Lt|apply lpre_length|exact Hd]. unfold model. cbn [fst snd]. f_equal. apply list_fmap_ext. intros _ p _.
  rewrite Rmult_1_l. unfold mb_direction. cbn [nth drop]. f_equal. apply Rsum_ext. intros r Hr. rewrite lerrs_R, lpre_R by assumption. cbn [sgn cd co].
  assert (En : nth r (take m ys) 0 = nth r ys 0). { destruct (lookup_lt_is_Some_2 ys r) as [a Ha]; [lia|]. rewrite (nth_lookup_Some ys r 0 a Ha). apply nth_lookup_Some. rewrite lookup_take by exact Hr. exact Ha. }
  rewrite En. change (score k (fun r0 j => X (m * i + r0)%nat j) ws b0 r) with (score k X ws b0 (m * i + r)). unfold co. rewrite Rmult_1_l. reflexivity.
Qed.
