(** * Derivatives of the cost of a one-hidden-layer network. *)
From Verif Require Import Base BaseProofs Act ActProofs Glm GlmProofs CostSpec GlmSpec GlmMath LibmR MlpSpec.
From Coq Require Import Reals Lra.
From Verif Require Import PropAct PropAct2 PropSvm RSum RInst.
Open Scope R_scope.

Lemma D_logistic z : derivable_pt_lim logistic z (logistic z * (1 - logistic z)).
Proof. replace (logistic z * (1 - logistic z)) with (sigmoid_derivr z); [exact (D_sigmoid z)|]. unfold sigmoid_derivr. cbv zeta. change (sigmoid_normr z) with (logistic z). scal. ring. Qed.

Section net.
Context (n k hh : nat) (X : nat -> nat -> R) (ys : list R).
Notation J := (J_net n k hh X ys).
Notation err := (err k hh X ys).
Notation gate := (gate k X).
(** The gradient. *)
Definition dJ (N : net) : net :=
  Net (fun r j => / INR n * Rsum n (fun i => err N i * outw N j * gate N i j * X i r))
      (fun j => / INR n * Rsum n (fun i => err N i * outw N j * gate N i j))
      (fun j => / INR n * Rsum n (fun i => err N i * hidden k N (X i) j))
      (/ INR n * Rsum n (fun i => err N i)).
(** Directional derivative. *)
Definition dot_net (G V : net) : R :=
  Rsum hh (fun j => Rsum k (fun r => inw G r j * inw V r j) + inb G j * inb V j + outw G j * outw V j) + outb G * outb V.

Section path.
Context (N : R -> net) (V : net) (t0 : R).
Context (DW1 : forall r j, (r < k)%nat -> (j < hh)%nat -> derivable_pt_lim (fun t => inw (N t) r j) t0 (inw V r j)).
Context (DB1 : forall j, (j < hh)%nat -> derivable_pt_lim (fun t => inb (N t) j) t0 (inb V j)).
Context (DW2 : forall j, (j < hh)%nat -> derivable_pt_lim (fun t => outw (N t) j) t0 (outw V j)).
Context (DB2 : derivable_pt_lim (fun t => outb (N t)) t0 (outb V)).
Lemma D_hidden x j : (j < hh)%nat ->
  derivable_pt_lim (fun t => hidden k (N t) x j) t0 (let a := hidden k (N t0) x j in a * (1 - a) * (Rsum k (fun r => x r * inw V r j) + inb V j)).
Proof using DW1 DB1.
  intros Hj. cbv zeta. unfold hidden at 1 2 3.
  apply (derivable_pt_lim_comp (fun t => Rsum k (fun r => x r * inw (N t) r j) + inb (N t) j) logistic t0 (Rsum k (fun r => x r * inw V r j) + inb V j) _) ; [|apply D_logistic].
  apply (derivable_pt_lim_plus (fun t => Rsum k (fun r => x r * inw (N t) r j)) (fun t => inb (N t) j) t0); [|apply DB1, Hj].
  apply (Rsum_D k (fun r t => x r * inw (N t) r j)). intros r Hr. apply (derivable_pt_lim_scal (fun t => inw (N t) r j) (x r) t0). apply DW1; assumption.
Qed.
Lemma D_J_path : derivable_pt_lim (fun t => J (N t)) t0 (dot_net (dJ (N t0)) V).
Proof using DW1 DB1 DW2 DB2.
  set (S' := fun i => Rsum hh (fun j => gate (N t0) i j * (Rsum k (fun r => X i r * inw V r j) + inb V j) * outw (N t0) j + hidden k (N t0) (X i) j * outw V j) + outb V).
  apply (D_ext (fun t => / INR n * Rsum n (fun i => loss Log (nth i ys 0) (Rsum hh (fun j => hidden k (N t) (X i) j * outw (N t) j) + outb (N t)))) _ t0 (/ INR n * Rsum n (fun i => err (N t0) i * S' i))).
  - intros t. unfold J_net. f_equal. apply Rsum_ext. intros i _. unfold output. rewrite log_loss_eq. reflexivity.
  - unfold dot_net, dJ. cbn [inw inb outw outb].
    rewrite (Rsum_ext hh _ (fun j => / INR n * Rsum n (fun i => err (N t0) i * (gate (N t0) i j * (Rsum k (fun r => X i r * inw V r j) + inb V j) * outw (N t0) j + hidden k (N t0) (X i) j * outw V j)))).
    + rewrite Rsum_scal, Rsum_swap. rewrite Rmult_assoc, <- Rmult_plus_distr_l. f_equal. rewrite <- Rsum_scal_r, <- Rsum_plus. apply Rsum_ext. intros i _. unfold S'. rewrite Rsum_scal. ring.
    + intros j _. rewrite (Rsum_ext k _ (fun r => / INR n * Rsum n (fun i => err (N t0) i * outw (N t0) j * gate (N t0) i j * X i r * inw V r j))) by (intros r _; rewrite Rsum_scal_r; ring).
      rewrite Rsum_scal, Rsum_swap, !Rmult_assoc, <- !Rmult_plus_distr_l. f_equal. rewrite <- !Rsum_scal_r, <- !Rsum_plus. apply Rsum_ext. intros i _.
      rewrite (Rsum_ext k _ (fun r => err (N t0) i * outw (N t0) j * gate (N t0) i j * (X i r * inw V r j))) by (intros; ring). rewrite Rsum_scal. ring.
  - apply (derivable_pt_lim_scal (fun t => Rsum n (fun i => loss Log (nth i ys 0) (Rsum hh (fun j => hidden k (N t) (X i) j * outw (N t) j) + outb (N t)))) (/ INR n) t0).
    apply (Rsum_D n (fun i t => loss Log (nth i ys 0) (Rsum hh (fun j => hidden k (N t) (X i) j * outw (N t) j) + outb (N t)))). intros i _.
    apply (derivable_pt_lim_comp (fun t => Rsum hh (fun j => hidden k (N t) (X i) j * outw (N t) j) + outb (N t)) (loss Log (nth i ys 0)) t0 (S' i) (err (N t0) i)); [|exact (D_loss Log (nth i ys 0) _)].
    apply (derivable_pt_lim_plus (fun t => Rsum hh (fun j => hidden k (N t) (X i) j * outw (N t) j)) (fun t => outb (N t)) t0); [|exact DB2].
    apply (Rsum_D hh (fun j t => hidden k (N t) (X i) j * outw (N t) j)). intros j Hj.
    apply (derivable_pt_lim_mult (fun t => hidden k (N t) (X i) j) (fun t => outw (N t) j) t0); [apply D_hidden, Hj|apply DW2, Hj].
Qed.
End path.

Lemma Rsum_pick m j (u : nat -> R) : (j < m)%nat -> Rsum m (fun j' => u j' * (if decide (j' = j) then 1 else 0)) = u j.
Proof. intros Hj. rewrite <- (Rsum_delta m j u Hj). apply Rsum_ext. intros; ring. Qed.
Lemma D_const_id (P : Prop) (d : Decision P) c x : derivable_pt_lim (fun t => if d then t else c) x (if d then 1 else 0).
Proof. destruct d; [apply (derivable_pt_lim_id x)|apply (derivable_pt_lim_const c)]. Qed.
(** [dJ] is the gradient of the cost. *)
Lemma dJ_gradient N : net_gradient k hh J N (dJ N).
Proof.
  split; [|split; [|split]].
  - intros r j Hr Hj. pose proof (D_J_path (with_inw N r j) (Net (fun r' j' => if decide (r' = r /\ j' = j) then 1 else 0) (fun _ => 0) (fun _ => 0) 0) (inw N r j)) as P.
    assert (E : forall M, dot_net M (Net (fun r' j' => if decide (r' = r /\ j' = j) then 1 else 0) (fun _ => 0) (fun _ => 0) 0) = inw M r j).
    { intros M. unfold dot_net. cbn [inw inb outw outb]. rewrite Rmult_0_r, Rplus_0_r. rewrite (Rsum_ext hh _ (fun j' => inw M r j' * (if decide (j' = j) then 1 else 0))); [apply Rsum_pick, Hj|].
      intros j' _. rewrite !Rmult_0_r, !Rplus_0_r. destruct (decide (j' = j)) as [->|D].
      - rewrite (Rsum_ext k _ (fun r' => inw M r' j * (if decide (r' = r) then 1 else 0))) by (intros r' _; f_equal; repeat case_decide; tauto). rewrite Rsum_pick by exact Hr. ring.
      - rewrite (Rsum_ext k _ (fun _ => 0)) by (intros r' _; case_decide; [tauto|ring]). rewrite Rsum_zero. ring. }
    rewrite E in P. assert (I : with_inw N r j (inw N r j) = N \/ True) by tauto. clear I.
    eapply D_ext; [reflexivity| |apply P].
    + assert (Ew : forall r' j', inw (with_inw N r j (inw N r j)) r' j' = inw N r' j') by (intros r' j'; cbn; case_decide as C; [destruct C; subst|]; reflexivity).
      assert (Eh : forall i j', hidden k (with_inw N r j (inw N r j)) (X i) j' = hidden k N (X i) j') by (intros i j'; unfold hidden; do 2 f_equal; apply Rsum_ext; intros r' _; rewrite Ew; reflexivity).
      cbn [dJ inw]. f_equal. apply Rsum_ext. intros i _. unfold gate, err, output. cbv zeta. rewrite Eh. do 3 f_equal. f_equal. f_equal. f_equal. apply Rsum_ext. intros j' _. rewrite Eh. reflexivity.
    + intros r' j' _ _. cbn. apply D_const_id.
    + intros j' _. apply (derivable_pt_lim_const (inb N j')).
    + intros j' _. apply (derivable_pt_lim_const (outw N j')).
    + apply (derivable_pt_lim_const (outb N)).
  - intros j Hj. pose proof (D_J_path (with_inb N j) (Net (fun _ _ => 0) (fun j' => if decide (j' = j) then 1 else 0) (fun _ => 0) 0) (inb N j)) as P.
    assert (E : forall M, dot_net M (Net (fun _ _ => 0) (fun j' => if decide (j' = j) then 1 else 0) (fun _ => 0) 0) = inb M j).
    { intros M. unfold dot_net. cbn [inw inb outw outb]. rewrite Rmult_0_r, Rplus_0_r. rewrite (Rsum_ext hh _ (fun j' => inb M j' * (if decide (j' = j) then 1 else 0))); [apply Rsum_pick, Hj|].
      intros j' _. rewrite (Rsum_ext k _ (fun _ => 0)) by (intros; ring). rewrite Rsum_zero. ring. }
    rewrite E in P. eapply D_ext; [reflexivity| |apply P].
    + assert (Eh : forall i j', hidden k (with_inb N j (inb N j)) (X i) j' = hidden k N (X i) j') by (intros i j'; unfold hidden; cbn; case_decide as C; [subst|]; reflexivity).
      cbn [dJ inb]. f_equal. apply Rsum_ext. intros i _. unfold gate, err, output. cbv zeta. rewrite Eh. do 3 f_equal. f_equal. f_equal. apply Rsum_ext. intros j' _. rewrite Eh. reflexivity.
    + intros r' j' _ _. apply (derivable_pt_lim_const (inw N r' j')).
    + intros j' _. cbn. apply D_const_id.
    + intros j' _. apply (derivable_pt_lim_const (outw N j')).
    + apply (derivable_pt_lim_const (outb N)).
  - intros j Hj. pose proof (D_J_path (with_outw N j) (Net (fun _ _ => 0) (fun _ => 0) (fun j' => if decide (j' = j) then 1 else 0) 0) (outw N j)) as P.
    assert (E : forall M, dot_net M (Net (fun _ _ => 0) (fun _ => 0) (fun j' => if decide (j' = j) then 1 else 0) 0) = outw M j).
    { intros M. unfold dot_net. cbn [inw inb outw outb]. rewrite Rmult_0_r, Rplus_0_r. rewrite (Rsum_ext hh _ (fun j' => outw M j' * (if decide (j' = j) then 1 else 0))); [apply Rsum_pick, Hj|].
      intros j' _. rewrite (Rsum_ext k _ (fun _ => 0)) by (intros; ring). rewrite Rsum_zero. ring. }
    rewrite E in P. eapply D_ext; [reflexivity| |apply P].
    + cbn [dJ outw]. f_equal. apply Rsum_ext. intros i _. unfold err, output. do 2 f_equal. f_equal. f_equal. apply Rsum_ext. intros j' _. cbn. case_decide as C; [subst|]; reflexivity.
    + intros r' j' _ _. apply (derivable_pt_lim_const (inw N r' j')).
    + intros j' _. apply (derivable_pt_lim_const (inb N j')).
    + intros j' _. cbn. apply D_const_id.
    + apply (derivable_pt_lim_const (outb N)).
  - pose proof (D_J_path (with_outb N) (Net (fun _ _ => 0) (fun _ => 0) (fun _ => 0) 1) (outb N)) as P.
    assert (E : forall M, dot_net M (Net (fun _ _ => 0) (fun _ => 0) (fun _ => 0) 1) = outb M).
    { intros M. unfold dot_net. cbn [inw inb outw outb]. rewrite (Rsum_ext hh _ (fun _ => 0)); [rewrite Rsum_zero; ring|]. intros j' _. rewrite (Rsum_ext k _ (fun _ => 0)) by (intros; ring). rewrite Rsum_zero. ring. }
    rewrite E in P. eapply D_ext; [reflexivity| |apply P].
    + reflexivity.
    + intros r' j' _ _. apply (derivable_pt_lim_const (inw N r' j')).
    + intros j' _. apply (derivable_pt_lim_const (inb N j')).
    + intros j' _. apply (derivable_pt_lim_const (outw N j')).
    + cbn. apply (derivable_pt_lim_id (outb N)).
Qed.

Notation net_step := (net_step n k hh X ys).
Definition step' (lr : R) (N : net) : net :=
  Net (fun r j => inw N r j - lr * (/ INR n * Rsum n (fun i => err N i * (outw N j - lr * outw (dJ N) j) * gate N i j * X i r)))
      (fun j => inb N j - lr * (/ INR n * Rsum n (fun i => err N i * (outw N j - lr * outw (dJ N) j) * gate N i j)))
      (fun j => outw N j - lr * outw (dJ N) j) (outb N - lr * outb (dJ N)).
Lemma net_step_eq lr N : net_step lr N = step' lr N.
Proof. reflexivity. Qed.
Lemma dot_self N : dot_net N N = 0 -> net_zero k hh N.
Proof.
  unfold dot_net. intros E. assert (P : forall j, (j < hh)%nat -> 0 <= Rsum k (fun r => inw N r j * inw N r j) + inb N j * inb N j + outw N j * outw N j).
  { intros j _. pose proof (Rsum_sq_nonneg k (fun r => inw N r j)). pose proof (Rle_0_sqr (inb N j)). pose proof (Rle_0_sqr (outw N j)). unfold Rsqr in *. cbv beta in *. lra. }
  pose proof (Rle_0_sqr (outb N)) as Pb. pose proof (Rsum_nonneg hh _ P) as Ps. unfold Rsqr in Pb.
  assert (Eb : outb N * outb N = 0) by lra. assert (Es : Rsum hh (fun j => Rsum k (fun r => inw N r j * inw N r j) + inb N j * inb N j + outw N j * outw N j) = 0) by lra.
  assert (Ej : forall j, (j < hh)%nat -> Rsum k (fun r => inw N r j * inw N r j) + inb N j * inb N j + outw N j * outw N j = 0).
  { clear - P Es. revert P Es. induction hh as [|m IH]; intros P Es j Hj; [lia|]. rewrite Rsum_S in Es. pose proof (Rsum_nonneg m _ (fun j Hj => P j ltac:(lia))). pose proof (P m ltac:(lia)).
    destruct (decide (j = m)) as [->|D]; [lra|]. apply IH; [intros; apply P; lia|lra|lia]. }
  assert (S0 : forall a : R, a * a = 0 -> a = 0) by (intros a Ha; destruct (Rmult_integral _ _ Ha); assumption).
  assert (Sj : forall j, (j < hh)%nat -> Rsum k (fun r => inw N r j * inw N r j) = 0 /\ inb N j = 0 /\ outw N j = 0).
  { intros j Hj. specialize (Ej j Hj). pose proof (Rsum_sq_nonneg k (fun r => inw N r j)). pose proof (Rle_0_sqr (inb N j)). pose proof (Rle_0_sqr (outw N j)). unfold Rsqr in *. cbv beta in *.
    split; [lra|]. split; apply S0; lra. }
  split; [|split; [|split]]; cbn.
  - intros r j Hr Hj. apply (Rsum_sq_zero k (fun r => inw N r j)); [apply Sj, Hj|exact Hr].
  - intros j Hj. apply Sj, Hj.
  - intros j Hj. apply Sj, Hj.
  - apply S0, Eb.
Qed.
Definition opp_net (N : net) : net := Net (fun r j => - inw N r j) (fun j => - inb N j) (fun j => - outw N j) (- outb N).
Lemma D_affine a b x : derivable_pt_lim (fun t => a - t * b) x (- b).
Proof. apply (D_ext (fun t => a - t * b) _ x (0 - (1 * b + x * 0)) (- b)); [reflexivity|ring|]. apply (derivable_pt_lim_minus (fct_cte a) (fun t => t * b) x); [apply derivable_pt_lim_const|]. apply (derivable_pt_lim_mult (fun t => t) (fct_cte b) x); [apply derivable_pt_lim_id|apply derivable_pt_lim_const]. Qed.
Lemma D_affine2 a b c d : derivable_pt_lim (fun t => a - t * (b * Rsum n (fun i => c i - t * d i))) 0 (- (b * Rsum n c)).
Proof.
  apply (D_ext (fun t => a - t * (b * (Rsum n c - t * Rsum n d))) _ 0 (0 - (1 * (b * (Rsum n c - 0 * Rsum n d)) + 0 * (b * - Rsum n d)))).
  - intros t. f_equal. f_equal. f_equal. rewrite Rsum_minus, Rsum_scal. reflexivity.
  - ring.
  - apply (derivable_pt_lim_minus (fct_cte a) (fun t => t * (b * (Rsum n c - t * Rsum n d))) 0); [apply derivable_pt_lim_const|].
    apply (derivable_pt_lim_mult (fun t => t) (fun t => b * (Rsum n c - t * Rsum n d)) 0); [apply derivable_pt_lim_id|]. apply (derivable_pt_lim_scal (fun t => Rsum n c - t * Rsum n d) b 0). apply D_affine.
Qed.
Lemma net_step_0 N : net_eq k hh (net_step 0 N) N.
Proof. unfold net_step. split; [|split; [|split]]; cbn [inw inb outw outb]; intros; ring. Qed.
Lemma hidden_ext N N' x j : net_eq k hh N N' -> (j < hh)%nat -> hidden k N x j = hidden k N' x j.
Proof. intros (E1 & E2 & _) Hj. unfold hidden. rewrite E2 by exact Hj. do 2 f_equal. apply Rsum_ext. intros r Hr. rewrite E1 by assumption. reflexivity. Qed.
Lemma output_ext N N' x : net_eq k hh N N' -> output k hh N x = output k hh N' x.
Proof. intros E. unfold output. destruct E as (E1 & E2 & E3 & E4) eqn:EE. rewrite E4. do 2 f_equal. apply Rsum_ext. intros j Hj. rewrite (hidden_ext N N') by (try exact E; assumption). rewrite E3 by exact Hj. reflexivity. Qed.
Lemma J_ext N N' : net_eq k hh N N' -> J N = J N'.
Proof. intros E. unfold J_net. f_equal. apply Rsum_ext. intros i _. rewrite (output_ext N N') by exact E. reflexivity. Qed.
Lemma dJ_ext N N' : net_eq k hh N N' -> net_eq k hh (dJ N) (dJ N').
Proof.
  intros E. assert (Ee : forall i, err N i = err N' i) by (intros i; unfold err; rewrite (output_ext N N') by exact E; reflexivity).
  assert (Eg : forall i j, (j < hh)%nat -> gate N i j = gate N' i j) by (intros i j Hj; unfold gate; rewrite (hidden_ext N N') by assumption; reflexivity). pose proof E as (_ & _ & E3 & _).
  split; [|split; [|split]]; cbn [dJ inw inb outw outb].
  - intros r j Hr Hj. f_equal. apply Rsum_ext. intros i _. rewrite Ee, Eg, E3 by assumption. reflexivity.
  - intros j Hj. f_equal. apply Rsum_ext. intros i _. rewrite Ee, Eg, E3 by assumption. reflexivity.
  - intros j Hj. f_equal. apply Rsum_ext. intros i _. rewrite Ee, (hidden_ext N N') by assumption. reflexivity.
  - f_equal. apply Rsum_ext. intros i _. apply Ee.
Qed.
Lemma D_step N : derivable_pt_lim (fun t => J (net_step t N)) 0 (- dot_net (dJ N) (dJ N)).
Proof.
  eapply D_ext; [reflexivity| |apply (D_J_path (fun t => net_step t N) (opp_net (dJ N)) 0)].
  - cbv beta. pose proof (dJ_ext _ _ (net_step_0 N)) as (E1 & E2 & E3 & E4). unfold dot_net, opp_net. cbn [inw inb outw outb]. rewrite E4. rewrite Ropp_plus_distr, <- Ropp_mult_distr_r. f_equal.
    rewrite (Rsum_ext hh _ (fun j => -1 * (Rsum k (fun r => inw (dJ N) r j * inw (dJ N) r j) + inb (dJ N) j * inb (dJ N) j + outw (dJ N) j * outw (dJ N) j))); [rewrite Rsum_scal; ring|].
    intros j Hj. rewrite E2, E3 by exact Hj. rewrite (Rsum_ext k _ (fun r => -1 * (inw (dJ N) r j * inw (dJ N) r j))); [rewrite Rsum_scal; ring|]. intros r Hr. rewrite E1 by assumption. ring.
  - intros r j _ _. cbn [net_step inw opp_net dJ].
    apply (D_ext (fun t => inw N r j - t * (/ INR n * Rsum n (fun i => err N i * outw N j * gate N i j * X i r - t * (err N i * outw (dJ N) j * gate N i j * X i r)))) _ 0 (- (/ INR n * Rsum n (fun i => err N i * outw N j * gate N i j * X i r)))); [|reflexivity|apply D_affine2].
    intros t. cbn [net_step inw]. do 3 f_equal. apply Rsum_ext. intros i _. cbn [outw dJ]. ring.
  - intros j _. apply (D_ext (fun t => inb N j - t * (/ INR n * Rsum n (fun i => err N i * outw N j * gate N i j - t * (err N i * outw (dJ N) j * gate N i j)))) _ 0 (- (/ INR n * Rsum n (fun i => err N i * outw N j * gate N i j)))); [|reflexivity|apply D_affine2].
    intros t. cbn [net_step inb]. do 3 f_equal. apply Rsum_ext. intros i _. cbn [outw dJ]. ring.
  - intros j _. cbn [net_step outw opp_net]. apply D_affine.
  - cbn [net_step outb opp_net]. apply D_affine.
Qed.
(** A network that is not stationary improves under every sufficiently small step. *)
Lemma step_descends N : ~ net_zero k hh (dJ N) -> exists d, 0 < d /\ forall lr, 0 < lr < d -> J (net_step lr N) < J N.
Proof.
  intros NZ. assert (P : 0 < dot_net (dJ N) (dJ N)).
  { assert (0 <= dot_net (dJ N) (dJ N)).
    { unfold dot_net. apply Rplus_le_le_0_compat; [|apply Rle_0_sqr]. apply Rsum_nonneg. intros j _. pose proof (Rsum_sq_nonneg k (fun r => inw (dJ N) r j)). pose proof (Rle_0_sqr (inb (dJ N) j)). pose proof (Rle_0_sqr (outw (dJ N) j)). unfold Rsqr in *. cbv beta in *. lra. }
    destruct (Req_dec (dot_net (dJ N) (dJ N)) 0) as [E|E]; [destruct (NZ (dot_self _ E))|]. lra. }
  set (g := dot_net (dJ N) (dJ N)) in *. destruct (D_step N g P) as [d Hd]. exists d. split; [apply cond_pos|]. intros lr [L1 L2].
  specialize (Hd lr ltac:(lra) ltac:(rewrite Rabs_right by lra; exact L2)). rewrite Rplus_0_l, (J_ext _ _ (net_step_0 N)) in Hd. fold g in Hd. apply Rabs_def2 in Hd as [Hd _].
  assert (Hq : (J (net_step lr N) - J N) / lr < 0) by lra. apply (Rmult_lt_compat_r lr) in Hq; [|exact L1]. unfold Rdiv in Hq. rewrite Rmult_assoc, Rinv_l in Hq by lra. lra.
Qed.
(** The fixed points of the step are the stationary points of the cost. *)
Lemma step_fixed lr N : lr <> 0 -> net_eq k hh (net_step lr N) N <-> net_zero k hh (dJ N).
Proof.
  rewrite net_step_eq. intros Hl. assert (Z0 : forall a, lr * a = 0 -> a = 0) by (intros a Ha; destruct (Rmult_integral _ _ Ha); [contradiction|assumption]). split.
  - intros (E1 & E2 & E3 & E4). cbn [step' inw inb outw outb] in E1, E2, E3, E4.
    assert (F3 : forall j, (j < hh)%nat -> outw (dJ N) j = 0) by (intros j Hj; apply Z0; specialize (E3 j Hj); lra).
    assert (F2 : forall j, (j < hh)%nat -> inb (dJ N) j = 0).
    { intros j Hj. apply Z0. specialize (E2 j Hj). cbn [dJ inb]. rewrite (Rsum_ext n _ (fun i => err N i * (outw N j - lr * outw (dJ N) j) * gate N i j)); [lra|]. intros i _. rewrite F3 by exact Hj. ring. }
    split; [|split; [|split]]; cbn [inw inb outw outb]; [|exact F2|exact F3|apply Z0; lra].
    intros r j Hr Hj. apply Z0. specialize (E1 r j Hr Hj). cbn [dJ inw]. rewrite (Rsum_ext n _ (fun i => err N i * (outw N j - lr * outw (dJ N) j) * gate N i j * X i r)); [lra|]. intros i _. rewrite F3 by exact Hj. ring.
  - intros (E1 & E2 & E3 & E4). cbn [inw inb outw outb] in E1, E2, E3, E4. split; [|split; [|split]]; cbn [step' inw inb outw outb].
    + intros r j Hr Hj. specialize (E1 r j Hr Hj). cbn [dJ inw] in E1. rewrite (Rsum_ext n _ (fun i => err N i * outw N j * gate N i j * X i r)) by (intros i _; rewrite E3 by exact Hj; ring). rewrite E1. ring.
    + intros j Hj. specialize (E2 j Hj). cbn [dJ inb] in E2. rewrite (Rsum_ext n _ (fun i => err N i * outw N j * gate N i j)) by (intros i _; rewrite E3 by exact Hj; ring). rewrite E2. ring.
    + intros j Hj. rewrite E3 by exact Hj. ring.
    + rewrite E4. ring.
Qed.
End net.
