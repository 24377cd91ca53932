(** * Gradient descent on averages of smooth convex losses of linear predictions, over the reals. *)
From Verif Require Import Base RInst PropSvm RSum.
From Coq Require Import Reals Lra.
Open Scope R_scope.

(** ** One-dimensional losses *)
(** [g] is a derivative of [l] in the sense of the two quadratic bounds used below. *)
Definition convex1 (l g : R -> R) : Prop := forall z t, l z + g z * (t - z) <= l t.
Definition smooth1 (c : R) (l g : R -> R) : Prop := forall z t, l t <= l z + g z * (t - z) + c / 2 * ((t - z) * (t - z)).

Lemma min_at (f f' : R -> R) z : (forall t, derivable_pt_lim f t (f' t)) -> (forall t, 0 <= f' t * (t - z)) -> forall t, f z <= f t.
Proof.
  intros D S t. destruct (Rtotal_order z t) as [L|[<-|L]]; [|lra|].
  - destruct (MVT_cor2 f f' z t L (fun u _ => D u)) as (u & E & U). specialize (S u). assert (0 <= f' u) by (apply (Rmult_le_reg_r (u - z)); lra). assert (0 <= f' u * (t - z)) by (apply Rmult_le_pos; lra). lra.
  - destruct (MVT_cor2 f f' t z L (fun u _ => D u)) as (u & E & U). specialize (S u). assert (f' u <= 0) by (apply (Rmult_le_reg_r (z - u)); lra). assert (f' u * (z - t) <= 0) by (assert (0 <= - f' u * (z - t)) by (apply Rmult_le_pos; lra); lra). lra.
Qed.
(** A derivative with slope between 0 and c gives a convex, c-smooth function. *)
Lemma slope_bounds (g g' : R -> R) c : (forall t, derivable_pt_lim g t (g' t)) -> (forall t, 0 <= g' t <= c) ->
  forall z t, 0 <= (g t - g z) * (t - z) <= c * ((t - z) * (t - z)).
Proof.
  intros D S z t. destruct (Rtotal_order z t) as [L|[<-|L]]; [|split; lra|].
  - destruct (MVT_cor2 g g' z t L (fun u _ => D u)) as (u & E & U). rewrite E. specialize (S u). assert (0 <= (t - z) * (t - z)) by (apply Rle_0_sqr).
    rewrite Rmult_assoc. split; [apply Rmult_le_pos; lra|apply Rmult_le_compat_r; lra].
  - destruct (MVT_cor2 g g' t z L (fun u _ => D u)) as (u & E & U). replace (g t - g z) with (g' u * (t - z)) by lra. specialize (S u). assert (0 <= (t - z) * (t - z)) by (apply Rle_0_sqr).
    rewrite Rmult_assoc. split; [apply Rmult_le_pos; lra|apply Rmult_le_compat_r; lra].
Qed.
Lemma convex1_of (l g g' : R -> R) c : (forall t, derivable_pt_lim l t (g t)) -> (forall t, derivable_pt_lim g t (g' t)) -> (forall t, 0 <= g' t <= c) -> convex1 l g.
Proof.
  intros D D' S z t. assert (H : l z - (l z + g z * (z - z)) <= l t - (l z + g z * (t - z))); [|lra].
  apply (min_at (fun t => l t - (l z + g z * (t - z))) (fun t => g t - g z)).
  - intros u. replace (g u - g z) with (g u - (0 + g z * 1)) by ring. apply (derivable_pt_lim_minus l (fun t => l z + g z * (t - z)) u); [apply D|].
    apply (derivable_pt_lim_plus (fct_cte (l z)) (fun t => g z * (t - z)) u); [apply derivable_pt_lim_const|]. apply (derivable_pt_lim_scal (fun t => t - z) (g z) u).
    replace 1 with (1 - 0) by ring. apply (derivable_pt_lim_minus id (fct_cte z) u); [apply derivable_pt_lim_id|apply derivable_pt_lim_const].
  - intros u. apply (slope_bounds g g' c D' S z u).
Qed.
Lemma smooth1_of (l g g' : R -> R) c : (forall t, derivable_pt_lim l t (g t)) -> (forall t, derivable_pt_lim g t (g' t)) -> (forall t, 0 <= g' t <= c) -> smooth1 c l g.
Proof.
  intros D D' S z t. assert (H : (l z + g z * (z - z) + c / 2 * ((z - z) * (z - z))) - l z <= (l z + g z * (t - z) + c / 2 * ((t - z) * (t - z))) - l t); [|lra].
  apply (min_at (fun t => (l z + g z * (t - z) + c / 2 * ((t - z) * (t - z))) - l t) (fun t => (g z + c * (t - z)) - g t)).
  - intros u. apply (derivable_pt_lim_minus (fun t => l z + g z * (t - z) + c / 2 * ((t - z) * (t - z))) l u); [|apply D].
    replace (g z + c * (u - z)) with ((0 + g z * 1) + c / 2 * (1 * (u - z) + (u - z) * 1)) by field.
    assert (E : derivable_pt_lim (fun t => t - z) u 1).
    { replace 1 with (1 - 0) by ring. apply (derivable_pt_lim_minus id (fct_cte z) u); [apply derivable_pt_lim_id|apply derivable_pt_lim_const]. }
    apply (derivable_pt_lim_plus (fun t => l z + g z * (t - z)) (fun t => c / 2 * ((t - z) * (t - z))) u).
    + apply (derivable_pt_lim_plus (fct_cte (l z)) (fun t => g z * (t - z)) u); [apply derivable_pt_lim_const|]. apply (derivable_pt_lim_scal (fun t => t - z) (g z) u), E.
    + apply (derivable_pt_lim_scal (fun t => (t - z) * (t - z)) (c / 2) u). apply (derivable_pt_lim_mult (fun t => t - z) (fun t => t - z) u); exact E.
  - intros u. destruct (slope_bounds g g' c D' S z u) as [_ U]. lra.
Qed.

(** ** Averages of losses of linear predictions *)
Section gd.
Context (n d : nat) (A : nat -> nat -> R) (l g : nat -> R -> R) (c : R).
Context (Hn : (0 < n)%nat) (Hc : 0 <= c).
Context (Cv : forall i, (i < n)%nat -> convex1 (l i) (g i)) (Sm : forall i, (i < n)%nat -> smooth1 c (l i) (g i)).
Notation pr v i := (Rsum d (fun j => A i j * v j)).
Definition risk (v : nat -> R) : R := / INR n * Rsum n (fun i => l i (pr v i)).
Definition grad (v : nat -> R) (j : nat) : R := / INR n * Rsum n (fun i => g i (pr v i) * A i j).
Definition gdstep (eta : R) (v : nat -> R) (j : nat) : R := v j - eta * grad v j.
(** Smoothness constant. *)
Definition lips : R := c / INR n * Rsum n (fun i => Rsum d (fun j => A i j * A i j)).
Definition sqn (v : nat -> R) : R := Rsum d (fun j => v j * v j).
Definition dist2 (u v : nat -> R) : R := sqn (fun j => u j - v j).

Lemma INRn : 0 < INR n. Proof using Hn. apply lt_0_INR. exact Hn. Qed.
Lemma lips_nonneg : 0 <= lips.
Proof using Hn Hc.
  pose proof INRn. unfold lips. apply Rmult_le_pos; [apply Rmult_le_pos; [lra|left; apply Rinv_0_lt_compat; lra]|]. apply Rsum_nonneg. intros i _. apply Rsum_sq_nonneg.
Qed.
Lemma sqn_nonneg v : 0 <= sqn v. Proof. apply Rsum_sq_nonneg. Qed.
Lemma pr_minus u v i : pr u i - pr v i = Rsum d (fun j => A i j * (u j - v j)).
Proof. rewrite <- Rsum_minus. apply Rsum_ext. intros; ring. Qed.
(** sum_i g_i <A_i, w> = <n grad, w> *)
Lemma grad_dir v w : / INR n * Rsum n (fun i => g i (pr v i) * Rsum d (fun j => A i j * w j)) = Rsum d (fun j => grad v j * w j).
Proof.
  unfold grad. rewrite (Rsum_ext d (fun j => / INR n * Rsum n (fun i => g i (pr v i) * A i j) * w j) (fun j => / INR n * Rsum n (fun i => g i (pr v i) * A i j * w j))) by (intros; rewrite Rsum_scal_r; ring).
  rewrite Rsum_scal. f_equal. rewrite (Rsum_swap d n (fun j i => g i (pr v i) * A i j * w j)). apply Rsum_ext. intros i _. rewrite <- Rsum_scal. apply Rsum_ext. intros; ring.
Qed.
Lemma risk_below u v : risk v + Rsum d (fun j => grad v j * (u j - v j)) <= risk u.
Proof using Hn Cv.
  pose proof INRn. rewrite <- grad_dir. unfold risk. rewrite <- Rmult_plus_distr_l, <- Rsum_plus. apply Rmult_le_compat_l; [left; apply Rinv_0_lt_compat; lra|]. apply Rsum_le. intros i Hi.
  rewrite <- pr_minus. apply (Cv i Hi).
Qed.
Lemma cs i w : Rsum d (fun j => A i j * w j) * Rsum d (fun j => A i j * w j) <= Rsum d (fun j => A i j * A i j) * sqn w.
Proof. apply (rsum_cauchy (fun j => A i j) w (seq 0 d)). Qed.
Lemma risk_above u v : risk u <= risk v + Rsum d (fun j => grad v j * (u j - v j)) + lips / 2 * dist2 u v.
Proof using Hn Hc Sm.
  pose proof INRn. rewrite <- grad_dir. unfold risk, lips, dist2.
  replace (c / INR n * Rsum n (fun i => Rsum d (fun j => A i j * A i j)) / 2 * sqn (fun j => u j - v j)) with (/ INR n * Rsum n (fun i => c / 2 * (Rsum d (fun j => A i j * A i j) * sqn (fun j => u j - v j)))) by (rewrite Rsum_scal, Rsum_scal_r; field; lra).
  rewrite <- !Rmult_plus_distr_l, <- !Rsum_plus. apply Rmult_le_compat_l; [left; apply Rinv_0_lt_compat; lra|]. apply Rsum_le. intros i Hi.
  pose proof (Sm i Hi (pr v i) (pr u i)) as S. rewrite pr_minus in S. pose proof (cs i (fun j => u j - v j)) as C. assert (c / 2 * (Rsum d (fun j => A i j * (u j - v j)) * Rsum d (fun j => A i j * (u j - v j))) <= c / 2 * (Rsum d (fun j => A i j * A i j) * sqn (fun j => u j - v j))) by (apply Rmult_le_compat_l; lra). lra.
Qed.
Lemma step_dir eta v : Rsum d (fun j => grad v j * (gdstep eta v j - v j)) = - eta * sqn (grad v).
Proof. unfold gdstep, sqn. rewrite <- Rsum_scal. apply Rsum_ext. intros; ring. Qed.
Lemma step_dist eta v : dist2 (gdstep eta v) v = eta * eta * sqn (grad v).
Proof. unfold dist2, gdstep, sqn. rewrite <- Rsum_scal. apply Rsum_ext. intros; ring. Qed.
(** One step decreases the risk by at least eta (1 - eta L / 2) |grad|^2. *)
Lemma gd_decrease eta v : risk (gdstep eta v) <= risk v - eta * (1 - eta * lips / 2) * sqn (grad v).
Proof using Hn Hc Sm. pose proof (risk_above (gdstep eta v) v) as U. rewrite step_dir, step_dist in U. lra. Qed.
Lemma gd_descent eta v : 0 <= eta -> eta * lips <= 2 -> risk (gdstep eta v) <= risk v.
Proof using Hn Hc Sm. intros H1 H2. pose proof (gd_decrease eta v). assert (0 <= eta * (1 - eta * lips / 2) * sqn (grad v)) by (apply Rmult_le_pos; [apply Rmult_le_pos; lra|apply sqn_nonneg]). lra. Qed.
Lemma dist_step eta v u : dist2 (gdstep eta v) u = dist2 v u - 2 * eta * Rsum d (fun j => grad v j * (v j - u j)) + eta * eta * sqn (grad v).
Proof. unfold dist2, gdstep, sqn. rewrite <- !Rsum_scal, <- Rsum_minus, <- Rsum_plus. apply Rsum_ext. intros; ring. Qed.
Lemma gd_progress eta v u : 0 <= eta -> eta * lips <= 1 -> 2 * eta * (risk (gdstep eta v) - risk u) <= dist2 v u - dist2 (gdstep eta v) u.
Proof using Hn Hc Sm Cv.
  intros H1 H2. rewrite dist_step. pose proof (gd_decrease eta v) as D. pose proof (risk_below u v) as B. pose proof (sqn_nonneg (grad v)) as G.
  replace (Rsum d (fun j => grad v j * (u j - v j))) with (- Rsum d (fun j => grad v j * (v j - u j))) in B by (rewrite <- (Rmult_1_l (Rsum d _)), Ropp_mult_distr_l, <- Rsum_scal; apply Rsum_ext; intros; ring).
  set (P := Rsum d (fun j => grad v j * (v j - u j))) in *. assert (K : risk (gdstep eta v) - risk u <= P - eta / 2 * sqn (grad v)).
  { assert (eta * (eta * lips) * sqn (grad v) <= eta * 1 * sqn (grad v)) by (apply Rmult_le_compat_r; [lra|]; apply Rmult_le_compat_l; lra). lra. }
  assert (2 * eta * (risk (gdstep eta v) - risk u) <= 2 * eta * (P - eta / 2 * sqn (grad v))) by (apply Rmult_le_compat_l; lra). lra.
Qed.
Lemma gd_descent_iter eta T v : 0 <= eta -> eta * lips <= 2 -> risk (Nat.iter T (gdstep eta) v) <= risk v.
Proof using Hn Hc Sm. intros H1 H2. induction T as [|T IH]; [apply Rle_refl|]. cbn. eapply Rle_trans; [apply gd_descent; assumption|exact IH]. Qed.
(** The classical rate. *)
Lemma gd_rate eta T v u : 0 <= eta -> eta * lips <= 1 -> 2 * eta * INR T * (risk (Nat.iter T (gdstep eta) v) - risk u) <= dist2 v u.
Proof using Hn Hc Sm Cv.
  intros H1 H2. assert (G : 2 * eta * INR T * (risk (Nat.iter T (gdstep eta) v) - risk u) <= dist2 v u - dist2 (Nat.iter T (gdstep eta) v) u).
  { induction T as [|T IH]; [cbn; lra|]. cbn [Nat.iter]. pose proof (gd_progress eta (Nat.iter T (gdstep eta) v) u H1 H2) as P. rewrite S_INR.
    assert (D : risk (gdstep eta (Nat.iter T (gdstep eta) v)) <= risk (Nat.iter T (gdstep eta) v)) by (apply gd_descent; lra).
    cbn [nat_rect] in *. set (w := Nat.iter T (gdstep eta) v) in *. pose proof (pos_INR T). assert (2 * eta * INR T * (risk (gdstep eta w) - risk u) <= 2 * eta * INR T * (risk w - risk u)) by (apply Rmult_le_compat_l; [apply Rmult_le_pos; lra|lra]).
    change (Nat.iter (S T) (gdstep eta) v) with (gdstep eta w). lra. }
  pose proof (sqn_nonneg (fun j => Nat.iter T (gdstep eta) v j - u j)). unfold dist2 in G at 2. unfold dist2 in *. lra.
Qed.
(** The distance to a minimiser never grows. *)
Lemma gd_fejer eta v u : 0 <= eta -> eta * lips <= 1 -> (forall w, risk u <= risk w) -> dist2 (gdstep eta v) u <= dist2 v u.
Proof using Hn Hc Sm Cv. intros H1 H2 M. pose proof (gd_progress eta v u H1 H2). specialize (M (gdstep eta v)). assert (0 <= 2 * eta * (risk (gdstep eta v) - risk u)) by (apply Rmult_le_pos; lra). lra. Qed.
(** A point where the gradient vanishes is a global minimum. *)
Lemma gd_critical v : (forall j, (j < d)%nat -> grad v j = 0) -> forall u, risk v <= risk u.
Proof using Hn Cv. intros G u. pose proof (risk_below u v) as B. rewrite (Rsum_ext d (fun j => grad v j * (u j - v j)) (fun _ => 0)) in B by (intros j Hj; rewrite G by exact Hj; ring). rewrite Rsum_zero in B. lra. Qed.

(** *** One example at a time: A_t is the example drawn at step t. *)
Definition sgstep (eta : R) (i : nat) (v : nat -> R) (j : nat) : R := v j - eta * (g i (pr v i) * A i j).
Lemma sg_dist eta i v u : dist2 (sgstep eta i v) u = dist2 v u - 2 * eta * (g i (pr v i) * (pr v i - pr u i)) + eta * eta * (g i (pr v i) * g i (pr v i) * Rsum d (fun j => A i j * A i j)).
Proof.
  unfold dist2, sgstep, sqn. rewrite pr_minus, <- !Rsum_scal. rewrite <- Rsum_minus, <- Rsum_plus. apply Rsum_ext. intros; ring.
Qed.
(** Regret of one step. *)
Lemma sg_regret eta i v u : (i < n)%nat -> 0 <= eta ->
  2 * eta * (l i (pr v i) - l i (pr u i)) <= dist2 v u - dist2 (sgstep eta i v) u + eta * eta * (g i (pr v i) * g i (pr v i) * Rsum d (fun j => A i j * A i j)).
Proof using Cv.
  intros Hi H1. rewrite sg_dist. pose proof (Cv i Hi (pr v i) (pr u i)) as C. assert (2 * eta * (l i (pr v i) - l i (pr u i)) <= 2 * eta * (g i (pr v i) * (pr v i - pr u i))) by (apply Rmult_le_compat_l; lra). lra.
Qed.
End gd.
