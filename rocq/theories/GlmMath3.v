(** * Mathematics of the normal equation over the reals: (X^T X + la I)^-1 X^T y minimises |X u - y|^2 + la |u|^2. *)
From Verif Require Import Base BaseProofs Vec VecSpec VecProofs VecProofs2 Mat MatSpec MatProofs2 DetProofs Stat StatProofs Act Cost Glm GlmProofs GlmProofs2 GlmProofs3 CostSpec GdMath GlmSpec GlmMath LibmR.
From Coq Require Import Reals Lra FunctionalExtensionality.
From Verif Require Import PropAct PropSvm PropStat RSum DetMC DetKer PropDet LsqMath RInst.
Open Scope R_scope.

(** The penalised sum of squares. *)
Definition rss (n k : nat) (X : nat -> nat -> R) (y : nat -> R) (la : R) (u : nat -> R) : R :=
  Rsum n (fun i => (Rsum k (fun j => X i j * u j) - y i) ^ 2) + la * Rsum k (fun j => u j ^ 2).
Definition rg (n : nat) (X : nat -> nat -> R) (la : R) (i j : nat) : R := gram n X i j + la * (if decide (i = j) then 1 else 0).

Section rd.
Context (n k : nat) (X : nat -> nat -> R) (la : R).
Lemma rg_apply u j : (j < k)%nat -> Rsum k (fun q => rg n X la j q * u q) = Rsum n (fun i => X i j * Rsum k (fun q => X i q * u q)) + la * u j.
Proof.
  intros Hj. unfold rg. rewrite (Rsum_ext k _ (fun q => gram n X j q * u q + la * ((if decide (q = j) then 1 else 0) * u q))).
  2:{ intros q _. destruct (decide (j = q)), (decide (q = j)); try congruence; ring. }
  rewrite Rsum_plus, Rsum_scal, Rsum_delta by exact Hj. f_equal. unfold gram.
  rewrite (Rsum_ext k _ (fun q => Rsum n (fun i => X i j * (X i q * u q)))) by (intros; rewrite <- Rsum_scal_r; apply Rsum_ext; intros; ring).
  rewrite Rsum_swap. apply Rsum_ext. intros i _. rewrite Rsum_scal. reflexivity.
Qed.
Lemma rg_quad u : Rsum k (fun j => u j * Rsum k (fun q => rg n X la j q * u q)) = Rsum n (fun i => Rsum k (fun q => X i q * u q) ^ 2) + la * Rsum k (fun j => u j ^ 2).
Proof.
  rewrite (Rsum_ext k _ (fun j => Rsum n (fun i => (X i j * u j) * Rsum k (fun q => X i q * u q)) + la * u j ^ 2)).
  2:{ intros j Hj. rewrite rg_apply by exact Hj. rewrite Rmult_plus_distr_l, <- Rsum_scal. f_equal; [apply Rsum_ext; intros; ring|ring]. }
  rewrite Rsum_plus, Rsum_scal, Rsum_swap. f_equal. apply Rsum_ext. intros i _. rewrite Rsum_scal_r. ring.
Qed.
(** The problem has one solution. *)
Definition well_posed : Prop := 0 < la \/ (0 <= la /\ independent n k X).
Lemma rg_det : well_posed -> Rdet k (rg n X la) <> 0.
Proof.
  intros Wp D. destruct (ops_det_kernel PropRot.R_exact_field D) as (u & (i & Hi & Hu) & Hk).
  assert (E : Rsum n (fun i => Rsum k (fun q => X i q * u q) ^ 2) + la * Rsum k (fun j => u j ^ 2) = 0).
  { rewrite <- rg_quad. rewrite (Rsum_ext k _ (fun i => Rsum k (fun j => u i * rg n X la i j * u j))) by (intros; rewrite <- Rsum_scal; apply Rsum_ext; intros; ring).
    rewrite Rsum_swap. rewrite (Rsum_ext k _ (fun _ => 0)); [apply Rsum_zero|]. intros j Hj. rewrite Rsum_scal_r.
    specialize (Hk j Hj). rewrite fsum_lsum, lsum_Rsum in Hk. cbn [s_add s_mul R_scalar] in Hk. setoid_rewrite Hk. change s_zero with 0. ring. }
  assert (P1 : 0 <= Rsum n (fun i => Rsum k (fun q => X i q * u q) ^ 2)) by (apply Rsum_nonneg; intros; apply pow2_ge_0).
  assert (P2 : 0 <= Rsum k (fun j => u j ^ 2)) by (apply Rsum_nonneg; intros; apply pow2_ge_0).
  apply Hu. change (u i = 0). destruct Wp as [L|[L In]].
  - assert (E2 : Rsum k (fun j => u j * u j) = 0).
    { rewrite (Rsum_ext k _ (fun j => u j ^ 2)) by (intros; ring). destruct P2 as [P2|P2]; [|congruence]. assert (0 < la * Rsum k (fun j => u j ^ 2)) by (apply Rmult_lt_0_compat; assumption). lra. }
    exact (Rsum_sq_zero k u E2 i Hi).
  - assert (0 <= la * Rsum k (fun j => u j ^ 2)) by (apply Rmult_le_pos; assumption). assert (E1 : Rsum n (fun i => apply k X u i * apply k X u i) = 0).
    { unfold apply. rewrite (Rsum_ext n _ (fun i => Rsum k (fun q => X i q * u q) ^ 2)) by (intros; ring). lra. }
    apply In; [|exact Hi]. exact (Rsum_sq_zero n _ E1).
Qed.
Lemma rg_inv : (2 <= k)%nat -> well_posed -> inverse_of k (rg n X la) (inv_entry (F := R) k (rg n X la)).
Proof. intros Hk Wp. apply inverse_of_spec. apply inv_entry_inverse; [apply PropRot.R_exact_field|exact Hk|]. apply rg_det, Wp. Qed.

(** If w solves the normal equations, the cost of any u exceeds that of w by |X (u - w)|^2 + la |u - w|^2. *)
Lemma rss_split y w u : (forall j, (j < k)%nat -> Rsum k (fun q => rg n X la j q * w q) = Rsum n (fun i => X i j * y i)) ->
  rss n k X y la u = rss n k X y la w + (Rsum n (fun i => Rsum k (fun q => X i q * (u q - w q)) ^ 2) + la * Rsum k (fun j => (u j - w j) ^ 2)).
Proof.
  intros E. set (d := fun q => u q - w q). unfold rss.
  assert (Eu : forall i, Rsum k (fun j => X i j * u j) = Rsum k (fun j => X i j * w j) + Rsum k (fun j => X i j * d j)) by (intros i; rewrite <- Rsum_plus; apply Rsum_ext; intros; unfold d; ring).
  rewrite (Rsum_ext n _ (fun i => (Rsum k (fun j => X i j * w j) - y i) ^ 2 + Rsum k (fun q => X i q * d q) ^ 2 + 2 * (Rsum k (fun j => X i j * d j) * (Rsum k (fun j => X i j * w j) - y i)))) by (intros; rewrite Eu; ring).
  rewrite (Rsum_ext k _ (fun j => w j ^ 2 + d j ^ 2 + 2 * (d j * w j))) by (intros; unfold d; ring). rewrite !Rsum_plus, !Rsum_scal.
  assert (Z : Rsum n (fun i => Rsum k (fun j => X i j * d j) * (Rsum k (fun j => X i j * w j) - y i)) + la * Rsum k (fun j => d j * w j) = 0).
  { rewrite (Rsum_ext n _ (fun i => Rsum k (fun j => d j * (X i j * (Rsum k (fun j => X i j * w j) - y i))))) by (intros; rewrite <- Rsum_scal_r; apply Rsum_ext; intros; ring).
    rewrite Rsum_swap, <- Rsum_scal, <- Rsum_plus. rewrite (Rsum_ext k _ (fun _ => 0)); [apply Rsum_zero|]. intros j Hj. rewrite Rsum_scal. specialize (E j Hj). rewrite rg_apply in E by exact Hj.
    rewrite (Rsum_ext n (fun i => X i j * (Rsum k (fun j0 => X i j0 * w j0) - y i)) (fun i => X i j * Rsum k (fun q => X i q * w q) - X i j * y i)) by (intros; ring). rewrite Rsum_minus.
    transitivity (d j * (Rsum n (fun i => X i j * Rsum k (fun q => X i q * w q)) + la * w j - Rsum n (fun i => X i j * y i))); [ring|]. rewrite E. ring. }
  change (fun i => Rsum k (fun q => X i q * (u q - w q)) ^ 2) with (fun i => Rsum k (fun q => X i q * d q) ^ 2). change (fun j => (u j - w j) ^ 2) with (fun j => d j ^ 2).
  rewrite Rmult_plus_distr_l, (Rmult_plus_distr_l la). lra.
Qed.
End rd.

Lemma ridgeF_R n X r i j : ridgeF (F := R) n X r i j = rg n X (default 0 r) i j.
Proof.
  unfold ridgeF, rg, gramF. destruct r as [la|]; cbn [default]; rewrite mat_mul_R; unfold gram, mat_tr; [rewrite mat_id_R; cbn; destruct (decide (i = j)); ring|ring].
Qed.
Lemma inv_ridge n k X r : inv_entry (F := R) k (ridgeF n X r) = inv_entry (F := R) k (rg n X (default 0 r)).
Proof. f_equal. extensionality i. extensionality j. apply ridgeF_R. Qed.
(** The weights the code computes solve the normal equations. *)
Lemma normal_solves n k X ys r : (2 <= k)%nat -> well_posed n k X (default 0 r) -> forall j, (j < k)%nat ->
  Rsum k (fun q => rg n X (default 0 r) j q * nth q (normal_pure (F := R) n k X ys r) 0) = Rsum n (fun i => X i j * nth i ys 0).
Proof.
  intros Hk Wp j Hj. set (L := default 0 r) in *. pose proof (rg_inv n k X L Hk Wp) as IV.
  rewrite (Rsum_ext k _ (fun q => Rsum k (fun p => rg n X L j q * inv_entry (F := R) k (rg n X L) q p * nth p (xt_e n k X ys) 0))).
  2:{ intros q Hq. unfold normal_pure. rewrite nth_vlist by exact Hq. rewrite mv_row_R, inv_ridge. fold L. rewrite <- Rsum_scal. apply Rsum_ext. intros; ring. }
  rewrite Rsum_swap. rewrite (Rsum_ext k _ (fun p => (if decide (p = j) then 1 else 0) * nth p (xt_e n k X ys) 0)).
  - rewrite Rsum_delta by exact Hj. apply xt_e_R, Hj.
  - intros p Hp. rewrite Rsum_scal_r. destruct (IV j p Hj Hp) as [-> _]. destruct (decide (j = p)), (decide (p = j)); try congruence; reflexivity.
Qed.
