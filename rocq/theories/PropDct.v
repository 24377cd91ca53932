(** * C85: the discrete cosine transform. *)
From Verif Require Import Base BaseProofs Vec VecSpec VecProofs VecProofs2 Mat MatSpec MatProofs Act Stat StatProofs RInst LibmR PropSvm RSum Dct DctProofs.
From Coq Require Import Reals Lra.
Local Notation S := Datatypes.S.
Open Scope R_scope.
Implicit Types (h : heap R) (X B : nat -> nat -> R).

(** ** Specification: the orthonormal DCT-II matrix of order n *)
Definition weight (n p : nat) : R := if decide (p = 0%nat) then 1 / sqrt (INR n) else sqrt (2 / INR n).
Definition basis (n p k : nat) : R := weight n p * cos (PI * INR p * (2 * INR k + 1) / (2 * INR n)).
Definition dct2 (n c r : nat) X (i j : nat) : R := Rsum r (fun k => Rsum c (fun f => (X k f - 128) * (basis n i k * basis n j f))).

(** ** The sums computed are those of the specification *)
Lemma foldl_plus_Rsum (g : nat -> R) n a : foldl (fun acc k => acc + g k) a (seq 0 n) = a + Rsum n g.
Proof. induction n as [|n IH]; [cbn; unfold Rsum; cbn; lra|]. rewrite seq_S, foldl_app, IH. cbn [foldl]. rewrite Rsum_S. cbn [Nat.add]. lra. Qed.
Lemma foldl_ext_seq (g g' : R -> nat -> R) : (forall a k, g a k = g' a k) -> forall l a, foldl g a l = foldl g' a l.
Proof. intros E l. induction l as [|k l IH]; intros a; [reflexivity|]. cbn. rewrite E. apply IH. Qed.
Lemma cosine_R n i k : cosine (F := R) n i k = cos (PI * INR i * (2 * INR k + 1) / (2 * INR n)).
Proof. unfold cosine. cbn [s_cos s_div s_mul m_pi s_of_Z s_two R_scalar R_libm]. unfold s_two. cbn [s_of_Z R_scalar]. rewrite plus_IZR, mult_IZR, <- !INR_IZR_INZ. reflexivity. Qed.
Lemma alpha_R n i : alpha (F := R) n i = weight n i.
Proof.
  unfold alpha, dct_alpha, weight. unfold s_two. cbn [s_one s_div s_sqrt s_of_Z R_scalar]. rewrite <- INR_IZR_INZ.
  destruct (decide (i = 0%nat)) as [->|Hn]; [reflexivity|]. replace (Z.of_nat i =? 0)%Z with false by lia. reflexivity.
Qed.
Lemma entry_R c n X i j : dct_entry (F := R) c n X i j = dct2 n c n X i j.
Proof.
  unfold dct_entry, dsum. rewrite !alpha_R. cbn [s_mul s_add s_zero R_scalar].
  rewrite (foldl_ext_seq _ (fun acc k => acc + Rsum c (fun f => dterm n X i j k f))).
  2: { intros a k. apply foldl_plus_Rsum. }
  rewrite foldl_plus_Rsum, Rplus_0_l. rewrite Rmult_assoc, <- Rsum_scal_r. unfold dct2. apply Rsum_ext. intros k _. rewrite <- Rsum_scal_r. apply Rsum_ext. intros f _.
  unfold dterm, basis. rewrite !cosine_R. cbn [s_mul s_add s_of_Z R_scalar]. ring.
Qed.

(** The result is a new matrix of the same size holding the transform of the entries minus 128, with the basis of order n (the number
    of ROWS) along both axes; nothing else changes. *)
Theorem C85_formula h x (c n : nat) X : wf h -> abs h !! x = Some (Mat c n X) -> (2 * Z.of_nat c <= int_max)%Z -> (2 * Z.of_nat n <= int_max)%Z ->
  runs (dct (Some x)) h (fun d h' => abs h !! d = None /\ abs h' = <[d := Mat c n (dct2 n c n X)]> (abs h)).
Proof.
  intros W A Hc Hn. apply runs_wp. eapply wp_dct; [exact W|exact A|exact Hc|exact Hn|]. intros d h' W' N' A'. split; [exact W'|]. split; [exact N'|]. rewrite A'. f_equal. apply Mat_ext. intros i j _ _. apply entry_R.
Qed.
Theorem C85_null h : dct None h = UB.
Proof. reflexivity. Qed.

(** ** The basis is orthonormal *)
Definition wgt (p : nat) : R := if decide (p = 0%nat) then 1 else 2.
Lemma dirichlet n t : sin (t / 2) * Rsum (S n) (fun p => wgt p * cos (INR p * t)) = sin ((INR n + / 2) * t).
Proof.
  induction n as [|n IH].
  - rewrite Rsum_S. unfold Rsum. cbn [seq fmap list_fmap rsum]. unfold wgt. rewrite decide_True by reflexivity. cbn [INR]. rewrite Rmult_0_l, cos_0. replace ((0 + / 2) * t) with (t / 2) by lra. ring.
  - rewrite Rsum_S, Rmult_plus_distr_l, IH. unfold wgt. rewrite decide_False by lia. rewrite S_INR.
    replace ((INR n + / 2) * t) with ((INR n + 1) * t - t / 2) by lra. replace ((INR n + 1 + / 2) * t) with ((INR n + 1) * t + t / 2) by lra. rewrite sin_minus, sin_plus. ring.
Qed.
(** The sum at the angle m pi / n. *)
Lemma sin_nat_PI m : sin (INR m * PI) = 0.
Proof. apply sin_eq_0_1. exists (Z.of_nat m). rewrite INR_IZR_INZ. reflexivity. Qed.
Lemma wsum_grid n m : (0 < m)%nat -> (m < 2 * n)%nat -> Rsum n (fun p => wgt p * cos (INR p * (INR m * PI / INR n))) = - cos (INR m * PI).
Proof.
  intros H0 Hm. destruct n as [|n]; [lia|]. set (t := INR m * PI / INR (S n)). assert (Hn : 0 < INR (S n)) by (apply lt_0_INR; lia). pose proof PI_RGT_0 as HP.
  assert (Hs : 0 < sin (t / 2)).
  { apply sin_gt_0.
    - unfold t. apply Rmult_lt_0_compat; [|lra]. apply Rdiv_lt_0_compat; [|exact Hn]. apply Rmult_lt_0_compat; [apply lt_0_INR; exact H0|exact HP].
    - unfold t. apply (Rmult_lt_reg_r (2 * INR (S n))); [lra|]. replace (INR m * PI / INR (S n) / 2 * (2 * INR (S n))) with (INR m * PI) by (field; lra). rewrite (Rmult_comm PI). apply Rmult_lt_compat_r; [exact HP|].
      replace (2 * INR (S n)) with (INR (2 * S n)) by (rewrite mult_INR; reflexivity). apply lt_INR. exact Hm. }
  apply (Rmult_eq_reg_l (sin (t / 2))); [|lra]. rewrite dirichlet. replace ((INR n + / 2) * t) with (INR m * PI - t / 2) by (unfold t; rewrite S_INR in *; field; lra).
  rewrite sin_minus, sin_nat_PI. ring.
Qed.
Lemma wsum_0 n : (0 < n)%nat -> Rsum n (fun p => wgt p * cos (INR p * 0)) = 2 * INR n - 1.
Proof.
  induction n as [|n IH]; [lia|]. intros _. rewrite Rsum_S. destruct n as [|n].
  - unfold Rsum. cbn. unfold wgt. rewrite decide_True by reflexivity. rewrite Rmult_0_l, cos_0. lra.
  - rewrite IH by lia. unfold wgt. rewrite decide_False by lia. rewrite Rmult_0_r, cos_0. rewrite !S_INR. lra.
Qed.
Lemma cos_shift_odd a m : cos (a + (2 * INR m + 1) * PI) = - cos a.
Proof. replace (a + (2 * INR m + 1) * PI) with (a + PI + 2 * INR m * PI) by ring. rewrite cos_period. apply neg_cos. Qed.
Lemma weight_sq n p : (0 < n)%nat -> weight n p * weight n p = wgt p / INR n.
Proof.
  intros Hn. assert (Hp : 0 < INR n) by (apply lt_0_INR; exact Hn). unfold weight, wgt. destruct (decide (p = 0%nat)).
  - replace (1 / sqrt (INR n) * (1 / sqrt (INR n))) with (1 / (sqrt (INR n) * sqrt (INR n))) by (field; apply Rgt_not_eq, sqrt_lt_R0; exact Hp). rewrite sqrt_sqrt by lra. reflexivity.
  - apply sqrt_sqrt. apply Rlt_le, Rdiv_lt_0_compat; lra.
Qed.
Lemma cos_prod a b : cos a * cos b = / 2 * (cos (a + b) + cos (a - b)).
Proof. rewrite cos_plus, cos_minus. lra. Qed.
Lemma basis_le n k f : (k <= f)%nat -> (f < n)%nat -> Rsum n (fun p => basis n p k * basis n p f) = if decide (k = f) then 1 else 0.
Proof.
  intros Hkf Hf. assert (Hn : 0 < INR n) by (apply lt_0_INR; lia).
  transitivity (/ (2 * INR n) * (Rsum n (fun p => wgt p * cos (INR p * (INR (k + f + 1) * PI / INR n))) + Rsum n (fun p => wgt p * cos (INR p * (INR (f - k) * PI / INR n))))).
  { rewrite <- Rsum_plus, <- Rsum_scal. apply Rsum_ext. intros p _. unfold basis.
    set (a := PI * INR p * (2 * INR k + 1) / (2 * INR n)). set (b := PI * INR p * (2 * INR f + 1) / (2 * INR n)).
    replace (weight n p * cos a * (weight n p * cos b)) with ((weight n p * weight n p) * (cos b * cos a)) by ring. rewrite weight_sq by lia. rewrite cos_prod.
    replace (b + a) with (INR p * (INR (k + f + 1) * PI / INR n)) by (unfold a, b; rewrite !plus_INR; cbn [INR]; field; lra).
    replace (b - a) with (INR p * (INR (f - k) * PI / INR n)) by (unfold a, b; rewrite minus_INR by exact Hkf; field; lra). field. lra. }
  rewrite wsum_grid by lia. destruct (decide (k = f)) as [->|Hne].
  - rewrite Nat.sub_diag. replace (INR 0 * PI / INR n) with 0 by (cbn [INR]; unfold Rdiv; ring). rewrite wsum_0 by lia.
    replace (INR (f + f + 1) * PI) with (0 + (2 * INR f + 1) * PI) by (rewrite !plus_INR; cbn [INR]; ring). rewrite cos_shift_odd, cos_0. field. lra.
  - rewrite wsum_grid by lia. replace (INR (k + f + 1) * PI) with (INR (f - k) * PI + (2 * INR k + 1) * PI) by (rewrite !plus_INR, minus_INR by exact Hkf; cbn [INR]; ring). rewrite cos_shift_odd. ring.
Qed.
Theorem C85_basis n k f : (k < n)%nat -> (f < n)%nat -> Rsum n (fun p => basis n p k * basis n p f) = if decide (k = f) then 1 else 0.
Proof.
  intros Hk Hf. destruct (Nat.le_gt_cases k f) as [Hle|Hgt]; [apply basis_le; assumption|].
  rewrite (Rsum_ext _ _ (fun p => basis n p f * basis n p k)) by (intros; ring). rewrite basis_le by lia. rewrite !decide_False by lia. reflexivity.
Qed.

(** ** Square matrices: the transform can be undone and keeps the energy *)
Lemma Rsum4 n m (g : nat -> nat -> nat -> nat -> R) : Rsum n (fun i => Rsum n (fun j => Rsum m (fun k => Rsum m (fun f => g i j k f)))) = Rsum m (fun k => Rsum m (fun f => Rsum n (fun i => Rsum n (fun j => g i j k f)))).
Proof.
  rewrite (Rsum_ext _ _ (fun i => Rsum m (fun k => Rsum n (fun j => Rsum m (fun f => g i j k f))))) by (intros i _; apply (Rsum_swap n m (fun j k => Rsum m (fun f => g i j k f)))).
  rewrite (Rsum_swap n m (fun i k => Rsum n (fun j => Rsum m (fun f => g i j k f)))). apply Rsum_ext. intros k _.
  rewrite (Rsum_ext _ _ (fun i => Rsum m (fun f => Rsum n (fun j => g i j k f)))) by (intros i _; apply (Rsum_swap n m (fun j f => g i j k f))).
  apply (Rsum_swap n m (fun i f => Rsum n (fun j => g i j k f))).
Qed.
Lemma inverse_R n X k f : (k < n)%nat -> (f < n)%nat -> Rsum n (fun i => Rsum n (fun j => dct2 n n n X i j * (basis n i k * basis n j f))) = X k f - 128.
Proof.
  intros Hk Hf.
  rewrite (Rsum_ext _ _ (fun i => Rsum n (fun j => Rsum n (fun k' => Rsum n (fun f' => (X k' f' - 128) * ((basis n i k' * basis n i k) * (basis n j f' * basis n j f))))))).
  2: { intros i _. apply Rsum_ext. intros j _. unfold dct2. rewrite <- Rsum_scal_r. apply Rsum_ext. intros k' _. rewrite <- Rsum_scal_r. apply Rsum_ext. intros f' _. ring. }
  rewrite Rsum4. transitivity (Rsum n (fun k' => (if decide (k' = k) then 1 else 0) * Rsum n (fun f' => (if decide (f' = f) then 1 else 0) * (X k' f' - 128)))).
  - apply Rsum_ext. intros k' Hk'. rewrite <- Rsum_scal. apply Rsum_ext. intros f' Hf'. rewrite <- (C85_basis n k' k Hk' Hk), <- (C85_basis n f' f Hf' Hf).
    rewrite <- Rmult_assoc. rewrite Rsum_prod, <- Rsum_scal_r. apply Rsum_ext. intros i _. rewrite <- Rsum_scal_r. apply Rsum_ext. intros j _. ring.
  - rewrite Rsum_delta by exact Hk. rewrite Rsum_delta by exact Hf. reflexivity.
Qed.
(** Every entry of a square matrix is recovered from its transform. *)
Theorem C85_inverse h x (n : nat) X : wf h -> abs h !! x = Some (Mat n n X) -> (2 * Z.of_nat n <= int_max)%Z ->
  runs (dct (Some x)) h (fun d h' => exists B, abs h' = <[d := Mat n n B]> (abs h) /\
    forall k f, (k < n)%nat -> (f < n)%nat -> X k f = 128 + Rsum n (fun i => Rsum n (fun j => B i j * (basis n i k * basis n j f)))).
Proof.
  intros W A Hn. destruct (C85_formula h x n n X W A Hn Hn) as (d & h' & E & W' & _ & A'). exists d, h'. split; [exact E|]. split; [exact W'|]. eexists. split; [exact A'|].
  intros k f Hk Hf. rewrite inverse_R by assumption. lra.
Qed.
(** The sum of squares is kept. *)
Theorem C85_energy h x (n : nat) X : wf h -> abs h !! x = Some (Mat n n X) -> (2 * Z.of_nat n <= int_max)%Z ->
  runs (dct (Some x)) h (fun d h' => exists B, abs h' = <[d := Mat n n B]> (abs h) /\
    Rsum n (fun i => Rsum n (fun j => B i j * B i j)) = Rsum n (fun k => Rsum n (fun f => (X k f - 128) * (X k f - 128)))).
Proof.
  intros W A Hn. destruct (C85_formula h x n n X W A Hn Hn) as (d & h' & E & W' & _ & A'). exists d, h'. split; [exact E|]. split; [exact W'|]. eexists. split; [exact A'|].
  transitivity (Rsum n (fun i => Rsum n (fun j => Rsum n (fun k => Rsum n (fun f => (X k f - 128) * (dct2 n n n X i j * (basis n i k * basis n j f))))))).
  - apply Rsum_ext. intros i _. apply Rsum_ext. intros j _. set (b := dct2 n n n X i j). transitivity (b * Rsum n (fun k => Rsum n (fun f => (X k f - 128) * (basis n i k * basis n j f)))); [reflexivity|]. rewrite <- Rsum_scal.
    apply Rsum_ext. intros k _. rewrite <- Rsum_scal. apply Rsum_ext. intros f _. ring.
  - rewrite Rsum4. apply Rsum_ext. intros k Hk. apply Rsum_ext. intros f Hf. rewrite <- (inverse_R n X k f Hk Hf) at 2.
    rewrite <- Rsum_scal. apply Rsum_ext. intros i _. rewrite <- Rsum_scal. apply Rsum_ext. intros j _. reflexivity.
Qed.
(** The entry at (0, 0) of a square matrix is the sum of all centred entries divided by n; a constant image has no other entry. *)
Theorem C85_dc h x (n : nat) X : wf h -> abs h !! x = Some (Mat n n X) -> (2 * Z.of_nat n <= int_max)%Z -> (0 < n)%nat ->
  runs (dct (Some x)) h (fun d h' => exists B, abs h' = <[d := Mat n n B]> (abs h) /\ B 0%nat 0%nat = Rsum n (fun k => Rsum n (fun f => X k f - 128)) / INR n).
Proof.
  intros W A Hn H0. destruct (C85_formula h x n n X W A Hn Hn) as (d & h' & E & W' & _ & A'). exists d, h'. split; [exact E|]. split; [exact W'|]. eexists. split; [exact A'|].
  unfold dct2. unfold Rdiv at 1. rewrite <- Rsum_scal_r. apply Rsum_ext. intros k _. rewrite <- Rsum_scal_r. apply Rsum_ext. intros f _.
  assert (E0 : forall q, basis n 0 q = weight n 0). { intros q. unfold basis. replace (PI * INR 0 * (2 * INR q + 1) / (2 * INR n)) with 0 by (cbn [INR]; unfold Rdiv; ring). rewrite cos_0. ring. }
  rewrite !E0, weight_sq by exact H0. unfold wgt. rewrite decide_True by reflexivity. unfold Rdiv. ring.
Qed.
(** Refuted: "the transform of a matrix determines it".  The order of the basis along the rows is the number of rows: for a matrix with one
    row and two columns the second entry is always zero, and different images get the same transform. *)
Theorem C85_rectangular_refuted h x X : wf h -> abs h !! x = Some (Mat 2 1 X) ->
  runs (dct (Some x)) h (fun d h' => exists B, abs h' = <[d := Mat 2 1 B]> (abs h) /\ B 0%nat 0%nat = X 0%nat 0%nat + X 0%nat 1%nat - 256 /\ B 0%nat 1%nat = 0).
Proof.
  intros W A. destruct (C85_formula h x 2 1 X W A ltac:(unfold int_max; lia) ltac:(unfold int_max; lia)) as (d & h' & E & W' & _ & A'). exists d, h'. split; [exact E|]. split; [exact W'|]. eexists. split; [exact A'|].
  assert (E0 : forall q, basis 1 0 q = 1). { intros q. unfold basis, weight. rewrite decide_True by reflexivity. replace (PI * INR 0 * (2 * INR q + 1) / (2 * INR 1)) with 0 by (cbn [INR]; field). rewrite cos_0. cbn [INR]. rewrite sqrt_1. field. }
  assert (E1 : forall q, basis 1 1 q = 0).
  { intros q. unfold basis. replace (PI * INR 1 * (2 * INR q + 1) / (2 * INR 1)) with (PI / 2 + INR q * PI) by (cbn [INR]; field). rewrite cos_plus, cos_PI2, sin_nat_PI. ring. }
  unfold dct2. rewrite !Rsum_S. unfold Rsum. cbn [seq fmap list_fmap rsum]. rewrite !E0, !E1. split; ring.
Qed.
