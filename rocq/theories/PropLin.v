(** * Properties C44-C47: MLPPLinAlg factorisations, inverses and least squares over exact reals. *)
From Verif Require Import Base BaseProofs Vec VecSpec VecProofs VecProofs2 Mat MatSpec MatProofs MatProofs2 MatProofs3 MatProofs4 MatProofs5 DetCode DetProofs Frame Stat StatProofs Act ActProofs ActProofs2 Cost CostProofs Sym Svm LinAlg LinAlgProofs LinAlgProofs2 GsProofs PropAlg PropDet.
From Verif Require Import RSum CholMath LsqMath GsMath DetKer.
From Verif Require RField PropRot PropStat.
From Verif Require Import RErf LibmR.
From Coq Require Import Reals Lra Lia.
From Verif Require Import RInst.
Open Scope R_scope.
Implicit Types (h : heap R) (A L U : nat -> nat -> R).

Definition lower_triangular (L : nat -> nat -> R) : Prop := forall i j, (i < j)%nat -> L i j = 0.
Definition upper_triangular (U : nat -> nat -> R) : Prop := forall i j, (j < i)%nat -> U i j = 0.
Definition positive_diagonal (n : nat) (L : nat -> nat -> R) : Prop := forall i, (i < n)%nat -> 0 < L i i.
(** C = A B for an (r x m) A and an (m x c) B. *)
Definition product (r m c : nat) (A B C : nat -> nat -> R) : Prop := forall i j, (i < r)%nat -> (j < c)%nat -> C i j = Rsum m (fun k => A i k * B k j).
Definition transposed (A : nat -> nat -> R) : nat -> nat -> R := fun i j => A j i.

(** ** C44: cholesky *)
Theorem C44_cholesky h a n A : wf h -> abs h !! a = Some (Mat n n A) -> symmetric n A -> positive_definite n A ->
  exists L, lower_triangular L /\ positive_diagonal n L /\ product n n n L (transposed L) A /\
  runs (la_cholesky (Some a)) h (fun o h' => exists l lt, o = (Some l, Some lt) /\ abs h !! l = None /\ abs h !! lt = None /\ l <> lt /\
    abs h' = <[lt := Mat n n (transposed L)]> (<[l := Mat n n L]> (abs h))).
Proof.
  intros Hw Ha Sy PD. destruct (chol_correct A n Sy PD) as (C1 & C2 & C3). exists (chol A n). split; [exact C1|]. split; [exact C2|]. split; [intros i j Hi Hj; symmetry; apply C3; assumption|].
  apply runs_wp. eapply wp_la_cholesky; [exact Hw|exact Ha|]. intros l lt h' W N1 N2 D E. split; [exact W|]. exists l, lt. auto.
Qed.
(** The factor is determined by A. *)
Theorem C44_factor_unique A n L U : lower_triangular L -> positive_diagonal n L -> product n n n L (transposed L) A ->
  lower_triangular U -> positive_diagonal n U -> product n n n U (transposed U) A -> forall i j, (i < n)%nat -> (j < n)%nat -> L i j = U i j.
Proof.
  intros L1 L2 L3 U1 U2 U3. apply (chol_unique A n L U); try assumption; intros i j Hi Hj; symmetry; [apply L3|apply U3]; assumption.
Qed.
Lemma tri_solve n L x : lower_triangular L -> positive_diagonal n L -> (forall k, (k < n)%nat -> Rsum n (fun i => L i k * x i) = 0) -> forall i, (i < n)%nat -> x i = 0.
Proof.
  intros Lt Ld E. assert (G : forall m, (m <= n)%nat -> forall i, (n - m <= i < n)%nat -> x i = 0).
  { induction m as [|m IH]; intros Hm i Hi; [lia|]. destruct (decide (i = n - S m)%nat) as [->|]; [|apply IH; lia].
    pose proof (E (n - S m)%nat ltac:(lia)) as Ek. set (k := (n - S m)%nat) in *.
    rewrite (Rsum_ext n _ (fun i => (if decide (i = k) then 1 else 0) * (L i k * x i))) in Ek.
    - rewrite (Rsum_delta n k (fun i => L i k * x i)) in Ek by lia. pose proof (Ld k ltac:(lia)). apply Rmult_integral in Ek. destruct Ek; [lra|assumption].
    - intros j Hj. destruct (decide (j = k)) as [->|Hne]; [ring|]. destruct (decide (j < k)%nat) as [Hl|Hl]; [rewrite (Lt j k Hl); ring|]. rewrite (IH ltac:(lia) j) by lia. ring. }
  intros i Hi. apply (G n); lia.
Qed.
Lemma product_pd n L A : lower_triangular L -> positive_diagonal n L -> product n n n L (transposed L) A -> symmetric n A /\ positive_definite n A.
Proof.
  intros Lt Ld P. split.
  - intros i j Hi Hj. rewrite (P i j Hi Hj), (P j i Hj Hi). apply Rsum_ext. intros; unfold transposed; ring.
  - intros x (i0 & Hi0 & Hx). unfold quad.
    assert (E : Rsum n (fun i => Rsum n (fun j => x i * A i j * x j)) = Rsum n (fun k => Rsum n (fun i => L i k * x i) * Rsum n (fun i => L i k * x i))).
    { rewrite (Rsum_ext n _ (fun i => Rsum n (fun k => (L i k * x i) * Rsum n (fun j => L j k * x j)))).
      - rewrite Rsum_swap. apply Rsum_ext. intros k _. apply Rsum_scal_r.
      - intros i Hi. rewrite (Rsum_ext n _ (fun j => Rsum n (fun k => (L i k * x i) * (L j k * x j)))).
        + rewrite Rsum_swap. apply Rsum_ext. intros k _. apply Rsum_scal.
        + intros j Hj. rewrite (P i j Hi Hj). unfold transposed. rewrite <- Rsum_scal, <- Rsum_scal_r. apply Rsum_ext. intros; ring. }
    rewrite E. destruct (Rle_lt_or_eq_dec _ _ (Rsum_sq_nonneg n (fun k => Rsum n (fun i => L i k * x i)))) as [|Z]; [assumption|]. exfalso. apply Hx.
    apply (tri_solve n L x Lt Ld); [|exact Hi0]. intros k Hk. apply (Rsum_sq_zero n (fun k => Rsum n (fun i => L i k * x i))); [symmetry; exact Z|exact Hk].
Qed.
(** cholesky inverts L -> L L^T: whatever triangular L with positive diagonal was multiplied out, cholesky finds it again. *)
Theorem C44_round_trip h a n L A : wf h -> abs h !! a = Some (Mat n n A) -> lower_triangular L -> positive_diagonal n L -> product n n n L (transposed L) A ->
  runs (la_cholesky (Some a)) h (fun o h' => exists l lt, o = (Some l, Some lt) /\ abs h !! l = None /\ abs h !! lt = None /\ l <> lt /\
    abs h' = <[lt := Mat n n (transposed L)]> (<[l := Mat n n L]> (abs h))).
Proof.
  intros Hw Ha Lt Ld P. destruct (product_pd n L A Lt Ld P) as [Sy PD]. destruct (C44_cholesky h a n A Hw Ha Sy PD) as (U & U1 & U2 & U3 & (o & h' & E & W & l & lt & -> & N1 & N2 & D & B)).
  exists (Some l, Some lt), h'. split; [exact E|]. split; [exact W|]. exists l, lt. split; [reflexivity|]. split; [exact N1|]. split; [exact N2|]. split; [exact D|]. rewrite B.
  assert (EU : forall i j, (i < n)%nat -> (j < n)%nat -> U i j = L i j) by (apply (C44_factor_unique A); assumption).
  rewrite (Mat_ext n n U L EU), (Mat_ext n n (transposed U) (transposed L)); [reflexivity|]. intros i j Hi Hj. unfold transposed. apply EU; assumption.
Qed.
(** Only the lower triangle of A is used. *)
Theorem C44_lower_only h a b n A B : wf h -> abs h !! a = Some (Mat n n A) -> abs h !! b = Some (Mat n n B) ->
  (forall i j, (j <= i < n)%nat -> A i j = B i j) ->
  runs (let! ra := la_cholesky (Some a) in let! rb := la_cholesky (Some b) in ret (ra, rb)) h (fun '(ra, rb) h' =>
    exists l1 t1 l2 t2 X Y, ra = (Some l1, Some t1) /\ rb = (Some l2, Some t2) /\ abs h' !! l1 = Some X /\ abs h' !! l2 = Some X /\ abs h' !! t1 = Some Y /\ abs h' !! t2 = Some Y).
Proof.
  intros Hw Ha Hb E. apply runs_wp. wbind. eapply wp_la_cholesky; [exact Hw|exact Ha|]. intros l1 t1 h1 W1 N1 N2 D1 A1.
  assert (b <> l1) by congruence. assert (b <> t1) by congruence.
  wbind. eapply wp_la_cholesky; [exact W1|look|]. intros l2 t2 h2 W2 N3 N4 D2 A2. rewrite A1 in N3, N4, A2. split_none N3. split_none N4. apply wp_ret. split; [exact W2|].
  assert (EC : forall i j, (i < n)%nat -> (j < n)%nat -> chol A n i j = chol B n i j).
  { destruct (chol_eqs A n) as [EA ZA]. destruct (chol_eqs B n) as [EB ZB].
    assert (G : forall j i, (i < n)%nat -> (j <= i)%nat -> chol A n i j = chol B n i j).
    { induction j as [j IHj] using lt_wf_ind.
      assert (Hjj : (j < n)%nat -> chol A n j j = chol B n j j).
      { intros Hj. rewrite (EA j j), (EB j j) by lia. unfold chol_entry. rewrite !decide_True by reflexivity. rewrite (E j j) by lia.
        do 2 f_equal. apply lsum_ext. intros k Hk. rewrite (IHj k Hk j) by lia. reflexivity. }
      intros i Hi Hji. destruct (decide (i = j)) as [->|Hne]; [apply Hjj; lia|]. rewrite (EA i j), (EB i j) by lia. unfold chol_entry. rewrite !decide_False by exact Hne. rewrite (E i j), Hjj by lia.
      do 2 f_equal. apply lsum_ext. intros k Hk. rewrite (IHj k Hk i), (IHj k Hk j) by lia. reflexivity. }
    intros i j Hi Hj. destruct (decide (j <= i)%nat); [apply G; assumption|]. rewrite ZA, ZB by lia. reflexivity. }
  exists l1, t1, l2, t2, (Mat n n (chol A n)), (Mat n n (mat_tr (chol A n))).
  assert (l1 <> l2) by congruence. split; [reflexivity|]. split; [reflexivity|]. rewrite A2.
  rewrite (Mat_ext n n (chol B n) (chol A n)) by (intros; symmetry; apply EC; assumption). rewrite (Mat_ext n n (mat_tr (chol B n)) (mat_tr (chol A n))) by (intros; symmetry; unfold mat_tr; apply EC; assumption).
  assert (l2 <> l1) by congruence. assert (t2 <> l1) by congruence. assert (t2 <> t1) by congruence. assert (l2 <> t1) by congruence. assert (t2 <> l2) by congruence. assert (t1 <> l1) by congruence.
  repeat split; repeat (first [apply lookup_insert|rewrite lookup_insert_ne by congruence]).
Qed.
Theorem C44_not_square h a c r A : abs h !! a = Some (Mat c r A) -> c <> r -> la_cholesky (Some a) h = Ok (None, None) h.
Proof.
  intros Ha Hne. unfold la_cholesky. cbn [deref]. unfold bind at 1. cbn. destruct (m_size a h) as [s h1| | |] eqn:E.
  - assert (P : wp (m_size a) h (fun s h1 => s = (Z.of_nat c, Z.of_nat r) /\ h1 = h)) by (eapply wp_m_size; [exact Ha|]; auto). unfold wp in P. rewrite E in P. destruct P as [-> ->].
    unfold bind. rewrite E. cbn. replace (Z.of_nat c =? Z.of_nat r)%Z with false by lia. reflexivity.
  - assert (P : wp (m_size a) h (fun s h1 => True)) by (eapply wp_m_size; [exact Ha|]; auto). unfold wp in P. rewrite E in P. contradiction.
  - assert (P : wp (m_size a) h (fun s h1 => True)) by (eapply wp_m_size; [exact Ha|]; auto). unfold wp in P. rewrite E in P. contradiction.
  - assert (P : wp (m_size a) h (fun s h1 => True)) by (eapply wp_m_size; [exact Ha|]; auto). unfold wp in P. rewrite E in P. contradiction.
Qed.

(** ** C45: gram_schmidt_process and qrd *)
(** The columns of the d x m matrix Q have length 1 and are pairwise orthogonal. *)
Definition orthonormal_columns (d m : nat) (Q : nat -> nat -> R) : Prop :=
  forall i j, (i < m)%nat -> (j < m)%nat -> Rsum d (fun k => Q k i * Q k j) = if decide (i = j) then 1 else 0.
Lemma gs_QR d m A : independent d m A ->
  let Q := fun k i => nth k (nth i (gs_rows (F := R) ((fun i => vlist d (mat_tr A i)) <$> seq 0 m)) []) 0 in
  let U := mat_mul (F := R) d (mat_tr Q) A in
  orthonormal_columns d m Q /\ product d m m Q U A /\ (forall i j, (i < m)%nat -> (j < i)%nat -> U i j = 0) /\ positive_diagonal m U.
Proof.
  intros In Q U. set (cols := (fun i => vlist d (mat_tr A i)) <$> seq 0 m).
  assert (Wc : width d cols) by (apply Forall_fmap, list.Forall_forall; intros i _; cbn; apply vlist_length).
  assert (Lc : length cols = m) by (unfold cols; rewrite fmap_length, seq_length; reflexivity).
  assert (Ea : forall i k, (i < m)%nat -> (k < d)%nat -> nth k (nth i cols []) 0 = A k i).
  { intros i k Hi Hk. unfold cols. rewrite (nth_lookup_Some _ i [] (vlist d (mat_tr A i))) by (rewrite list_lookup_fmap, lookup_seq_lt by exact Hi; reflexivity).
    apply nth_lookup_Some. unfold vlist. rewrite list_lookup_fmap, lookup_seq_lt by exact Hk. reflexivity. }
  assert (EU : forall j i, (i < m)%nat -> dot d (fun k => Q k j) (fun k => nth k (nth i cols []) 0) = U j i).
  { intros j i Hi. unfold U. rewrite mat_mul_R. apply Rsum_ext. intros k Hk. rewrite Ea by assumption. reflexivity. }
  destruct (gs_solution d m (fun i k => nth k (nth i cols []) 0) (fun i k => Q k i)) as (S1 & S2 & S3 & S4).
  { intros i Hi. apply (gs_eqs d cols i Wc). lia. }
  { intros x Hx j Hj. apply (In x); [|exact Hj]. intros k Hk. rewrite <- (Hx k Hk). apply Rsum_ext. intros i Hi. rewrite Ea by assumption. reflexivity. }
  split; [exact S1|]. split; [|split].
  - intros k i Hk Hi. rewrite <- (Ea i k Hi Hk). rewrite (S2 i k Hi Hk). apply Rsum_ext. intros j Hj. rewrite (EU j i Hi). ring.
  - intros j i Hj L. rewrite <- (EU j i) by lia. apply S3; lia.
  - intros i Hi. rewrite <- (EU i i Hi). apply S4. exact Hi.
Qed.
Theorem C45_gram_schmidt h a d m A : wf h -> abs h !! a = Some (Mat m d A) -> (0 < m)%nat -> (Z.of_nat d <= int_max)%Z -> independent d m A ->
  exists Q U, orthonormal_columns d m Q /\ upper_triangular U /\ positive_diagonal m U /\ product d m m Q U A /\
  runs (la_gram_schmidt (Some a)) h (fun q h' => abs h !! q = None /\ abs h' = <[q := Mat m d Q]> (abs h)).
Proof.
  intros Hw Ha Hm Hd In. destruct (gs_QR d m A In) as (Q1 & Q2 & Q3 & Q4). set (Q := fun k i => _) in *. cbv zeta in *. set (U := mat_mul (F := R) d (mat_tr Q) A) in *.
  exists Q, (fun i j => if decide (j < i)%nat then 0 else U i j). split; [exact Q1|]. split; [intros i j L; rewrite decide_True by exact L; reflexivity|]. split; [intros i Hi; rewrite decide_False by lia; apply Q4; exact Hi|]. split.
  - intros k i Hk Hi. rewrite (Q2 k i Hk Hi). apply Rsum_ext. intros j Hj. destruct (decide (i < j)%nat); [rewrite Q3 by lia; reflexivity|reflexivity].
  - apply runs_wp. eapply wp_la_gram_schmidt; [exact Hw|exact Ha|exact Hm|exact Hd|]. intros q h' W N E. split; [exact W|]. split; [exact N|]. exact E.
Qed.
(** qrd: A = Q R with orthonormal Q and R upper triangular with positive diagonal. *)
Theorem C45_qrd h a d m A : wf h -> abs h !! a = Some (Mat m d A) -> (0 < m)%nat -> (Z.of_nat d <= int_max)%Z -> (Z.of_nat (m * m) <= int_max)%Z -> independent d m A ->
  exists Q U, orthonormal_columns d m Q /\ upper_triangular U /\ positive_diagonal m U /\ product d m m Q U A /\
  runs (la_qrd (Some a)) h (fun o h' => exists q u, o = (q, Some u) /\ abs h !! q = None /\ abs h !! u = None /\ q <> u /\ abs h' = <[u := Mat m m U]> (<[q := Mat m d Q]> (abs h))).
Proof.
  intros Hw Ha Hm Hd Hmm In. destruct (gs_QR d m A In) as (Q1 & Q2 & Q3 & Q4). set (Q := fun k i => _) in *. cbv zeta in *. set (U := mat_mul (F := R) d (mat_tr Q) A) in *.
  exists Q, (fun i j => if decide (j < i)%nat then 0 else U i j). split; [exact Q1|]. split; [intros i j L; rewrite decide_True by exact L; reflexivity|]. split; [intros i Hi; rewrite decide_False by lia; apply Q4; exact Hi|]. split.
  - intros k i Hk Hi. rewrite (Q2 k i Hk Hi). apply Rsum_ext. intros j Hj. destruct (decide (i < j)%nat); [rewrite Q3 by lia; reflexivity|reflexivity].
  - apply runs_wp. eapply wp_la_qrd; [exact Hw|exact Ha|exact Hm|exact Hd|exact Hmm|]. intros q u h' W N1 N2 D fq E. split; [exact W|]. exists q, u. split; [reflexivity|]. split; [exact N1|]. split; [exact N2|]. split; [exact D|].
    rewrite E. rewrite (Mat_ext m m (fun i j => if decide (j < i)%nat then 0 else U i j) U); [reflexivity|]. intros i j Hi Hj. destruct (decide (j < i)%nat) as [L|]; [|reflexivity]. rewrite Q3 by lia. reflexivity.
Qed.
(** Q and R are determined by these four conditions. *)
Theorem C45_qr_unique d m A Q U Q' U' : orthonormal_columns d m Q -> upper_triangular U -> positive_diagonal m U -> product d m m Q U A ->
  orthonormal_columns d m Q' -> upper_triangular U' -> positive_diagonal m U' -> product d m m Q' U' A ->
  (forall i j, (i < m)%nat -> (j < m)%nat -> U i j = U' i j) /\ (forall k i, (k < d)%nat -> (i < m)%nat -> Q k i = Q' k i).
Proof.
  assert (G : forall Q U, orthonormal_columns d m Q -> product d m m Q U A -> product m m m (transposed U) (transposed (transposed U)) (gram d A)).
  { intros Q0 U0 O P i j Hi Hj. unfold gram, transposed.
    rewrite (Rsum_ext d _ (fun k => Rsum m (fun x => Rsum m (fun y => (U0 x i * U0 y j) * (Q0 k x * Q0 k y))))).
    - rewrite Rsum_swap. apply Rsum_ext. intros x Hx. rewrite Rsum_swap. rewrite (Rsum_ext m _ (fun y => (if decide (y = x) then 1 else 0) * (U0 x i * U0 y j))).
      + rewrite (Rsum_delta m x (fun y => U0 x i * U0 y j)) by exact Hx. reflexivity.
      + intros y Hy. rewrite Rsum_scal, (O x y Hx Hy). destruct (decide (x = y)), (decide (y = x)); subst; try congruence; ring.
    - intros k Hk. rewrite (P k i Hk Hi), (P k j Hk Hj), Rsum_prod. apply Rsum_ext. intros x _. apply Rsum_ext. intros; ring. }
  intros O1 T1 D1 P1 O2 T2 D2 P2.
  assert (EU : forall i j, (i < m)%nat -> (j < m)%nat -> U i j = U' i j).
  { intros i j Hi Hj. apply (C44_factor_unique (gram d A) m (transposed U) (transposed U')) with (i := j) (j := i); try assumption.
    - intros x y L. apply T1. exact L. - apply (G Q); assumption. - intros x y L. apply T2. exact L. - apply (G Q'); assumption. }
  split; [exact EU|]. intros k i Hk. revert i. induction i as [i IH] using lt_wf_ind. intros Hi.
  pose proof (P1 k i Hk Hi) as E1. pose proof (P2 k i Hk Hi) as E2.
  assert (S : forall (V W : nat -> nat -> R), upper_triangular V -> Rsum m (fun j => W k j * V j i) = Rsum i (fun j => W k j * V j i) + W k i * V i i).
  { intros V W TV. rewrite (Rsum_head m (S i)) by (try lia; intros j Hj; rewrite TV by lia; ring). apply Rsum_S. }
  rewrite S in E1, E2 by assumption. rewrite (Rsum_ext i _ (fun j => Q' k j * U' j i)) in E1 by (intros j Hj; rewrite IH, EU by lia; reflexivity).
  pose proof (D2 i Hi) as Hd. rewrite (EU i i Hi Hi) in E1. apply (Rmult_eq_reg_r (U' i i)); lra.
Qed.

Lemma gram_mul r A : mat_mul (F := R) r (mat_tr A) A = gram r A.
Proof. apply FunctionalExtensionality.functional_extensionality. intros i. apply FunctionalExtensionality.functional_extensionality. intros j. apply mat_mul_R. Qed.
(** ** C46: inversenm, pinversenm *)
Theorem C46_inverse h a n A : (2 <= n)%nat -> wf h -> abs h !! a = Some (Mat n n A) -> (exists B, inverse_of n A B) ->
  exists B, inverse_of n A B /\ runs (la_inverse (Some a)) h (fun o h' => abs h !! o = None /\ abs h' = <[o := Mat n n B]> (abs h)).
Proof.
  intros Hn Hw Ha (B & HB). assert (D : Rdet n A <> 0) by (apply (C23_invertible_iff _ PropRot.R_exact_field n A Hn); exists B; apply inverse_of_spec; exact HB).
  exists (inv_entry n A). split; [apply inverse_of_spec; apply inv_entry_inverse; [apply PropRot.R_exact_field|exact Hn|exact D]|].
  apply runs_wp. eapply wp_la_inverse; [exact Hw|exact Ha|]. auto.
Qed.
(** pinversenm of a matrix with independent columns is a left inverse and gives the unique least-squares solution for every
    right-hand side. *)
Theorem C46_pinverse h a r c A : (2 <= c)%nat -> wf h -> abs h !! a = Some (Mat c r A) -> (Z.of_nat (c * c) <= int_max)%Z -> independent r c A ->
  exists P, (forall i j, (i < c)%nat -> (j < c)%nat -> Rsum r (fun k => P i k * A k j) = if decide (i = j) then 1 else 0) /\
    (forall b z, residual r c A b (apply r P b) <= residual r c A b z) /\
    (forall b z, residual r c A b z = residual r c A b (apply r P b) -> forall j, (j < c)%nat -> z j = apply r P b j) /\
    runs (la_pinverse (Some a)) h (fun o h' => exists p, o = Some p /\ abs h !! p = None /\ abs h' = <[p := Mat r c P]> (abs h)).
Proof.
  intros Hc Hw Ha Hcc In. exists (pinv r c A). split; [intros; apply pinv_left; assumption|]. split; [intros; apply pinv_least_squares; assumption|]. split; [intros b z E j Hj; apply (pinv_least_squares r c A Hc In b z); assumption|].
  apply runs_wp. eapply wp_la_pinverse; [exact Hw|exact Ha|exact Hcc|]. intros p h' W N E. split; [exact W|]. exists p. split; [reflexivity|]. split; [exact N|]. rewrite E. f_equal.
  apply Mat_ext. intros i j Hi Hj. rewrite mat_mul_R. unfold pinv. apply Rsum_ext. intros k Hk. unfold mat_tr at 2. rewrite gram_mul. reflexivity.
Qed.

(** linear_independence_checker is right for square matrices ... *)
Notation detR := (det_code (F := R) s_zero s_add s_sub s_mul pow_sign).
Lemma neq0_spec (x : R) : negb (s_eq x s_zero) = true <-> x <> 0.
Proof. change (s_eq x s_zero) with (Reqb x 0). destruct (Reqb x 0) eqn:E; [apply Reqb_true in E|apply Reqb_false in E]; cbn; intuition congruence. Qed.
Theorem C47_square h a n A : (2 <= n)%nat -> wf h -> abs h !! a = Some (Mat n n A) ->
  runs (la_independent (Some a)) h (fun b h' => (b = true <-> independent n n A) /\ abs h' = abs h).
Proof.
  intros Hn Hw Ha. destruct (amat_len h a _ _ _ Hw Ha) as [_ Hle].
  apply runs_wp. eapply wp_la_independent; [exact Hw|exact Ha|lia|lia|]. intros h' W E. split; [exact W|]. split; [|exact E]. rewrite gram_mul.
  assert (ED : detR n (pad n n (gram n A)) = Rdet n (gram n A)).
  { etransitivity; [exact (DetMC.ops_det PropRot.R_exact_field _ Hn)|]. apply (@DetMC.mc_det_ext RField.R_fieldType). intros i j Hi Hj. unfold pad. rewrite decide_True by (split; assumption). reflexivity. }
  rewrite ED. rewrite neq0_spec. split; [intros B; apply gram_independent; [assumption|exact B]|intros I; exact (gram_det n n A I)].
Qed.
(** ... but answers "dependent" for every matrix with more rows than columns ... *)
Theorem C47_tall h a r c A : (c < r)%nat -> (2 <= r)%nat -> wf h -> abs h !! a = Some (Mat c r A) -> (Z.of_nat (c * c) <= int_max)%Z -> (Z.of_nat (r * r) <= int_max)%Z ->
  runs (la_independent (Some a)) h (fun b h' => b = false /\ abs h' = abs h).
Proof.
  intros Hcr Hr Hw Ha Hcc Hrr. apply runs_wp. eapply wp_la_independent; [exact Hw|exact Ha|exact Hcc|exact Hrr|]. intros h' W E. split; [exact W|]. split; [|exact E].
  assert (ED : detR r (pad c c (mat_mul r (mat_tr A) A)) = 0).
  { etransitivity; [exact (DetMC.ops_det PropRot.R_exact_field _ Hr)|]. destruct (Req_EM_T (Rdet r (pad c c (mat_mul (F := R) r (mat_tr A) A))) 0) as [|Nz]; [assumption|]. exfalso.
    destruct (proj2 (C23_invertible_iff _ PropRot.R_exact_field r _ Hr) Nz) as [B HB]. apply inverse_of_spec in HB. destruct (HB c c Hcr Hcr) as [E1 _]. rewrite decide_True in E1 by reflexivity.
    rewrite (Rsum_ext r _ (fun _ => 0)), Rsum_zero in E1; [lra|]. intros k Hk. unfold pad. rewrite decide_False by lia. change s_zero with 0. ring. }
  rewrite ED. assert (EQ : s_eq (F := R) 0 s_zero = true) by (apply Reqb_true; reflexivity). rewrite EQ. reflexivity.
Qed.
(** ... and looks only at the first r columns of a matrix with r rows and more than r columns (whose columns always are dependent). *)
Theorem C47_wide h a r c A : (r < c)%nat -> (2 <= r)%nat -> wf h -> abs h !! a = Some (Mat c r A) -> (Z.of_nat (c * c) <= int_max)%Z ->
  runs (la_independent (Some a)) h (fun b h' => (b = true <-> independent r r A) /\ abs h' = abs h).
Proof.
  intros Hcr Hr Hw Ha Hcc. apply runs_wp. eapply wp_la_independent; [exact Hw|exact Ha|exact Hcc|nia|]. intros h' W E. split; [exact W|]. split; [|exact E]. rewrite gram_mul.
  assert (ED : detR r (pad c c (gram r A)) = Rdet r (gram r A)).
  { etransitivity; [exact (DetMC.ops_det PropRot.R_exact_field _ Hr)|]. apply (@DetMC.mc_det_ext RField.R_fieldType). intros i j Hi Hj. unfold pad. rewrite decide_True by lia. reflexivity. }
  rewrite ED. rewrite neq0_spec. split; [intros B; apply gram_independent; [assumption|exact B]|intros I; exact (gram_det r r A I)].
Qed.

(** solve: the unique x with A x = b. *)
Theorem C46_solve h a b n A (bs : list R) : (2 <= n)%nat -> wf h -> abs h !! a = Some (Mat n n A) -> abs h !! b = Some (AVec bs) -> length bs = n -> (exists B, inverse_of n A B) ->
  exists xs, length xs = n /\ (forall i, (i < n)%nat -> apply n A (fun k => nth k xs 0) i = nth i bs 0) /\
    (forall y, (forall i, (i < n)%nat -> apply n A y i = nth i bs 0) -> forall i, (i < n)%nat -> y i = nth i xs 0) /\
    runs (la_solve (Some a) (Some b)) h (fun o h' => exists d, o = Some d /\ abs h !! d = None /\ abs h' = <[d := AVec xs]> (abs h)).
Proof.
  intros Hn Hw Ha Hb Hl (B & HB). assert (D : Rdet n A <> 0) by (apply (C23_invertible_iff _ PropRot.R_exact_field n A Hn); exists B; apply inverse_of_spec; exact HB).
  pose proof (inv_entry_inverse _ PropRot.R_exact_field n A Hn D) as Hi.
  destruct (C24_solve _ PropRot.R_exact_field h a b n A bs Hn D Hw Ha Hb Hl) as (xs & (L1 & L2 & S1) & U & _). exists xs. split; [exact L1|]. split; [|split].
  - intros i Hi'. pose proof (S1 i Hi') as E. rewrite lsum_Rsum in E. exact E.
  - intros y Hy i Hi'. assert (E : vlist n y = xs).
    { apply U. split; [apply vlist_length|]. split; [exact Hl|]. intros j Hj. rewrite lsum_Rsum. etransitivity; [|exact (Hy j Hj)]. apply Rsum_ext. intros k Hk. cbn. f_equal. apply nth_lookup_Some. apply vlist_lookup. exact Hk. }
    rewrite <- E. symmetry. apply nth_lookup_Some. apply vlist_lookup. exact Hi'.
  - assert (Hle : (Z.of_nat n <= int_max)%Z) by (destruct (amat_len h a _ _ _ Hw Ha) as [_ Hl']; nia).
    apply runs_wp. eapply wp_la_solve; [exact Hw|exact Ha|exact Hb|lia|exact Hle|]. intros d h' W N E. split; [exact W|]. exists d. split; [reflexivity|]. split; [exact N|]. rewrite E. rewrite Hl. do 2 f_equal.
    symmetry. apply (solve_unique _ PropRot.R_exact_field n A (inv_entry n A) xs bs Hi). split; [exact L1|]. split; [exact L2|exact S1].
Qed.
(** covnm of a matrix with at least as many rows as columns: entry (i, j) is the covariance of rows i and j (for a square
    matrix, the whole covariance matrix of its rows). *)
Theorem C46_covariance_matrix h a c r rows : wf h -> abs h !! a = Some (Rows c rows) -> width c rows -> length rows = r -> (c <= r)%nat ->
  runs (la_cov (Some a)) h (fun o h' => abs h !! o = None /\ abs h' = <[o := Mat c r (fun i j => PropStat.covariance (nth i rows []) (nth j rows []))]> (abs h)).
Proof.
  intros Hw Ha Hwd Hr Hc. apply runs_wp. eapply wp_la_cov; [exact Hw|exact Ha|exact Hwd|exact Hr|exact Hc|]. intros o h' W N E. split; [exact W|]. split; [exact N|]. rewrite E. f_equal. apply Mat_ext. intros i j Hi Hj.
  apply PropStat.f_cov_R.
Qed.
Theorem C46_projection h a b xs ys : wf h -> abs h !! a = Some (AVec xs) -> abs h !! b = Some (AVec ys) -> length xs = length ys -> rsum ((fun x => x * x) <$> xs) <> 0 ->
  exists zs t, length zs = length xs /\ (forall i, (i < length xs)%nat -> nth i zs 0 = t * nth i xs 0) /\
    Rsum (length xs) (fun i => (nth i ys 0 - nth i zs 0) * nth i xs 0) = 0 /\
    runs (la_projection (Some a) (Some b)) h (fun o h' => abs h !! o = None /\ abs h' = <[o := AVec zs]> (abs h)).
Proof.
  intros Hw Ha Hb Hl Hnz. set (n := length xs).
  assert (Ex : dotl (F := R) xs xs = dot n (fun k => nth k xs 0) (fun k => nth k xs 0)) by (apply dotl_dot; reflexivity).
  assert (Ey : dotl (F := R) xs ys = dot n (fun k => nth k xs 0) (fun k => nth k ys 0)) by (apply dotl_dot; [reflexivity|symmetry; exact Hl]).
  assert (Nz : dotl (F := R) xs xs <> 0).
  { intros E. apply Hnz. rewrite Ex in E. rewrite rsum_nth, fmap_length. fold n. rewrite <- E. apply Rsum_ext. intros k Hk. destruct (lookup_lt_is_Some_2 xs k Hk) as [x E']. rewrite (nth_lookup_Some _ _ _ _ E'). apply nth_lookup_Some. rewrite list_lookup_fmap, E'. reflexivity. }
  set (t := dotl xs ys / dotl xs xs). exists ((fun x => x * t) <$> xs), t.
  assert (Ez : forall i, (i < n)%nat -> nth i ((fun x => x * t) <$> xs) 0 = t * nth i xs 0).
  { intros i Hi. destruct (lookup_lt_is_Some_2 xs i Hi) as [x E']. rewrite (nth_lookup_Some _ _ _ _ E'). rewrite Rmult_comm. apply nth_lookup_Some. rewrite list_lookup_fmap, E'. reflexivity. }
  split; [apply fmap_length|]. split; [exact Ez|]. split.
  - rewrite (Rsum_ext n _ (fun i => nth i xs 0 * nth i ys 0 - t * (nth i xs 0 * nth i xs 0))) by (intros i Hi; rewrite Ez by exact Hi; ring).
    rewrite Rsum_minus, Rsum_scal. fold (dot n (fun i => nth i xs 0) (fun i => nth i ys 0)). fold (dot n (fun i => nth i xs 0) (fun i => nth i xs 0)). rewrite <- Ex, <- Ey. unfold t. field. exact Nz.
  - apply runs_wp. eapply wp_la_projection; [exact Hw|exact Ha|exact Hb|exact Hl|]. intros o h' W N E. split; [exact W|]. split; [exact N|]. exact E.
Qed.
