(** * The Cholesky recursion over the reals. *)
From Verif Require Import Base BaseProofs Mat MatSpec MatProofs MatProofs2 Act LinAlg LinAlgProofs RSum.
From Verif Require Import RErf LibmR.
From Coq Require Import Reals Lra Lia.
From Verif Require Import RInst.
Open Scope R_scope.

(** ** The entries satisfy the Cholesky equations (any arithmetic). *)
Section eqs.
Context {F : Type} `{Scalar F} `{Libm F}.
Implicit Types (A L U : nat -> nat -> F).
Lemma chol_entry_ext A L U i j : (forall k, (k < j)%nat -> L i k = U i k /\ L j k = U j k) -> (i <> j -> L j j = U j j) -> chol_entry A L i j = chol_entry A U i j.
Proof.
  intros E D. unfold chol_entry. destruct (decide (i = j)) as [->|Hne].
  - f_equal. f_equal. apply lsum_ext. intros k Hk. destruct (E k Hk) as [-> _]. reflexivity.
  - rewrite (lsum_ext j (fun k => s_mul (L i k) (L j k)) (fun k => s_mul (U i k) (U j k))); [rewrite D by exact Hne; reflexivity|]. intros k Hk. destruct (E k Hk) as [-> ->]. reflexivity.
Qed.
Lemma chol_col_spec A L j m : 
  let U := foldl (fun L i => upd L i j (chol_entry A L i j)) L (seq j m) in
  (forall i k, (k <> j \/ i < j \/ j + m <= i)%nat -> U i k = L i k) /\ (forall i, (j <= i < j + m)%nat -> U i j = chol_entry A U i j).
Proof.
  induction m as [|m [IH1 IH2]]; cbv zeta; [split; [reflexivity|lia]|].
  replace (S m) with (m + 1)%nat by lia. rewrite seq_app, foldl_app. cbn [seq foldl]. set (U := foldl _ L (seq j m)) in *. cbv zeta in *. split.
  - intros i k Hik. unfold upd. rewrite decide_False by lia. apply IH1. lia.
  - intros i Hi. unfold upd at 1. destruct (decide (i = j + m /\ j = j)%nat) as [[-> _]|Hne].
    + apply chol_entry_ext; [intros k Hk; unfold upd; rewrite !decide_False by lia; auto|]. intros. unfold upd. rewrite decide_False by lia. reflexivity.
    + rewrite IH2 by lia. apply chol_entry_ext; [intros k Hk; unfold upd; rewrite !decide_False by lia; auto|]. intros. unfold upd. rewrite decide_False by lia. reflexivity.
Qed.
Lemma chol_eqs A n : let L := chol A n in
  (forall i j, (j <= i < n)%nat -> L i j = chol_entry A L i j) /\ (forall i j, (i < j)%nat -> L i j = s_zero).
Proof.
  cbv zeta. unfold chol. assert (G : forall m, (m <= n)%nat -> let L := foldl (chol_col A n) (fun _ _ => s_zero) (seq 0 m) in
    (forall i j, (j < m)%nat -> (j <= i < n)%nat -> L i j = chol_entry A L i j) /\ (forall i j, (i < j \/ m <= j)%nat -> L i j = s_zero)).
  { induction m as [|m IH]; intros Hm; cbv zeta; [split; [lia|reflexivity]|]. destruct (IH ltac:(lia)) as [I1 I2].
    replace (S m) with (m + 1)%nat by lia. rewrite seq_app, foldl_app. cbn [seq foldl]. cbv zeta in *. set (L := foldl (chol_col A n) _ (seq 0 m)) in *.
    destruct (chol_col_spec A L m (n - m)) as [C1 C2]. cbv zeta in C1, C2. fold (chol_col A n L m) in C1, C2. set (U := chol_col A n L m) in *. cbn [Nat.add]. split.
    - intros i j Hj Hi. destruct (decide (j = m)) as [->|Hne]; [apply C2; lia|]. rewrite C1 by lia. rewrite I1 by lia.
      apply chol_entry_ext; [intros k Hk; rewrite !C1 by lia; auto|]. intros _. rewrite C1 by lia. reflexivity.
    - intros i j Hij. rewrite C1 by lia. apply I2. lia. }
  destruct (G n ltac:(lia)) as [G1 G2]. split; [intros i j Hi; apply G1; lia|]. intros i j Hi. apply G2. lia.
Qed.
End eqs.

(** ** Over the reals *)
Implicit Types (A L U : nat -> nat -> R).
Lemma chol_pivot A n j : symmetric n A -> positive_definite n A -> (j < n)%nat -> let L := chol A n in
  (forall k, (k < j)%nat -> 0 < L k k) -> 0 < A j j - Rsum j (fun k => L j k * L j k).
Proof.
  intros Sy PD Hj L Hd. destruct (chol_eqs A n) as [E1 E2]. fold L in E1, E2.
  assert (Low : forall i l, (l <= i < n)%nat -> (l < j)%nat -> A i l = Rsum j (fun k => L i k * L l k)).
  { intros i l Hl Hlj. rewrite (Rsum_head j (S l)) by (try lia; intros k Hk; rewrite (E2 l k) by lia; change s_zero with 0; ring). rewrite Rsum_S.
    assert (Hll : 0 < L l l) by auto. destruct (decide (i = l)) as [->|Hne].
    - pose proof (E1 l l ltac:(lia)) as Hs. unfold chol_entry in Hs. rewrite decide_True in Hs by reflexivity. rewrite lsum_Rsum in Hs. cbn in Hs. cbn [s_sub s_mul R_scalar] in Hs.
      assert (0 < A l l - Rsum l (fun k => L l k * L l k)).
      { destruct (Rlt_dec 0 (A l l - Rsum l (fun k => L l k * L l k))); [assumption|]. rewrite sqrt_neg_0 in Hs by lra. lra. }
      assert (Hm : L l l * L l l = A l l - Rsum l (fun k => L l k * L l k)) by (rewrite Hs; apply sqrt_sqrt; lra). rewrite Hm. lra.
    - pose proof (E1 i l ltac:(lia)) as Hs. unfold chol_entry in Hs. rewrite decide_False in Hs by exact Hne. rewrite lsum_Rsum in Hs. cbn [s_sub s_mul s_div R_scalar] in Hs.
      assert (Hm : L i l * L l l = A i l - Rsum l (fun k => L i k * L l k)) by (rewrite Hs; field; lra). rewrite Hm. lra. }
  (* the vector x with L^T x = 0 above row j *)
  assert (X : forall m, (m <= j)%nat -> exists x : nat -> R, x j = 1 /\ (forall i, (j < i \/ i < j - m)%nat -> x i = 0) /\ (forall k, (j - m <= k < j)%nat -> Rsum n (fun i => L i k * x i) = 0)).
  { induction m as [|m IH]; intros Hm.
    - exists (fun i => if decide (i = j) then 1 else 0). split; [rewrite decide_True by reflexivity; reflexivity|]. split; [intros i Hi; rewrite decide_False by lia; reflexivity|lia].
    - destruct (IH ltac:(lia)) as (x & X1 & X2 & X3). set (p := (j - S m)%nat).
      exists (fun i => if decide (i = p) then - (Rsum n (fun i => L i p * x i)) / L p p else x i). split; [rewrite decide_False by lia; exact X1|]. split.
      + intros i Hi. rewrite decide_False by lia. apply X2. lia.
      + assert (Gk : forall k, Rsum n (fun i => L i k * (if decide (i = p) then - (Rsum n (fun i => L i p * x i)) / L p p else x i)) = Rsum n (fun i => L i k * x i) + L p k * (- (Rsum n (fun i => L i p * x i)) / L p p)).
        { intros k. rewrite (Rsum_ext n _ (fun i => L i k * x i + (if decide (i = p) then 1 else 0) * (L i k * (- (Rsum n (fun i => L i p * x i)) / L p p)))).
          - rewrite Rsum_plus, Rsum_delta by lia. reflexivity.
          - intros i Hi. destruct (decide (i = p)) as [->|]; [|ring]. rewrite (X2 p) by lia. ring. }
        intros k Hk. rewrite Gk. destruct (decide (k = p)) as [->|Hkp].
        * assert (0 < L p p) by (apply Hd; lia). field. lra.
        * rewrite (E2 p k) by lia. rewrite X3 by lia. change s_zero with 0. ring. }
  destruct (X j ltac:(lia)) as (x & X1 & X2 & X3). rewrite Nat.sub_diag in X3.
  pose proof (PD x ltac:(exists j; split; [lia|rewrite X1; lra])) as Q. unfold quad in Q.
  set (d := A j j - Rsum j (fun k => L j k * L j k)) in *.
  assert (EA : forall i l, (i < n)%nat -> (l < n)%nat -> x i * A i l * x l = Rsum j (fun k => (L i k * x i) * (L l k * x l)) + (if decide (i = j) then 1 else 0) * ((if decide (l = j) then 1 else 0) * d)).
  { intros i l Hi Hl. destruct (decide (j < i \/ j < l)%nat) as [Hb|Hb].
    { assert (E0 : x i * x l = 0) by (destruct Hb; [rewrite (X2 i) by lia|rewrite (X2 l) by lia]; ring).
      rewrite (Rsum_ext j _ (fun _ => 0)) by (intros; replace (L i k * x i * (L l k * x l)) with (L i k * L l k * (x i * x l)) by ring; rewrite E0; ring). rewrite Rsum_zero.
      replace (x i * A i l * x l) with (A i l * (x i * x l)) by ring. rewrite E0.
      destruct Hb; [rewrite (decide_False (P := i = j)) by lia|rewrite (decide_False (P := l = j)) by lia]; ring. }
    rewrite (Rsum_ext j _ (fun k => (x i * x l) * (L i k * L l k))) by (intros; ring). rewrite Rsum_scal.
    destruct (decide (i = j)) as [->|Hij]; destruct (decide (l = j)) as [->|Hlj].
    - rewrite X1. unfold d. ring.
    - rewrite (Low j l) by lia. ring.
    - rewrite (Sy i j) by lia. rewrite (Low j i) by lia. rewrite (Rsum_ext j (fun k => L j k * L i k) (fun k => L i k * L j k)) by (intros; ring). ring.
    - destruct (decide (l <= i)%nat) as [Hli|Hli].
      + rewrite (Low i l) by lia. ring.
      + rewrite (Sy i l) by lia. rewrite (Low l i) by lia. rewrite (Rsum_ext j (fun k => L l k * L i k) (fun k => L i k * L l k)) by (intros; ring). ring. }
  assert (EQ : Rsum n (fun i => Rsum n (fun l => x i * A i l * x l)) = d).
  { rewrite (Rsum_ext n _ (fun i => Rsum j (fun k => L i k * x i * Rsum n (fun l => L l k * x l)) + (if decide (i = j) then 1 else 0) * d)).
    - rewrite Rsum_plus. rewrite (Rsum_delta n j (fun _ => d)) by lia. rewrite (Rsum_ext n _ (fun _ => 0)), Rsum_zero; [lra|].
      intros i Hi. rewrite (Rsum_ext j _ (fun _ => 0)); [apply Rsum_zero|]. intros k Hk. rewrite X3 by lia. ring.
    - intros i Hi. rewrite (Rsum_ext n _ (fun l => Rsum j (fun k => L i k * x i * (L l k * x l)) + (if decide (i = j) then 1 else 0) * ((if decide (l = j) then 1 else 0) * d))) by (intros l Hl; apply EA; assumption).
      rewrite Rsum_plus, Rsum_scal, (Rsum_delta n j (fun _ => d)) by lia. f_equal. rewrite Rsum_swap. apply Rsum_ext. intros k Hk. apply Rsum_scal. }
  rewrite EQ in Q. exact Q.
Qed.
Lemma chol_correct A n : symmetric n A -> positive_definite n A -> let L := chol A n in
  (forall i j, (i < j)%nat -> L i j = 0) /\ (forall j, (j < n)%nat -> 0 < L j j) /\
  (forall i j, (i < n)%nat -> (j < n)%nat -> Rsum n (fun k => L i k * L j k) = A i j).
Proof.
  intros Sy PD L. destruct (chol_eqs A n) as [E1 E2]. fold L in E1, E2.
  assert (Dg : forall j, (j < n)%nat -> 0 < L j j).
  { induction j as [j IH] using lt_wf_ind. intros Hj. pose proof (chol_pivot A n j Sy PD Hj (fun k Hk => IH k Hk ltac:(lia))) as P. fold L in P.
    rewrite E1 by lia. unfold chol_entry. rewrite decide_True by reflexivity. rewrite lsum_Rsum. apply sqrt_lt_R0. exact P. }
  assert (Low : forall i l, (l <= i < n)%nat -> Rsum n (fun k => L i k * L l k) = A i l).
  { intros i l Hl. rewrite (Rsum_head n (S l)) by (try lia; intros k Hk; rewrite (E2 l k) by lia; change s_zero with 0; ring). rewrite Rsum_S.
    pose proof (Dg l ltac:(lia)) as Hll. destruct (decide (i = l)) as [->|Hne].
    - pose proof (chol_pivot A n l Sy PD ltac:(lia) (fun k Hk => Dg k ltac:(lia))) as P. fold L in P.
      pose proof (E1 l l ltac:(lia)) as Hs. unfold chol_entry in Hs. rewrite decide_True in Hs by reflexivity. rewrite lsum_Rsum in Hs. cbn [s_sub s_mul R_scalar] in Hs.
      assert (Hm : L l l * L l l = A l l - Rsum l (fun k => L l k * L l k)) by (rewrite Hs; apply sqrt_sqrt; lra). rewrite Hm. lra.
    - pose proof (E1 i l ltac:(lia)) as Hs. unfold chol_entry in Hs. rewrite decide_False in Hs by exact Hne. rewrite lsum_Rsum in Hs. cbn [s_sub s_mul s_div R_scalar] in Hs.
      assert (Hm : L i l * L l l = A i l - Rsum l (fun k => L i k * L l k)) by (rewrite Hs; field; lra). rewrite Hm. lra. }
  split; [exact E2|]. split; [exact Dg|]. intros i j Hi Hj. destruct (decide (j <= i)%nat) as [Hji|Hji]; [apply Low; lia|].
  rewrite (Sy i j Hi Hj). rewrite (Rsum_ext n _ (fun k => L j k * L i k)) by (intros; ring). apply Low. lia.
Qed.
(** Only one lower triangular matrix with positive diagonal does this. *)
Lemma chol_unique A n L U : (forall i j, (i < j)%nat -> L i j = 0) -> (forall j, (j < n)%nat -> 0 < L j j) -> (forall i j, (i < n)%nat -> (j < n)%nat -> Rsum n (fun k => L i k * L j k) = A i j) ->
  (forall i j, (i < j)%nat -> U i j = 0) -> (forall j, (j < n)%nat -> 0 < U j j) -> (forall i j, (i < n)%nat -> (j < n)%nat -> Rsum n (fun k => U i k * U j k) = A i j) ->
  forall i j, (i < n)%nat -> (j < n)%nat -> L i j = U i j.
Proof.
  intros L0 Ld LL M0 Md MM. assert (G : forall j, (j < n)%nat -> forall i, (i < n)%nat -> L i j = U i j).
  { induction j as [j IH] using lt_wf_ind. intros Hj.
    assert (S1 : forall T i, (forall i j, (i < j)%nat -> T i j = 0) -> Rsum n (fun k => T i k * T j k) = Rsum j (fun k => T i k * T j k) + T i j * T j j).
    { intros T i T0. rewrite (Rsum_head n (S j)) by (try lia; intros k Hk; rewrite (T0 j k) by lia; ring). apply Rsum_S. }
    assert (Ej : L j j = U j j).
    { pose proof (LL j j Hj Hj) as P1. pose proof (MM j j Hj Hj) as P2. rewrite S1 in P1, P2 by assumption.
      rewrite (Rsum_ext j _ (fun k => U j k * U j k)) in P1 by (intros k Hk; rewrite !IH by lia; reflexivity).
      assert (E : L j j * L j j = U j j * U j j) by lra. pose proof (Ld j Hj). pose proof (Md j Hj).
      apply Rsqr_inj; unfold Rsqr; lra. }
    intros i Hi. pose proof (LL i j Hi Hj) as P1. pose proof (MM i j Hi Hj) as P2. rewrite S1 in P1, P2 by assumption.
    rewrite (Rsum_ext j _ (fun k => U i k * U j k)) in P1 by (intros k Hk; rewrite !IH by lia; reflexivity). rewrite Ej in P1.
    pose proof (Md j Hj). apply (Rmult_eq_reg_r (U j j)); lra. }
  intros i j Hi Hj. apply G; assumption.
Qed.
