(** * C43: the dual support-vector objective and its gradient. *)
From Verif Require Import Base BaseProofs Vec VecSpec VecProofs VecProofs2 Mat MatSpec MatProofs MatProofs2 MatProofs3 MatProofs4 MatProofs5 Frame StatProofs Act ActProofs ActProofs2 Cost CostProofs Sym Svm.
From Verif Require Import RErf LibmR PropAct PropAct2 CostSpec.
From Coq Require Import Reals Lra Lia.
From Verif Require Import RInst.
Open Scope R_scope.
Implicit Types (h : heap R).

(** ** Specification *)
(** sum of u(0), ..., u(n-1). *)
Definition Rsum (n : nat) (u : nat -> R) : R := rsum (u <$> seq 0 n).
(** Inner product of samples i and j (rows of X). *)
Definition inner (d : nat) (X : nat -> nat -> R) (i j : nat) : R := Rsum d (fun k => X i k * X j k).
(** -sum alpha_i + 1/2 sum_ij alpha_i alpha_j y_i y_j <x_i, x_j>. *)
Definition svm_dual (n d : nat) (X : nat -> nat -> R) (ys als : list R) : R :=
  - rsum als + / 2 * Rsum n (fun i => Rsum n (fun j => nth i als 0 * nth j als 0 * nth i ys 0 * nth j ys 0 * inner d X i j)).

(** ** Proof *)
Lemma Rsum_S n u : Rsum (S n) u = Rsum n u + u n.
Proof. unfold Rsum. rewrite seq_S, fmap_app, rsum_app. cbn. lra. Qed.
Lemma lsum_Rsum n (u : nat -> R) : lsum n u = Rsum n u.
Proof. induction n as [|n IH]; [reflexivity|]. rewrite lsum_S, Rsum_S, IH. reflexivity. Qed.
Lemma Rsum_ext n u v : (forall k, (k < n)%nat -> u k = v k) -> Rsum n u = Rsum n v.
Proof. intros E. induction n as [|n IH]; [reflexivity|]. rewrite !Rsum_S, IH by (intros; apply E; lia). rewrite E by lia. reflexivity. Qed.
Lemma Rsum_plus n u v : Rsum n (fun k => u k + v k) = Rsum n u + Rsum n v.
Proof. unfold Rsum. apply rsum_map_plus. Qed.
Lemma Rsum_scal n c u : Rsum n (fun k => c * u k) = c * Rsum n u.
Proof. unfold Rsum. apply rsum_map_scal. Qed.
Lemma Rsum_zero n : Rsum n (fun _ => 0) = 0.
Proof. induction n as [|n IH]; [reflexivity|]. rewrite Rsum_S, IH. lra. Qed.
Lemma Rsum_delta n k u : (k < n)%nat -> Rsum n (fun i => (if decide (i = k) then 1 else 0) * u i) = u k.
Proof.
  induction n as [|n IH]; [lia|]. intros L. rewrite Rsum_S. destruct (decide (k = n)) as [->|Hk].
  - rewrite decide_True by reflexivity. rewrite (Rsum_ext n _ (fun _ => 0)), Rsum_zero; [lra|]. intros i Hi. rewrite decide_False by lia. lra.
  - rewrite IH by lia. rewrite decide_False by lia. lra.
Qed.
Lemma Rsum_swap n m (u : nat -> nat -> R) : Rsum n (fun i => Rsum m (u i)) = Rsum m (fun j => Rsum n (fun i => u i j)).
Proof.
  induction n as [|n IH]; [cbn; symmetry; apply Rsum_zero|]. rewrite Rsum_S, IH, <- Rsum_plus. apply Rsum_ext. intros. rewrite Rsum_S. reflexivity.
Qed.
Lemma Rsum_D n (u : nat -> R -> R) (u' : nat -> R) x : (forall k, (k < n)%nat -> derivable_pt_lim (u k) x (u' k)) -> derivable_pt_lim (fun t => Rsum n (fun k => u k t)) x (Rsum n u').
Proof.
  induction n as [|n IH]; intros HD; [apply (derivable_pt_lim_const 0)|].
  apply (D_ext (fun t => Rsum n (fun k => u k t) + u n t) _ _ (Rsum n u' + u' n)); [intros; rewrite Rsum_S; reflexivity|rewrite Rsum_S; reflexivity|].
  apply derivable_pt_lim_plus; [apply IH; auto|auto].
Qed.
Lemma rsum_nth xs : rsum xs = Rsum (length xs) (fun i => nth i xs 0).
Proof.
  unfold Rsum. f_equal. apply list_eq. intros i. rewrite list_lookup_fmap. destruct (decide (i < length xs)%nat) as [L|L].
  - rewrite lookup_seq_lt by exact L. destruct (lookup_lt_is_Some_2 xs i L) as [u Hu]. rewrite Hu. cbn. f_equal. symmetry. apply nth_lookup_Some. exact Hu.
  - rewrite lookup_seq_ge by lia. rewrite lookup_ge_None_2 by lia. reflexivity.
Qed.

Lemma svm_q_R n d ys X i j : length ys = n -> (i < n)%nat -> (j < n)%nat -> svm_q n d ys X i j = nth i ys 0 * nth j ys 0 * inner d X i j.
Proof.
  intros E Hi Hj. unfold svm_q, mat_mul, mat_tr. rewrite lsum_Rsum.
  rewrite (Rsum_ext n _ (fun k => (if decide (k = j) then 1 else 0) * (nth i ys 0 * nth k ys 0 * inner d X i k))).
  - rewrite Rsum_delta by exact Hj. reflexivity.
  - intros k Hk. unfold set_diag at 2. rewrite lsum_Rsum. rewrite (Rsum_ext n _ (fun m => (if decide (m = i) then 1 else 0) * (nth i ys 0 * inner d X m k))).
    2:{ intros m Hm. unfold set_diag, inner. cbn [s_mul s_zero R_scalar]. rewrite lsum_Rsum. destruct (decide (m = i)) as [->|Hne].
        - rewrite decide_True by lia. ring.
        - rewrite decide_False by lia. ring. }
    rewrite Rsum_delta by exact Hi. cbn [s_mul s_zero R_scalar]. destruct (decide (k = j)) as [->|Hne].
    + rewrite decide_True by lia. ring.
    + rewrite decide_False by lia. ring.
Qed.
Lemma inner_sym d X i j : inner d X i j = inner d X j i.
Proof. apply Rsum_ext. intros. ring. Qed.

Theorem C43_svm_value h al x y d n X ys als : wf h -> abs h !! al = Some (AVec als) -> abs h !! x = Some (Mat d n X) -> abs h !! y = Some (AVec ys) ->
  length ys = n -> length als = n -> (Z.of_nat (n * n) <= int_max)%Z ->
  runs (c_dual_form_svm (Some al) (Some x) (Some y)) h (fun v h' => v = svm_dual n d X ys als /\ abs h' = abs h).
Proof.
  intros Hw Hal Hx Hy El Ela Hn. apply runs_wp. eapply wp_dual_form_svm; [exact Hw|exact Hal|exact Hx|exact Hy|exact El|exact Ela|exact Hn|].
  intros h' W A. split; [exact W|]. split; [|exact A]. unfold svm_dual. cbn [s_add s_opp s_mul R_scalar]. f_equal.
  - f_equal. rewrite <- Ela. clear. change s_zero with 0. assert (G : forall a, foldl (fun c '(x, y) => c + x * y) a (zip (replicate (length als) s_one) als) = a + rsum als).
    { induction als as [|u als IH]; intros a; cbn; [lra|]. rewrite IH. lra. } rewrite G. lra.
  - replace (s_half (F := R)) with (/ 2) by (unfold s_half, s_two; cbn; lra). f_equal. unfold mat_mul at 1. rewrite lsum_Rsum. rewrite Rsum_swap. apply Rsum_ext. intros j Hj. unfold mat_mul at 1, mat_tr. rewrite lsum_Rsum. cbn [s_mul R_scalar].
    rewrite Rmult_comm, <- Rsum_scal. apply Rsum_ext. intros i Hi. rewrite svm_q_R by assumption. change s_zero with 0. ring.
Qed.
Lemma nth_insert k i t xs : (k < length xs)%nat -> nth i (<[k := t]> xs) 0 = if decide (i = k) then t else nth i xs 0.
Proof.
  intros L. destruct (decide (i = k)) as [->|Hne].
  - apply nth_lookup_Some. apply list_lookup_insert, L.
  - rewrite !nth_lookup, list_lookup_insert_ne by congruence. reflexivity.
Qed.
Theorem C43_svm_gradient h al x y d n X ys als : wf h -> abs h !! al = Some (AVec als) -> abs h !! x = Some (Mat d n X) -> abs h !! y = Some (AVec ys) ->
  length ys = n -> length als = n -> (Z.of_nat (n * n) <= int_max)%Z ->
  exists gs, runs (d_dual_form_svm (Some al) (Some x) (Some y)) h (returns (AVec gs) h) /\ gradient (svm_dual n d X ys) als gs.
Proof.
  intros Hw Hal Hx Hy El Ela Hn. eexists. split.
  - apply runs_wp. eapply wp_d_dual_form_svm; [exact Hw|exact Hal|exact Hx|exact Hy|exact El|exact Ela|exact Hn|]. intros o h' W N A. vec1. exact A.
  - split; [rewrite zip_with_length, replicate_length; unfold vlist; rewrite fmap_length, seq_length; lia|].
    intros k a g Hk Hg. assert (Lk : (k < length als)%nat) by (eapply lookup_lt_Some; exact Hk).
    apply lookup_zip_with_Some in Hg as (u & w & -> & Hu & Hv). apply lookup_replicate in Hv as [-> _].
    unfold vlist in Hu. rewrite list_lookup_fmap, lookup_seq_lt in Hu by lia. injection Hu as <-.
    assert (Ha : nth k als 0 = a) by (apply nth_lookup_Some; exact Hk).
    set (q := fun i j => nth i ys 0 * nth j ys 0 * inner d X i j).
    assert (Eg : s_sub (mv_row (svm_q n d ys X) als n k) s_one = - 1 + / 2 * Rsum n (fun i => Rsum n (fun j => ((if decide (i = k) then 1 else 0) * nth j als 0 + nth i als 0 * (if decide (j = k) then 1 else 0)) * q i j))).
    { unfold mv_row. rewrite lsum_Rsum. rewrite (Rsum_ext n (fun i => Rsum n _) (fun i => (if decide (i = k) then 1 else 0) * Rsum n (fun j => q i j * nth j als 0) + nth i als 0 * q i k)).
      2:{ intros i Hi. rewrite <- Rsum_scal. rewrite (Rsum_ext n (fun j => _ * q i j) (fun j => (if decide (i = k) then 1 else 0) * (q i j * nth j als 0) + (if decide (j = k) then 1 else 0) * (nth i als 0 * q i j))) by (intros; ring).
          rewrite Rsum_plus. f_equal. rewrite Rsum_delta by lia. reflexivity. }
      rewrite Rsum_plus, Rsum_delta by lia. rewrite (Rsum_ext n (fun i => nth i als 0 * q i k) (fun j => q k j * nth j als 0)).
      2:{ intros i Hi. unfold q. rewrite (inner_sym d X i k). ring. }
      rewrite (Rsum_ext n (fun j => s_mul (svm_q n d ys X k j) _) (fun j => q k j * nth j als 0)); [change s_one with 1; cbn [s_sub R_scalar]; lra|].
      intros j Hj. rewrite svm_q_R by (auto; lia). reflexivity. }
    rewrite Eg. unfold svm_dual. apply derivable_pt_lim_plus.
    + apply derivable_pt_lim_opp. apply (D_ext (fun t => Rsum n (fun i => if decide (i = k) then t else nth i als 0)) _ _ (Rsum n (fun i => (if decide (i = k) then 1 else 0) * 1))).
      * intros t. rewrite rsum_nth, insert_length, Ela. apply Rsum_ext. intros i Hi. rewrite nth_insert by lia. reflexivity.
      * apply Rsum_delta. lia.
      * apply Rsum_D. intros i Hi. destruct (decide (i = k)); [rewrite Rmult_1_l; apply derivable_pt_lim_id|rewrite Rmult_0_l; apply derivable_pt_lim_const].
    + apply derivable_pt_lim_scal. apply Rsum_D. intros i Hi. apply Rsum_D. intros j Hj.
      assert (G : forall i, derivable_pt_lim (fun t => nth i (<[k := t]> als) 0) a (if decide (i = k) then 1 else 0)).
      { intros i'. apply (D_ext (fun t => if decide (i' = k) then t else nth i' als 0) _ _ (if decide (i' = k) then 1 else 0)); [intros; rewrite nth_insert by lia; reflexivity|reflexivity|].
        destruct (decide (i' = k)); [apply derivable_pt_lim_id|apply derivable_pt_lim_const]. }
      apply (D_ext (fun t => q i j * (nth i (<[k:=t]> als) 0 * nth j (<[k:=t]> als) 0)) _ _ (q i j * ((if decide (i = k) then 1 else 0) * nth j (<[k:=a]> als) 0 + nth i (<[k:=a]> als) 0 * (if decide (j = k) then 1 else 0)))).
      * intros t. unfold q. ring.
      * rewrite list_insert_id by exact Hk. ring.
      * apply derivable_pt_lim_scal. apply (derivable_pt_lim_mult (fun t => nth i (<[k:=t]> als) 0) (fun t => nth j (<[k:=t]> als) 0)); apply G.
Qed.
(** The quadratic part is never negative, so the value is at least -sum alpha (the objective is convex and bounded below on a bounded box). *)
Theorem C43_svm_bounded_below h al x y d n X ys als v h' : wf h -> abs h !! al = Some (AVec als) -> abs h !! x = Some (Mat d n X) -> abs h !! y = Some (AVec ys) ->
  length ys = n -> length als = n -> (Z.of_nat (n * n) <= int_max)%Z ->
  c_dual_form_svm (Some al) (Some x) (Some y) h = Ok v h' -> - rsum als <= v.
Proof.
  intros Hw Hal Hx Hy El Ela Hn E. destruct (C43_svm_value h al x y d n X ys als Hw Hal Hx Hy El Ela Hn) as (v' & h'' & E' & _ & -> & _).
  rewrite E in E'. injection E' as -> _. unfold svm_dual.
  assert (G : Rsum n (fun i => Rsum n (fun j => nth i als 0 * nth j als 0 * nth i ys 0 * nth j ys 0 * inner d X i j)) = Rsum d (fun k => Rsum n (fun i => nth i als 0 * nth i ys 0 * X i k) * Rsum n (fun i => nth i als 0 * nth i ys 0 * X i k))).
  { rewrite (Rsum_ext d _ (fun k => Rsum n (fun i => Rsum n (fun j => (nth i als 0 * nth i ys 0 * X i k) * (nth j als 0 * nth j ys 0 * X j k))))).
    2:{ intros k Hk. rewrite <- Rsum_scal. apply Rsum_ext. intros i Hi. rewrite Rsum_scal. ring. }
    rewrite (Rsum_swap d n). apply Rsum_ext. intros i Hi. rewrite (Rsum_swap d n). apply Rsum_ext. intros j Hj. unfold inner. rewrite <- Rsum_scal. apply Rsum_ext. intros k Hk. ring. }
  rewrite G. assert (0 <= Rsum d (fun k => Rsum n (fun i => nth i als 0 * nth i ys 0 * X i k) * Rsum n (fun i => nth i als 0 * nth i ys 0 * X i k))); [|lra].
  apply rsum_map_nonneg. intros k. apply Rle_0_sqr.
Qed.
