(** * Gram-Schmidt over the reals. *)
From Verif Require Import Base BaseProofs Mat MatSpec MatProofs MatProofs2 MatProofs3 Act LinAlg GsProofs RSum LsqMath.
From Verif Require Import RErf LibmR.
From Coq Require Import Reals Lra Lia.
From Verif Require Import RInst.
Open Scope R_scope.

Definition dot (d : nat) (u v : nat -> R) : R := Rsum d (fun k => u k * v k).
Lemma dot_comm d u v : dot d u v = dot d v u. Proof. apply Rsum_ext. intros; ring. Qed.
Lemma dot_ext d u u' v v' : (forall k, (k < d)%nat -> u k = u' k) -> (forall k, (k < d)%nat -> v k = v' k) -> dot d u v = dot d u' v'.
Proof. intros E1 E2. apply Rsum_ext. intros k Hk. rewrite E1, E2 by exact Hk. reflexivity. Qed.
Lemma dot_lin_l d n c (u : nat -> nat -> R) v : dot d (fun k => Rsum n (fun j => c j * u j k)) v = Rsum n (fun j => c j * dot d (u j) v).
Proof.
  unfold dot. rewrite (Rsum_ext d _ (fun k => Rsum n (fun j => c j * (u j k * v k)))) by (intros; rewrite <- Rsum_scal_r; apply Rsum_ext; intros; ring).
  rewrite Rsum_swap. apply Rsum_ext. intros. apply Rsum_scal.
Qed.
Lemma dot_minus_l d u u' v : dot d (fun k => u k - u' k) v = dot d u v - dot d u' v.
Proof. unfold dot. rewrite <- Rsum_minus. apply Rsum_ext. intros; ring. Qed.
Lemma dot_plus_l d u u' v : dot d (fun k => u k + u' k) v = dot d u v + dot d u' v.
Proof. unfold dot. rewrite <- Rsum_plus. apply Rsum_ext. intros; ring. Qed.
Lemma dot_scal_l d c u v : dot d (fun k => c * u k) v = c * dot d u v.
Proof. unfold dot. rewrite <- Rsum_scal. apply Rsum_ext. intros; ring. Qed.

(** ** The equations *)
Lemma dotl_dot d xs ys : length xs = d -> length ys = d -> dotl (F := R) xs ys = dot d (fun k => nth k xs 0) (fun k => nth k ys 0).
Proof.
  intros Hx Hy. unfold dotl. rewrite (foldl_ext' _ (fun c p => c + fst p * snd p)) by (intros ? []; reflexivity).
  change s_zero with 0. rewrite (foldl_add_acc (fun p => fst p * snd p)). rewrite Rplus_0_l, rsum_nth, fmap_length, zip_with_length, Hx, Hy, Nat.min_id. apply Rsum_ext.
  intros k Hk. destruct (lookup_lt_is_Some_2 xs k ltac:(lia)) as [x Ex]. destruct (lookup_lt_is_Some_2 ys k ltac:(lia)) as [y Ey].
  rewrite !(nth_lookup_Some _ _ _ _ Ex), !(nth_lookup_Some _ _ _ _ Ey).
  apply nth_lookup_Some. rewrite list_lookup_fmap, (lookup_zip_with), Ex, Ey. reflexivity.
Qed.
Lemma gs_fold_nth d ai : forall vs bi k, length bi = d -> length ai = d -> width d vs -> (k < d)%nat ->
  nth k (foldl (gs_sub (F := R) ai) bi vs) 0 = nth k bi 0 - rsum ((fun v => dotl v ai / dotl v v * nth k v 0) <$> vs).
Proof.
  induction vs as [|v vs IH]; intros bi k Hb Ha Hw Hk; [cbn; lra|]. apply Forall_cons_1 in Hw as [Hv Hw]. cbn [foldl fmap list_fmap rsum foldr].
  rewrite IH; [|rewrite gs_sub_length; congruence|exact Ha|exact Hw|exact Hk].
  assert (E : nth k (gs_sub ai bi v) 0 = nth k bi 0 - dotl v ai / dotl v v * nth k v 0).
  { destruct (lookup_lt_is_Some_2 bi k ltac:(lia)) as [x Ex]. destruct (lookup_lt_is_Some_2 v k ltac:(lia)) as [y Ey].
    rewrite (nth_lookup_Some _ _ _ _ Ex), (nth_lookup_Some _ _ _ _ Ey). apply nth_lookup_Some. unfold gs_sub. rewrite lookup_zip_with, list_lookup_fmap, Ex, Ey. cbn. f_equal. cbn. ring. }
  rewrite E. change (rsum ((dotl v ai / dotl v v * nth k v 0) :: ((fun v => dotl v ai / dotl v v * nth k v 0) <$> vs))) with (dotl v ai / dotl v v * nth k v 0 + rsum ((fun v => dotl v ai / dotl v v * nth k v 0) <$> vs)). lra.
Qed.
Lemma gs_norm_nth d v k : length v = d -> (k < d)%nat -> nth k (gs_norm (F := R) v) 0 = nth k v 0 * (1 / sqrt (dot d (fun k => nth k v 0) (fun k => nth k v 0))).
Proof.
  intros Hv Hk. destruct (lookup_lt_is_Some_2 v k ltac:(lia)) as [x Ex]. rewrite (nth_lookup_Some _ _ _ _ Ex). apply nth_lookup_Some. unfold gs_norm. rewrite list_lookup_fmap, Ex. cbn [option_map fmap option_fmap]. f_equal.
  change (x * (1 / sqrt (foldl (fun c x => c + x * x) 0 v)) = x * (1 / sqrt (dot d (fun k => nth k v 0) (fun k => nth k v 0)))). do 3 f_equal.
  rewrite (foldl_add_acc (fun x => x * x)), Rplus_0_l, rsum_nth, fmap_length, Hv. apply Rsum_ext. intros i Hi.
  destruct (lookup_lt_is_Some_2 v i ltac:(lia)) as [y Ey]. rewrite (nth_lookup_Some _ _ _ _ Ey). apply nth_lookup_Some. rewrite list_lookup_fmap, Ey. reflexivity.
Qed.
Lemma gs_rows_prefix {F} `{Scalar F} (vs us : list (list F)) : exists ws, gs_rows (vs ++ us) = gs_rows vs ++ ws.
Proof.
  induction us as [|u us IH] using rev_ind; [exists []; rewrite !app_nil_r; reflexivity|]. destruct IH as [ws E]. rewrite app_assoc, gs_rows_snoc, E. exists (ws ++ [gs_next (gs_rows vs ++ ws) u]). rewrite app_assoc. reflexivity.
Qed.
Lemma gs_eqs d cols i : width d cols -> (i < length cols)%nat ->
  let a := fun i k => nth k (nth i cols []) 0 in let q := fun i k => nth k (nth i (gs_rows (F := R) cols) []) 0 in
  exists w : nat -> R, (forall k, (k < d)%nat -> w k = a i k - Rsum i (fun j => dot d (q j) (a i) / dot d (q j) (q j) * q j k)) /\
    (forall k, (k < d)%nat -> q i k = w k * (1 / sqrt (dot d w w))).
Proof.
  intros Wc Hi a q. destruct (lookup_lt_is_Some_2 cols i Hi) as [ci Hci].
  assert (Li : length ci = d) by (eapply Forall_lookup_1 in Wc; [|exact Hci]; exact Wc).
  set (vs := gs_rows (take i cols)). destruct (gs_rows_ok d (take i cols)) as [Wv Lv]; [apply Forall_take; exact Wc|]. fold vs in Wv, Lv. rewrite take_length, Nat.min_l in Lv by lia.
  assert (P : forall j, (j < i)%nat -> nth j (gs_rows cols) [] = nth j vs []).
  { intros j Hj. destruct (gs_rows_prefix (take i cols) (drop i cols)) as [ws E]. rewrite take_drop in E. rewrite E. apply app_nth1. fold vs. lia. }
  assert (Pi : nth i (gs_rows cols) [] = gs_next vs ci).
  { destruct (gs_rows_prefix (take (S i) cols) (drop (S i) cols)) as [ws E]. rewrite take_drop in E. rewrite E, (take_S_r cols i ci), gs_rows_snoc by exact Hci. fold vs.
    rewrite <- app_assoc, app_nth2, Lv, Nat.sub_diag by lia. reflexivity. }
  set (w := foldl (gs_sub ci) ci (reverse vs)).
  assert (Lw : length w = d) by (apply gs_fold_length; [exact Li|apply width_reverse; exact Wv]).
  exists (fun k => nth k w 0). split.
  - intros k Hk. unfold w. rewrite (gs_fold_nth d); [|exact Li|exact Li|apply width_reverse; exact Wv|exact Hk].
    unfold a at 1. rewrite (nth_lookup_Some _ _ _ _ Hci). f_equal.
    rewrite (rsum_perm _ ((fun v => dotl v ci / dotl v v * nth k v 0) <$> vs)) by (rewrite reverse_Permutation; reflexivity).
    rewrite rsum_nth, fmap_length, Lv. apply Rsum_ext. intros j Hj. destruct (lookup_lt_is_Some_2 vs j ltac:(lia)) as [v Ev].
    assert (Lvj : length v = d) by (eapply Forall_lookup_1 in Wv; [|exact Ev]; exact Wv).
    rewrite (nth_lookup_Some _ j 0 (dotl v ci / dotl v v * nth k v 0)) by (rewrite list_lookup_fmap, Ev; reflexivity).
    unfold q, a. rewrite P by exact Hj. rewrite (nth_lookup_Some _ _ _ _ Ev), (nth_lookup_Some _ _ _ _ Hci). rewrite !(dotl_dot d) by assumption. reflexivity.
  - intros k Hk. unfold q. rewrite Pi. apply gs_norm_nth; assumption.
Qed.

(** ** Their solution *)
Section qr.
Context (d m : nat) (a q : nat -> nat -> R).
Context (E : forall i, (i < m)%nat -> exists w : nat -> R, (forall k, (k < d)%nat -> w k = a i k - Rsum i (fun j => dot d (q j) (a i) / dot d (q j) (q j) * q j k)) /\
    (forall k, (k < d)%nat -> q i k = w k * (1 / sqrt (dot d w w)))).
Context (In : independent d m (fun k i => a i k)).
Definition span (i : nat) (u : nat -> R) : Prop := exists x : nat -> R, (forall l, (i <= l)%nat -> x l = 0) /\ forall k, (k < d)%nat -> u k = Rsum m (fun l => x l * a l k).
Lemma span_lin i n c (u : nat -> nat -> R) : (forall j, (j < n)%nat -> span i (u j)) -> span i (fun k => Rsum n (fun j => c j * u j k)).
Proof.
  induction n as [|n IH]; intros Hu.
  - exists (fun _ => 0). split; [reflexivity|]. intros k Hk. rewrite (Rsum_ext m _ (fun _ => 0)) by (intros; ring). rewrite Rsum_zero. reflexivity.
  - destruct IH as (x & X1 & X2); [intros; apply Hu; lia|]. destruct (Hu n ltac:(lia)) as (y & Y1 & Y2). exists (fun l => x l + c n * y l). split.
    + intros l Hl. rewrite X1, Y1 by exact Hl. ring.
    + intros k Hk. rewrite Rsum_S, X2, Y2 by exact Hk. rewrite <- Rsum_scal, <- Rsum_plus. apply Rsum_ext. intros; ring.
Qed.
Lemma span_mono i i' u : (i <= i')%nat -> span i u -> span i' u.
Proof. intros L (x & X1 & X2). exists x. split; [intros; apply X1; lia|exact X2]. Qed.
Lemma gs_main i : (i <= m)%nat -> forall j, (j < i)%nat ->
  span (S j) (q j) /\ (forall l, (l < i)%nat -> dot d (q j) (q l) = if decide (j = l) then 1 else 0) /\
  exists c, 0 < c /\ forall k, (k < d)%nat -> a j k = Rsum j (fun l => dot d (q l) (a j) * q l k) + c * q j k.
Proof.
  induction i as [|i IH]; intros Hi j Hj; [lia|]. specialize (IH ltac:(lia)).
  destruct (E i ltac:(lia)) as (w & W1 & W2).
  assert (W1' : forall k, (k < d)%nat -> w k = a i k - Rsum i (fun j => dot d (q j) (a i) * q j k)).
  { intros k Hk. rewrite W1 by exact Hk. f_equal. apply Rsum_ext. intros l Hl. destruct (IH l Hl) as (_ & O & _). rewrite (O l Hl), decide_True by reflexivity. field. }
  assert (Ow : forall l, (l < i)%nat -> dot d w (q l) = 0).
  { intros l Hl. rewrite (dot_ext d w (fun k => a i k - Rsum i (fun j => dot d (q j) (a i) * q j k)) (q l) (q l)) by auto. rewrite dot_minus_l, dot_lin_l.
    rewrite (Rsum_ext i _ (fun j => (if decide (j = l) then 1 else 0) * dot d (q j) (a i))).
    - rewrite (Rsum_delta i l (fun j => dot d (q j) (a i))) by exact Hl. rewrite (dot_comm d (a i)). ring.
    - intros j' Hj'. destruct (IH j' Hj') as (_ & O & _). rewrite (O l Hl). ring. }
  assert (Sw : exists x, x i = 1 /\ (forall l, (S i <= l)%nat -> x l = 0) /\ forall k, (k < d)%nat -> w k = Rsum m (fun l => x l * a l k)).
  { destruct (span_lin i i (fun j => dot d (q j) (a i)) q) as (x & X1 & X2); [intros j' Hj'; apply (span_mono (S j')); [lia|]; apply (IH j' Hj')|].
    exists (fun l => (if decide (l = i) then 1 else 0) - x l). split; [rewrite decide_True, X1 by (lia || reflexivity); ring|]. split; [intros l Hl; rewrite decide_False, X1 by lia; ring|].
    intros k Hk. rewrite W1', X2 by exact Hk. rewrite (Rsum_ext m (fun l => ((if decide (l = i) then 1 else 0) - x l) * a l k) (fun l => (if decide (l = i) then 1 else 0) * a l k - x l * a l k)) by (intros; ring).
    rewrite Rsum_minus, (Rsum_delta m i (fun l => a l k)) by lia. reflexivity. }
  assert (Nw : 0 < dot d w w).
  { destruct (Rle_lt_or_eq_dec 0 (dot d w w) (Rsum_sq_nonneg d w)) as [|Z]; [assumption|]. exfalso. symmetry in Z. pose proof (Rsum_sq_zero d w Z) as Zk.
    destruct Sw as (x & Xi & X0 & X2). assert (x i = 0); [|lra]. apply In; [|lia]. intros k Hk. unfold apply. rewrite (Rsum_ext m _ (fun l => x l * a l k)) by (intros; ring). rewrite <- X2, Zk by exact Hk. reflexivity. }
  assert (Ns : 0 < sqrt (dot d w w)) by (apply sqrt_lt_R0; exact Nw).
  assert (Oq : forall l, (l < i)%nat -> dot d (q i) (q l) = 0).
  { intros l Hl. rewrite (dot_ext d (q i) (fun k => (1 / sqrt (dot d w w)) * w k) (q l) (q l)) by (intros; cbv beta; rewrite ?W2 by assumption; ring). rewrite dot_scal_l, Ow by exact Hl. ring. }
  assert (Qq : dot d (q i) (q i) = 1).
  { rewrite (dot_ext d (q i) (fun k => (1 / sqrt (dot d w w)) * w k) (q i) (fun k => (1 / sqrt (dot d w w)) * w k)) by (intros; cbv beta; rewrite W2 by assumption; ring).
    rewrite dot_scal_l, (dot_comm d w (fun k => _ * w k)), dot_scal_l. assert (Hs : sqrt (dot d w w) * sqrt (dot d w w) = dot d w w) by (apply sqrt_sqrt; lra). set (s := sqrt (dot d w w)) in *. rewrite <- Hs. field. lra. }
  destruct (decide (j = i)) as [->|Hne].
  - split; [|split].
    + destruct Sw as (x & _ & X0 & X2). exists (fun l => (1 / sqrt (dot d w w)) * x l). split; [intros l Hl; rewrite X0 by exact Hl; ring|].
      intros k Hk. rewrite W2, X2 by exact Hk. rewrite Rmult_comm, <- Rsum_scal. apply Rsum_ext. intros; ring.
    + intros l Hl. destruct (decide (i = l)) as [<-|]; [exact Qq|]. apply Oq. lia.
    + exists (sqrt (dot d w w)). split; [exact Ns|]. intros k Hk. rewrite W2 by exact Hk. pose proof (W1' k Hk) as Ek. assert (Ec : sqrt (dot d w w) * (w k * (1 / sqrt (dot d w w))) = w k) by (field; lra). rewrite Ec, Ek. ring.
  - destruct (IH j ltac:(lia)) as (S1 & O1 & C1). split; [exact S1|]. split; [|exact C1]. intros l Hl. destruct (decide (l = i)) as [->|]; [|apply O1; lia].
    rewrite dot_comm, Oq, decide_False by lia. reflexivity.
Qed.
Lemma gs_solution :
  (forall i j, (i < m)%nat -> (j < m)%nat -> dot d (q i) (q j) = if decide (i = j) then 1 else 0) /\
  (forall i k, (i < m)%nat -> (k < d)%nat -> a i k = Rsum m (fun j => dot d (q j) (a i) * q j k)) /\
  (forall i j, (i < m)%nat -> (j < m)%nat -> (i < j)%nat -> dot d (q j) (a i) = 0) /\
  (forall i, (i < m)%nat -> 0 < dot d (q i) (a i)).
Proof.
  assert (G := gs_main m ltac:(lia)).
  assert (O : forall i j, (i < m)%nat -> (j < m)%nat -> dot d (q i) (q j) = if decide (i = j) then 1 else 0) by (intros i j Hi Hj; apply (G i Hi); exact Hj).
  assert (D : forall i j c, (i < m)%nat -> (j < m)%nat -> (forall k, (k < d)%nat -> a i k = Rsum i (fun l => dot d (q l) (a i) * q l k) + c * q i k) ->
     dot d (q j) (a i) = Rsum i (fun l => dot d (q l) (a i) * dot d (q l) (q j)) + c * dot d (q i) (q j)).
  { intros i j c Hi Hj Hc. rewrite dot_comm. rewrite (dot_ext d (a i) (fun k => Rsum i (fun l => dot d (q l) (a i) * q l k) + c * q i k) (q j) (q j)) by auto. rewrite dot_plus_l, dot_lin_l, dot_scal_l. reflexivity. }
  assert (U : forall i j, (i < m)%nat -> (j < m)%nat -> (i < j)%nat -> dot d (q j) (a i) = 0).
  { intros i j Hi Hj L. destruct (G i Hi) as (_ & _ & c & _ & Hc). rewrite (D i j c Hi Hj Hc). rewrite (Rsum_ext i _ (fun _ => 0)) by (intros l Hl; rewrite O, decide_False by lia; ring).
    rewrite Rsum_zero, O, decide_False by lia. ring. }
  assert (Dg : forall i c, (i < m)%nat -> (forall k, (k < d)%nat -> a i k = Rsum i (fun l => dot d (q l) (a i) * q l k) + c * q i k) -> dot d (q i) (a i) = c).
  { intros i c Hi Hc. rewrite (D i i c Hi Hi Hc). rewrite (Rsum_ext i _ (fun _ => 0)) by (intros l Hl; rewrite O, decide_False by lia; ring).
    rewrite Rsum_zero, O, decide_True by (lia || reflexivity). ring. }
  split; [exact O|]. split; [|split; [exact U|]].
  - intros i k Hi Hk. destruct (G i Hi) as (_ & _ & c & _ & Hc). pose proof (Dg i c Hi Hc) as Ec.
    rewrite (Rsum_head m (S i)) by (try lia; intros j Hj; rewrite U by lia; ring). rewrite Rsum_S, Ec. apply Hc. exact Hk.
  - intros i Hi. destruct (G i Hi) as (_ & _ & c & Hp & Hc). rewrite (Dg i c Hi Hc). exact Hp.
Qed.
End qr.
