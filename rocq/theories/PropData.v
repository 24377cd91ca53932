(** * C81-C84: preparing data (MLPPData).  A data set is a matrix with one row per example and one column per feature. *)
From Verif Require Import Base BaseProofs Vec VecSpec VecProofs VecProofs2 Mat MatSpec MatProofs MatProofs2 MatProofs3 MatProofs5 Act Stat StatProofs Glm GlmProofs3 Sym Svm Data DataProofs DataProofs2.
From Coq Require Import Permutation.

Local Notation S := Datatypes.S.
Section any.
Context {F : Type} `{Scalar F} `{Libm F}.
Implicit Types (h : heap F) (xs : list F).

(** The examples of a data set: the pairs (input row, output row), in order. *)
Definition examples (c k n : nat) (X Y : nat -> nat -> F) : list (list F * list F) := map (fun i => (map (X i) (seq 0 c), map (Y i) (seq 0 k))) (seq 0 n).

Lemma lookup_map {A B} (f : A -> B) l i : map f l !! i = f <$> l !! i.
Proof. exact (list_lookup_fmap f l i). Qed.
Lemma examples_pick c k X Y ix from t : (from + t <= length ix)%nat ->
  examples c k t (pick ix from X) (pick ix from Y) = map (fun q => (map (X (Z.to_nat q)) (seq 0 c), map (Y (Z.to_nat q)) (seq 0 k))) (take t (drop from ix)).
Proof.
  intros Hl. unfold examples. apply list_eq. intros i. rewrite !lookup_map.
  destruct (decide (i < t)%nat) as [Hi|Hi].
  - rewrite lookup_seq_lt by exact Hi. rewrite lookup_take by exact Hi. rewrite lookup_drop. destruct (lookup_lt_is_Some_2 ix (from + i) ltac:(lia)) as [q Hq]. rewrite Hq. cbn. do 2 f_equal.
    + apply map_ext. intros j. unfold pick. rewrite (nth_lookup_Some _ _ 0 _ Hq). reflexivity.
    + apply map_ext. intros j. unfold pick. rewrite (nth_lookup_Some _ _ 0 _ Hq). reflexivity.
  - rewrite lookup_seq_ge by lia. rewrite lookup_take_ge by lia. reflexivity.
Qed.

(** ** C81 train_test_split *)
(** With t = (int)(test_size * N) between 0 and N, N the smaller number of rows: the results are four new matrices; the first t shuffled
    examples form the test set, the other N - t the training set; together they are a rearrangement of the first N examples, inputs still
    paired with their outputs; nothing else changes. *)
Theorem C81_split draw h x y (c k n n' t : nat) X Y ts : wf h -> abs h !! x = Some (Mat c n X) -> abs h !! y = Some (Mat k n' Y) ->
  Z.of_nat c <= int_max -> Z.of_nat k <= int_max -> let N := Nat.min n n' in Z.of_nat N <= int_max ->
  m_to_int (s_mul ts (s_of_Z (Z.of_nat N))) = Some (Z.of_nat t) -> (t <= N)%nat ->
  runs (train_test_split draw (Some (Some x, Some y)) ts) h (fun res h' => exists ai ao bi bo XA YA XB YB, res = ((Some ai, Some ao), (Some bi, Some bo)) /\
    NoDup [ai; ao; bi; bo] /\ (forall l, l ∈ [ai; ao; bi; bo] -> abs h !! l = None) /\
    abs h' = <[ai := Mat c (N - t) XA]> (<[ao := Mat k (N - t) YA]> (<[bi := Mat c t XB]> (<[bo := Mat k t YB]> (abs h)))) /\
    examples c k t XB YB ++ examples c k (N - t) XA YA = (fun q => (map (X (Z.to_nat q)) (seq 0 c), map (Y (Z.to_nat q)) (seq 0 k))) <$> shuffle draw (seqZ 0 (Z.of_nat N)) /\
    examples c k t XB YB ++ examples c k (N - t) XA YA ≡ₚ examples c k N X Y).
Proof.
  intros W Hx Hy Hc Hk N HN Et Ht. apply runs_wp. eapply wp_train_test_split; [exact W|exact Hx|exact Hy|exact Hc|exact Hk|exact Et|exact Ht|exact HN|].
  intros ai ao bi bo h' W' N1 N2 N3 N4 ND A'. split; [exact W'|]. fold N in A'. set (ix := shuffle draw (seqZ 0 (Z.of_nat N))) in *.
  assert (Pix : ix ≡ₚ seqZ 0 (Z.of_nat N)) by apply shuffle_perm. assert (Lix : length ix = N) by (rewrite Pix, seqZ_length; lia).
  assert (E : examples c k t (pick ix 0 X) (pick ix 0 Y) ++ examples c k (N - t) (pick ix t X) (pick ix t Y) = (fun q => (map (X (Z.to_nat q)) (seq 0 c), map (Y (Z.to_nat q)) (seq 0 k))) <$> ix).
  { rewrite (examples_pick c k X Y ix 0 t) by lia. rewrite (examples_pick c k X Y ix t (N - t)) by lia. rewrite drop_0. rewrite (take_ge (drop t ix)) by (rewrite drop_length; lia). rewrite <- map_app, take_drop. reflexivity. }
  exists ai, ao, bi, bo, (pick ix t X), (pick ix t Y), (pick ix 0 X), (pick ix 0 Y). split; [reflexivity|]. split; [exact ND|]. split; [|split; [exact A'|split; [exact E|]]].
  - intros l Hl. rewrite !elem_of_cons in Hl. destruct Hl as [->|[->|[->|[->|Hl]]]]; try assumption. apply elem_of_nil in Hl. destruct Hl.
  - rewrite E, Pix. unfold examples, seqZ. rewrite Nat2Z.id. rewrite <- list_fmap_compose. apply Permutation_refl'. apply list_fmap_ext. intros i q Hq. unfold compose. rewrite Z.add_0_r, Nat2Z.id. reflexivity.
Qed.
(** Every arrangement of the examples is produced by some sequence of random numbers. *)
Lemma shuffle_from_onto i : forall (l l' : list Z), NoDup l -> l' ≡ₚ l -> (i < length l)%nat -> (forall q, (i < q)%nat -> l' !! q = l !! q) -> exists draw, shuffle_from draw i l = l'.
Proof.
  induction i as [|i IH]; intros l l' ND P Hi Hag.
  - exists (fun _ => 0%nat). cbn [shuffle_from].
    assert (Hl : length l' = length l) by (rewrite P; reflexivity). destruct l as [|a l]; [cbn in Hi; lia|]. destruct l' as [|a' l']; [cbn in Hl; lia|].
    assert (E : l' = l). { apply list_eq. intros q. exact (Hag (S q) ltac:(lia)). } subst l'.
    assert (E2 : [a'] ≡ₚ [a]). { apply (Permutation_app_inv_r l). exact P. } apply Permutation_singleton_inj in E2. congruence.
  - assert (Hl : length l' = length l) by (rewrite P; reflexivity). destruct (lookup_lt_is_Some_2 l' (S i) ltac:(lia)) as [a Ha].
    assert (Ia : a ∈ l) by (rewrite <- P; eapply elem_of_list_lookup_2; exact Ha). apply elem_of_list_lookup in Ia as [j Hj].
    assert (ND' : NoDup l') by (rewrite P; exact ND).
    assert (Hji : (j <= S i)%nat). { destruct (decide (j <= S i)%nat) as [|Hgt]; [assumption|]. pose proof (Hag j ltac:(lia)) as E. rewrite Hj in E. pose proof (NoDup_lookup _ _ _ _ ND' E Ha). lia. }
    destruct (lookup_lt_is_Some_2 l (S i) Hi) as [b Hb]. set (l1 := swap l (S i) j).
    assert (E1 : l1 = <[S i := a]> (<[j := b]> l)) by (unfold l1, swap; rewrite Hb, Hj; reflexivity).
    destruct (IH l1 l') as [draw Hd].
    + unfold l1. rewrite swap_perm. exact ND.
    + unfold l1. rewrite swap_perm. exact P.
    + unfold l1. rewrite swap_perm. lia.
    + intros q Hq. destruct (decide (q = S i)) as [->|Hne].
      * rewrite E1, list_lookup_insert by (rewrite insert_length; exact Hi). exact Ha.
      * rewrite E1, list_lookup_insert_ne by congruence. rewrite list_lookup_insert_ne by lia. apply Hag. lia.
    + exists (fun q => if decide (q = S i) then j else draw q). cbn [shuffle_from]. rewrite decide_True by reflexivity. rewrite Nat.mod_small by lia. fold l1. rewrite <- Hd.
      assert (G : forall p m, (p <= i)%nat -> shuffle_from (fun q => if decide (q = S i) then j else draw q) p m = shuffle_from draw p m).
      { clear. induction p as [|p IHp]; intros m Hp; [reflexivity|]. cbn [shuffle_from]. rewrite decide_False by lia. apply IHp. lia. }
      apply G. lia.
Qed.
Theorem C81_every_order (l l' : list Z) : NoDup l -> l' ≡ₚ l -> exists draw, shuffle draw l = l'.
Proof.
  intros ND P. destruct l as [|a l].
  - apply Permutation_nil_r in P as ->. exists (fun _ => 0%nat). reflexivity.
  - unfold shuffle. apply shuffle_from_onto; [exact ND|exact P|cbn; lia|]. intros q Hq. cbn in Hq. rewrite !lookup_ge_None_2; [reflexivity|cbn; lia|rewrite (Permutation_length P); cbn; lia].
Qed.
(** A test size above 1 asks for more examples than there are: the index check fails. *)
Theorem C81_too_large draw h x y (c k n n' t : nat) X Y ts : wf h -> abs h !! x = Some (Mat c n X) -> abs h !! y = Some (Mat k n' Y) ->
  Z.of_nat c <= int_max -> Z.of_nat k <= int_max -> let N := Nat.min n n' in Z.of_nat N <= int_max ->
  m_to_int (s_mul ts (s_of_Z (Z.of_nat N))) = Some (Z.of_nat t) -> (N < t)%nat -> Z.of_nat (c * t) <= int_max -> Z.of_nat (k * t) <= int_max ->
  train_test_split draw (Some (Some x, Some y)) ts h = Crash.
Proof. intros W Hx Hy Hc Hk N HN Et Ht B1 B2. eapply train_test_split_crash; eassumption. Qed.
(** Without data both results are empty. *)
Theorem C81_null draw h d ts : wf h -> (forall x y, d <> Some (Some x, Some y)) ->
  runs (train_test_split draw d ts) h (fun res h' => exists ai ao bi bo, res = ((Some ai, Some ao), (Some bi, Some bo)) /\ NoDup [ai; ao; bi; bo] /\ (forall l, l ∈ [ai; ao; bi; bo] -> abs h !! l = None) /\
    abs h' = <[bo := (SMat 0 0, [])]> (<[bi := (SMat 0 0, [])]> (<[ao := (SMat 0 0, [])]> (<[ai := (SMat 0 0, [])]> (abs h))))).
Proof.
  intros W Hd. apply runs_wp. unfold train_test_split.
  wbind. apply wp_m_new; [exact W|]. intros ai h1 W1 N1 A1 _. wbind. apply wp_m_new; [exact W1|]. intros ao h2 W2 N2 A2 _. rewrite A1 in N2, A2. split_none N2.
  wbind. apply wp_m_new; [exact W2|]. intros bi h3 W3 N3 A3 _. rewrite A2 in N3, A3. split_none N3. wbind. apply wp_m_new; [exact W3|]. intros bo h4 W4 N4 A4 _. rewrite A3 in N4, A4. split_none N4.
  assert (G : wp (ret ((Some ai, Some ao), (Some bi, Some bo)) : M F (dataset * dataset)) h4 (fun res h' => wf h' /\ exists ai ao bi bo, res = ((Some ai, Some ao), (Some bi, Some bo)) /\ NoDup [ai; ao; bi; bo] /\ (forall l, l ∈ [ai; ao; bi; bo] -> abs h !! l = None) /\
    abs h' = <[bo := (SMat 0 0, [])]> (<[bi := (SMat 0 0, [])]> (<[ao := (SMat 0 0, [])]> (<[ai := (SMat 0 0, [])]> (abs h)))))).
  { apply wp_ret. split; [exact W4|]. exists ai, ao, bi, bo. split; [reflexivity|]. split; [|split; [|exact A4]].
    - rewrite !list.NoDup_cons, !not_elem_of_cons. repeat split; try apply not_elem_of_nil; try congruence. apply NoDup_nil_2.
    - intros l Hl. rewrite !elem_of_cons in Hl. destruct Hl as [->|[->|[->|[->|Hl]]]]; try assumption. apply elem_of_nil in Hl. destruct Hl. }
  destruct d as [[[x|] [y|]]|]; try exact G. destruct (Hd x y eq_refl).
Qed.

(** ** C82 feature_scaling *)
(** Column j of the result is (x - min) / (max - min), the extremes being those of column j as [min_element] and [max_element] report them. *)
Theorem C82_feature_scaling h x (c n : nat) X : wf h -> abs h !! x = Some (Mat c n X) -> Z.of_nat c <= int_max -> Z.of_nat n <= int_max ->
  runs (feature_scaling (Some x)) h (fun d h' => exists S, abs h !! d = None /\ abs h' = <[d := Mat c n S]> (abs h) /\
    forall i j, (i < n)%nat -> (j < c)%nat -> forall h1 l lo hi, wf h1 -> abs h1 !! l = Some (AVec (map (fun r => X r j) (seq 0 n))) ->
      v_min_element l h1 = Ok lo h1 -> v_max_element l h1 = Ok hi h1 -> S i j = s_div (s_sub (X i j) lo) (s_sub hi lo)).
Proof.
  intros W A Hc Hn. apply runs_wp. eapply wp_feature_scaling; [exact W|exact A|exact Hc|exact Hn|]. intros d h' W' N' A'. split; [exact W'|]. exists (scaled n X). split; [exact N'|]. split; [exact A'|].
  intros i j Hi Hj h1 l lo hi V1 Al E1 E2. unfold scaled.
  assert (G1 : wp (v_min_element l) h1 (fun v h2 => v = f_min (row n (mat_tr X) j))) by (eapply wp_v_min_element; [exact V1|exact Al|reflexivity]).
  assert (G2 : wp (v_max_element l) h1 (fun v h2 => v = f_max (row n (mat_tr X) j))) by (eapply wp_v_max_element; [exact V1|exact Al|reflexivity]).
  unfold wp in G1, G2. rewrite E1 in G1. rewrite E2 in G2. subst lo hi. reflexivity.
Qed.

(** ** C83 mean_centering, mean_normalization *)
(** The mean subtracted from an entry is that of its ROW. *)
Theorem C83_mean_centering h x (c n : nat) X : wf h -> abs h !! x = Some (Mat c n X) -> Z.of_nat c <= int_max ->
  runs (mean_centering (Some x)) h (fun d h' => abs h !! d = None /\ abs h' = <[d := Mat c n (fun i j => s_sub (X i j) (f_mean (map (X i) (seq 0 c))))]> (abs h)).
Proof. intros W A Hc. apply runs_wp. eapply wp_mean_centering; [exact W|exact A|exact Hc|]. intros d h' W' N' A'. split; [exact W'|]. split; [exact N'|exact A']. Qed.
Theorem C83_mean_normalization h x (c n : nat) X : wf h -> abs h !! x = Some (Mat c n X) -> Z.of_nat c <= int_max ->
  runs (mean_normalization (Some x)) h (fun d h' => abs h !! d = None /\ exists Y, abs h' = <[d := Mat c n Y]> (abs h) /\
    forall i j, (i < n)%nat -> (j < c)%nat -> let z j := s_sub (X i j) (f_mean (map (X i) (seq 0 c))) in Y i j = s_mul (z j) (s_div s_one (s_sqrt (f_variance (map z (seq 0 c)))))).
Proof. intros W A Hc. apply runs_wp. eapply wp_mean_normalization; [exact W|exact A|exact Hc|]. intros d h' W' N' A'. split; [exact W'|]. split; [exact N'|]. eexists. split; [exact A'|]. reflexivity. Qed.

(** ** C84 one_hot_rep *)
(** Row i has a one in the column numbered by label i, truncated towards zero, and zeros elsewhere; a label outside 0 .. k-1 gives a row of zeros. *)
Theorem C84_one_hot h y ys (k : nat) : wf h -> abs h !! y = Some (AVec ys) -> Z.of_nat (k * length ys) <= int_max -> Forall (fun v => m_to_int v <> None) ys ->
  runs (one_hot_rep (Some y) (Z.of_nat k)) h (fun r h' => exists d T, r = Some d /\ abs h !! d = None /\ abs h' = <[d := Mat k (length ys) T]> (abs h) /\
    forall i v q, ys !! i = Some v -> m_to_int v = Some q ->
      (forall j, (j < k)%nat -> Z.of_nat j = q -> T i j = s_one) /\ (forall j, (j < k)%nat -> Z.of_nat j <> q -> T i j = s_zero)).
Proof.
  intros W A Hk HF. apply runs_wp. eapply wp_one_hot; [exact W|exact A|exact Hk|exact HF|]. intros d h' W' N' A'. split; [exact W'|]. exists d, (one_hot ys). split; [reflexivity|]. split; [exact N'|]. split; [exact A'|].
  intros i v q Hv Hq. unfold one_hot. rewrite (nth_lookup_Some _ _ s_zero _ Hv), Hq. split; intros j Hj Ej; [rewrite decide_True by congruence|rewrite decide_False by congruence]; reflexivity.
Qed.
(** Labels are recovered from the encoding as the position of the one. *)
Theorem C84_recover h y ys (k : nat) (labels : list nat) : wf h -> abs h !! y = Some (AVec ys) -> Z.of_nat (k * length ys) <= int_max -> (s_one : F) <> s_zero ->
  Forall2 (fun v q => m_to_int v = Some (Z.of_nat q) /\ (q < k)%nat) ys labels ->
  runs (one_hot_rep (Some y) (Z.of_nat k)) h (fun r h' => exists d T, r = Some d /\ abs h' = <[d := Mat k (length ys) T]> (abs h) /\
    forall i q, labels !! i = Some q -> forall j, (j < k)%nat -> (T i j <> s_zero <-> j = q)).
Proof.
  intros W A Hk H10 HF. destruct (C84_one_hot h y ys k W A Hk) as (r & h' & E & W' & d & T & Er & _ & A' & G).
  - rewrite Forall_lookup. intros i v Hv. destruct (Forall2_lookup_l _ _ _ _ _ HF Hv) as (q & _ & Eq & _). congruence.
  - exists r, h'. split; [exact E|]. split; [exact W'|]. exists d, T. split; [exact Er|]. split; [exact A'|]. intros i q Hq j Hj.
    destruct (Forall2_lookup_r _ _ _ _ _ HF Hq) as (v & Hv & Eq & Lq). destruct (G i v _ Hv Eq) as [G1 G2]. split.
    + intros Hne. destruct (decide (j = q)) as [|Hn]; [assumption|]. destruct Hne. apply G2; [exact Hj|lia].
    + intros ->. rewrite G1 by (reflexivity || exact Hj). exact H10.
Qed.
Theorem C84_null (h : heap F) k : one_hot_rep None k h = Ok None h /\ mean_centering None h = UB /\ mean_normalization None h = UB /\ feature_scaling None h = UB.
Proof. split_and!; reflexivity. Qed.
(** A label that is no int (NaN, too large) is undefined behaviour as soon as there is a class to compare it with. *)
Theorem C84_bad_label_UB h y v ys (k : nat) : wf h -> abs h !! y = Some (AVec (v :: ys)) -> (1 <= k)%nat -> Z.of_nat (k * S (length ys)) <= int_max -> m_to_int v = None ->
  one_hot_rep (Some y) (Z.of_nat k) h = UB.
Proof.
  intros W A Hk HB Hv. unfold one_hot_rep. apply bind_UB. apply wp_m_new; [exact W|]. intros o h1 W1 N1 A1 _.
  apply bind_UB. eapply wp_v_size_vec; [rewrite A1, lookup_insert_ne by congruence; exact A|]. apply bind_UB. eapply wp_data_ptr; [rewrite A1, lookup_insert_ne by congruence; exact A|]. intros p Hp. cbn [length].
  apply bind_UB. eapply wp_m_resize; [exact W1|rewrite A1; apply lookup_insert|lia|]. intros h2 W2 A2 P2. apply bind_UB_first.
  unfold for_, for_acc. rewrite Z.sub_0_r, Nat2Z.id. cbn [for_nat]. apply bind_UB_first. rewrite Z.sub_0_r, Nat2Z.id. destruct k as [|k]; [lia|]. cbn [for_nat]. apply bind_UB_first. apply bind_UB_first.
  apply bind_UB. eapply wp_load; [exact W2|rewrite (P2 y) by congruence; exact Hp|rewrite A2, A1, insert_insert, lookup_insert_ne by congruence; exact A|lia|reflexivity|].
  apply bind_UB_first. unfold cast_int. rewrite Hv. reflexivity.
Qed.
End any.
