(** * C67: outlier detection. *)
From Verif Require Import Base BaseProofs Vec VecSpec VecProofs VecProofs2 Mat MatSpec MatProofs MatProofs2 MatProofs3 MatProofs4 MatProofs5 Frame Stat StatProofs Act ActProofs ActProofs2 Cost CostProofs Sym Svm Util UtilProofs LinAlg LinAlgProofs Outlier.

Section gen.
Context {F : Type} `{Scalar F}.
Implicit Types (h : heap F) (xs : list F).

(** What the code keeps of a list. *)
Definition fars (o : outlier F) xs : list F := filter (fun v => of_far o (f_mean xs) (s_sqrt (f_variance xs)) v = true) xs.
Definition far_at (o : outlier F) xs (j : nat) : bool := match xs !! j with Some v => of_far o (f_mean xs) (s_sqrt (f_variance xs)) v | None => false end.
Definition far_idx (o : outlier F) xs : list nat := filter (fun j => far_at o xs j = true) (seq 0 (length xs)).

Lemma foldl_filter {A} (P : A -> bool) (l : list A) a : foldl (fun acc v => if P v then acc ++ [v] else acc) a l = a ++ filter (fun v => P v = true) l.
Proof.
  revert a. induction l as [|v l IH]; intros a; cbn [foldl]; [rewrite filter_nil, app_nil_r; reflexivity|]. rewrite IH, filter_cons.
  destruct (P v); [rewrite decide_True by reflexivity; rewrite <- app_assoc; reflexivity|rewrite decide_False by discriminate; reflexivity].
Qed.
Lemma of_model_test_eq (o : outlier F) h x xs : wf h -> abs h !! x = Some (AVec xs) -> of_model_test o (Some x) h = Ok (fars o xs) h.
Proof.
  intros W Hx. apply wp_eq. unfold of_model_test. wbind. unfold wp at 1. rewrite (st_mean_eq h x xs) by assumption.
  wbind. unfold wp at 1. rewrite (st_sd_eq h x xs) by assumption.
  set (g := of_far o (f_mean xs) (s_sqrt (f_variance xs))).
  pose proof (acc1_eq h x xs [] (fun acc v => if g v then acc ++ [v] else acc) W Hx) as E. unfold acc1 in E. rewrite foldl_filter in E. cbn [app] in E. unfold wp. rewrite E. split; reflexivity.
Qed.

(** The shared scan: [step] folds the far columns of one row. *)
Lemma wp_of_scan {A} (o : outlier F) (put : Z -> Z -> F -> A -> A) a0 h m (k n : nat) X (Q : A -> heap F -> Prop) : wf h -> abs h !! m = Some (Mat k n X) -> (Z.of_nat k <= int_max)%Z ->
  (forall h', wf h' -> abs h' = abs h -> Q (foldl (fun acc i => foldl (fun acc j => put (Z.of_nat i) (Z.of_nat j) (X i j) acc) acc (far_idx o (vlist k (X i)))) a0 (seq 0 n)) h') ->
  wp (of_scan o m put a0) h Q.
Proof.
  intros W Hm Hk HQ. unfold of_scan. wbind. eapply wp_m_size; [exact Hm|]. cbn [fst snd].
  wbind. eapply wp_v_new; [exact W|]. intros t h1 W1 N1 A1 _. assert (Dm : m <> t) by congruence.
  wbind. eapply wp_v_resize; [exact W1|look|lia|]. intros h2 W2 A2 _. rewrite A1, insert_insert in A2.
  wbind. apply wp_for_acc_n with (I := fun i acc hi => wf hi /\ (exists n0 c0, abs hi = <[t := (SVec n0, c0)]> (abs h)) /\
    acc = foldl (fun acc i => foldl (fun acc j => put (Z.of_nat i) (Z.of_nat j) (X i j) acc) acc (far_idx o (vlist k (X i)))) a0 (seq 0 i)).
  - split_and!; [exact W2|do 2 eexists; exact A2|reflexivity].
  - intros i acc hi Hi (Wi & (n0 & c0 & Ai) & ->).
    wbind. eapply wp_row_into with (i := i) (X := X) (k := k) (n := n); [exact Wi|look; exact Hm|look|reflexivity|exact Hi|]. intros h3 W3 A3. rewrite Ai, insert_insert in A3.
    wbind. unfold wp at 1. rewrite (st_mean_eq h3 t (vlist k (X i))) by (first [exact W3|look]).
    wbind. unfold wp at 1. rewrite (st_sd_eq h3 t (vlist k (X i))) by (first [exact W3|look]).
    set (acc0 := foldl _ a0 (seq 0 i)). set (row := vlist k (X i)) in *.
    apply wp_for_acc_n with (I := fun j acc hj => hj = h3 /\ acc = foldl (fun acc j => put (Z.of_nat i) (Z.of_nat j) (X i j) acc) acc0 (filter (fun j => far_at o row j = true) (seq 0 j))).
    + split; reflexivity.
    + intros j acc hj Hj [-> ->]. wbind. eapply wp_m_get_mat; [exact W3|look; exact Hm|exact Hi|exact Hj|]. apply wp_ret. split; [reflexivity|].
      rewrite seq_S, list.filter_app, foldl_app. rewrite Nat.add_0_l. rewrite filter_cons, filter_nil. assert (E : far_at o row j = of_far o (f_mean row) (s_sqrt (f_variance row)) (X i j)) by (unfold far_at; subst row; rewrite vlist_lookup by exact Hj; reflexivity).
      rewrite E. destruct (of_far o _ _ _); [rewrite decide_True by reflexivity; reflexivity|rewrite decide_False by discriminate; reflexivity].
    + intros acc hj [-> ->]. split_and!; [exact W3|do 2 eexists; exact A3|]. rewrite seq_S, foldl_app. cbn [foldl]. rewrite Nat.add_0_l. unfold far_idx. rewrite vlist_length. reflexivity.
  - intros acc hi (Wi & (n0 & c0 & Ai) & ->). wbind. eapply wp_del; [exact Wi|look|]. intros h3 W3 A3 _. rewrite Ai, delete_insert in A3 by exact N1. apply wp_ret. apply HQ; assumption.
Qed.
Lemma far_idx_fars (o : outlier F) xs : (fun j => nth j xs s_zero) <$> far_idx o xs = fars o xs.
Proof.
  unfold far_idx, fars, far_at. set (P := of_far o _ _).
  assert (G : forall l, (fun j => nth j (l ++ xs) s_zero) <$> filter (fun j => match (l ++ xs) !! j with Some v => P v | None => false end = true) (seq (length l) (length xs)) = filter (fun v => P v = true) xs).
  { clearbody P. induction xs as [|v xs IH]; intros l; [reflexivity|]. cbn [length seq]. rewrite !filter_cons. rewrite lookup_app_r, Nat.sub_diag by lia. cbn [lookup list_lookup].
    specialize (IH (l ++ [v])). rewrite <- app_assoc, app_length, Nat.add_1_r in IH. cbn [app] in IH.
    destruct (P v); [rewrite !(decide_True (P := true = true)) by reflexivity|rewrite !(decide_False (P := false = true)) by discriminate; exact IH]. rewrite fmap_cons, IH. f_equal. rewrite app_nth2, Nat.sub_diag by lia. reflexivity. }
  exact (G []).
Qed.
Lemma wp_set_test (o : outlier F) h m (k n : nat) X (Q : list (list F) -> heap F -> Prop) : wf h -> abs h !! m = Some (Mat k n X) -> (Z.of_nat k <= int_max)%Z ->
  (forall h', wf h' -> abs h' = abs h -> Q (map (fun i => fars o (vlist k (X i))) (seq 0 n)) h') -> wp (of_model_set_test o (Some m)) h Q.
Proof.
  intros W Hm Hk HQ. unfold of_model_set_test. wbind. eapply wp_m_size; [exact Hm|]. cbn [fst snd]. rewrite Nat2Z.id. eapply wp_of_scan; [exact W|exact Hm|exact Hk|]. intros h' W' A'.
  match goal with |- Q ?t _ => assert (E : t = map (fun i => fars o (vlist k (X i))) (seq 0 n)); [|rewrite E; apply HQ; assumption] end.
  assert (G : forall p, (p <= n)%nat -> foldl (fun acc i => foldl (fun acc j => alter (fun row => row ++ [X i j]) (Z.to_nat (Z.of_nat i)) acc) acc (far_idx o (vlist k (X i)))) (replicate n []) (seq 0 p) = map (fun i => fars o (vlist k (X i))) (seq 0 p) ++ replicate (n - p) []).
  { induction p as [|p IH]; intros Hp; [cbn; rewrite Nat.sub_0_r; reflexivity|]. rewrite seq_S, foldl_app, IH, map_app by lia. cbn [foldl map]. rewrite Nat.add_0_l. replace (n - p)%nat with (S (n - S p)) by lia. cbn [replicate]. rewrite Nat2Z.id.
    rewrite <- app_assoc. cbn [app]. set (L := map _ _). assert (HL : length L = p) by (unfold L; rewrite map_length, seq_length; reflexivity). clearbody L.
    rewrite <- far_idx_fars. assert (B : Forall (fun j => (j < k)%nat) (far_idx o (vlist k (X p)))).
    { rewrite list.Forall_forall. intros j Hj. unfold far_idx in Hj. rewrite elem_of_list_filter, vlist_length in Hj. destruct Hj as [_ Hj]. apply elem_of_seq in Hj. lia. }
    assert (G2 : forall js r, Forall (fun j => (j < k)%nat) js -> foldl (fun acc j => alter (fun row => row ++ [X p j]) p acc) (L ++ r :: replicate (n - S p) []) js = L ++ (r ++ ((fun j => nth j (vlist k (X p)) s_zero) <$> js)) :: replicate (n - S p) []).
    { induction js as [|j js IH2]; intros r Hjs; cbn [foldl]; [rewrite app_nil_r; reflexivity|]. apply list.Forall_cons in Hjs as [Hj Hjs]. rewrite (alter_app_r_alt _ L) by lia. rewrite HL, Nat.sub_diag. cbn [alter list_alter]. rewrite IH2 by assumption. rewrite fmap_cons, <- app_assoc. cbn [app]. rewrite (nth_lookup_Some _ _ s_zero (X p j)) by (apply vlist_lookup; assumption). reflexivity. }
    rewrite G2 by exact B. reflexivity. }
  rewrite G, Nat.sub_diag by lia. cbn [replicate]. apply app_nil_r.
Qed.
Lemma wp_set_idx (o : outlier F) h m (k n : nat) X (Q : list (Z * Z) -> heap F -> Prop) : wf h -> abs h !! m = Some (Mat k n X) -> (Z.of_nat k <= int_max)%Z ->
  (forall h', wf h' -> abs h' = abs h -> Q (concat (map (fun i => (fun j => (Z.of_nat j, Z.of_nat i)) <$> far_idx o (vlist k (X i))) (seq 0 n))) h') -> wp (of_model_set_test_indices o (Some m)) h Q.
Proof.
  intros W Hm Hk HQ. unfold of_model_set_test_indices. eapply wp_of_scan; [exact W|exact Hm|exact Hk|]. intros h' W' A'.
  match goal with |- Q ?t _ => assert (E : t = concat (map (fun i => (fun j => (Z.of_nat j, Z.of_nat i)) <$> far_idx o (vlist k (X i))) (seq 0 n))); [|rewrite E; apply HQ; assumption] end.
  assert (G2 : forall i js a, foldl (fun acc j => acc ++ [(Z.of_nat j, Z.of_nat i)]) a js = a ++ ((fun j => (Z.of_nat j, Z.of_nat i)) <$> js)).
  { intros i js. induction js as [|j js IH]; intros a; cbn [foldl]; [rewrite app_nil_r; reflexivity|]. rewrite IH, <- app_assoc. reflexivity. }
  induction n as [|p IH]; [reflexivity|]. clear - G2. revert G2. intros G2. generalize (S p) as q. induction q as [|q IH]; [reflexivity|].
  rewrite seq_S, foldl_app, IH, map_app, concat_app. cbn [foldl map concat]. rewrite G2, app_nil_r. reflexivity.
Qed.
End gen.

From Verif Require Import PropStat PropReal.
From Coq Require Import Reals Lra Sorting.Sorted.
From Verif Require Import RInst.
Section outliers.
Implicit Types (h : heap R) (xs : list R) (t v : R).
Open Scope R_scope.

(** ** Specification *)
(** v lies more than t sample standard deviations from the mean of xs. *)
Definition beyond t xs v : bool := Rltb (t * sqrt (variance xs)) (Rabs (v - mean xs)).
Definition outliers t xs : list R := filter (fun v => beyond t xs v = true) xs.

Lemma far_beyond t xs v : 0 <= t -> v ∈ xs -> of_far (of_new t) (f_mean xs) (s_sqrt (f_variance xs)) v = beyond t xs v.
Proof.
  intros Ht Hv. unfold of_far, beyond. cbn [of_new of_thr]. rewrite s_abs_R, f_mean_R, f_variance_R.
  change (Rltb t (Rabs ((v - mean xs) / sqrt (variance xs))) = Rltb (t * sqrt (variance xs)) (Rabs (v - mean xs))).
  assert (Hn : (1 <= length xs)%nat) by (destruct xs; [apply elem_of_nil in Hv; contradiction|cbn; lia]).
  assert (Z0 : sqrt (variance xs) = 0 -> v - mean xs = 0).
  { intros E. destruct (decide (length xs = 1%nat)) as [E1|E1].
    - destruct xs as [|a [|]]; try discriminate. apply elem_of_list_singleton in Hv. subst v. unfold mean. cbn. field.
    - assert (H2 : (2 <= length xs)%nat) by lia. pose proof (variance_nonneg xs H2) as V. apply sqrt_eq_0 in E; [|exact V]. apply variance_zero in E; [|exact H2].
      assert (M : rsum xs = INR (length xs) * v). { rewrite <- (rsum_map_const v xs). rewrite <- (list_fmap_id xs) at 1. apply rsum_map_ext. intros x Hx. exact (E x v Hx Hv). }
      unfold mean. rewrite M. field. apply not_0_INR. lia. }
  pose proof (sqrt_pos (variance xs)) as S. destruct (Req_dec (sqrt (variance xs)) 0) as [E|E].
  - rewrite E, (Z0 E). unfold Rdiv. rewrite Rmult_0_l, Rmult_0_r, Rabs_R0. transitivity false; [apply Rltb_false; lra|symmetry; apply Rltb_false; lra].
  - assert (P : 0 < sqrt (variance xs)) by lra. unfold Rdiv. rewrite Rabs_mult, (Rabs_pos_eq (/ _)) by (left; apply Rinv_0_lt_compat, P).
    destruct (Rltb (t * _) _) eqn:B.
    + apply Rltb_true in B. apply Rltb_true. apply (Rmult_lt_reg_r (sqrt (variance xs))); [exact P|]. rewrite Rmult_assoc, Rinv_l by exact E. lra.
    + apply Rltb_false in B. apply Rltb_false. apply (Rmult_le_reg_r (sqrt (variance xs))); [exact P|]. rewrite Rmult_assoc, Rinv_l by exact E. lra.
Qed.
Lemma fars_R t xs : 0 <= t -> fars (of_new t) xs = outliers t xs.
Proof.
  intros Ht. unfold fars, outliers. assert (G : forall l : list R, (forall v, v ∈ l -> v ∈ xs) -> filter (fun v => of_far (of_new t) (f_mean xs) (s_sqrt (f_variance xs)) v = true) l = filter (fun v => beyond t xs v = true) l).
  { induction l as [|v l IH]; intros Hl; [reflexivity|]. rewrite !filter_cons, IH by (intros w Hw; apply Hl; right; exact Hw). rewrite far_beyond by (first [exact Ht|apply Hl; left]). reflexivity. }
  apply G. auto.
Qed.
(** ** Theorems *)
(** model_test returns exactly the elements beyond the threshold, in order, and changes nothing. *)
Theorem C67_model_test h x xs t : wf h -> abs h !! x = Some (AVec xs) -> 0 <= t -> of_model_test (of_new t) (Some x) h = Ok (outliers t xs) h.
Proof. intros W Hx Ht. rewrite (of_model_test_eq _ h x xs W Hx), fars_R by exact Ht. reflexivity. Qed.
(** model_set_test gives, row by row, what model_test gives for a vector holding that row. *)
Theorem C67_model_set_test h m (k n : nat) X t : wf h -> abs h !! m = Some (Mat k n X) -> (Z.of_nat k <= int_max)%Z -> 0 <= t ->
  runs (of_model_set_test (of_new t) (Some m)) h (fun rows h' => abs h' = abs h /\ length rows = n /\
    forall i row, rows !! i = Some row -> row = outliers t (map (X i) (seq 0 k))).
Proof.
  intros W Hm Hk Ht. apply runs_wp. eapply wp_set_test; [exact W|exact Hm|exact Hk|]. intros h' W' A'. split; [exact W'|]. split; [exact A'|]. split; [rewrite map_length, seq_length; reflexivity|].
  intros i row Hi. apply list_lookup_fmap_inv in Hi as (j & -> & Hj). apply lookup_seq in Hj as [-> _]. rewrite fars_R by exact Ht. reflexivity.
Qed.
(** model_set_test_indices gives exactly the positions (column, row) of the outliers, each once, row by row. *)
Theorem C67_indices h m (k n : nat) X t : wf h -> abs h !! m = Some (Mat k n X) -> (Z.of_nat k <= int_max)%Z -> 0 <= t ->
  runs (of_model_set_test_indices (of_new t) (Some m)) h (fun ps h' => abs h' = abs h /\ NoDup ps /\
    (forall i j, (i < n)%nat -> (j < k)%nat -> (Z.of_nat j, Z.of_nat i) ∈ ps <-> beyond t (map (X i) (seq 0 k)) (X i j) = true) /\
    (forall p, p ∈ ps -> exists i j, p = (Z.of_nat j, Z.of_nat i) /\ (i < n)%nat /\ (j < k)%nat) /\
    forall a b p q, (a < b)%nat -> ps !! a = Some p -> ps !! b = Some q -> (snd p < snd q)%Z \/ snd p = snd q /\ (fst p < fst q)%Z).
Proof.
  intros W Hm Hk Ht. apply runs_wp. eapply wp_set_idx; [exact W|exact Hm|exact Hk|]. intros h' W' A'. split; [exact W'|]. split; [exact A'|].
  set (row := fun i => far_idx (of_new t) (vlist k (X i))). 
  assert (R0 : forall i j, j ∈ row i <-> (j < k)%nat /\ beyond t (map (X i) (seq 0 k)) (X i j) = true).
  { intros i j. unfold row, far_idx. rewrite elem_of_list_filter, vlist_length, elem_of_seq. unfold far_at. split.
    - intros [E Hj]. assert (Hj' : (j < k)%nat) by lia. split; [exact Hj'|]. rewrite vlist_lookup in E by exact Hj'. rewrite far_beyond in E; [exact E|exact Ht|]. eapply elem_of_list_lookup_2. apply vlist_lookup, Hj'.
    - intros [Hj E]. split; [|lia]. rewrite vlist_lookup by exact Hj. rewrite far_beyond; [exact E|exact Ht|]. eapply elem_of_list_lookup_2. apply vlist_lookup, Hj. }
  set (ps := concat _).
  assert (M : forall p, p ∈ ps <-> exists i j, p = (Z.of_nat j, Z.of_nat i) /\ (i < n)%nat /\ j ∈ row i).
  { intros p. unfold ps. rewrite elem_of_list_In, in_concat. split.
    - intros (l & Hl & Hp). apply in_map_iff in Hl as (i & <- & Hi). apply in_seq in Hi. rewrite <- elem_of_list_In in Hp. apply elem_of_list_fmap in Hp as (j & -> & Hj). exists i, j. split; [reflexivity|]. split; [lia|exact Hj].
    - intros (i & j & -> & Hi & Hj). exists ((fun j => (Z.of_nat j, Z.of_nat i)) <$> row i). split; [apply in_map_iff; exists i; split; [reflexivity|apply in_seq; lia]|]. rewrite <- elem_of_list_In. apply elem_of_list_fmap. eauto. }
  assert (O : forall a b p q, (a < b)%nat -> ps !! a = Some p -> ps !! b = Some q -> (snd p < snd q)%Z \/ snd p = snd q /\ (fst p < fst q)%Z).
  { clear M. assert (Sr : forall i, StronglySorted lt (row i)).
    { intros i. unfold row, far_idx. generalize (length (vlist k (X i))). intros s. generalize 0%nat. induction s as [|s IH]; intros a; [constructor|]. cbn [seq]. rewrite filter_cons. case_decide; [|apply IH]. constructor; [apply IH|]. rewrite List.Forall_forall. intros z Hz. rewrite <- elem_of_list_In, elem_of_list_filter, elem_of_seq in Hz. lia. }
    assert (SS : StronglySorted (fun p q : Z * Z => (snd p < snd q)%Z \/ snd p = snd q /\ (fst p < fst q)%Z) ps).
    { unfold ps. change (StronglySorted (fun p q : Z * Z => (snd p < snd q)%Z \/ snd p = snd q /\ (fst p < fst q)%Z) (concat (map (fun i => (fun j => (Z.of_nat j, Z.of_nat i)) <$> row i) (seq 0 n)))). clear - Sr. clearbody row. generalize 0%nat. induction n as [|s IH]; intros a; [constructor|]. cbn [seq map concat].
      assert (B : Forall (fun q : Z * Z => (Z.of_nat a < snd q)%Z) (concat (map (fun i => (fun j => (Z.of_nat j, Z.of_nat i)) <$> row i) (seq (S a) s)))).
      { rewrite List.Forall_forall. intros q Hq. apply in_concat in Hq as (l & Hl & Hq). apply in_map_iff in Hl as (i & <- & Hi). apply in_seq in Hi. rewrite <- elem_of_list_In in Hq. apply elem_of_list_fmap in Hq as (j & -> & _). cbn. lia. }
      specialize (IH (S a)). revert B IH. generalize (concat (map (fun i => (fun j => (Z.of_nat j, Z.of_nat i)) <$> row i) (seq (S a) s))). intros tl B IH.
      specialize (Sr a). revert Sr. generalize (row a). intros l Sr. induction Sr as [|j l Sr IHl F]; [exact IH|]. rewrite fmap_cons. cbn [app]. constructor; [exact IHl|]. apply List.Forall_app. split.
      - rewrite List.Forall_forall in F |- *. intros q Hq. rewrite <- elem_of_list_In in Hq. apply elem_of_list_fmap in Hq as (z & -> & Hz). right. cbn. split; [reflexivity|]. rewrite elem_of_list_In in Hz. specialize (F z Hz). lia.
      - eapply List.Forall_impl; [|exact B]. intros q Hq. left. exact Hq. }
    intros a b p q Hab Hp Hq. revert a b Hab Hp Hq. induction SS as [|x l SS IH F]; intros a b Hab Hp Hq; [discriminate|]. destruct b as [|b]; [lia|]. destruct a as [|a].
    - injection Hp as ->. rewrite List.Forall_forall in F. apply F. rewrite <- elem_of_list_In. eapply elem_of_list_lookup_2. exact Hq.
    - eapply (IH a b); [lia|exact Hp|exact Hq]. }
  split_and!.
  - apply NoDup_alt. intros a b p Ha Hb. destruct (lt_eq_lt_dec a b) as [[L|L]|L]; [|exact L|]; [pose proof (O _ _ _ _ L Ha Hb)|pose proof (O _ _ _ _ L Hb Ha)]; lia.
  - intros i j Hi Hj. rewrite M. split.
    + intros (i' & j' & E & _ & Hj'). injection E as E1 E2. apply Nat2Z.inj in E1, E2. subst. apply R0, Hj'.
    + intros E. exists i, j. split; [reflexivity|]. split; [exact Hi|]. apply R0. auto.
  - intros p Hp. apply M in Hp as (i & j & -> & Hi & Hj). exists i, j. split_and!; [reflexivity|exact Hi|apply R0 in Hj; tauto].
  - exact O.
Qed.
Theorem C67_null h (o : outlier R) : of_model_test o None h = Ok [] h /\ of_model_set_test o None h = Ok [] h /\ of_model_set_test_indices o None h = Ok [] h.
Proof. split_and!; reflexivity. Qed.
Theorem C67_threshold (o : outlier R) t : of_get_threshold (of_set_threshold t o) = t /\ of_get_threshold (of_new t) = t /\ of_get_threshold (of_new_default (F := R)) = 0 /\ of_set_threshold t o = of_new t.
Proof. split_and!; reflexivity. Qed.

(** Chebyshev: at most (n - 1) / t^2 of n elements are reported, whatever the data. *)
Theorem C67_chebyshev h x xs t : wf h -> abs h !! x = Some (AVec xs) -> 0 <= t -> (1 <= length xs)%nat ->
  exists os, of_model_test (of_new t) (Some x) h = Ok os h /\ INR (length os) * (t * t) <= INR (length xs) - 1.
Proof.
  intros W Hx Ht Hn. exists (outliers t xs). split; [apply C67_model_test; assumption|]. destruct (decide (length xs = 1%nat)) as [E1|E1].
  { destruct xs as [|a [|]]; try discriminate. unfold outliers, beyond. rewrite filter_cons, filter_nil. replace (mean [a]) with a by (unfold mean; cbn; field). rewrite decide_False; [cbn; lra|].
    intros B. apply Rltb_true in B. rewrite Rminus_diag_eq, Rabs_R0 in B by reflexivity. pose proof (sqrt_pos (variance [a])). nra. }
  assert (H2 : (2 <= length xs)%nat) by lia. pose proof (len_ge2 xs H2) as L2. pose proof (variance_nonneg xs H2) as V.
  destruct (Req_dec (variance xs) 0) as [E|E].
  - assert (outliers t xs = []) as ->; [|cbn; lra]. unfold outliers, beyond. rewrite E, sqrt_0, Rmult_0_r.
    assert (C : forall v, v ∈ xs -> v - mean xs = 0).
    { intros v Hv. pose proof (proj1 (variance_zero xs H2) E) as C. assert (M : rsum xs = INR (length xs) * v). { rewrite <- (rsum_map_const v xs). rewrite <- (list_fmap_id xs) at 1. apply rsum_map_ext. intros y Hy. exact (C y v Hy Hv). }
      unfold mean. rewrite M. field. apply not_0_INR. lia. }
    assert (G : forall l : list R, (forall v, v ∈ l -> v - mean xs = 0) -> filter (fun v => Rltb 0 (Rabs (v - mean xs)) = true) l = []).
    { induction l as [|v l IH]; intros Hl; [reflexivity|]. rewrite filter_cons, (Hl v) by left. rewrite Rabs_R0, decide_False; [apply IH; intros w Hw; apply Hl; right; exact Hw|]. intros B. apply Rltb_true in B. lra. }
    apply G, C.
  - assert (P : 0 < variance xs) by lra. set (D := fun a => (a - mean xs) * (a - mean xs)).
    assert (S : rsum (D <$> xs) = variance xs * (INR (length xs) - 1)) by (unfold variance, D; field; lra).
    assert (G : forall l : list R, INR (length (filter (fun v => beyond t xs v = true) l)) * (t * t * variance xs) <= rsum (D <$> l)).
    { induction l as [|v l IH]; [cbn; lra|]. rewrite filter_cons, fmap_cons. change (rsum (D v :: (D <$> l))) with (D v + rsum (D <$> l)). assert (Dn : 0 <= D v) by exact (Rle_0_sqr (v - mean xs)). case_decide as B; [|lra]. cbn [length]. rewrite S_INR.
      assert (t * t * variance xs <= D v); [|lra]. unfold beyond in B. apply Rltb_true in B. pose proof (sqrt_pos (variance xs)) as Sp. pose proof (sqrt_sqrt (variance xs) V) as Q.
      replace (D v) with (Rabs (v - mean xs) * Rabs (v - mean xs)) by (rewrite <- Rabs_mult; apply Rabs_pos_eq, Dn). replace (t * t * variance xs) with ((t * sqrt (variance xs)) * (t * sqrt (variance xs))) by (rewrite <- Q at 3; ring).
      assert (0 <= t * sqrt (variance xs)) by (apply Rmult_le_pos; assumption). apply Rmult_le_compat; lra. }
    specialize (G xs). rewrite S in G. fold (outliers t xs) in G. apply (Rmult_le_reg_r (variance xs)); [exact P|]. lra.
Qed.
(** A threshold above sqrt(n - 1) never reports anything: with the usual threshold 3, no list of at most 9 elements has an outlier. *)
Theorem C67_small_sample h x xs t : wf h -> abs h !! x = Some (AVec xs) -> 0 <= t -> (1 <= length xs)%nat -> INR (length xs) - 1 < t * t -> of_model_test (of_new t) (Some x) h = Ok [] h.
Proof.
  intros W Hx Ht Hn Hs. destruct (C67_chebyshev h x xs t W Hx Ht Hn) as (os & E & B). rewrite E. destruct os as [|a os]; [reflexivity|]. exfalso. cbn [length] in B. rewrite S_INR in B. pose proof (pos_INR (length os)). nra.
Qed.
(** Raising the threshold only removes elements. *)
Theorem C67_threshold_monotone h x xs t t' : wf h -> abs h !! x = Some (AVec xs) -> 0 <= t -> t <= t' ->
  exists os os', of_model_test (of_new t) (Some x) h = Ok os h /\ of_model_test (of_new t') (Some x) h = Ok os' h /\ os' `sublist_of` os /\ os `sublist_of` xs.
Proof.
  intros W Hx Ht Htt. exists (outliers t xs), (outliers t' xs). split_and!; [apply C67_model_test; assumption|apply C67_model_test; [assumption..|lra]| |unfold outliers; generalize (beyond t xs); intros g; clear; induction xs as [|v l IH]; [constructor|]; rewrite filter_cons; case_decide; constructor; exact IH].
  unfold outliers. assert (I : forall v, beyond t' xs v = true -> beyond t xs v = true). { intros v B. apply Rltb_true in B. apply Rltb_true. pose proof (sqrt_pos (variance xs)). nra. }
  assert (G : forall l : list R, filter (fun v => beyond t' xs v = true) l `sublist_of` filter (fun v => beyond t xs v = true) l).
  { induction l as [|v l IH]; [constructor|]. rewrite !filter_cons. case_decide as B'; case_decide as B; [constructor; exact IH|apply I in B'; contradiction|constructor; exact IH|exact IH]. }
  apply G.
Qed.
End outliers.
