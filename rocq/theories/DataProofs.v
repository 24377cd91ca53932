(** * Data preparation: what the code computes (C81-C84). *)
From Verif Require Import Base BaseProofs Vec VecSpec VecProofs VecProofs2 Mat MatSpec MatProofs MatProofs2 MatProofs3 MatProofs5 Act Stat StatProofs Glm GlmMath GlmProofs3 KmeansProofs2 Sym Svm Data.

Local Notation S := Datatypes.S.
Section dataproofs.
Context {F : Type} `{Scalar F} `{Libm F}.
Implicit Types (h : heap F) (xs : list F).

Lemma wp_eq_step {A} (m : M F A) h v (Q : A -> heap F -> Prop) : m h = Ok v h -> Q v h -> wp m h Q.
Proof. intros E HQ. unfold wp. rewrite E. exact HQ. Qed.
Lemma nth_fmap_z (f : F -> F) (l : list F) t : (t < length l)%nat -> nth t (f <$> l) s_zero = f (nth t l s_zero).
Proof. intros Ht. rewrite (nth_indep _ _ (f s_zero)) by (rewrite fmap_length; exact Ht). apply map_nth. Qed.
Lemma nth_map_seq {A} (f : nat -> A) n i d : (i < n)%nat -> nth i (map f (seq 0 n)) d = f i.
Proof. intros Hi. rewrite (nth_indep _ _ (f 0%nat)) by (rewrite map_length, seq_length; exact Hi). rewrite map_nth, seq_nth by exact Hi. reflexivity. Qed.
(** The cells before (i, j) in row-major order have their final values. *)
Definition filled (val : nat -> nat -> F) (i j : nat) (G : nat -> nat -> cell F) (p q : nat) : cell F :=
  if ((p <? i) || ((p =? i) && (q <? j)))%nat then Some (val p q) else G p q.
Lemma filled_next val c r i G : MatP c r (filled val i c G) = MatP c r (filled val (S i) 0 G).
Proof.
  apply MatP_ext. intros p q Hp Hq. unfold filled. rewrite Bool.andb_false_r, Bool.orb_false_r.
  destruct (Nat.ltb_spec p i), (Nat.eqb_spec p i), (Nat.ltb_spec q c), (Nat.ltb_spec p (S i)); try reflexivity; lia.
Qed.
Lemma filled_start val c r G : MatP c r (filled val 0 0 G) = MatP c r G.
Proof. apply MatP_ext. intros p q Hp Hq. unfold filled. rewrite Bool.andb_false_r. reflexivity. Qed.
Lemma filled_all val c r G : MatP c r (filled val r 0 G) = Mat c r val.
Proof. rewrite Mat_MatP. apply MatP_ext. intros p q Hp Hq. unfold filled. destruct (Nat.ltb_spec p r); [reflexivity|lia]. Qed.
Lemma filled_upd val c r i j G : (i < r)%nat -> (j < c)%nat -> MatP c r (upd (filled val i j G) i j (Some (val i j))) = MatP c r (filled val i (S j) G).
Proof.
  intros Hi Hj. apply MatP_ext. intros p q _ _. unfold upd, filled. destruct (decide (p = i /\ q = j)) as [[-> ->]|Hne].
  - rewrite Nat.eqb_refl. replace (Nat.ltb j (S j)) with true by (symmetry; apply Nat.ltb_lt; lia). rewrite Bool.orb_true_r. reflexivity.
  - destruct (Nat.ltb_spec p i), (Nat.eqb_spec p i), (Nat.ltb_spec q j), (Nat.ltb_spec q (S j)); try reflexivity; lia.
Qed.
(** One row of a matrix computed cell by cell. *)
Lemma wp_row_fill d (c r : nat) val G m (i : nat) (cell : Z -> M F F) h (Q : unit -> heap F -> Prop) : (i < r)%nat -> wf h ->
  abs h = <[d := MatP c r (filled val i 0 G)]> m ->
  (forall (j : nat) hj (Q' : F -> heap F -> Prop), (j < c)%nat -> wf hj -> abs hj = <[d := MatP c r (filled val i j G)]> m -> Q' (val i j) hj -> wp (cell (Z.of_nat j)) hj Q') ->
  (forall h', wf h' -> abs h' = <[d := MatP c r (filled val (S i) 0 G)]> m -> Q tt h') ->
  wp (for_ 0 (Z.of_nat c) (fun j => let! v := cell j in m_set d (Z.of_nat i) j v)) h Q.
Proof.
  intros Hi W A HC HQ. eapply (wp_for_n (fun j hj => wf hj /\ abs hj = <[d := MatP c r (filled val i j G)]> m)).
  - split; assumption.
  - intros j hj Hj [Wj Aj]. wbind. eapply HC; [exact Hj|exact Wj|exact Aj|]. eapply wp_m_set; [exact Wj|rewrite Aj; apply lookup_insert|].
    intros hl Wl _ Al. rewrite decide_True in Al by lia. split; [exact Wl|]. rewrite Al, Aj, insert_insert, !Nat2Z.id. f_equal. apply filled_upd; assumption.
  - intros hj [Wj Aj]. apply HQ; [exact Wj|]. rewrite Aj. f_equal. apply filled_next.
Qed.

(** ** feature_scaling *)
Definition f_max xs : F := (scan_fold (fun x m => s_lt m x) (s_opp s_inf) xs).1.
Definition f_min xs : F := (scan_fold (fun x m => s_lt x m) s_inf xs).1.
Lemma wp_v_max_element h l xs (Q : F -> heap F -> Prop) : wf h -> abs h !! l = Some (AVec xs) -> Q (f_max xs) h -> wp (v_max_element l) h Q.
Proof. intros W A HQ. unfold v_max_element. wbind. eapply wp_v_max_scan; [exact W|exact A|]. apply wp_ret. exact HQ. Qed.
Lemma wp_v_min_element h l xs (Q : F -> heap F -> Prop) : wf h -> abs h !! l = Some (AVec xs) -> Q (f_min xs) h -> wp (v_min_element l) h Q.
Proof. intros W A HQ. unfold v_min_element. wbind. eapply wp_v_min_scan; [exact W|exact A|]. apply wp_ret. exact HQ. Qed.
(** Row [i] of a matrix. *)
Definition row (c : nat) (X : nat -> nat -> F) (i : nat) : list F := map (X i) (seq 0 c).
Lemma row_length c X i : length (row c X i) = c. Proof. unfold row. rewrite map_length, seq_length. reflexivity. Qed.
Lemma nth_row c X i j : (j < c)%nat -> nth j (row c X i) s_zero = X i j.
Proof. intros Hj. unfold row. rewrite (nth_indep _ _ (X i 0%nat)) by (rewrite map_length, seq_length; exact Hj). rewrite map_nth. rewrite seq_nth by exact Hj. reflexivity. Qed.
Lemma wp_row_get h l t n cs (c r : nat) X (i : nat) (Q : unit -> heap F -> Prop) : wf h -> abs h !! l = Some (Mat c r X) -> abs h !! t = Some (SVec n, cs) -> (i < r)%nat -> Z.of_nat c <= int_max ->
  (forall h', wf h' -> abs h' = <[t := AVec (row c X i)]> (abs h) -> Q tt h') -> wp (m_row_get_into l (Z.of_nat i) (Some t)) h Q.
Proof.
  intros W A At Hi Hc HQ. rewrite Mat_MatP in A. eapply wp_m_row_get_intoP with (v := row c X i); [exact W|exact A|exact At|exact Hi|apply row_length|intros j Hj; cbv beta; rewrite nth_row by exact Hj; reflexivity|exact Hc|exact HQ].
Qed.

Lemma wp_scale_bounds h t rw n cs (c r : nat) X (Q : list (F * F) -> heap F -> Prop) : wf h -> abs h !! t = Some (Mat c r X) -> abs h !! rw = Some (SVec n, cs) -> Z.of_nat c <= int_max ->
  (forall h' n' cs', wf h' -> abs h' = <[rw := (SVec n', cs')]> (abs h) -> Q (map (fun i => (f_max (row c X i), f_min (row c X i))) (seq 0 r)) h') ->
  wp (scale_bounds t rw (Z.of_nat r)) h Q.
Proof.
  intros W At Ar Hc HQ. assert (Hne : t <> rw) by (intros ->; rewrite At in Ar; discriminate). unfold scale_bounds.
  eapply (wp_for_acc (fun i (acc : list (F * F)) hi => wf hi /\ (exists n' cs', abs hi = <[rw := (SVec n', cs')]> (abs h)) /\ acc = map (fun i => (f_max (row c X i), f_min (row c X i))) (seq 0 (Z.to_nat i)))).
  - split; [exact W|]. split; [|reflexivity]. exists n, cs. rewrite insert_id; auto.
  - intros i acc hi Hi (Wi & (n' & cs' & Ai) & ->). rewrite <- (Z2Nat.id i) by lia. set (k := Z.to_nat i) in *.
    wbind. eapply wp_row_get; [exact Wi|rewrite Ai, lookup_insert_ne by auto; exact At|rewrite Ai; apply lookup_insert|lia|exact Hc|]. intros hj Wj Aj. rewrite Ai, insert_insert in Aj.
    wbind. eapply wp_v_max_element; [exact Wj|rewrite Aj; apply lookup_insert|]. wbind. eapply wp_v_min_element; [exact Wj|rewrite Aj; apply lookup_insert|].
    apply wp_ret. split; [exact Wj|]. split; [eexists _, _; exact Aj|]. replace (Z.to_nat (Z.of_nat k + 1)) with (S k) by lia. rewrite Nat2Z.id, seq_S, map_app. reflexivity.
  - intros acc hi (Wi & (n' & cs' & Ai) & ->). replace (Z.to_nat (Z.max 0 (Z.of_nat r))) with r by lia. eapply HQ; [exact Wi|exact Ai].
Qed.

(** The scaled value of entry (i, j) of an n-row, c-column data set: column j is scaled by its own extremes. *)
Definition scaled (n : nat) (X : nat -> nat -> F) (i j : nat) : F :=
  let col := row n (mat_tr X) j in s_div (s_sub (X i j) (f_min col)) (s_sub (f_max col) (f_min col)).
Lemma wp_feature_scaling h x (c n : nat) X (Q : loc -> heap F -> Prop) : wf h -> abs h !! x = Some (Mat c n X) -> Z.of_nat c <= int_max -> Z.of_nat n <= int_max ->
  (forall d h', wf h' -> abs h !! d = None -> abs h' = <[d := Mat c n (scaled n X)]> (abs h) -> Q d h') -> wp (feature_scaling (Some x)) h Q.
Proof.
  intros W A Hc Hn HQ. unfold feature_scaling. wbind. apply wp_deref_Some. wbind. eapply wp_m_transposen; [exact W|exact A|]. new_as t h1 W1 N1 A1.
  wbind. eapply wp_m_size; [look|]. cbn [fst snd]. wbind. apply wp_v_new; [exact W1|]. intros rw h2 W2 N2 A2 _. rewrite A1 in N2, A2. split_none N2.
  wbind. eapply wp_v_resize; [exact W2|look|lia|]. intros h3 W3 A3 _. rewrite A2, insert_insert in A3.
  wbind. eapply wp_scale_bounds; [exact W3|look|rewrite A3; apply lookup_insert|exact Hn|]. intros h4 n' cs' W4 A4. rewrite A3, insert_insert in A4.
  set (val := fun i j => scaled n X j i).
  rewrite insert_commute in A4 by congruence. rewrite (Mat_MatP n c) in A4. set (G := fun i j => Some (mat_tr X i j)) in *.
  wbind. eapply (wp_for_n (fun i hi => wf hi /\ abs hi = <[t := MatP n c (filled val i 0 G)]> (<[rw := (SVec n', cs')]> (abs h)))).
  - split; [exact W4|]. rewrite A4, filled_start. reflexivity.
  - intros i hi Hi [Wi Ai]. cbv zeta. eapply wp_row_fill; [exact Hi|exact Wi|exact Ai| |].
    + intros j hj Q' Hj Wj Aj HQ'. wbind. eapply wp_m_get with (f := fun p q => if ((p <? i) || ((p =? i) && (q <? j)))%nat then val p q else mat_tr X p q); [exact Wj| |].
      * rewrite Aj, lookup_insert, Mat_MatP. f_equal. apply MatP_ext. intros p q _ _. unfold filled, G. destruct (_ || _)%bool; reflexivity.
      * rewrite decide_True by lia. rewrite !Nat2Z.id. rewrite Nat.ltb_irrefl, Nat.eqb_refl, Nat.ltb_irrefl. cbn [orb andb]. apply wp_ret.
        rewrite nth_map_seq by exact Hi. exact HQ'.
    + intros hj Wj Aj. split; [exact Wj|exact Aj].
  - intros hi [Wi Ai]. rewrite filled_all in Ai. wbind. eapply wp_m_transposen; [exact Wi|rewrite Ai; apply lookup_insert|]. new_as o h5 W5 N5 A5.
    wbind. dele h6 W6 A6. wbind. dele h7 W7 A7. apply wp_ret. apply HQ; [exact W7|assumption|]. rewrite A7. reflexivity.
Qed.

(** ** mean_centering, mean_normalization *)
Definition centered (c : nat) (X : nat -> nat -> F) (i j : nat) : F := s_sub (X i j) (f_mean (row c X i)).
Lemma wp_mean_centering h x (c n : nat) X (Q : loc -> heap F -> Prop) : wf h -> abs h !! x = Some (Mat c n X) -> Z.of_nat c <= int_max ->
  (forall d h', wf h' -> abs h !! d = None -> abs h' = <[d := Mat c n (centered c X)]> (abs h) -> Q d h') -> wp (mean_centering (Some x)) h Q.
Proof.
  intros W A Hc HQ. destruct (amat_len h x _ _ _ W A) as [_ Hle]. unfold mean_centering. wbind. apply wp_m_new; [exact W|]. intros o h1 W1 N1 A1 _.
  wbind. apply wp_deref_Some. wbind. eapply wp_m_size; [look|]. wbind. eapply wp_m_resize; [exact W1|rewrite A1; apply lookup_insert|slia|]. intros h2 W2 A2 _.
  destruct (cells_MatP h2 o c n _ W2 ltac:(rewrite A2; apply lookup_insert)) as [G HG]. rewrite A1, insert_insert in A2. rewrite A2, lookup_insert in HG. apply Some_inj in HG. rewrite HG in A2. clear HG.
  wbind. eapply wp_m_size; [rewrite A2; apply lookup_insert|]. cbn [fst snd]. wbind. apply wp_v_new; [exact W2|]. intros rw h3 W3 N3 A3 _. rewrite A2 in N3, A3. split_none N3.
  wbind. eapply wp_v_resize; [exact W3|look|lia|]. intros h4 W4 A4 _. rewrite A3, insert_insert in A4. rewrite insert_commute in A4 by congruence.
  wbind. eapply (wp_for_n (fun i hi => wf hi /\ exists n' cs', abs hi = <[o := MatP c n (filled (centered c X) i 0 G)]> (<[rw := (SVec n', cs')]> (abs h)))).
  - split; [exact W4|]. eexists _, _. rewrite A4, filled_start. reflexivity.
  - intros i hi Hi [Wi (n' & cs' & Ai)].
    wbind. eapply wp_row_get; [exact Wi|look|look|exact Hi|exact Hc|]. intros hj Wj Aj. rewrite Ai in Aj. rewrite insert_commute, insert_insert in Aj by congruence.
    wbind. eapply wp_st_mean; [exact Wj|rewrite Aj, lookup_insert_ne, lookup_insert by congruence; reflexivity|].
    eapply wp_row_fill; [exact Hi|exact Wj|exact Aj| |].
    + intros j hk Q' Hj Wk Ak HQ'. wbind. eapply wp_m_get; [exact Wk|look|]. rewrite decide_True by lia. rewrite !Nat2Z.id. apply wp_ret. exact HQ'.
    + intros hk Wk Ak. split; [exact Wk|]. eexists _, _. exact Ak.
  - intros hi [Wi (n' & cs' & Ai)]. rewrite filled_all in Ai. wbind. dele h5 W5 A5. apply wp_ret. apply HQ; [exact W5|exact N1|]. rewrite A5. reflexivity.
Qed.
Definition normalized (c : nat) (X : nat -> nat -> F) (i j : nat) : F :=
  s_mul (centered c X i j) (s_div s_one (s_sqrt (f_variance (row c (centered c X) i)))).
Lemma wp_mean_normalization h x (c n : nat) X (Q : loc -> heap F -> Prop) : wf h -> abs h !! x = Some (Mat c n X) -> Z.of_nat c <= int_max ->
  (forall d h', wf h' -> abs h !! d = None -> abs h' = <[d := Mat c n (normalized c X)]> (abs h) -> Q d h') -> wp (mean_normalization (Some x)) h Q.
Proof.
  intros W A Hc HQ. unfold mean_normalization. wbind. eapply wp_mean_centering; [exact W|exact A|exact Hc|]. new_as o h1 W1 N1 A1.
  wbind. eapply wp_m_size; [look|]. cbn [fst snd]. wbind. apply wp_v_new; [exact W1|]. intros rw h2 W2 N2 A2 _. rewrite A1 in N2, A2. split_none N2.
  wbind. eapply wp_v_resize; [exact W2|look|lia|]. intros h3 W3 A3 _. rewrite A2, insert_insert in A3. rewrite insert_commute in A3 by congruence.
  set (val := normalized c X). set (G0 := fun p q => centered c X p q).
  set (mix := fun (i : nat) p q => if (p <? i)%nat then val p q else G0 p q).
  wbind. eapply (wp_for_n (fun i hi => wf hi /\ exists n' cs', abs hi = <[o := Mat c n (mix i)]> (<[rw := (SVec n', cs')]> (abs h)))).
  - split; [exact W3|]. eexists _, _. exact A3.
  - intros i hi Hi [Wi (n' & cs' & Ai)].
    wbind. eapply wp_row_get; [exact Wi|look|look|exact Hi|exact Hc|]. intros hj Wj Aj. rewrite Ai in Aj. rewrite insert_commute, insert_insert in Aj by congruence.
    assert (Er : row c (mix i) i = row c (centered c X) i). { unfold row. apply map_ext. intros j. unfold mix. rewrite Nat.ltb_irrefl. reflexivity. }
    rewrite Er in Aj.
    wbind. eapply wp_eq_step; [eapply st_sd_eq; [exact Wj|rewrite Aj, lookup_insert_ne, lookup_insert by congruence; reflexivity]|].
    wbind. eapply wp_v_map; [exact Wj|rewrite Aj, lookup_insert_ne, lookup_insert by congruence; reflexivity|]. intros hk Wk Ak. rewrite Aj in Ak. rewrite insert_commute, insert_insert in Ak by congruence.
    rewrite (Mat_MatP c n) in Ak. eapply wp_m_row_set_vecP; [exact Wk|rewrite Ak; apply lookup_insert|rewrite Ak, lookup_insert_ne, lookup_insert by congruence; reflexivity|].
    intros hl Wl _ Al. rewrite decide_True in Al by (rewrite fmap_length, row_length; lia). split; [exact Wl|]. eexists _, _. rewrite Al, Ak, insert_insert. f_equal. rewrite Mat_MatP. apply MatP_ext. intros p q Hp Hq.
    rewrite Nat2Z.id. unfold mix. destruct (decide (p = i)) as [->|Hne].
    + replace (i <? S i)%nat with true by (symmetry; apply Nat.ltb_lt; lia). f_equal. rewrite nth_fmap_z by (rewrite row_length; exact Hq). rewrite nth_row by exact Hq. reflexivity.
    + destruct (Nat.ltb_spec p i), (Nat.ltb_spec p (S i)); try reflexivity; lia.
  - intros hi [Wi (n' & cs' & Ai)]. wbind. dele h4 W4 A4. apply wp_ret. apply HQ; [exact W4|assumption|]. rewrite A4. f_equal. rewrite !Mat_MatP. apply MatP_ext. intros p q Hp Hq. unfold mix. destruct (Nat.ltb_spec p n); [reflexivity|lia].
Qed.
End dataproofs.
