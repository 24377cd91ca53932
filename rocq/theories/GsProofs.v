(** * What gram_schmidt_process and qrd compute, for any arithmetic. *)
From Verif Require Import Base BaseProofs Vec VecSpec VecProofs VecProofs2 Mat MatSpec MatProofs MatProofs2 MatProofs3 MatProofs4 MatProofs5 DetProofs Frame Stat StatProofs Act ActProofs ActProofs2 Cost CostProofs Sym Svm LinAlg LinAlgProofs.
Section gs.
Context {F : Type} `{Scalar F} `{Libm F}.
Implicit Types (h : heap F) (xs ys v : list F) (vs : list (list F)).

Definition dotl xs ys : F := foldl (fun c '(x, y) => s_add c (s_mul x y)) s_zero (zip xs ys).
Definition gs_sub (ai bi bj : list F) : list F := zip_with s_sub bi ((fun x => s_mul x (s_div (dotl bj ai) (dotl bj bj))) <$> bj).
Definition gs_norm v : list F := (fun x => s_mul x (s_div s_one (s_sqrt (foldl (fun c x => s_add c (s_mul x x)) s_zero v)))) <$> v.
(** The next vector, from the previous ones and the next column. *)
Definition gs_next vs (ai : list F) : list F := gs_norm (foldl (gs_sub ai) ai (reverse vs)).
Definition gs_rows : list (list F) -> list (list F) := foldl (fun vs ai => vs ++ [gs_next vs ai]) [].

Lemma gs_sub_length ai bi bj : length bj = length bi -> length (gs_sub ai bi bj) = length bi.
Proof. intros E. unfold gs_sub. rewrite zip_with_length, fmap_length. slia. Qed.
Lemma gs_fold_length ai d : forall vs bi, length bi = d -> width d vs -> length (foldl (gs_sub ai) bi vs) = d.
Proof.
  induction vs as [|v vs IH]; intros bi Hb Hw; [exact Hb|]. apply Forall_cons_1 in Hw as [Hv Hw]. cbn [foldl]. apply IH; [|exact Hw]. rewrite gs_sub_length; congruence.
Qed.
Lemma gs_norm_length v : length (gs_norm v) = length v. Proof. apply fmap_length. Qed.
Lemma width_reverse d vs : width d vs -> width d (reverse vs).
Proof. unfold width. rewrite Forall_reverse. auto. Qed.
Lemma gs_next_length vs ai d : length ai = d -> width d vs -> length (gs_next vs ai) = d.
Proof. intros. unfold gs_next. rewrite gs_norm_length. apply gs_fold_length; [assumption|apply width_reverse; assumption]. Qed.
Lemma gs_rows_snoc vs ai : gs_rows (vs ++ [ai]) = gs_rows vs ++ [gs_next (gs_rows vs) ai].
Proof. unfold gs_rows. rewrite foldl_app. reflexivity. Qed.
Lemma gs_rows_ok d vs : width d vs -> width d (gs_rows vs) /\ length (gs_rows vs) = length vs.
Proof.
  induction vs as [|ai vs IH] using rev_ind; intros Hw; [split; [constructor|reflexivity]|]. apply Forall_app in Hw as [Hw Ha]. apply Forall_cons_1 in Ha as [Ha _]. destruct (IH Hw) as [W L].
  rewrite gs_rows_snoc, !app_length, L. split; [|reflexivity]. apply Forall_app. split; [exact W|]. constructor; [|constructor]. apply gs_next_length; assumption.
Qed.

(** ** vector_projection *)
Lemma wp_la_projection h a b xs ys (Q : loc -> heap F -> Prop) : wf h -> abs h !! a = Some (AVec xs) -> abs h !! b = Some (AVec ys) -> length xs = length ys ->
  (forall d h', wf h' -> abs h !! d = None -> abs h' = <[d := AVec ((fun x => s_mul x (s_div (dotl xs ys) (dotl xs xs))) <$> xs)]> (abs h) -> Q d h') ->
  wp (la_projection (Some a) (Some b)) h Q.
Proof.
  intros Hw Ha Hb He HQ. unfold la_projection. wbind. apply wp_deref_Some.
  wbind. eapply wp_v_dot; [exact Hw|exact Ha|exact Hb|]. rewrite decide_True by exact He.
  wbind. eapply wp_v_dot; [exact Hw|exact Ha|exact Ha|]. rewrite decide_True by reflexivity.
  eapply wp_v_mapn; [exact Hw|exact Ha|]. exact HQ.
Qed.

(** ** Steps *)
Section body.
Context (h0 : heap F) (a b ai bi bj : loc) (d : nat) (cols : list (list F)).
Context (Hd : Z.of_nat d <= int_max) (Hcols : width d cols).
Context (Dn : a <> b /\ a <> bi /\ a <> ai /\ a <> bj /\ b <> bi /\ b <> ai /\ b <> bj /\ bi <> ai /\ bi <> bj /\ ai <> bj).
Definition isvec (X : aobj F) : Prop := exists n cs, X = (SVec n, cs).
Definition gsS (rows : list (list F)) (X1 X2 X3 : aobj F) h : Prop :=
  wf h /\ width d rows /\ isvec X1 /\ isvec X2 /\ isvec X3 /\ abs h = <[bj := X3]> (<[ai := X2]> (<[bi := X1]> (<[b := Rows d rows]> (<[a := Rows d cols]> (abs h0))))).
Lemma isvec_A v : isvec (AVec v). Proof. eexists _, _. reflexivity. Qed.
Ltac dn := destruct Dn as (? & ? & ? & ? & ? & ? & ? & ? & ? & ?).

Lemma gsS_get_a_bi rows X1 X2 X3 h (i : nat) ci (Q : unit -> heap F -> Prop) : gsS rows X1 X2 X3 h -> cols !! i = Some ci ->
  (forall h', gsS rows (AVec ci) X2 X3 h' -> Q tt h') -> wp (m_row_get_into a (Z.of_nat i) (Some bi)) h Q.
Proof.
  dn. intros (W & Wd & (n1 & c1 & ->) & V2 & V3 & A) Hi HQ. eapply wp_m_row_get_into; [exact W|look|exact Hcols|look|slia|rewrite Nat2Z.id; exact Hi|exact Hd|].
  intros h' W' A' _. apply HQ. split; [exact W'|]. split; [exact Wd|]. split; [apply isvec_A|]. split; [exact V2|]. split; [exact V3|]. rewrite A', A. mapeq.
Qed.
Lemma gsS_get_a_ai rows X1 X2 X3 h (i : nat) ci (Q : unit -> heap F -> Prop) : gsS rows X1 X2 X3 h -> cols !! i = Some ci ->
  (forall h', gsS rows X1 (AVec ci) X3 h' -> Q tt h') -> wp (m_row_get_into a (Z.of_nat i) (Some ai)) h Q.
Proof.
  dn. intros (W & Wd & V1 & (n1 & c1 & ->) & V3 & A) Hi HQ. eapply wp_m_row_get_into; [exact W|look|exact Hcols|look|slia|rewrite Nat2Z.id; exact Hi|exact Hd|].
  intros h' W' A' _. apply HQ. split; [exact W'|]. split; [exact Wd|]. split; [exact V1|]. split; [apply isvec_A|]. split; [exact V3|]. rewrite A', A. mapeq.
Qed.
Lemma gsS_get_b_bj rows X1 X2 X3 h (j : nat) rj (Q : unit -> heap F -> Prop) : gsS rows X1 X2 X3 h -> rows !! j = Some rj ->
  (forall h', gsS rows X1 X2 (AVec rj) h' -> Q tt h') -> wp (m_row_get_into b (Z.of_nat j) (Some bj)) h Q.
Proof.
  dn. intros (W & Wd & V1 & V2 & (n1 & c1 & ->) & A) Hi HQ. eapply wp_m_row_get_into; [exact W|look|exact Wd|look|slia|rewrite Nat2Z.id; exact Hi|exact Hd|].
  intros h' W' A' _. apply HQ. split; [exact W'|]. split; [exact Wd|]. split; [exact V1|]. split; [exact V2|]. split; [apply isvec_A|]. rewrite A', A. mapeq.
Qed.
Lemma gsS_get_b_bi rows X1 X2 X3 h (j : nat) rj (Q : unit -> heap F -> Prop) : gsS rows X1 X2 X3 h -> rows !! j = Some rj ->
  (forall h', gsS rows (AVec rj) X2 X3 h' -> Q tt h') -> wp (m_row_get_into b (Z.of_nat j) (Some bi)) h Q.
Proof.
  dn. intros (W & Wd & (n1 & c1 & ->) & V2 & V3 & A) Hi HQ. eapply wp_m_row_get_into; [exact W|look|exact Wd|look|slia|rewrite Nat2Z.id; exact Hi|exact Hd|].
  intros h' W' A' _. apply HQ. split; [exact W'|]. split; [exact Wd|]. split; [apply isvec_A|]. split; [exact V2|]. split; [exact V3|]. rewrite A', A. mapeq.
Qed.
Lemma gsS_set rows v X2 X3 h (i : nat) (Q : unit -> heap F -> Prop) : gsS rows (AVec v) X2 X3 h -> length v = d -> (i < length rows)%nat ->
  (forall h', gsS (<[i := v]> rows) (AVec v) X2 X3 h' -> Q tt h') -> wp (m_row_set_vec b (Z.of_nat i) (Some bi)) h Q.
Proof.
  dn. intros (W & Wd & V1 & V2 & V3 & A) Hv Hi HQ. eapply wp_m_row_set_vec; [exact W|look|exact Wd|look|exact Hv|slia|].
  intros h' W' _ A'. rewrite Nat2Z.id in A'. apply HQ. split; [exact W'|]. split; [apply Forall_insert; assumption|]. split; [exact V1|]. split; [exact V2|]. split; [exact V3|]. rewrite A', A. mapeq.
Qed.
Lemma gsS_normalise rows v X2 X3 h (i : nat) (Q : unit -> heap F -> Prop) : gsS rows (AVec v) X2 X3 h -> length v = d -> (i < length rows)%nat ->
  (forall h', gsS (<[i := gs_norm v]> rows) (AVec (gs_norm v)) X2 X3 h' -> Q tt h') -> wp (gs_normalise b bi (Z.of_nat i)) h Q.
Proof.
  dn. intros (W & Wd & V1 & V2 & V3 & A) Hv Hi HQ. unfold gs_normalise. wbind. eapply wp_v_norm_2; [exact W|look|].
  wbind. eapply wp_v_map; [exact W|look|]. intros h1 W1 A1. eapply gsS_set; [|rewrite gs_norm_length; exact Hv|exact Hi|exact HQ].
  split; [exact W1|]. split; [exact Wd|]. split; [apply isvec_A|]. split; [exact V2|]. split; [exact V3|]. rewrite A1, A. mapeq.
Qed.
Lemma gsS_inner rows X1 X2 X3 h (i j : nat) ci ri rj (Q : unit -> heap F -> Prop) : gsS rows X1 X2 X3 h -> cols !! i = Some ci -> rows !! i = Some ri -> rows !! j = Some rj ->
  (forall h' X1 X2 X3, gsS (<[i := gs_sub ci ri rj]> rows) X1 X2 X3 h' -> Q tt h') -> wp (gs_inner a b ai bi bj (Z.of_nat i) (Z.of_nat j)) h Q.
Proof.
  dn. intros G Hc Hi Hj HQ. unfold gs_inner.
  wbind. eapply gsS_get_a_ai; [exact G|exact Hc|]. clear h G. intros h G.
  wbind. eapply gsS_get_b_bj; [exact G|exact Hj|]. clear h G. intros h G.
  wbind. eapply gsS_get_b_bi; [exact G|exact Hi|]. clear h G. intros h (W & Wd & V1 & V2 & V3 & A).
  assert (Lc : length ci = d) by (eapply Forall_lookup_1 in Hcols; eauto). assert (Li : length ri = d) by (eapply Forall_lookup_1 in Wd; [|exact Hi]; exact Wd). assert (Lj : length rj = d) by (eapply Forall_lookup_1 in Wd; [|exact Hj]; exact Wd).
  wbind. eapply wp_la_projection; [exact W|look|look|congruence|]. intros p h1 W1 N1 A1. rewrite A in A1, N1. split_none N1.
  wbind. eapply wp_v_op2; [exact W1|look|look|]. intros h2 W2 A2. rewrite fmap_length, decide_True in A2 by congruence. fold (gs_sub ci ri rj) in A2. rewrite A1 in A2.
  wbind. eapply wp_del; [exact W2|rewrite A2, lookup_insert_ne by congruence; apply lookup_insert|]. intros h3 W3 A3 _.
  eapply (gsS_set rows (gs_sub ci ri rj) (AVec ci) (AVec rj)); [|rewrite gs_sub_length; congruence|eapply lookup_lt_Some; exact Hi|intros h' G'; eapply HQ; exact G'].
  split; [exact W3|]. split; [exact Wd|]. split; [apply isvec_A|]. split; [exact V2|]. split; [exact V3|]. rewrite A3, A2. mapeq.
Qed.
(** One round of the outer loop. *)
Lemma gsS_round (i : Z) vs rest X1 X2 X3 h ci (Q : unit -> heap F -> Prop) : i = Z.of_nat (length vs) -> gsS (vs ++ rest) X1 X2 X3 h -> cols !! length vs = Some ci -> rest <> [] ->
  (forall h' X1 X2 X3, gsS (vs ++ gs_next vs ci :: tail rest) X1 X2 X3 h' -> Q tt h') ->
  wp (m_row_get_into a i (Some bi) ;;; m_row_set_vec b i (Some bi) ;;;
    for_ 0 i (fun k => gs_inner a b ai bi bj i (i - 1 - k)) ;;;
    m_row_get_into b i (Some bi) ;;; gs_normalise b bi i) h Q.
Proof.
  intros -> G Hc Hr HQ. destruct rest as [|r0 rest]; [congruence|]. assert (Lc : length ci = d) by (eapply Forall_lookup_1 in Hcols; eauto).
  assert (Wv : width d vs) by (destruct G as (_ & Wd & _); apply Forall_app in Wd as [Wd _]; exact Wd).
  wbind. eapply gsS_get_a_bi; [exact G|exact Hc|]. clear h G. intros h G.
  wbind. eapply gsS_set; [exact G|exact Lc|rewrite app_length; cbn; slia|]. clear h G. intros h G.
  rewrite insert_app_r_alt, Nat.sub_diag in G by slia. cbn [list_insert insert list_insert] in G.
  wbind. apply wp_for_n with (I := fun k h => exists X1 X2 X3, gsS (vs ++ foldl (gs_sub ci) ci (reverse (drop (length vs - k) vs)) :: rest) X1 X2 X3 h).
  - rewrite Nat.sub_0_r, drop_all. eexists _, _, _. exact G.
  - clear h G X1 X2 X3. intros k h Hk (X1 & X2 & X3 & G).
    destruct (lookup_lt_is_Some_2 vs (length vs - 1 - k) ltac:(slia)) as [rj Hj]. replace (Z.of_nat (length vs) - 1 - Z.of_nat k) with (Z.of_nat (length vs - 1 - k)) by slia.
    eapply gsS_inner; [exact G|exact Hc|rewrite lookup_app_r, Nat.sub_diag by slia; reflexivity|rewrite lookup_app_l by slia; exact Hj|].
    clear h G X1 X2 X3. intros h X1 X2 X3 G. exists X1, X2, X3. rewrite insert_app_r_alt, Nat.sub_diag in G by slia. cbn [list_insert insert] in G.
    replace (length vs - S k)%nat with (length vs - 1 - k)%nat by slia. rewrite (drop_S vs rj) by exact Hj. rewrite reverse_cons, foldl_app. cbn [foldl].
    replace (S (length vs - 1 - k)) with (length vs - k)%nat by slia. exact G.
  - clear h G X1 X2 X3. intros h (X1 & X2 & X3 & G). rewrite Nat.sub_diag in G. cbn [drop] in G.
    set (w := foldl (gs_sub ci) ci (reverse vs)) in *.
    wbind. eapply gsS_get_b_bi; [exact G|rewrite lookup_app_r, Nat.sub_diag by slia; reflexivity|]. clear h G. intros h G.
    eapply gsS_normalise; [exact G|apply gs_fold_length; [exact Lc|apply width_reverse; exact Wv]|rewrite app_length; cbn; slia|]. clear h G. intros h G.
    rewrite insert_app_r_alt, Nat.sub_diag in G by slia. cbn [list_insert insert] in G. eapply HQ. exact G.
Qed.
End body.

Lemma wp_la_gram_schmidt h l m d f (Q : loc -> heap F -> Prop) : wf h -> abs h !! l = Some (Mat m d f) -> (0 < m)%nat -> Z.of_nat d <= int_max ->
  (forall q h', wf h' -> abs h !! q = None ->
     abs h' = <[q := Mat m d (fun k i => nth k (nth i (gs_rows ((fun i => vlist d (mat_tr f i)) <$> seq 0 m)) []) s_zero)]> (abs h) -> Q q h') ->
  wp (la_gram_schmidt (Some l)) h Q.
Proof.
  intros Hw Hl Hm Hd HQ. destruct (amat_len h l _ _ _ Hw Hl) as [_ Hle]. unfold la_gram_schmidt. wbind. apply wp_deref_Some.
  wbind. eapply wp_m_transposen; [exact Hw|exact Hl|]. intros a h1 W1 N1 A1. set (cols := (fun i => vlist d (mat_tr f i)) <$> seq 0 m) in *.
  assert (Wc : width d cols) by (apply Forall_fmap, list.Forall_forall; intros i _; cbn; apply vlist_length).
  assert (Lc : length cols = m) by (unfold cols; rewrite fmap_length, seq_length; reflexivity).
  rewrite Mat_Rows in A1. fold cols in A1.
  wbind. eapply wp_m_size; [rewrite A1; apply lookup_insert|]. cbn [fst snd]. rewrite Lc.
  wbind. apply wp_m_new; [exact W1|]. intros b h2 W2 N2 A2 _. rewrite A1 in N2, A2. split_none N2.
  wbind. eapply wp_m_resize; [exact W2|rewrite A2; apply lookup_insert|slia|]. intros h3 W3 A3 _. rewrite A2, insert_insert in A3.
  wbind. eapply wp_m_fill_mat; [exact W3|rewrite A3; apply lookup_insert|]. intros h4 W4 _ A4. rewrite A3, insert_insert in A4.
  wbind. apply wp_v_new; [exact W4|]. intros bi h5 W5 N5 A5 _. rewrite A4 in N5, A5. split_none N5.
  wbind. eapply wp_v_resize; [exact W5|rewrite A5; apply lookup_insert|slia|]. intros h6 W6 A6 _. rewrite A5, insert_insert in A6.
  destruct cols as [|c0 cols'] eqn:Ec; [cbn in Lc; slia|]. rewrite <- Ec in *. assert (L0 : length c0 = d) by (rewrite Ec in Wc; apply Forall_cons_1 in Wc as [? _]; assumption).
  wbind. eapply wp_m_row_get_into with (row := c0); [exact W6|rewrite A6, !lookup_insert_ne by congruence; apply lookup_insert|exact Wc|rewrite A6; apply lookup_insert|slia|rewrite Ec; reflexivity|exact Hd|].
  intros h7 W7 A7 _. rewrite A6, insert_insert in A7. clear A6 A5 A3 A2.
  rewrite Mat_Rows in A7. set (z := (fun _ : nat => vlist d (fun _ => s_zero)) <$> seq 0 m) in *.
  assert (Wz : width d z) by (apply Forall_fmap, list.Forall_forall; intros i _; cbn; apply vlist_length).
  assert (Lz : length z = m) by (unfold z; rewrite fmap_length, seq_length; reflexivity).
  wbind. unfold gs_normalise at 1. wbind. eapply wp_v_norm_2; [exact W7|rewrite A7; apply lookup_insert|].
  wbind. eapply wp_v_map; [exact W7|rewrite A7; apply lookup_insert|]. intros h8 W8 A8. rewrite A7, insert_insert in A8. fold (gs_norm c0) in A8.
  eapply wp_m_row_set_vec; [exact W8|rewrite A8, lookup_insert_ne by congruence; apply lookup_insert|exact Wz|rewrite A8; apply lookup_insert|rewrite gs_norm_length; exact L0|slia|]. intros h9 W9 _ A9. rewrite A8 in A9.
  wbind. apply wp_v_new; [exact W9|]. intros ai h10 W10 N10 A10 _. rewrite A9 in N10, A10. split_none N10.
  wbind. eapply wp_v_resize; [exact W10|rewrite A10; apply lookup_insert|slia|]. intros h11 W11 A11 _. rewrite A10, insert_insert in A11.
  wbind. apply wp_v_new; [exact W11|]. intros bj h12 W12 N12 A12 _. rewrite A11 in N12, A12. split_none N12.
  wbind. eapply wp_v_resize; [exact W12|rewrite A12; apply lookup_insert|slia|]. intros h13 W13 A13 _. rewrite A12, insert_insert in A13.
  clear A12 A11 A10.
  assert (Dn : a <> b /\ a <> bi /\ a <> ai /\ a <> bj /\ b <> bi /\ b <> ai /\ b <> bj /\ bi <> ai /\ bi <> bj /\ ai <> bj) by (repeat split; congruence).
  assert (Hz : z <> []) by (intros E; rewrite E in Lz; cbn in Lz; slia).
  wbind. apply wp_for with (I := fun i h' => exists X1 X2 X3, gsS h a b ai bi bj d cols (gs_rows (take (Z.to_nat i) cols) ++ drop (Z.to_nat i) z) X1 X2 X3 h').
  - exists (AVec (gs_norm c0)), (SVec (Z.of_nat d), list.resize (Z.to_nat (Z.of_nat d)) None (Some <$> [])), (SVec (Z.of_nat d), list.resize (Z.to_nat (Z.of_nat d)) None (Some <$> [])). split; [exact W13|]. split; [|split; [|split; [|split; [|]]]].
    5:{ rewrite A13. rewrite Ec. change (gs_rows (take (Z.to_nat 1) (c0 :: cols'))) with [gs_norm c0]. cbn [app].
        assert (Ez : <[Z.to_nat 0 := gs_norm c0]> z = gs_norm c0 :: drop (Z.to_nat 1) z) by (destruct z; [congruence|reflexivity]). rewrite <- Ez, <- Ec. clear Ez. mapeq. }
    + rewrite Ec. change (gs_rows (take (Z.to_nat 1) (c0 :: cols'))) with [gs_norm c0]. cbn [app]. constructor; [rewrite gs_norm_length; exact L0|]. apply Forall_drop. exact Wz.
    + apply isvec_A.
    + eexists _, _. reflexivity.
    + eexists _, _. reflexivity.
  - intros i hi Hi (X1 & X2 & X3 & G). assert (Hin : (Z.to_nat i < m)%nat) by slia.
    destruct (lookup_lt_is_Some_2 cols (Z.to_nat i) ltac:(slia)) as [ci Hci].
    destruct (gs_rows_ok d (take (Z.to_nat i) cols)) as [Wg Lg]; [apply Forall_take; exact Wc|]. rewrite take_length, Nat.min_l in Lg by slia.
    eapply gsS_round; [exact Hd|exact Wc|exact Dn| |exact G|rewrite Lg; exact Hci|intros E; apply (f_equal length) in E; rewrite drop_length in E; cbn in E; slia|]; [rewrite Lg; slia|].
    intros h' Y1 Y2 Y3 G'. exists Y1, Y2, Y3. replace (Z.to_nat (i + 1)) with (S (Z.to_nat i)) by slia. rewrite (take_S_r cols _ ci) by exact Hci. rewrite gs_rows_snoc, <- app_assoc. cbn [app].
    replace (drop (S (Z.to_nat i)) z) with (tail (drop (Z.to_nat i) z)); [exact G'|]. clear. generalize (Z.to_nat i). induction z as [|z0 z' IH]; intros [|k]; cbn; try reflexivity. apply IH.
  - intros hE (X1 & X2 & X3 & G). replace (Z.to_nat (Z.max 1 (Z.of_nat m))) with m in G by slia. rewrite take_ge, drop_ge, app_nil_r in G by slia.
    destruct G as (WE & WdE & V1 & V2 & V3 & AE). destruct (gs_rows_ok d cols Wc) as [_ Lg].
    rewrite (Rows_Mat d _ WdE), Lg, Lc in AE.
    destruct V1 as (? & ? & ->), V2 as (? & ? & ->), V3 as (? & ? & ->).
    wbind. eapply wp_m_transposen; [exact WE|look|]. new_as q hq Wq Nq Aq.
    assert (abs h !! a = None) by exact N1.
    wbind. dele hr Wr Ar. wbind. dele hs Ws As. wbind. dele ht Wt At. wbind. dele hu Wu Au. wbind. dele hv Wv Av.
    apply wp_ret. apply HQ; [assumption|assumption|]. rewrite Av. reflexivity.
Qed.
(** qrd: Q, and R = Q^T A. *)
Lemma wp_la_qrd h l m d f (Q : loc * option loc -> heap F -> Prop) : wf h -> abs h !! l = Some (Mat m d f) -> (0 < m)%nat -> Z.of_nat d <= int_max -> Z.of_nat (m * m) <= int_max ->
  (forall q rr h', wf h' -> abs h !! q = None -> abs h !! rr = None -> q <> rr ->
     let fq := fun k i => nth k (nth i (gs_rows ((fun i => vlist d (mat_tr f i)) <$> seq 0 m)) []) s_zero in
     abs h' = <[rr := Mat m m (mat_mul d (mat_tr fq) f)]> (<[q := Mat m d fq]> (abs h)) -> Q (q, Some rr) h') ->
  wp (la_qrd (Some l)) h Q.
Proof.
  intros Hw Hl Hm Hd Hmm HQ. unfold la_qrd. wbind. eapply wp_la_gram_schmidt; [exact Hw|exact Hl|exact Hm|exact Hd|]. intros q h1 W1 N1 A1.
  set (fq := fun k i => nth k (nth i (gs_rows ((fun i => vlist d (mat_tr f i)) <$> seq 0 m)) []) s_zero) in *. assert (l <> q) by congruence.
  wbind. eapply wp_m_transposen; [exact W1|look|]. new_as t h2 W2 N2 A2. assert (l <> t) by congruence.
  wbind. eapply wp_m_multn; [exact W2|look|look|slia|]. new_as rr h3 W3 N3 A3.
  wbind. dele h4 W4 A4. apply wp_ret. apply HQ; try assumption; congruence.
Qed.
End gs.
