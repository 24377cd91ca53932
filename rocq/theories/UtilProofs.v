(** * What the mini-batch splitters and the scores compute, for any arithmetic. *)
From Verif Require Import Base BaseProofs Vec VecSpec VecProofs VecProofs2 Mat MatSpec MatProofs MatProofs2 MatProofs3 MatProofs4 MatProofs5 Frame Stat StatProofs Act ActProofs ActProofs2 Cost CostProofs Sym Svm Util.
Section util.
Context {F : Type} `{Scalar F} `{Libm F}.
Implicit Types (h : heap F) (xs ys v : list F) (X Y : nat -> nat -> F).

(** ** Batches in the heap *)
Definition blocs (bs : list (loc * loc)) : list loc := (b ← bs; [b.1; b.2]).
(** [m] is [base] plus the batches [bs], all fresh; batch i holds [P i] and [R i]. *)
Record batches_at (P R : nat -> aobj F) (bs : list (loc * loc)) (base m : gmap loc (aobj F)) : Prop := {
  ba_nodup : NoDup (blocs bs);
  ba_fresh : forall l, l ∈ blocs bs -> base !! l = None;
  ba_val : forall i b, bs !! i = Some b -> m !! b.1 = Some (P i) /\ m !! b.2 = Some (R i);
  ba_rest : forall l, l ∉ blocs bs -> m !! l = base !! l }.

Lemma blocs_app bs bs' : blocs (bs ++ bs') = blocs bs ++ blocs bs'.
Proof. unfold blocs. apply bind_app. Qed.
Lemma blocs_in bs i b : bs !! i = Some b -> b.1 ∈ blocs bs /\ b.2 ∈ blocs bs.
Proof.
  intros E. apply elem_of_list_lookup_2 in E. unfold blocs. split; apply elem_of_list_bind; exists b; (split; [|exact E]); rewrite ?elem_of_cons, ?elem_of_nil; tauto.
Qed.
Lemma batches_nil P R base : batches_at P R [] base base.
Proof. split; [constructor|intros l Hl; apply elem_of_nil in Hl; tauto|intros i b E; rewrite lookup_nil in E; discriminate|reflexivity]. Qed.
Lemma batches_snoc P R bs base m bi bo : batches_at P R bs base m -> m !! bi = None -> m !! bo = None -> bi <> bo ->
  batches_at P R (bs ++ [(bi, bo)]) base (<[bo := R (length bs)]> (<[bi := P (length bs)]> m)).
Proof.
  intros [Hn Hf Hv Hr] Ni No Hne.
  assert (Fi : bi ∉ blocs bs). { intros E. unfold blocs in E. apply elem_of_list_bind in E as (b & Eb & [i Hi]%elem_of_list_lookup_1). destruct (Hv i b Hi) as [V1 V2].
    rewrite !elem_of_cons, elem_of_nil in Eb. destruct Eb as [->|[->|[]]]; congruence. }
  assert (Fo : bo ∉ blocs bs). { intros E. unfold blocs in E. apply elem_of_list_bind in E as (b & Eb & [i Hi]%elem_of_list_lookup_1). destruct (Hv i b Hi) as [V1 V2].
    rewrite !elem_of_cons, elem_of_nil in Eb. destruct Eb as [->|[->|[]]]; congruence. }
  split.
  - rewrite blocs_app. apply list.NoDup_app. split; [exact Hn|]. split.
    + intros l Hl Hl'. change (blocs [(bi, bo)]) with [bi; bo] in Hl'. rewrite !elem_of_cons, elem_of_nil in Hl'. destruct Hl' as [->|[->|[]]]; tauto.
    + change (blocs [(bi, bo)]) with [bi; bo]. apply list.NoDup_cons. split; [rewrite elem_of_list_singleton; exact Hne|apply NoDup_singleton].
  - intros l. rewrite blocs_app, elem_of_app. change (blocs [(bi, bo)]) with [bi; bo]. rewrite !elem_of_cons, elem_of_nil. intros [Hl|[->|[->|[]]]]; [auto| |].
    + rewrite <- (Hr bi Fi). exact Ni.
    + rewrite <- (Hr bo Fo). exact No.
  - intros i b Hi. destruct (decide (i < length bs)%nat) as [L|L].
    + rewrite lookup_app_l in Hi by exact L. destruct (Hv i b Hi) as [V1 V2]. rewrite !lookup_insert_ne by congruence. auto.
    + rewrite lookup_app_r in Hi by lia. destruct (i - length bs)%nat as [|k] eqn:Ek; [|cbn in Hi; discriminate]. cbn in Hi. injection Hi as <-. cbn [fst snd].
      replace i with (length bs) by lia. split; [rewrite lookup_insert_ne by congruence; apply lookup_insert|apply lookup_insert].
  - intros l. rewrite blocs_app, elem_of_app. change (blocs [(bi, bo)]) with [bi; bo]. rewrite !elem_of_cons, elem_of_nil. intros Hl.
    rewrite !lookup_insert_ne by (intros ->; tauto). apply Hr. tauto.
Qed.
Lemma batches_insert P R bs base m l a : batches_at P R bs base m -> m !! l = None -> base !! l = None /\ batches_at P R bs (<[l := a]> base) (<[l := a]> m).
Proof.
  intros [Hn Hf Hv Hr] N. assert (Fl : l ∉ blocs bs). { intros E. unfold blocs in E. apply elem_of_list_bind in E as (b & Eb & [i Hi]%elem_of_list_lookup_1). destruct (Hv i b Hi) as [V1 V2].
    rewrite !elem_of_cons, elem_of_nil in Eb. destruct Eb as [->|[->|[]]]; congruence. }
  split; [rewrite <- Hr by exact Fl; exact N|]. split.
  - exact Hn.
  - intros l' Hl'. rewrite lookup_insert_ne by (intros ->; tauto). auto.
  - intros i b Hi. destruct (Hv i b Hi). rewrite !lookup_insert_ne by congruence. auto.
  - intros l' Hl'. destruct (decide (l = l')) as [->|Hne]; [rewrite !lookup_insert; reflexivity|]. rewrite !lookup_insert_ne by exact Hne. auto.
Qed.
Lemma batches_old P R bs base m l a : batches_at P R bs base m -> base !! l = Some a -> m !! l = Some a.
Proof. intros [Hn Hf Hv Hr] E. rewrite Hr; [exact E|]. intros Hl. apply Hf in Hl. congruence. Qed.
(** Destroying the batches. *)
Lemma wp_del_pairs P R bs : forall base h (Q : unit -> heap F -> Prop), wf h -> batches_at P R bs base (abs h) ->
  (forall h', wf h' -> abs h' = base -> Q tt h') ->
  wp ((fix go (bs : list (loc * loc)) : M F unit := match bs with [] => ret tt | b :: bs => del_obj b.1 ;;; del_obj b.2 ;;; go bs end) bs) h Q.
Proof.
  revert P R. induction bs as [|[bi bo] bs IH]; intros P R base h Q W B HQ.
  - apply wp_ret. apply HQ; [exact W|]. apply map_eq. intros l. apply (ba_rest _ _ _ _ _ B). apply not_elem_of_nil.
  - destruct B as [Hn Hf Hv Hr]. change (blocs ((bi, bo) :: bs)) with (bi :: bo :: blocs bs) in *. apply list.NoDup_cons in Hn as [N1 Hn]. apply list.NoDup_cons in Hn as [N2 Hn].
    destruct (Hv 0%nat _ eq_refl) as [V1 V2]. cbn [fst snd] in V1, V2. rewrite elem_of_cons in N1.
    wbind. eapply wp_del; [exact W|exact V1|]. intros h1 W1 A1 _. wbind. eapply wp_del; [exact W1|rewrite A1, lookup_delete_ne by tauto; exact V2|]. intros h2 W2 A2 _. rewrite A1 in A2. cbn [fst snd] in A2.
    apply (IH (fun i => P (S i)) (fun i => R (S i)) base); [exact W2| |exact HQ]. rewrite A2. split.
    + exact Hn.
    + intros l Hl. apply Hf. rewrite !elem_of_cons. tauto.
    + intros i b Hi. destruct (Hv (S i) b Hi) as [U1 U2]. destruct (blocs_in _ _ _ Hi) as [I1 I2]. assert (b.1 <> bo) by (intros E; rewrite E in I1; tauto). assert (b.2 <> bo) by (intros E; rewrite E in I2; tauto). assert (b.1 <> bi) by (intros E; rewrite E in I1; tauto). assert (b.2 <> bi) by (intros E; rewrite E in I2; tauto).
      rewrite !lookup_delete_ne by congruence. auto.
    + intros l Hl. destruct (decide (bo = l)) as [->|D2]; [rewrite lookup_delete; symmetry; apply Hf; rewrite !elem_of_cons; tauto|].
      rewrite lookup_delete_ne by exact D2. destruct (decide (bi = l)) as [->|D1]; [rewrite lookup_delete; symmetry; apply Hf; rewrite !elem_of_cons; tauto|].
      rewrite lookup_delete_ne by exact D1. apply Hr. rewrite !elem_of_cons. intros [E|[E|E]]; congruence.
Qed.

(** ** Copying one row *)
Lemma mat_row k n X i : (i < n)%nat -> ((fun i => vlist k (X i)) <$> seq 0 n) !! i = Some (vlist k (X i)).
Proof. intros L. rewrite list_lookup_fmap, lookup_seq_lt by exact L. reflexivity. Qed.
Lemma mat_rows_width k n X : width k ((fun i => vlist k (X i)) <$> seq 0 n).
Proof. apply list.Forall_forall. intros row Hr. apply elem_of_list_fmap in Hr as (i & -> & _). apply vlist_length. Qed.
Lemma wp_row_into h x row k n X i (z : Z) n0 c0 (Q : unit -> heap F -> Prop) : wf h -> abs h !! x = Some (Mat k n X) -> abs h !! row = Some (SVec n0, c0) ->
  z = Z.of_nat i -> (i < n)%nat ->
  (forall h', wf h' -> abs h' = <[row := AVec (vlist k (X i))]> (abs h) -> Q tt h') -> wp (m_row_get_into x z (Some row)) h Q.
Proof.
  intros Hw Hx Hr -> Hi HQ. destruct (amat_len h x _ _ _ Hw Hx) as [_ Hle]. rewrite Mat_Rows in Hx.
  eapply wp_m_row_get_into; [exact Hw|exact Hx|apply mat_rows_width|exact Hr|lia|rewrite Nat2Z.id; apply mat_row; exact Hi| |intros h' W A _; apply HQ; assumption].
  destruct n as [|n]; [lia|]. nia.
Qed.
Lemma wp_copy_row h x row dst k n m X g i j (z z' : Z) n0 c0 (Q : unit -> heap F -> Prop) : wf h -> abs h !! x = Some (Mat k n X) -> abs h !! row = Some (SVec n0, c0) ->
  abs h !! dst = Some (MatP k m g) -> x <> dst -> z = Z.of_nat i -> (i < n)%nat -> z' = Z.of_nat j -> (j < m)%nat ->
  (forall h', wf h' -> abs h' = <[dst := MatP k m (fun a c => if decide (a = j) then Some (X i c) else g a c)]> (<[row := AVec (vlist k (X i))]> (abs h)) -> Q tt h') ->
  wp (copy_row x row dst z z') h Q.
Proof.
  intros Hw Hx Hr Hd Hxd -> Hi -> Hj HQ. assert (row <> dst) by (intros ->; rewrite Hr in Hd; discriminate). unfold copy_row.
  wbind. eapply wp_row_into; [exact Hw|exact Hx|exact Hr|reflexivity|exact Hi|]. intros h1 W1 A1.
  eapply wp_m_row_set_vecP; [exact W1|rewrite A1, lookup_insert_ne by congruence; exact Hd|rewrite A1; apply lookup_insert|]. intros h2 W2 _ A2.
  rewrite vlist_length, decide_True in A2 by lia. rewrite Nat2Z.id in A2. apply HQ; [exact W2|]. rewrite A2, A1. f_equal. apply MatP_ext. intros a c La Lc.
  destruct (decide (a = j)); [|reflexivity]. f_equal. apply nth_lookup_Some. apply vlist_lookup. exact Lc.
Qed.

(** ** create_mini_batchesmv *)
Lemma wp_idiv h a b (Q : Z -> heap F -> Prop) : b <> 0 -> - int_max - 1 <= Z.quot a b <= int_max -> Q (Z.quot a b) h -> wp (idiv a b) h Q.
Proof. intros Hb Hr HQ. unfold idiv. destruct (Z.eqb_spec b 0); [lia|]. apply wp_chk; [exact Hr|exact HQ]. Qed.
Lemma wp_idiv_nat h n m (Q : Z -> heap F -> Prop) : (0 < m)%nat -> Z.of_nat n <= int_max -> Q (Z.of_nat (n / m)) h -> wp (idiv (Z.of_nat n) (Z.of_nat m)) h Q.
Proof.
  intros Hm Hn HQ. assert (E : Z.quot (Z.of_nat n) (Z.of_nat m) = Z.of_nat (n / m)) by (rewrite Nat2Z.inj_div; apply Z.quot_div_nonneg; lia).
  apply wp_idiv; [lia| |rewrite E; exact HQ]. rewrite E. pose proof (Nat.mul_div_le n m ltac:(lia)) as D. clear E. unfold int_max in *. revert D. generalize (n / m)%nat. intros q D. assert (q <= n)%nat by nia. lia.
Qed.
Definition mv_in (k m : nat) X (i : nat) : aobj F := Mat k m (fun r c => X (m * i + r)%nat c).
Lemma wp_mini_batches_mv h x y k n X ys nb (Q : list (loc * loc) -> heap F -> Prop) : wf h -> abs h !! x = Some (Mat k n X) -> abs h !! y = Some (AVec ys) ->
  length ys = n -> (0 < nb)%nat -> Z.of_nat n <= int_max -> Z.of_nat k <= int_max ->
  (forall bs h', wf h' -> length bs = nb -> batches_at (mv_in k (n / nb) X) (fun _ => AVec (take (n / nb) ys)) bs (abs h) (abs h') -> Q bs h') ->
  wp (mini_batches_mv (Some x) (Some y) (Z.of_nat nb)) h Q.
Proof.
  intros Hw Hx Hy El Hnb Hn Hk HQ. destruct (amat_len h x _ _ _ Hw Hx) as [_ Hkn]. assert (Dxy : x <> y) by (intros ->; rewrite Hx in Hy; discriminate).
  set (m := (n / nb)%nat). assert (Hm : (nb * m <= n)%nat) by (apply Nat.mul_div_le; lia). assert (Hml : (m <= n)%nat) by nia. assert (Hkm : (k * m <= k * n)%nat) by nia.
  unfold mini_batches_mv. wbind. apply wp_deref_Some. wbind. eapply wp_m_size; [exact Hx|]. cbn [fst snd].
  wbind. apply wp_idiv_nat; [exact Hnb|exact Hn|]. fold m.
  wbind. apply wp_v_new; [exact Hw|]. intros row h1 W1 N1 A1 _.
  wbind. eapply wp_v_resize; [exact W1|rewrite A1; apply lookup_insert|lia|]. intros h2 W2 A2 _. rewrite A1, insert_insert in A2. clear h1 W1 A1.
  wbind. apply wp_for_acc_n with (I := fun i bs h' => wf h' /\ length bs = i /\ exists n0 c0, batches_at (mv_in k m X) (fun _ => AVec (take m ys)) bs (<[row := (SVec n0, c0)]> (abs h)) (abs h')).
  - split; [exact W2|]. split; [reflexivity|]. eexists _, _. rewrite A2. apply batches_nil.
  - clear h2 W2 A2. intros i bs h1 Hi (W1 & Lb & n0 & c0 & B).
    assert (Hx1 : abs h1 !! x = Some (Mat k n X)) by (eapply batches_old; [exact B|rewrite lookup_insert_ne by congruence; exact Hx]).
    assert (Hy1 : abs h1 !! y = Some (AVec ys)) by (eapply batches_old; [exact B|rewrite lookup_insert_ne by congruence; exact Hy]).
    assert (Hr1 : abs h1 !! row = Some (SVec n0, c0)) by (eapply batches_old; [exact B|apply lookup_insert]).
    wbind. apply wp_m_new; [exact W1|]. intros bi h2 W2 N2 A2 _.
    wbind. eapply wp_m_resize; [exact W2|rewrite A2; apply lookup_insert|lia|]. intros h3 W3 A3 _. rewrite A2, insert_insert in A3. clear h2 W2 A2.
    destruct (MatP_new (F := F) k m) as [g0 G0]. rewrite G0 in A3. clear G0.
    wbind. apply wp_v_new; [exact W3|]. intros bo h4 W4 N4 A4 _.
    wbind. eapply wp_v_resize; [exact W4|rewrite A4; apply lookup_insert|lia|]. intros h5 W5 A5 _. rewrite A4, insert_insert, A3 in A5. rewrite A3 in N4. split_none N4. clear h4 W4 A4 h3 W3 A3.
    wbind. apply wp_for_n with (I := fun j h' => wf h' /\ exists n0 c0 g, (forall a c, (a < j)%nat -> g a c = Some (X (m * i + a)%nat c)) /\
        abs h' = <[bo := (SVec (Z.of_nat m), (Some <$> take j ys) ++ replicate (m - j) None)]> (<[bi := MatP k m g]> (<[row := (SVec n0, c0)]> (abs h1)))).
    + split; [exact W5|]. exists n0, c0, g0. split; [intros; lia|]. rewrite A5. rewrite (insert_id (abs h1) row) by exact Hr1. change (Some <$> []) with (@nil (cell F)). rewrite resize_nil, Nat2Z.id, Nat.sub_0_r. reflexivity.
    + clear h5 W5 A5. intros j h2 Hj (W2 & n1 & c1 & g & Hg & A2).
      wbind. eapply (wp_copy_row h2 x row bi k n m X g (m * i + j) j); [exact W2|look|look|look|congruence|lia|nia|lia|exact Hj|]. intros h3 W3 A3. rewrite A2 in A3.
      wbind. apply wp_deref_Some. destruct (lookup_lt_is_Some_2 ys j) as [e He]; [lia|].
      wbind. eapply wp_v_get; [exact W3|look|]. replace (Z.of_nat j <? 0) with false by lia. rewrite Nat2Z.id, He. cbn [default].
      eapply wp_v_set; [exact W3|rewrite A3, !lookup_insert_ne by congruence; apply lookup_insert|]. intros h4 W4 _ A4. replace (Z.of_nat j <? 0) with false in A4 by lia. rewrite Nat2Z.id in A4.
      split; [exact W4|]. eexists (Z.of_nat (length (vlist k (X (m * i + j)%nat)))), (Some <$> vlist k (X (m * i + j)%nat)), _. split.
      2:{ rewrite A4, A3. rewrite (take_S_r ys j e He), fmap_app. cbn [fmap list_fmap]. rewrite <- app_assoc. cbn [app].
          replace (<[j:=Some e]> ((Some <$> take j ys) ++ replicate (m - j) None)) with ((Some <$> take j ys) ++ Some e :: replicate (m - S j) None).
          - fold (AVec (vlist k (X (m * i + j)%nat))). mapeq.
          - rewrite insert_app_r_alt by (rewrite fmap_length, take_length; lia). rewrite fmap_length, take_length, Nat.min_l, Nat.sub_diag by lia. f_equal.
            replace (m - j)%nat with (S (m - S j)) by lia. reflexivity. }
      intros a c Ha. cbv beta. destruct (decide (a = j)) as [->|Hne]; [reflexivity|]. apply Hg. lia.
    + clear h5 W5 A5. intros h2 (W2 & n1 & c1 & g & Hg & A2). apply wp_ret. split; [exact W2|]. split; [rewrite app_length; cbn; lia|]. exists n1, c1.
      assert (B' : batches_at (mv_in k m X) (fun _ => AVec (take m ys)) bs (<[row := (SVec n1, c1)]> (abs h)) (<[row := (SVec n1, c1)]> (abs h1))).
      { destruct B as [Bn Bf Bv Br]. assert (Frow : row ∉ blocs bs) by (intros E; apply Bf in E; rewrite lookup_insert in E; discriminate). split.
        - exact Bn.
        - intros l Hl. specialize (Bf l Hl). destruct (decide (row = l)) as [->|Hne]; [tauto|]. rewrite lookup_insert_ne in Bf |- * by exact Hne. exact Bf.
        - intros i' b Hb. destruct (Bv i' b Hb). destruct (blocs_in _ _ _ Hb) as [? ?]. rewrite !lookup_insert_ne by (intros ->; tauto). auto.
        - intros l Hl. destruct (decide (row = l)) as [->|Hne]; [rewrite !lookup_insert; reflexivity|]. specialize (Br l Hl). rewrite lookup_insert_ne in Br |- * by exact Hne. rewrite lookup_insert_ne by exact Hne. exact Br. }
      apply (batches_snoc _ _ _ _ _ bi bo) in B'; [|rewrite lookup_insert_ne by congruence; exact N2|rewrite lookup_insert_ne by congruence; exact N4|congruence].
      rewrite Lb in B'. rewrite A2. replace (MatP k m g) with (mv_in k m X i).
      * replace (SVec (Z.of_nat m), (Some <$> take m ys) ++ replicate (m - m) None) with (AVec (take m ys)); [exact B'|]. unfold AVec. rewrite take_length, Nat.sub_diag. cbn. rewrite app_nil_r. do 2 f_equal. lia.
      * unfold mv_in. rewrite Mat_MatP. apply MatP_ext. intros a c Ha Hc. symmetry. apply Hg. exact Ha.
  - intros bs h3 (W3 & Lb & n0 & c0 & B). wbind. eapply wp_del; [exact W3|eapply batches_old; [exact B|apply lookup_insert]|]. intros h4 W4 A4 _.
    apply wp_ret. apply HQ; [exact W4|exact Lb|]. rewrite A4. destruct B as [Bn Bf Bv Br]. assert (Frow : row ∉ blocs bs) by (intros E; apply Bf in E; rewrite lookup_insert in E; discriminate). split.
    + exact Bn.
    + intros l Hl. specialize (Bf l Hl). destruct (decide (row = l)) as [->|Hne]; [tauto|]. rewrite lookup_insert_ne in Bf by exact Hne. exact Bf.
    + intros i b Hb. destruct (Bv i b Hb). destruct (blocs_in _ _ _ Hb) as [? ?]. rewrite !lookup_delete_ne by (intros ->; tauto). auto.
    + intros l Hl. destruct (decide (row = l)) as [->|Hne]; [rewrite lookup_delete; symmetry; exact N1|]. rewrite lookup_delete_ne by exact Hne. rewrite Br by exact Hl. apply lookup_insert_ne. exact Hne.
Qed.

(** Overwriting or dropping a scratch object that is in both maps. *)
Lemma batches_scratch P R bs base m row a a' : batches_at P R bs (<[row := a]> base) m -> batches_at P R bs (<[row := a']> base) (<[row := a']> m).
Proof.
  intros [Bn Bf Bv Br]. assert (Frow : row ∉ blocs bs) by (intros E; apply Bf in E; rewrite lookup_insert in E; discriminate). split.
  - exact Bn.
  - intros l Hl. specialize (Bf l Hl). destruct (decide (row = l)) as [->|Hne]; [tauto|]. rewrite lookup_insert_ne in Bf |- * by exact Hne. exact Bf.
  - intros i' b Hb. destruct (Bv i' b Hb). destruct (blocs_in _ _ _ Hb) as [? ?]. rewrite !lookup_insert_ne by (intros ->; tauto). auto.
  - intros l Hl. destruct (decide (row = l)) as [->|Hne]; [rewrite !lookup_insert; reflexivity|]. specialize (Br l Hl). rewrite lookup_insert_ne in Br |- * by exact Hne. rewrite lookup_insert_ne by exact Hne. exact Br.
Qed.
Lemma batches_drop P R bs base m row a : base !! row = None -> batches_at P R bs (<[row := a]> base) m -> batches_at P R bs base (delete row m).
Proof.
  intros N1 [Bn Bf Bv Br]. assert (Frow : row ∉ blocs bs) by (intros E; apply Bf in E; rewrite lookup_insert in E; discriminate). split.
  - exact Bn.
  - intros l Hl. specialize (Bf l Hl). destruct (decide (row = l)) as [->|Hne]; [tauto|]. rewrite lookup_insert_ne in Bf by exact Hne. exact Bf.
  - intros i b Hb. destruct (Bv i b Hb). destruct (blocs_in _ _ _ Hb) as [? ?]. rewrite !lookup_delete_ne by (intros ->; tauto). auto.
  - intros l Hl. destruct (decide (row = l)) as [->|Hne]; [rewrite lookup_delete; symmetry; exact N1|]. rewrite lookup_delete_ne by exact Hne. rewrite Br by exact Hl. apply lookup_insert_ne. exact Hne.
Qed.

(** ** create_mini_batchesmm: the offset is [nb * i]. *)
Definition mm_in (k m nb : nat) X (i : nat) : aobj F := Mat k m (fun r c => X (nb * i + r)%nat c).
Lemma wp_mini_batches_mm h x y k n k' X Y nb (Q : list (loc * loc) -> heap F -> Prop) : wf h -> abs h !! x = Some (Mat k n X) -> abs h !! y = Some (Mat k' n Y) ->
  (0 < nb)%nat -> (nb * (nb - 1) + n / nb <= n)%nat -> Z.of_nat n <= int_max -> Z.of_nat k <= int_max -> Z.of_nat k' <= int_max ->
  (forall bs h', wf h' -> length bs = nb -> batches_at (mm_in k (n / nb) nb X) (mm_in k' (n / nb) nb Y) bs (abs h) (abs h') -> Q bs h') ->
  wp (mini_batches_mm (Some x) (Some y) (Z.of_nat nb)) h Q.
Proof.
  intros Hw Hx Hy Hnb Hlast Hn Hk Hk' HQ. destruct (amat_len h x _ _ _ Hw Hx) as [_ Hkn]. destruct (amat_len h y _ _ _ Hw Hy) as [_ Hkn'].
  set (m := (n / nb)%nat) in *. assert (Hml : (m <= n)%nat) by nia. assert (Hkm : (k * m <= k * n)%nat) by nia. assert (Hkm' : (k' * m <= k' * n)%nat) by nia.
  unfold mini_batches_mm. wbind. apply wp_deref_Some. wbind. eapply wp_m_size; [exact Hx|]. wbind. apply wp_deref_Some. wbind. eapply wp_m_size; [exact Hy|]. cbn [fst snd].
  wbind. apply wp_idiv_nat; [exact Hnb|exact Hn|]. fold m.
  wbind. apply wp_v_new; [exact Hw|]. intros row h1 W1 N1 A1 _.
  wbind. eapply wp_v_resize; [exact W1|rewrite A1; apply lookup_insert|lia|]. intros h2 W2 A2 _. rewrite A1, insert_insert in A2. clear h1 W1 A1.
  wbind. apply wp_v_new; [exact W2|]. intros orow h3 W3 N3 A3 _. rewrite A2 in N3. split_none N3.
  wbind. eapply wp_v_resize; [exact W3|rewrite A3; apply lookup_insert|lia|]. intros h4 W4 A4 _. rewrite A3, insert_insert, A2 in A4. clear h3 W3 A3 h2 W2 A2.
  wbind. apply wp_for_acc_n with (I := fun i bs h' => wf h' /\ length bs = i /\ exists n0 c0 n1 c1, batches_at (mm_in k m nb X) (mm_in k' m nb Y) bs (<[orow := (SVec n1, c1)]> (<[row := (SVec n0, c0)]> (abs h))) (abs h')).
  - split; [exact W4|]. split; [reflexivity|]. eexists _, _, _, _. rewrite A4. apply batches_nil.
  - clear h4 W4 A4. intros i bs h1 Hi (W1 & Lb & n0 & c0 & n1 & c1 & B). assert (Hoff : (nb * i <= nb * (nb - 1))%nat) by nia.
    assert (Hx1 : abs h1 !! x = Some (Mat k n X)) by (eapply batches_old; [exact B|rewrite !lookup_insert_ne by congruence; exact Hx]).
    assert (Hy1 : abs h1 !! y = Some (Mat k' n Y)) by (eapply batches_old; [exact B|rewrite !lookup_insert_ne by congruence; exact Hy]).
    assert (Hr1 : abs h1 !! row = Some (SVec n0, c0)) by (eapply batches_old; [exact B|rewrite lookup_insert_ne by congruence; apply lookup_insert]).
    assert (Hq1 : abs h1 !! orow = Some (SVec n1, c1)) by (eapply batches_old; [exact B|apply lookup_insert]).
    wbind. apply wp_m_new; [exact W1|]. intros bi h2 W2 N2 A2 _.
    wbind. eapply wp_m_resize; [exact W2|rewrite A2; apply lookup_insert|lia|]. intros h3 W3 A3 _. rewrite A2, insert_insert in A3. clear h2 W2 A2.
    destruct (MatP_new (F := F) k m) as [g0 G0]. rewrite G0 in A3. clear G0.
    wbind. apply wp_m_new; [exact W3|]. intros bo h4 W4 N4 A4 _.
    wbind. eapply wp_m_resize; [exact W4|rewrite A4; apply lookup_insert|lia|]. intros h5 W5 A5 _. rewrite A4, insert_insert, A3 in A5. rewrite A3 in N4. split_none N4. clear h4 W4 A4 h3 W3 A3.
    destruct (MatP_new (F := F) k' m) as [g0' G0]. rewrite G0 in A5. clear G0.
    wbind. apply wp_for_n with (I := fun j h' => wf h' /\ exists n0 c0 n1 c1 g g', (forall a c, (a < j)%nat -> g a c = Some (X (nb * i + a)%nat c)) /\ (forall a c, (a < j)%nat -> g' a c = Some (Y (nb * i + a)%nat c)) /\
        abs h' = <[bo := MatP k' m g']> (<[bi := MatP k m g]> (<[orow := (SVec n1, c1)]> (<[row := (SVec n0, c0)]> (abs h1))))).
    + split; [exact W5|]. exists n0, c0, n1, c1, g0, g0'. split; [intros; lia|]. split; [intros; lia|]. rewrite A5. rewrite (insert_id (abs h1) row) by exact Hr1. rewrite (insert_id (abs h1) orow) by exact Hq1. reflexivity.
    + clear h5 W5 A5. intros j h2 Hj (W2 & n2 & c2 & n3 & c3 & g & g' & Hg & Hg' & A2).
      wbind. eapply (wp_copy_row h2 x row bi k n m X g (nb * i + j) j); [exact W2|look|look|look|congruence|lia|lia|lia|exact Hj|]. intros h3 W3 A3. rewrite A2 in A3.
      eapply (wp_copy_row h3 y orow bo k' n m Y g' (nb * i + j) j); [exact W3|look|look|look|congruence|lia|lia|lia|exact Hj|]. intros h4 W4 A4. rewrite A3 in A4.
      split; [exact W4|]. eexists (Z.of_nat (length (vlist k (X (nb * i + j)%nat)))), (Some <$> vlist k (X (nb * i + j)%nat)), (Z.of_nat (length (vlist k' (Y (nb * i + j)%nat)))), (Some <$> vlist k' (Y (nb * i + j)%nat)), _, _.
      split; [|split; [|rewrite A4; fold (AVec (vlist k (X (nb * i + j)%nat))); fold (AVec (vlist k' (Y (nb * i + j)%nat))); mapeq]];
      intros a c Ha; cbv beta; (destruct (decide (a = j)) as [->|Hne]; [reflexivity|]); [apply Hg|apply Hg']; lia.
    + clear h5 W5 A5. intros h2 (W2 & n2 & c2 & n3 & c3 & g & g' & Hg & Hg' & A2). apply wp_ret. split; [exact W2|]. split; [rewrite app_length; cbn; lia|]. exists n2, c2, n3, c3.
      assert (B' : batches_at (mm_in k m nb X) (mm_in k' m nb Y) bs (<[orow := (SVec n3, c3)]> (<[row := (SVec n2, c2)]> (abs h))) (<[orow := (SVec n3, c3)]> (<[row := (SVec n2, c2)]> (abs h1)))).
      { eapply batches_scratch. rewrite insert_commute by congruence. eapply batches_scratch. rewrite insert_commute by congruence. exact B. }
      apply (batches_snoc _ _ _ _ _ bi bo) in B'; [|rewrite !lookup_insert_ne by congruence; exact N2|rewrite !lookup_insert_ne by congruence; exact N4|congruence].
      rewrite Lb in B'. rewrite A2. replace (MatP k m g) with (mm_in k m nb X i); [replace (MatP k' m g') with (mm_in k' m nb Y i); [exact B'|]|].
      * unfold mm_in. rewrite Mat_MatP. apply MatP_ext. intros a c Ha Hc. symmetry. apply Hg'. exact Ha.
      * unfold mm_in. rewrite Mat_MatP. apply MatP_ext. intros a c Ha Hc. symmetry. apply Hg. exact Ha.
  - intros bs h3 (W3 & Lb & n0 & c0 & n1 & c1 & B). wbind. eapply wp_del; [exact W3|eapply batches_old; [exact B|rewrite lookup_insert_ne by congruence; apply lookup_insert]|]. intros h5 W5 A5 _.
    rewrite insert_commute in B by congruence. eapply (batches_drop _ _ _ _ _ row) in B; [|rewrite lookup_insert_ne by congruence; exact N1]. rewrite <- A5 in B.
    wbind. eapply wp_del; [exact W5|eapply batches_old; [exact B|apply lookup_insert]|]. intros h6 W6 A6 _.
    eapply (batches_drop _ _ _ _ _ orow) in B; [|exact N3]. rewrite <- A6 in B. apply wp_ret. apply HQ; assumption.
Qed.

(** ** create_mini_batchesm *)
Record mats_at (P : nat -> aobj F) (bs : list loc) (base m : gmap loc (aobj F)) : Prop := {
  ma_nodup : NoDup bs;
  ma_fresh : forall l, l ∈ bs -> base !! l = None;
  ma_val : forall i b, bs !! i = Some b -> m !! b = Some (P i);
  ma_rest : forall l, l ∉ bs -> m !! l = base !! l }.
Lemma wp_mini_batches_m h x k n X nb (Q : list loc -> heap F -> Prop) : wf h -> abs h !! x = Some (Mat k n X) ->
  (0 < nb)%nat -> (nb * (nb - 1) + n / nb <= n)%nat -> Z.of_nat n <= int_max -> Z.of_nat k <= int_max ->
  (forall bs h', wf h' -> length bs = nb -> mats_at (mm_in k (n / nb) nb X) bs (abs h) (abs h') -> Q bs h') ->
  wp (mini_batches_m (Some x) (Z.of_nat nb)) h Q.
Proof.
  intros Hw Hx Hnb Hlast Hn Hk HQ. destruct (amat_len h x _ _ _ Hw Hx) as [_ Hkn].
  set (m := (n / nb)%nat) in *. assert (Hml : (m <= n)%nat) by nia. assert (Hkm : (k * m <= k * n)%nat) by nia.
  unfold mini_batches_m. wbind. apply wp_deref_Some. wbind. eapply wp_m_size; [exact Hx|]. cbn [fst snd].
  wbind. apply wp_idiv_nat; [exact Hnb|exact Hn|]. fold m.
  wbind. apply wp_v_new; [exact Hw|]. intros row h1 W1 N1 A1 _.
  wbind. eapply wp_v_resize; [exact W1|rewrite A1; apply lookup_insert|lia|]. intros h2 W2 A2 _. rewrite A1, insert_insert in A2. clear h1 W1 A1.
  wbind. apply wp_for_acc_n with (I := fun i bs h' => wf h' /\ length bs = i /\ exists n0 c0, NoDup bs /\ (forall l, l ∈ bs -> abs h !! l = None /\ l <> row) /\
      (forall j b, bs !! j = Some b -> abs h' !! b = Some (mm_in k m nb X j)) /\ (forall l, l ∉ bs -> abs h' !! l = <[row := (SVec n0, c0)]> (abs h) !! l)).
  - split; [exact W2|]. split; [reflexivity|]. eexists _, _. rewrite A2. split; [constructor|]. split; [intros l Hl; apply elem_of_nil in Hl; tauto|]. split; [intros j b E; rewrite lookup_nil in E; discriminate|reflexivity].
  - clear h2 W2 A2. intros i bs h1 Hi (W1 & Lb & n0 & c0 & Bn & Bf & Bv & Br). assert (Hoff : (nb * i <= nb * (nb - 1))%nat) by nia.
    assert (Fr : row ∉ bs) by (intros E; apply Bf in E; tauto). assert (Fx : x ∉ bs) by (intros E; apply Bf in E; destruct E; congruence).
    assert (Hx1 : abs h1 !! x = Some (Mat k n X)) by (rewrite Br by exact Fx; rewrite lookup_insert_ne by congruence; exact Hx).
    assert (Hr1 : abs h1 !! row = Some (SVec n0, c0)) by (rewrite Br by exact Fr; apply lookup_insert).
    wbind. apply wp_m_new; [exact W1|]. intros bi h2 W2 N2 A2 _.
    assert (Fi : bi ∉ bs) by (intros [j Hj]%elem_of_list_lookup_1; rewrite (Bv j bi Hj) in N2; discriminate).
    wbind. eapply wp_m_resize; [exact W2|rewrite A2; apply lookup_insert|lia|]. intros h3 W3 A3 _. rewrite A2, insert_insert in A3. clear h2 W2 A2.
    destruct (MatP_new (F := F) k m) as [g0 G0]. rewrite G0 in A3. clear G0.
    wbind. apply wp_for_n with (I := fun j h' => wf h' /\ exists n0 c0 g, (forall a c, (a < j)%nat -> g a c = Some (X (nb * i + a)%nat c)) /\
        abs h' = <[bi := MatP k m g]> (<[row := (SVec n0, c0)]> (abs h1))).
    + split; [exact W3|]. exists n0, c0, g0. split; [intros; lia|]. rewrite A3. rewrite (insert_id (abs h1) row) by exact Hr1. reflexivity.
    + clear h3 W3 A3. intros j h2 Hj (W2 & n2 & c2 & g & Hg & A2).
      eapply (wp_copy_row h2 x row bi k n m X g (nb * i + j) j); [exact W2|look|look|look|congruence|lia|lia|lia|exact Hj|]. intros h3 W3 A3. rewrite A2 in A3.
      split; [exact W3|]. eexists (Z.of_nat (length (vlist k (X (nb * i + j)%nat)))), (Some <$> vlist k (X (nb * i + j)%nat)), _.
      split; [|rewrite A3; fold (AVec (vlist k (X (nb * i + j)%nat))); mapeq].
      intros a c Ha; cbv beta; (destruct (decide (a = j)) as [->|Hne]; [reflexivity|]). apply Hg; lia.
    + clear h3 W3 A3. intros h2 (W2 & n2 & c2 & g & Hg & A2). apply wp_ret. split; [exact W2|]. split; [rewrite app_length; cbn; lia|]. exists n2, c2. rewrite A2. split; [|split; [|split]].
      * apply list.NoDup_app. split; [exact Bn|]. split; [|apply NoDup_singleton]. intros l Hl Hl'. apply elem_of_list_singleton in Hl'. subst l. tauto.
      * intros l. rewrite elem_of_app, elem_of_list_singleton. intros [Hl| ->]; [auto|]. assert (bi <> row) by congruence. split; [|assumption]. rewrite Br in N2 by exact Fi. rewrite lookup_insert_ne in N2 by congruence. exact N2.
      * intros j b Hj. destruct (decide (j < length bs)%nat) as [L|L].
        -- rewrite lookup_app_l in Hj by exact L. pose proof (elem_of_list_lookup_2 _ _ _ Hj) as E. rewrite !lookup_insert_ne by (intros ->; tauto). auto.
        -- rewrite lookup_app_r in Hj by lia. destruct (j - length bs)%nat as [|q] eqn:Eq; [|cbn in Hj; discriminate]. cbn in Hj. injection Hj as <-. rewrite lookup_insert. f_equal. replace j with i by lia.
           unfold mm_in. rewrite Mat_MatP. apply MatP_ext. intros a c Ha Hc. apply Hg. exact Ha.
      * intros l. rewrite elem_of_app, elem_of_list_singleton. intros Hl. rewrite lookup_insert_ne by (intros ->; tauto). destruct (decide (row = l)) as [->|Hne]; [rewrite !lookup_insert; reflexivity|].
        rewrite !lookup_insert_ne by exact Hne. rewrite Br by tauto. rewrite lookup_insert_ne by exact Hne. reflexivity.
  - intros bs h3 (W3 & Lb & n0 & c0 & Bn & Bf & Bv & Br). assert (Fr : row ∉ bs) by (intros E; apply Bf in E; tauto).
    wbind. eapply wp_del; [exact W3|rewrite Br by exact Fr; apply lookup_insert|]. intros h5 W5 A5 _.
    apply wp_ret. apply HQ; [exact W5|exact Lb|]. rewrite A5. split.
    + exact Bn.
    + intros l Hl. apply Bf. exact Hl.
    + intros j b Hj. pose proof (elem_of_list_lookup_2 _ _ _ Hj) as E. rewrite lookup_delete_ne by (intros ->; tauto). auto.
    + intros l Hl. destruct (decide (row = l)) as [->|Hne]; [rewrite lookup_delete; symmetry; exact N1|]. rewrite lookup_delete_ne by exact Hne. rewrite Br by exact Hl. apply lookup_insert_ne. exact Hne.
Qed.

(** Division by zero. *)
Lemma mini_batches_mv_UB h x ry k n X : abs h !! x = Some (Mat k n X) -> mini_batches_mv (Some x) ry 0 h = UB.
Proof.
  intros Hx. unfold mini_batches_mv. cbn [deref]. unfold bind at 1. cbn.
  assert (E : m_size x h = Ok (Z.of_nat k, Z.of_nat n) h). { pose proof (wp_m_size h x (Z.of_nat k) (Z.of_nat n) _ (fun s h' => s = (Z.of_nat k, Z.of_nat n) /\ h' = h) Hx (conj eq_refl eq_refl)) as P. unfold wp in P. destruct (m_size x h); try tauto. destruct P as [-> ->]. reflexivity. }
  unfold bind at 1. rewrite E. reflexivity.
Qed.
End util.
