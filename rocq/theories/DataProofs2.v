(** * Data preparation: one-hot encoding, shuffling, splitting (C83, C84). *)
From Verif Require Import Base BaseProofs Vec VecSpec VecProofs VecProofs2 Mat MatSpec MatProofs MatProofs2 MatProofs3 MatProofs5 Act Stat StatProofs Glm GlmMath GlmProofs3 KmeansProofs2 Sym Svm Data DataProofs.
From Coq Require Import Permutation.

Local Notation S := Datatypes.S.
Section dataproofs2.
Context {F : Type} `{Scalar F} `{Libm F}.
Implicit Types (h : heap F) (xs : list F).

Definition one_hot (ys : list F) (i j : nat) : F := if decide (m_to_int (nth i ys s_zero) = Some (Z.of_nat j)) then s_one else s_zero.
Lemma wp_one_hot h y ys (k : nat) (Q : option loc -> heap F -> Prop) : wf h -> abs h !! y = Some (AVec ys) -> Z.of_nat (k * length ys) <= int_max ->
  Forall (fun v => m_to_int v <> None) ys ->
  (forall d h', wf h' -> abs h !! d = None -> abs h' = <[d := Mat k (length ys) (one_hot ys)]> (abs h) -> Q (Some d) h') -> wp (one_hot_rep (Some y) (Z.of_nat k)) h Q.
Proof.
  intros W A Hk HF HQ. set (n := length ys) in *. unfold one_hot_rep. wbind. apply wp_m_new; [exact W|]. intros o h1 W1 N1 A1 _.
  wbind. eapply wp_v_size_vec; [look|]. fold n. wbind. eapply wp_data_ptr; [look|]. intros p Hp.
  wbind. eapply wp_m_resize; [exact W1|rewrite A1; apply lookup_insert|lia|]. intros h2 W2 A2 P2.
  destruct (cells_MatP h2 o k n _ W2 ltac:(rewrite A2; apply lookup_insert)) as [G HG]. rewrite A1, insert_insert in A2. rewrite A2, lookup_insert in HG. apply Some_inj in HG. rewrite HG in A2. clear HG.
  assert (Hyo : y <> o) by congruence. assert (Hp2 : ptr_of h2 y = Some p) by (rewrite P2 by exact Hyo; exact Hp).
  wbind. eapply (wp_for_n (fun i hi => (wf hi /\ ptr_of hi y = Some p) /\ abs hi = <[o := MatP k n (filled (one_hot ys) i 0 G)]> (abs h))).
  - split; [split; assumption|]. rewrite A2, filled_start. reflexivity.
  - intros i hi Hi [[Wi Pi] Ai].
    eapply (wp_for_n (fun j hj => (wf hj /\ ptr_of hj y = Some p) /\ abs hj = <[o := MatP k n (filled (one_hot ys) i j G)]> (abs h))).
    + split; [split; assumption|exact Ai].
    + intros j hj Hj [[Wj Pj] Aj]. destruct (lookup_lt_is_Some_2 ys i Hi) as [v Hv].
      assert (Ev : nth i ys s_zero = v) by (apply nth_lookup_Some with (d := s_zero) in Hv; exact Hv).
      wbind. wbind. eapply wp_load; [exact Wj|exact Pj|rewrite Aj, lookup_insert_ne by congruence; exact A|lia|rewrite Nat2Z.id, list_lookup_fmap, Hv; reflexivity|].
      rewrite Forall_lookup in HF. specialize (HF i v Hv). wbind. unfold cast_int. destruct (m_to_int v) as [c|] eqn:Ec; [|congruence]. apply wp_ret. apply wp_ret.
      eapply wp_m_set; [exact Wj|rewrite Aj; apply lookup_insert|]. intros hl Wl Ol Al. rewrite decide_True in Al by lia. split.
      * split; [exact Wl|]. unfold ptr_of in *. rewrite Ol. exact Pj.
      * rewrite Al, Aj, insert_insert, !Nat2Z.id. f_equal. rewrite <- filled_upd by assumption. f_equal. f_equal. f_equal.
        unfold one_hot. rewrite Ev, Ec. destruct (Z.eqb_spec c (Z.of_nat j)) as [->|Hne]; [rewrite decide_True by reflexivity; reflexivity|rewrite decide_False by congruence; reflexivity].
    + intros hj [[Wj Pj] Aj]. split; [split; assumption|]. rewrite Aj. f_equal. apply filled_next.
  - intros hi [[Wi _] Ai]. rewrite filled_all in Ai. apply wp_ret. apply HQ; [exact Wi|exact N1|exact Ai].
Qed.

(** ** shuffle *)
Lemma swap_perm l i j : swap l i j ≡ₚ l.
Proof.
  unfold swap. destruct (l !! i) as [a|] eqn:Ei; [|reflexivity]. destruct (l !! j) as [b|] eqn:Ej; [|reflexivity].
  destruct (decide (i = j)) as [->|Hij].
  - assert (a = b) by congruence; subst b. rewrite list_insert_insert. rewrite list_insert_id by exact Ej. reflexivity.
  - apply Permutation_inj. split; [rewrite !insert_length; reflexivity|].
    exists (fun k => if decide (k = i) then j else if decide (k = j) then i else k). split.
    + intros x y. destruct (decide (x = i)), (decide (y = i)), (decide (x = j)), (decide (y = j)); congruence.
    + intros k. destruct (decide (k = i)) as [->|Hki].
      * rewrite list_lookup_insert by (rewrite insert_length; apply lookup_lt_Some in Ei; exact Ei). congruence.
      * destruct (decide (k = j)) as [->|Hkj].
        -- rewrite list_lookup_insert_ne by congruence. rewrite list_lookup_insert by (apply lookup_lt_Some in Ej; exact Ej). congruence.
        -- rewrite !list_lookup_insert_ne by congruence. reflexivity.
Qed.
Lemma shuffle_from_perm draw i : forall l, shuffle_from draw i l ≡ₚ l.
Proof. induction i as [|k IH]; intros l; [reflexivity|]. cbn [shuffle_from]. rewrite IH. apply swap_perm. Qed.
Lemma shuffle_perm draw l : shuffle draw l ≡ₚ l. Proof. apply shuffle_from_perm. Qed.

(** ** train_test_split *)
Local Ltac lk := repeat first [rewrite lookup_insert|rewrite lookup_insert_ne by congruence].
(** Row i of the result is row ix[i] of the source. *)
Definition pick (ix : list Z) (from : nat) (X : nat -> nat -> F) (i j : nat) : F := X (Z.to_nat (nth (from + i) ix 0)) j.
Lemma wp_index_at ix (i : nat) h (Q : Z -> heap F -> Prop) : (i < length ix)%nat -> Q (nth i ix 0) h -> wp (index_at ix (Z.of_nat i)) h Q.
Proof.
  intros Hi HQ. unfold index_at. replace (Z.of_nat i <? 0) with false by lia. rewrite Nat2Z.id. destruct (lookup_lt_is_Some_2 ix i Hi) as [v Hv]. rewrite Hv. apply wp_ret.
  apply nth_lookup_Some with (d := 0) in Hv. rewrite <- Hv. exact HQ.
Qed.
Definition copy_row (x y di do ri ro : loc) (ix : list Z) (from i : Z) : M F unit :=
  let! k := index_at ix (from + i) in
  m_row_get_into x k (Some ri) ;;; m_row_get_into y k (Some ro) ;;; m_row_set_vec di i (Some ri) ;;; m_row_set_vec do i (Some ro).
(** The heap while rows are being copied: [i] rows done. *)
Definition copying (di do ri ro : loc) (c k t : nat) ix from X Y G G' (m : gmap loc (aobj F)) (i : nat) (h : heap F) : Prop :=
  exists v0 v1 w0 w1, abs h = <[di := MatP c t (filled (pick ix from X) i 0 G)]> (<[do := MatP k t (filled (pick ix from Y) i 0 G')]> (<[ri := (SVec v0, v1)]> (<[ro := (SVec w0, w1)]> m))).
Lemma wp_copy_row x y di do ri ro (c k n n' t from i : nat) X Y ix G G' (m : gmap loc (aobj F)) h (Q : unit -> heap F -> Prop) : wf h ->
  m !! x = Some (Mat c n X) -> m !! y = Some (Mat k n' Y) -> m !! di = None -> m !! do = None -> m !! ri = None -> m !! ro = None -> di <> do -> di <> ri -> di <> ro -> do <> ri -> do <> ro -> ri <> ro ->
  Z.of_nat c <= int_max -> Z.of_nat k <= int_max -> (i < t)%nat -> (from + i < length ix)%nat -> (forall i, (i < length ix)%nat -> 0 <= nth i ix 0 < Z.of_nat (Nat.min n n')) ->
  copying di do ri ro c k t ix from X Y G G' m i h ->
  (forall h', wf h' -> copying di do ri ro c k t ix from X Y G G' m (S i) h' -> Q tt h') ->
  wp (copy_row x y di do ri ro ix (Z.of_nat from) (Z.of_nat i)) h Q.
Proof.
  intros W0 Hx Hy Ndi Ndo Nri Nro D1 D2 D3 D4 D5 D6 Hc Hk Hi Hfi Hix (v0 & v1 & w0 & w1 & A0) HQ.
  assert (x <> di /\ x <> do /\ x <> ri /\ x <> ro) as (X1 & X2 & X3 & X4) by (split_and!; congruence).
  assert (y <> di /\ y <> do /\ y <> ri /\ y <> ro) as (Y1 & Y2 & Y3 & Y4) by (split_and!; congruence).
  set (PX := pick ix from X) in *. set (PY := pick ix from Y) in *. unfold copy_row.
  wbind. replace (Z.of_nat from + Z.of_nat i) with (Z.of_nat (from + i)) by slia. apply wp_index_at; [exact Hfi|].
  pose proof (Hix _ Hfi) as Hq. set (q := nth (from + i) ix 0) in *. replace q with (Z.of_nat (Z.to_nat q)) by slia. set (q' := Z.to_nat q) in *. assert (Hqn : (q' < n)%nat /\ (q' < n')%nat) by slia. destruct Hqn as [Q1 Q2].
  wbind. eapply wp_row_get; [exact W0|look|look|exact Q1|exact Hc|]. intros h1 W1 A1. rewrite A0 in A1.
  assert (B1 : abs h1 = <[di := MatP c t (filled PX i 0 G)]> (<[do := MatP k t (filled PY i 0 G')]> (<[ri := AVec (row c X q')]> (<[ro := (SVec w0, w1)]> m)))).
  { rewrite A1. rewrite (insert_commute _ ri di) by congruence. f_equal. rewrite (insert_commute _ ri do) by congruence. f_equal. apply insert_insert. } clear A1 A0.
  wbind. eapply wp_row_get; [exact W1|look|look|exact Q2|exact Hk|]. intros h2 W2 A2. rewrite B1 in A2.
  assert (B2 : abs h2 = <[di := MatP c t (filled PX i 0 G)]> (<[do := MatP k t (filled PY i 0 G')]> (<[ri := AVec (row c X q')]> (<[ro := AVec (row k Y q')]> m)))).
  { rewrite A2. rewrite (insert_commute _ ro di) by congruence. f_equal. rewrite (insert_commute _ ro do) by congruence. f_equal. rewrite (insert_commute _ ro ri) by congruence. f_equal. apply insert_insert. } clear A2 B1.
  wbind. eapply wp_m_row_set_vecP; [exact W2|rewrite B2; apply lookup_insert|look|]. intros h3 W3 _ A3. rewrite decide_True in A3 by (rewrite row_length; slia). rewrite B2, insert_insert in A3. clear B2.
  eapply wp_m_row_set_vecP; [exact W3|rewrite A3; rewrite lookup_insert_ne by congruence; apply lookup_insert|look|]. intros h4 W4 _ A4. rewrite decide_True in A4 by (rewrite row_length; slia).
  apply HQ; [exact W4|]. unfold copying. eexists _, _, _, _. rewrite A4, A3. rewrite (insert_commute _ do di) by congruence. rewrite insert_insert. rewrite Nat2Z.id.
  assert (R : forall (c : nat) (Z0 : nat -> nat -> F) (G : nat -> nat -> cell F), MatP c t (fun a b => if decide (a = i) then Some (nth b (row c Z0 q') s_zero) else filled (pick ix from Z0) i 0 G a b) = MatP c t (filled (pick ix from Z0) (S i) 0 G)).
  { clear - F. intros c0 Z0 G0. apply MatP_ext. intros a b Ha Hb. destruct (decide (a = i)) as [->|Hne].
    - rewrite nth_row by exact Hb. unfold filled. replace (i <? S i)%nat with true by (symmetry; apply Nat.ltb_lt; lia). reflexivity.
    - unfold filled. rewrite !Bool.andb_false_r, !Bool.orb_false_r. destruct (Nat.ltb_spec a i), (Nat.ltb_spec a (S i)); try reflexivity; lia. }
  unfold PX, PY. rewrite !R. reflexivity.
Qed.
Lemma wp_copy_rows h x y di do ri ro (c k n n' t from : nat) X Y ix G G' (m : gmap loc (aobj F)) v0 v1 w0 w1 (Q : unit -> heap F -> Prop) : wf h ->
  m !! x = Some (Mat c n X) -> m !! y = Some (Mat k n' Y) -> m !! di = None -> m !! do = None -> m !! ri = None -> m !! ro = None -> di <> do -> di <> ri -> di <> ro -> do <> ri -> do <> ro -> ri <> ro ->
  Z.of_nat c <= int_max -> Z.of_nat k <= int_max -> (from + t <= length ix)%nat -> (forall i, (i < length ix)%nat -> 0 <= nth i ix 0 < Z.of_nat (Nat.min n n')) ->
  abs h = <[di := MatP c t G]> (<[do := MatP k t G']> (<[ri := (SVec v0, v1)]> (<[ro := (SVec w0, w1)]> m))) ->
  (forall h' v0 v1 w0 w1, wf h' -> abs h' = <[di := Mat c t (pick ix from X)]> (<[do := Mat k t (pick ix from Y)]> (<[ri := (SVec v0, v1)]> (<[ro := (SVec w0, w1)]> m))) -> Q tt h') ->
  wp (copy_rows x y di do ri ro ix (Z.of_nat from) (Z.of_nat t)) h Q.
Proof.
  intros W Hx Hy Ndi Ndo Nri Nro D1 D2 D3 D4 D5 D6 Hc Hk Hlen Hix A HQ.
  unfold copy_rows. eapply (wp_for_n (fun i hi => wf hi /\ copying di do ri ro c k t ix from X Y G G' m i hi)).
  - split; [exact W|]. exists v0, v1, w0, w1. rewrite A, !filled_start. reflexivity.
  - intros i h0 Hi [W0 C0]. eapply wp_copy_row with (n := n) (n' := n'); try eassumption; [slia|]. intros h1 W1 C1. split; assumption.
  - intros hi [Wi (a & b & c1 & d1 & Ai)]. eapply HQ; [exact Wi|]. rewrite Ai, !filled_all. reflexivity.
Qed.
(** A loop whose k-th round fails. *)
Lemma bind_Crash {A B} (m : M F A) (k : A -> M F B) h : wp m h (fun x h' => k x h' = Crash) -> bind m k h = Crash.
Proof. unfold wp, bind. destruct (m h); intros HQ; try contradiction; exact HQ. Qed.
Lemma bind_Crash_first {A B} (m : M F A) (k : A -> M F B) h : m h = Crash -> bind m k h = Crash.
Proof. unfold bind. intros ->. reflexivity. Qed.
Lemma for_n_crash (I : nat -> heap F -> Prop) (body : Z -> M F unit) (n k : nat) h : (k < n)%nat -> I 0%nat h ->
  (forall i h, (i < k)%nat -> I i h -> wp (body (Z.of_nat i)) h (fun _ h' => I (S i) h')) -> (forall h, I k h -> body (Z.of_nat k) h = Crash) -> for_ 0 (Z.of_nat n) body h = Crash.
Proof.
  intros Hk H00 HB HC. unfold for_, for_acc. rewrite Z.sub_0_r, Nat2Z.id.
  assert (G : forall d j h, (j + d = k)%nat -> I j h -> for_nat (n - j) (Z.of_nat j) tt (fun i _ => body i) h = Crash).
  { induction d as [|d IH]; intros j hj Hj Ij.
    - replace (n - j)%nat with (S (n - S j)) by lia. cbn [for_nat]. apply bind_Crash_first. replace j with k by lia. apply HC. replace k with j by lia. exact Ij.
    - replace (n - j)%nat with (S (n - S j)) by lia. cbn [for_nat]. apply bind_Crash. eapply wp_mono; [apply HB; [lia|exact Ij]|]. intros [] hk Ik. replace (Z.of_nat j + 1) with (Z.of_nat (S j)) by lia. apply IH; [lia|exact Ik]. }
  specialize (G k 0%nat h ltac:(lia) H00). rewrite Nat.sub_0_r in G. exact G.
Qed.
Lemma copy_rows_crash h x y di do ri ro (c k n n' t : nat) X Y ix G G' (m : gmap loc (aobj F)) v0 v1 w0 w1 : wf h ->
  m !! x = Some (Mat c n X) -> m !! y = Some (Mat k n' Y) -> m !! di = None -> m !! do = None -> m !! ri = None -> m !! ro = None -> di <> do -> di <> ri -> di <> ro -> do <> ri -> do <> ro -> ri <> ro ->
  Z.of_nat c <= int_max -> Z.of_nat k <= int_max -> (length ix < t)%nat -> (forall i, (i < length ix)%nat -> 0 <= nth i ix 0 < Z.of_nat (Nat.min n n')) ->
  abs h = <[di := MatP c t G]> (<[do := MatP k t G']> (<[ri := (SVec v0, v1)]> (<[ro := (SVec w0, w1)]> m))) ->
  copy_rows x y di do ri ro ix 0 (Z.of_nat t) h = Crash.
Proof.
  intros W Hx Hy Ndi Ndo Nri Nro D1 D2 D3 D4 D5 D6 Hc Hk Hlen Hix A.
  unfold copy_rows. eapply (for_n_crash (fun i hi => wf hi /\ copying di do ri ro c k t ix 0 X Y G G' m i hi) _ t (length ix)); [exact Hlen| | |].
  - split; [exact W|]. exists v0, v1, w0, w1. rewrite A, !filled_start. reflexivity.
  - intros i h0 Hi [W0 C0]. eapply (wp_copy_row x y di do ri ro c k n n' t 0 i); try eassumption; [slia|]. intros h1 W1 C1. split; assumption.
  - intros h0 _. apply bind_Crash_first. unfold index_at. replace (0 + Z.of_nat (length ix) <? 0) with false by slia. replace (Z.to_nat (0 + Z.of_nat (length ix))) with (length ix) by slia.
    rewrite lookup_ge_None_2 by lia. reflexivity.
Qed.
Lemma wp_train_test_split draw h x y (c k n n' t : nat) X Y ts (Q : dataset * dataset -> heap F -> Prop) : wf h -> abs h !! x = Some (Mat c n X) -> abs h !! y = Some (Mat k n' Y) ->
  Z.of_nat c <= int_max -> Z.of_nat k <= int_max -> let N := Nat.min n n' in m_to_int (s_mul ts (s_of_Z (Z.of_nat N))) = Some (Z.of_nat t) -> (t <= N)%nat -> Z.of_nat N <= int_max ->
  let ix := shuffle draw (seqZ 0 (Z.of_nat N)) in
  (forall ai ao bi bo h', wf h' -> abs h !! ai = None -> abs h !! ao = None -> abs h !! bi = None -> abs h !! bo = None -> NoDup [ai; ao; bi; bo] ->
     abs h' = <[ai := Mat c (N - t) (pick ix t X)]> (<[ao := Mat k (N - t) (pick ix t Y)]> (<[bi := Mat c t (pick ix 0 X)]> (<[bo := Mat k t (pick ix 0 Y)]> (abs h)))) ->
     Q ((Some ai, Some ao), (Some bi, Some bo)) h') ->
  wp (train_test_split draw (Some (Some x, Some y)) ts) h Q.
Proof.
  intros W Hx Hy Hc Hk N Et Ht HN ix HQ.
  destruct (amat_len h x _ _ _ W Hx) as [_ Lx]. destruct (amat_len h y _ _ _ W Hy) as [_ Ly].
  assert (Pix : ix ≡ₚ seqZ 0 (Z.of_nat N)) by apply shuffle_perm.
  assert (Lix : length ix = N) by (rewrite Pix, seqZ_length; lia).
  assert (Hix : forall i, (i < length ix)%nat -> 0 <= nth i ix 0 < Z.of_nat (Nat.min n n')).
  { intros i Hi. assert (In (nth i ix 0) ix) as HI by (apply nth_In; exact Hi). apply elem_of_list_In in HI. apply (elem_of_Permutation_proper _ _ _ Pix) in HI. apply elem_of_seqZ in HI. fold N. lia. }
  assert (Bx : forall u, (u <= N)%nat -> 0 <= Z.of_nat c * Z.of_nat u <= int_max) by (intros u Hu; unfold N in Hu; clear - Hu Lx; nia).
  assert (By : forall u, (u <= N)%nat -> 0 <= Z.of_nat k * Z.of_nat u <= int_max) by (intros u Hu; unfold N in Hu; clear - Hu Ly; nia).
  unfold train_test_split.
  wbind. apply wp_m_new; [exact W|]. intros ai h1 W1 N1 A1 _. wbind. apply wp_m_new; [exact W1|]. intros ao h2 W2 N2 A2 _. rewrite A1 in N2, A2. split_none N2. clear A1.
  wbind. apply wp_m_new; [exact W2|]. intros bi h3 W3 N3 A3 _. rewrite A2 in N3, A3. split_none N3. clear A2. wbind. apply wp_m_new; [exact W3|]. intros bo h4 W4 N4 A4 _. rewrite A3 in N4, A4. split_none N4. clear A3.
  assert (x <> ai /\ x <> ao /\ x <> bi /\ x <> bo) as (X1 & X2 & X3 & X4) by (split_and!; congruence).
  assert (y <> ai /\ y <> ao /\ y <> bi /\ y <> bo) as (Y1 & Y2 & Y3 & Y4) by (split_and!; congruence).
  wbind. eapply wp_m_size; [look|]. wbind. eapply wp_m_size; [look|]. cbn [fst snd]. rewrite <- Nat2Z.inj_min. fold N. fold ix.
  wbind. apply wp_v_new; [exact W4|]. intros ri h5 W5 N5 A5 _. rewrite A4 in N5, A5. split_none N5. clear A4.
  wbind. eapply wp_v_resize; [exact W5|rewrite A5; apply lookup_insert|slia|]. intros h6 W6 A6 _. rewrite A5, insert_insert in A6. clear A5.
  wbind. apply wp_v_new; [exact W6|]. intros ro h7 W7 N7 A7 _. rewrite A6 in N7, A7. split_none N7. clear A6.
  wbind. eapply wp_v_resize; [exact W7|rewrite A7; apply lookup_insert|slia|]. intros h8 W8 A8 _. rewrite A7, insert_insert in A8. clear A7.
  wbind. unfold cast_int. rewrite Et. apply wp_ret.
  wbind. eapply wp_m_resize; [exact W8|look|apply Bx; exact Ht|]. intros h9 W9 A9 _. rewrite A8 in A9.
  wbind. eapply wp_m_resize; [exact W9|look|apply By; exact Ht|]. intros h10 W10 A10 _. rewrite A9 in A10. clear A8 A9.
  destruct (cells_MatP h10 bi c t _ W10 ltac:(rewrite A10; rewrite lookup_insert_ne by congruence; apply lookup_insert)) as [G HG].
  destruct (cells_MatP h10 bo k t _ W10 ltac:(rewrite A10; apply lookup_insert)) as [G' HG'].
  set (m := <[ai := (SMat 0 0, [])]> (<[ao := (SMat 0 0, [])]> (abs h)) : gmap loc (aobj F)).
  assert (B : exists v1 w1, abs h10 = <[bi := MatP c t G]> (<[bo := MatP k t G']> (<[ri := (SVec (Z.of_nat c), v1)]> (<[ro := (SVec (Z.of_nat k), w1)]> m)))).
  { eexists _, _. apply map_eq. intros l. destruct (decide (l = bi)) as [->|Lb]; [rewrite HG, lookup_insert; reflexivity|].
    destruct (decide (l = bo)) as [->|Lo]; [rewrite HG'; lk; reflexivity|]. clear HG HG'. rewrite A10. subst m.
    destruct (decide (l = ri)) as [->|L1]; [lk; reflexivity|]. destruct (decide (l = ro)) as [->|L2]; [lk; reflexivity|].
    destruct (decide (l = ai)) as [->|L3]; [lk; reflexivity|]. destruct (decide (l = ao)) as [->|L4]; lk; reflexivity. }
  clear A10 HG HG'. destruct B as (v1 & w1 & B).
  assert (M1 : forall l, l <> ai -> l <> ao -> m !! l = abs h !! l) by (intros l L1 L2; subst m; rewrite !lookup_insert_ne by congruence; reflexivity).
  wbind. eapply (wp_copy_rows h10 x y bi bo ri ro c k n n' t 0 X Y ix G G' m); [exact W10|rewrite M1 by congruence; exact Hx|rewrite M1 by congruence; exact Hy|rewrite M1 by congruence; assumption|rewrite M1 by congruence; assumption|rewrite M1 by congruence; assumption|rewrite M1 by congruence; assumption|congruence|congruence|congruence|congruence|congruence|congruence|exact Hc|exact Hk|rewrite Lix; slia|exact Hix|exact B|].
  clear dependent G. clear dependent G'. clear v1 w1. intros h11 v0 v1 w0 w1 W11 A11. clear dependent h10.
  wbind. apply wp_chk; [unfold int_max in *; slia|]. replace (Z.of_nat N - Z.of_nat t) with (Z.of_nat (N - t)) by slia.
  assert (E11 : abs h11 !! ai = Some (SMat 0 0, [])) by (rewrite A11; rewrite !(lookup_insert_ne _ bi), !(lookup_insert_ne _ bo), !(lookup_insert_ne _ ri), !(lookup_insert_ne _ ro) by congruence; subst m; apply lookup_insert).
  assert (E12 : abs h11 !! ao = Some (SMat 0 0, [])) by (rewrite A11; rewrite !(lookup_insert_ne _ bi), !(lookup_insert_ne _ bo), !(lookup_insert_ne _ ri), !(lookup_insert_ne _ ro) by congruence; subst m; rewrite lookup_insert_ne by congruence; apply lookup_insert).
  wbind. eapply wp_m_resize; [exact W11|exact E11|apply Bx; slia|]. intros h12 W12 A12 _.
  wbind. eapply wp_m_resize; [exact W12|rewrite A12, lookup_insert_ne by congruence; exact E12|apply By; slia|]. intros h13 W13 A13 _. rewrite A12, A11 in A13. clear A12 A11 E11 E12.
  destruct (cells_MatP h13 ai c (N - t) _ W13 ltac:(rewrite A13; rewrite lookup_insert_ne by congruence; apply lookup_insert)) as [G HG].
  destruct (cells_MatP h13 ao k (N - t) _ W13 ltac:(rewrite A13; apply lookup_insert)) as [G' HG'].
  set (m2 := <[bi := Mat c t (pick ix 0 X)]> (<[bo := Mat k t (pick ix 0 Y)]> (abs h)) : gmap loc (aobj F)).
  assert (B : abs h13 = <[ai := MatP c (N - t) G]> (<[ao := MatP k (N - t) G']> (<[ri := (SVec v0, v1)]> (<[ro := (SVec w0, w1)]> m2)))).
  { apply map_eq. intros l. destruct (decide (l = ai)) as [->|Lb]; [rewrite HG, lookup_insert; reflexivity|].
    destruct (decide (l = ao)) as [->|Lo]; [rewrite HG'; lk; reflexivity|]. clear HG HG'. rewrite A13. subst m m2.
    destruct (decide (l = ri)) as [->|L1]; [lk; reflexivity|]. destruct (decide (l = ro)) as [->|L2]; [lk; reflexivity|].
    destruct (decide (l = bi)) as [->|L3]; [lk; reflexivity|]. destruct (decide (l = bo)) as [->|L4]; lk; reflexivity. }
  clear A13 HG HG' M1.
  assert (M2 : forall l, l <> bi -> l <> bo -> m2 !! l = abs h !! l) by (intros l L1 L2; subst m2; rewrite !lookup_insert_ne by congruence; reflexivity).
  wbind. eapply (wp_copy_rows h13 x y ai ao ri ro c k n n' (N - t) t X Y ix G G' m2); [exact W13|rewrite M2 by congruence; exact Hx|rewrite M2 by congruence; exact Hy|rewrite M2 by congruence; assumption|rewrite M2 by congruence; assumption|rewrite M2 by congruence; assumption|rewrite M2 by congruence; assumption|congruence|congruence|congruence|congruence|congruence|congruence|exact Hc|exact Hk|rewrite Lix; slia|exact Hix|exact B|].
  clear dependent G. clear dependent G'. clear v0 v1 w0 w1. intros h14 v0 v1 w0 w1 W14 A14. clear dependent h13.
  wbind. eapply wp_del; [exact W14|rewrite A14; rewrite !(lookup_insert_ne _ ai), !(lookup_insert_ne _ ao), !(lookup_insert_ne _ ri) by congruence; apply lookup_insert|]. intros h15 W15 A15 _.
  wbind. eapply wp_del; [exact W15|rewrite A15, lookup_delete_ne, A14 by congruence; rewrite !(lookup_insert_ne _ ai), !(lookup_insert_ne _ ao) by congruence; apply lookup_insert|]. intros h16 W16 A16 _.
  apply wp_ret. eapply HQ; try assumption.
  - rewrite !list.NoDup_cons, !not_elem_of_cons. repeat split; try apply not_elem_of_nil; try congruence. apply NoDup_nil_2.
  - rewrite A16, A15, A14. rewrite !(delete_insert_ne _ ro) by congruence. rewrite (delete_insert m2 ro) by (rewrite M2 by congruence; assumption).
    rewrite !(delete_insert_ne _ ri) by congruence. rewrite (delete_insert m2 ri) by (rewrite M2 by congruence; assumption). reflexivity.
Qed.
Lemma train_test_split_crash draw h x y (c k n n' t : nat) X Y ts : wf h -> abs h !! x = Some (Mat c n X) -> abs h !! y = Some (Mat k n' Y) ->
  Z.of_nat c <= int_max -> Z.of_nat k <= int_max -> let N := Nat.min n n' in m_to_int (s_mul ts (s_of_Z (Z.of_nat N))) = Some (Z.of_nat t) -> (N < t)%nat -> Z.of_nat N <= int_max ->
  Z.of_nat (c * t) <= int_max -> Z.of_nat (k * t) <= int_max ->
  train_test_split draw (Some (Some x, Some y)) ts h = Crash.
Proof.
  intros W Hx Hy Hc Hk N Et Ht HN Lct Lkt. set (ix := shuffle draw (seqZ 0 (Z.of_nat N))).
  destruct (amat_len h x _ _ _ W Hx) as [_ Lx]. destruct (amat_len h y _ _ _ W Hy) as [_ Ly].
  assert (Pix : ix ≡ₚ seqZ 0 (Z.of_nat N)) by apply shuffle_perm.
  assert (Lix : length ix = N) by (rewrite Pix, seqZ_length; lia).
  assert (Hix : forall i, (i < length ix)%nat -> 0 <= nth i ix 0 < Z.of_nat (Nat.min n n')).
  { intros i Hi. assert (In (nth i ix 0) ix) as HI by (apply nth_In; exact Hi). apply elem_of_list_In in HI. apply (elem_of_Permutation_proper _ _ _ Pix) in HI. apply elem_of_seqZ in HI. fold N. lia. }
  unfold train_test_split.
  apply bind_Crash. apply wp_m_new; [exact W|]. intros ai h1 W1 N1 A1 _. apply bind_Crash. apply wp_m_new; [exact W1|]. intros ao h2 W2 N2 A2 _. rewrite A1 in N2, A2. split_none N2. clear A1.
  apply bind_Crash. apply wp_m_new; [exact W2|]. intros bi h3 W3 N3 A3 _. rewrite A2 in N3, A3. split_none N3. clear A2. apply bind_Crash. apply wp_m_new; [exact W3|]. intros bo h4 W4 N4 A4 _. rewrite A3 in N4, A4. split_none N4. clear A3.
  assert (x <> ai /\ x <> ao /\ x <> bi /\ x <> bo) as (X1 & X2 & X3 & X4) by (split_and!; congruence).
  assert (y <> ai /\ y <> ao /\ y <> bi /\ y <> bo) as (Y1 & Y2 & Y3 & Y4) by (split_and!; congruence).
  apply bind_Crash. eapply wp_m_size; [look|]. apply bind_Crash. eapply wp_m_size; [look|]. cbn [fst snd]. rewrite <- Nat2Z.inj_min. fold N. fold ix.
  apply bind_Crash. apply wp_v_new; [exact W4|]. intros ri h5 W5 N5 A5 _. rewrite A4 in N5, A5. split_none N5. clear A4.
  apply bind_Crash. eapply wp_v_resize; [exact W5|rewrite A5; apply lookup_insert|slia|]. intros h6 W6 A6 _. rewrite A5, insert_insert in A6. clear A5.
  apply bind_Crash. apply wp_v_new; [exact W6|]. intros ro h7 W7 N7 A7 _. rewrite A6 in N7, A7. split_none N7. clear A6.
  apply bind_Crash. eapply wp_v_resize; [exact W7|rewrite A7; apply lookup_insert|slia|]. intros h8 W8 A8 _. rewrite A7, insert_insert in A8. clear A7.
  apply bind_Crash. unfold cast_int. rewrite Et. apply wp_ret.
  apply bind_Crash. eapply wp_m_resize; [exact W8|look|slia|]. intros h9 W9 A9 _. rewrite A8 in A9.
  apply bind_Crash. eapply wp_m_resize; [exact W9|look|slia|]. intros h10 W10 A10 _. rewrite A9 in A10. clear A8 A9.
  destruct (cells_MatP h10 bi c t _ W10 ltac:(rewrite A10; rewrite lookup_insert_ne by congruence; apply lookup_insert)) as [G HG].
  destruct (cells_MatP h10 bo k t _ W10 ltac:(rewrite A10; apply lookup_insert)) as [G' HG'].
  set (m := <[ai := (SMat 0 0, [])]> (<[ao := (SMat 0 0, [])]> (abs h)) : gmap loc (aobj F)).
  assert (B : exists v1 w1, abs h10 = <[bi := MatP c t G]> (<[bo := MatP k t G']> (<[ri := (SVec (Z.of_nat c), v1)]> (<[ro := (SVec (Z.of_nat k), w1)]> m)))).
  { eexists _, _. apply map_eq. intros l. destruct (decide (l = bi)) as [->|Lb]; [rewrite HG, lookup_insert; reflexivity|].
    destruct (decide (l = bo)) as [->|Lo]; [rewrite HG'; lk; reflexivity|]. clear HG HG'. rewrite A10. subst m.
    destruct (decide (l = ri)) as [->|L1]; [lk; reflexivity|]. destruct (decide (l = ro)) as [->|L2]; [lk; reflexivity|].
    destruct (decide (l = ai)) as [->|L3]; [lk; reflexivity|]. destruct (decide (l = ao)) as [->|L4]; lk; reflexivity. }
  clear A10 HG HG'. destruct B as (v1 & w1 & B).
  assert (M1 : forall l, l <> ai -> l <> ao -> m !! l = abs h !! l) by (intros l L1 L2; subst m; rewrite !lookup_insert_ne by congruence; reflexivity).
  apply bind_Crash_first. eapply (copy_rows_crash h10 x y bi bo ri ro c k n n' t X Y ix G G' m); [exact W10|rewrite M1 by congruence; exact Hx|rewrite M1 by congruence; exact Hy|rewrite M1 by congruence; assumption|rewrite M1 by congruence; assumption|rewrite M1 by congruence; assumption|rewrite M1 by congruence; assumption|congruence|congruence|congruence|congruence|congruence|congruence|exact Hc|exact Hk|rewrite Lix; slia|exact Hix|exact B].
Qed.
End dataproofs2.
