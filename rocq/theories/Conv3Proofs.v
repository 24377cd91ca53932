(** * Pooling of tensors, symbolically executed. *)
From Verif Require Import Base BaseProofs Vec VecSpec VecProofs VecProofs2 Mat MatSpec MatProofs MatProofs2 MatProofs3 MatProofs4 MatProofs5 Ten TenSpec TenProofs TenProofs2 TenProofs3 Act Stat StatProofs Util UtilProofs Sym Svm Data DataProofs Conv ConvProofs Harris HarrisProofs Conv3.

Local Notation S := Datatypes.S.
Local Notation S3 x y z := (STen (Z.of_nat x) (Z.of_nat y) (Z.of_nat z)).
Section conv3proofs.
Context {F : Type} `{Scalar F} `{Libm F}.
Implicit Types (h : heap F).

(** A tensor whose first slices are [sl] and whose other cells are [rest]. *)
Definition Part (c r d : nat) (sl : list (list F)) (rest : list (option F)) : aobj F := (S3 c r d, (Some <$> concat sl) ++ rest).
Lemma wp_slice_fill h l (c r d i : nat) sl rest b v (Q : unit -> heap F -> Prop) : wf h -> abs h !! l = Some (Part c r d sl rest) -> length sl = i -> (i < d)%nat -> width (r * c) sl ->
  abs h !! b = Some (AMat c r v) -> (forall h' , wf h' -> abs h' = <[l := Part c r d (sl ++ [v]) (drop (r * c) rest)]> (abs h) -> Q tt h') -> wp (t_slice_set_mat l (Z.of_nat i) (Some b)) h Q.
Proof.
  intros W Ha Hi Hd Hw Hb HQ. assert (b <> l) as Hne by (intros ->; rewrite Ha in Hb; discriminate). destruct (ten_len _ _ _ _ _ _ W Ha) as [Hl Hle]. pose proof (ten_fits _ _ _ _ _ _ W Ha ltac:(lia)) as Hf.
  destruct (amat_len h b _ _ _ W Hb) as [Hv _]. rewrite app_length, fmap_length, (concat_len _ _ Hw) in Hl.
  unfold t_slice_set_mat. wbind. eapply wp_t_size; [exact Ha|]. cbv beta iota zeta. rewrite good_idx by lia.
  wbind. eapply wp_t_zds; [exact Ha|exact Hf|]. wbind. eapply wp_m_size; [exact Hb|]. unfold size_eq. cbn [fst snd]. rewrite !Z.eqb_refl. cbn [andb negb].
  replace (Z.of_nat c * Z.of_nat r * Z.of_nat i) with (Z.of_nat (i * (r * c))) by nia. change 0 with (Z.of_nat 0).
  assert (i * (r * c) + r * c <= d * (r * c))%nat by nia.
  eapply wp_t_copy; [exact W|exact Ha|exact Hb|exact Hne|rewrite app_length, fmap_length, (concat_len _ _ Hw); lia|lia|].
  intros h' W' _ A'. apply HQ; [exact W'|]. rewrite A'. f_equal. unfold Part. f_equal. rewrite drop_0, (take_ge v) by lia. rewrite concat_app. cbn [concat]. rewrite app_nil_r, fmap_app, <- app_assoc.
  rewrite take_app_alt by (rewrite fmap_length, (concat_len _ _ Hw); lia). f_equal. f_equal. rewrite drop_app_ge by (rewrite fmap_length, (concat_len _ _ Hw); lia). f_equal. rewrite fmap_length, (concat_len _ _ Hw). lia.
Qed.
Lemma Part_done c r d sl rest : length sl = d -> length rest = 0%nat -> Part c r d sl rest = Slices c r sl.
Proof. intros <- Hr. destruct rest; [|discriminate]. unfold Part, Slices, ATen. rewrite app_nil_r. reflexivity. Qed.
Lemma slices_lookup c r d (X : nat -> nat -> nat -> F) i : (i < d)%nat -> (slice_of c r X <$> seq 0 d) !! i = Some (mlist c r (X i)).
Proof. intros Hi. rewrite list_lookup_fmap, lookup_seq_lt by exact Hi. reflexivity. Qed.

Lemma wp_pool_3d h x (c r d fs : nat) X st ty (Q : loc -> heap F -> Prop) : wf h -> abs h !! x = Some (Ten c r d X) -> 0 < st -> (1 <= fs)%nat -> (fs <= r)%nat ->
  Z.of_nat r * Z.of_nat r <= int_max -> Z.of_nat c * Z.of_nat r <= int_max -> Z.of_nat d * (Z.of_nat r * Z.of_nat r) <= int_max ->
  (forall o h' (ms : nat), Z.of_nat ms = (Z.of_nat r - Z.of_nat fs) / st + 1 -> wf h' -> abs h !! o = None -> abs h' = <[o := Ten ms ms d (fun k => pool_at c r (X k) st fs ty)]> (abs h) -> Q o h') ->
  wp (pool_3d (Some x) (Z.of_nat fs) st ty) h Q.
Proof.
  intros W Ax Hst Hf1 Hfr HB HC HD HQ. destruct (Ten_Slices c r d X) as [ES HW]. rewrite ES in Ax. unfold pool_3d. wbind. apply wp_deref_Some. wbind. eapply wp_t_size; [exact Ax|]. cbv beta iota. rewrite fmap_length, seq_length.
  wbind. apply wp_m_new; [exact W|]. intros zs h1 W1 N1 A1 _. wbind. eapply wp_m_resize; [exact W1|rewrite A1; apply lookup_insert|lia|]. intros h2 W2 A2 _. rewrite A1, insert_insert in A2.
  wbind. change 0 with (Z.of_nat 0) at 1. apply wp_conv_size; [exact Hst|lia|unfold int_max in *; nia|]. intros ms Hms Lms. rewrite Z.mul_0_r, Z.add_0_r in Hms. assert (Lm : (ms <= r)%nat) by lia.
  wbind. apply wp_t_new; [exact W2|]. intros o h3 W3 N3 A3. rewrite A2 in N3. apply lookup_insert_None in N3 as [N3 D3].
  assert (Hq : Z.of_nat ms * Z.of_nat ms <= Z.of_nat r * Z.of_nat r) by nia.
  wbind. eapply wp_t_resize; [exact W3|rewrite A3; apply lookup_insert|unfold fits; nia|nia|]. intros h4 W4 A4. rewrite A3, insert_insert, A2 in A4.
  set (row := fun k => mlist ms ms (pool_at c r (X k) st fs ty)).
  wbind. eapply (wp_for_n (fun i hi => wf hi /\ exists zc rest, length rest = ((d - i) * (ms * ms))%nat /\ abs hi = <[o := Part ms ms d (row <$> seq 0 i) rest]> (<[zs := (SMat (Z.of_nat c) (Z.of_nat r), zc)]> (abs h)))).
  - split; [exact W4|]. eexists _, _. split; [|rewrite A4; unfold Part; cbn [seq fmap list_fmap concat app]; reflexivity]. rewrite resize_length. lia.
  - intros i hi Hi (Wi & zc & rest & Hr & Ai).
    assert (x <> o /\ x <> zs) as [X1 X2] by (split; intros ->; congruence).
    wbind. eapply wp_t_slice_get_into_mat; [exact Wi|rewrite Ai, !lookup_insert_ne by congruence; exact Ax|exact HW|lia|rewrite Nat2Z.id; apply slices_lookup; exact Hi|rewrite Ai, lookup_insert_ne, lookup_insert by congruence; reflexivity|].
    intros hj Wj Aj. rewrite Ai, (insert_commute _ zs o), insert_insert in Aj by congruence.
    wbind. eapply wp_pool_2d; [exact Wj|rewrite Aj, lookup_insert_ne, lookup_insert by congruence; reflexivity|exact Hst|exact Hf1|exact Hfr|exact HB|]. intros p hk ms' Hms' Wk Nk Ak. assert (ms' = ms) as -> by lia.
    rewrite Aj in Nk. apply lookup_insert_None in Nk as [Nk Do]. apply lookup_insert_None in Nk as [Nk Dz].
    assert (Hwr : width (ms * ms) (row <$> seq 0 i)) by (unfold width; rewrite Forall_fmap; apply Forall_true; intros k; cbn; unfold row; apply mlist_length).
    wbind. eapply wp_slice_fill; [exact Wk|rewrite Ak, Aj, lookup_insert_ne, lookup_insert by congruence; reflexivity|rewrite fmap_length, seq_length; reflexivity|exact Hi|exact Hwr|rewrite Ak; apply lookup_insert|].
    intros hl Wl Al. rewrite Ak, Aj in Al. rewrite (insert_commute _ o p), insert_insert in Al by congruence.
    eapply wp_del; [exact Wl|rewrite Al; apply lookup_insert|]. intros hm Wm Am _. rewrite Al, delete_insert in Am by (rewrite !lookup_insert_ne by congruence; exact Nk).
    split; [exact Wm|]. eexists _, _. split; [|rewrite Am; rewrite seq_S, fmap_app; reflexivity]. rewrite drop_length, Hr. nia.
  - intros hi (Wi & zc & rest & Hr & Ai). rewrite Nat.sub_diag in Hr. rewrite Part_done in Ai by (rewrite ?fmap_length, ?seq_length; auto).
    rewrite (insert_commute _ o zs) in Ai by congruence. wbind. eapply wp_del; [exact Wi|rewrite Ai; apply lookup_insert|]. intros hj Wj Aj _. rewrite Ai, delete_insert in Aj by (rewrite lookup_insert_ne by congruence; exact N1).
    apply wp_ret. eapply HQ; [exact Hms|exact Wj|exact N3|]. rewrite Aj, (proj1 (Ten_Slices ms ms d _)). reflexivity.
Qed.

Lemma wp_global_pool_3d h x (c r d : nat) X ty (Q : loc -> heap F -> Prop) : wf h -> abs h !! x = Some (Ten c r d X) -> Z.of_nat c * Z.of_nat r <= int_max -> Z.of_nat d <= int_max ->
  (forall o h', wf h' -> abs h !! o = None -> abs h' = <[o := AVec ((fun k => pooled ty (mlist c r (X k))) <$> seq 0 d)]> (abs h) -> Q o h') ->
  wp (global_pool_3d (Some x) ty) h Q.
Proof.
  intros W Ax HC HD HQ. destruct (Ten_Slices c r d X) as [ES HW]. rewrite ES in Ax. unfold global_pool_3d. wbind. apply wp_deref_Some. wbind. eapply wp_t_size; [exact Ax|]. cbv beta iota. rewrite fmap_length, seq_length.
  wbind. apply wp_v_new; [exact W|]. intros o h1 W1 N1 A1 _. wbind. eapply wp_v_resize; [exact W1|rewrite A1; apply lookup_insert|lia|]. intros h2 W2 A2 _. rewrite A1, insert_insert in A2.
  wbind. apply wp_m_new; [exact W2|]. intros zs h3 W3 N3 A3 _. rewrite A2 in N3. apply lookup_insert_None in N3 as [N3 D3].
  wbind. eapply wp_m_resize; [exact W3|rewrite A3; apply lookup_insert|lia|]. intros h4 W4 A4 _. rewrite A3, insert_insert, A2 in A4.
  set (val := fun k => pooled ty (mlist c r (X k))).
  assert (x <> o /\ x <> zs) as [X1 X2] by (split; intros ->; congruence).
  wbind. eapply (wp_for_n (fun i hi => wf hi /\ exists zc rest, length rest = (d - i)%nat /\ abs hi = <[o := (SVec (Z.of_nat d), (Some <$> (val <$> seq 0 i)) ++ rest)]> (<[zs := (SMat (Z.of_nat c) (Z.of_nat r), zc)]> (abs h)))).
  - split; [exact W4|]. eexists _, _. split; [|rewrite A4, (insert_commute _ zs o) by congruence; cbn [seq fmap list_fmap app]; reflexivity]. rewrite resize_length. lia.
  - intros i hi Hi (Wi & zc & rest & Hr & Ai).
    wbind. eapply wp_t_slice_get_into_mat; [exact Wi|rewrite Ai, !lookup_insert_ne by congruence; exact Ax|exact HW|lia|rewrite Nat2Z.id; apply slices_lookup; exact Hi|rewrite Ai, lookup_insert_ne, lookup_insert by congruence; reflexivity|].
    intros hj Wj Aj. rewrite Ai, (insert_commute _ zs o), insert_insert in Aj by congruence.
    wbind. eapply wp_global_pool; [exact Wj|rewrite Aj, lookup_insert_ne, lookup_insert by congruence; reflexivity|]. intros hk Wk Ak.
    eapply wp_v_set; [exact Wk|rewrite Ak, Aj; apply lookup_insert|]. intros hl Wl _ Al. replace (Z.of_nat i <? 0) with false in Al by lia. rewrite Nat2Z.id, Ak, Aj, insert_insert in Al.
    split; [exact Wl|]. destruct rest as [|u rest]; [cbn in Hr; lia|]. eexists _, rest. split; [cbn in Hr; lia|]. rewrite Al. f_equal. f_equal.
    rewrite insert_app_r_alt by (rewrite !fmap_length, seq_length; lia). rewrite !fmap_length, seq_length, Nat.sub_diag. cbn [list_insert insert]. rewrite seq_S, !fmap_app, <- app_assoc. reflexivity.
  - intros hi (Wi & zc & rest & Hr & Ai). rewrite Nat.sub_diag in Hr. destruct rest; [|discriminate]. rewrite app_nil_r in Ai.
    rewrite (insert_commute _ o zs) in Ai by congruence. wbind. eapply wp_del; [exact Wi|rewrite Ai; apply lookup_insert|]. intros hj Wj Aj _. rewrite Ai, delete_insert in Aj by (rewrite lookup_insert_ne by congruence; exact N3).
    apply wp_ret. eapply HQ; [exact Wj|exact N1|]. rewrite Aj. f_equal. unfold AVec. rewrite fmap_length, seq_length. reflexivity.
Qed.

Lemma wp_compute_m h x (c r : nat) X (Q : loc -> heap F -> Prop) : wf h -> abs h !! x = Some (Mat c r X) ->
  (1 <= r)%nat -> (Z.of_nat r + 2) * (Z.of_nat r + 2) <= int_max -> Z.of_nat (r + 2) < int_max -> 3 * (Z.of_nat r * Z.of_nat r) <= int_max -> m_to_int (harris_pad (F := F) (Z.of_nat r)) = Some 1 ->
  (forall o h', wf h' -> abs h !! o = None -> abs h' = <[o := Ten r r 3 (fun k => match k with O => mxx c r X | 1%nat => myy c r X | _ => mxy c r X end)]> (abs h) -> Q o h') -> wp (compute_m (Some x)) h Q.
Proof.
  intros W A Hr HB HL H3 Hp HQ. unfold compute_m. wbind. eapply wp_compute_mv; [exact W|exact A|exact Hr|exact HB|exact HL|exact Hp|].
  intros m0 m1 m2 h1 W1 N0 N1 N2 D1 D2 D3 A1. cbv beta iota. wbind. eapply wp_m_size; [rewrite A1, !lookup_insert_ne, lookup_insert by congruence; reflexivity|]. cbn [fst snd].
  wbind. apply wp_t_new; [exact W1|]. intros o h2 W2 N3 A2. rewrite A1 in N3. apply lookup_insert_None in N3 as [N3 E2]. apply lookup_insert_None in N3 as [N3 E1]. apply lookup_insert_None in N3 as [N3 E0].
  wbind. change 3 with (Z.of_nat 3) at 1. eapply wp_t_resize; [exact W2|rewrite A2; apply lookup_insert|unfold fits; nia|nia|]. intros h3 W3 A3. rewrite A2, insert_insert, A1 in A3.
  set (rest := list.resize _ _ _) in A3. assert (Lr : length rest = (3 * (r * r))%nat) by (unfold rest; rewrite resize_length; reflexivity).
  assert (HW : forall Y, length (mlist r r Y : list F) = (r * r)%nat) by (intros; apply mlist_length).
  change (_, rest) with (Part r r 3 [] rest) in A3.
  wbind. change 0 with (Z.of_nat 0). eapply (wp_slice_fill h3 o r r 3 0 [] rest); [exact W3|rewrite A3; apply lookup_insert|reflexivity|lia|constructor|rewrite A3, !lookup_insert_ne, lookup_insert by congruence; reflexivity|].
  intros h4 W4 A4. rewrite A3, insert_insert in A4.
  wbind. change 1 with (Z.of_nat 1). eapply (wp_slice_fill h4 o r r 3 1); [exact W4|rewrite A4; apply lookup_insert|reflexivity|lia|repeat constructor; apply HW|rewrite A4, !lookup_insert_ne, lookup_insert by congruence; reflexivity|].
  intros h5 W5 A5. rewrite A4, insert_insert in A5.
  wbind. change 2 with (Z.of_nat 2). eapply (wp_slice_fill h5 o r r 3 2); [exact W5|rewrite A5; apply lookup_insert|reflexivity|lia|repeat constructor; apply HW|rewrite A5, lookup_insert_ne, lookup_insert by congruence; reflexivity|].
  intros h6 W6 A6. rewrite A5, insert_insert in A6.
  rewrite Part_done in A6; [|reflexivity|rewrite !drop_length, Lr; lia].
  rewrite (insert_commute _ o m2) in A6 by congruence. wbind. eapply wp_del; [exact W6|rewrite A6; apply lookup_insert|]. intros h7 W7 A7 _. rewrite A6, delete_insert in A7 by (rewrite !lookup_insert_ne by congruence; exact N2).
  rewrite (insert_commute _ o m1) in A7 by congruence. wbind. eapply wp_del; [exact W7|rewrite A7; apply lookup_insert|]. intros h8 W8 A8 _. rewrite A7, delete_insert in A8 by (rewrite !lookup_insert_ne by congruence; exact N1).
  rewrite (insert_commute _ o m0) in A8 by congruence. wbind. eapply wp_del; [exact W8|rewrite A8; apply lookup_insert|]. intros h9 W9 A9 _. rewrite A8, delete_insert in A9 by (rewrite !lookup_insert_ne by congruence; exact N0).
  apply wp_ret. apply HQ; [exact W9|exact N3|]. rewrite A9, (proj1 (Ten_Slices r r 3 _)). reflexivity.
Qed.
End conv3proofs.
