(** * The normal equation and Newton-Raphson training of linear regression, for any arithmetic. *)
From Verif Require Import Base BaseProofs Vec VecSpec VecProofs VecProofs2 Mat MatSpec MatProofs MatProofs2 MatProofs3 MatProofs4 MatProofs5 DetProofs Frame Stat StatProofs Act ActProofs ActProofs2 Cost CostProofs Sym Svm LinAlg LinAlgProofs Util UtilProofs Glm GlmProofs GlmProofs2.
Section glm.
Context {F : Type} `{Scalar F} `{Libm F}.
Implicit Types (h : heap F) (xs ys ws v : list F) (X : nat -> nat -> F).

Definition gramF (n : nat) X : nat -> nat -> F := mat_mul n (mat_tr X) X.
Definition ridgeF (n : nat) X (ridge : option F) : nat -> nat -> F :=
  match ridge with None => gramF n X | Some la => fun i j => s_add (gramF n X i j) (s_mul (mat_id i j) la) end.
Definition normal_pure (n k : nat) X ys (ridge : option F) : list F := vlist k (mv_row (inv_entry k (ridgeF n X ridge)) (xt_e n k X ys) k).
Definition col_means (n k : nat) X : list F := vlist k (fun j => f_mean (vlist n (fun i => X i j))).

Lemma wp_normal_w h x y k n X ys (ridge : option F) (Q : option loc -> heap F -> Prop) : wf h -> abs h !! x = Some (Mat k n X) -> abs h !! y = Some (AVec ys) -> length ys = n ->
  Z.of_nat (k * k) <= int_max -> 
  (forall d h', wf h' -> abs h !! d = None -> abs h' = <[d := AVec (normal_pure n k X ys ridge)]> (abs h) -> Q (Some d) h') ->
  wp (normal_w (Some x) (Some y) (match ridge with None => None | Some la => Some (Z.of_nat k, la) end)) h Q.
Proof.
  intros W Hx Hy El Hkk HQ. assert (Hk : Z.of_nat k <= int_max) by (destruct k; unfold int_max in *; lia).
  unfold normal_w. wbind. apply wp_deref_Some. wbind. eapply wp_m_transposen; [exact W|exact Hx|]. intros xt h1 W1 N1 A1.
  wbind. eapply (wp_m_multn h1 xt x k n k); [exact W1|look|look|exact Hkk|]. new_as g h2 W2 N2 A2. wbind. apply wp_deref_Some.
  set (m := <[g := Mat k k (mat_mul n (mat_tr X) X)]> (<[xt := Mat n k (mat_tr X)]> (abs h))) in *.
  wbind. apply wp_mono with (Q := fun iv h' => wf h' /\ m !! iv = None /\ abs h' = <[iv := Mat k k (inv_entry k (ridgeF n X ridge))]> m).
  { destruct ridge as [la|].
    - wbind. eapply wp_m_identity_mat; [exact W2|exact Hkk|]. intros i h3 W3 N3 A3. rewrite A2 in N3, A3. 
      wbind. eapply wp_m_mapn_dup; [exact W3|rewrite A3; apply lookup_insert|]. intros li h4 W4 N4 A4. rewrite A3 in N4, A4. apply lookup_insert_None in N4 as [N4 D4].
      assert (g <> i) by (intros ->; unfold m in N3; rewrite lookup_insert in N3; discriminate). assert (g <> li) by (intros ->; unfold m in N4; rewrite lookup_insert in N4; discriminate).
      wbind. eapply (wp_m_op2n s_add h4 g li k k); [exact W4|rewrite A4, !lookup_insert_ne by congruence; apply lookup_insert|rewrite A4; apply lookup_insert|].
      intros a h5 W5 N5 A5. rewrite A4 in N5, A5. apply lookup_insert_None in N5 as [N5 D5]. apply lookup_insert_None in N5 as [N5 D5'].
      assert (EM : AMat k k (zip_with s_add (mlist k k (mat_mul n (mat_tr X) X)) ((fun x => s_mul x la) <$> mlist k k mat_id)) = Mat k k (ridgeF n X (Some la))).
      { rewrite mlist_fmap, mlist_zip. reflexivity. }
      rewrite EM in A5. wbind. apply wp_deref_Some. wbind. eapply wp_m_inverse; [exact W5|rewrite A5; apply lookup_insert|]. intros iv h6 W6 N6 A6. rewrite A5 in N6, A6.
      apply lookup_insert_None in N6 as [N6 D6]. apply lookup_insert_None in N6 as [N6 D6']. apply lookup_insert_None in N6 as [N6 D6''].
      wbind. clearbody m. dele h7 W7 A7. wbind. dele h8 W8 A8. wbind. dele h9 W9 A9. apply wp_ret. auto.
    - eapply wp_m_inverse; [exact W2|rewrite A2; apply lookup_insert|]. intros iv h3 W3 N3 A3. rewrite A2 in N3, A3. auto. }
  intros iv h3 (W3 & N3 & A3). unfold m in N3. split_none N3. unfold m in A3. clear m A2.
  wbind. eapply wp_xt_vec; [exact W3|look|look|exact El|exact Hk|]. new_as t h4 W4 N4 A4.
  wbind. eapply (wp_m_mult_vec h4 iv t k k _ (xt_e n k X ys)); [exact W4|look|look|rewrite xt_e_length; slia|exact Hk|]. rewrite xt_e_length. new_as w h5 W5 N5 A5.
  wbind. cbn [free drop_ref]. dele h6 W6 A6. wbind. dele h7 W7 A7. wbind. dele h8 W8 A8. wbind. dele h9 W9 A9. apply wp_ret. apply HQ; assumption.
Qed.

Lemma wp_st_mean h x xs (Q : F -> heap F -> Prop) : wf h -> abs h !! x = Some (AVec xs) -> Q (f_mean xs) h -> wp (st_mean (Some x)) h Q.
Proof. intros W Hx HQ. unfold wp. rewrite (st_mean_eq h x xs) by assumption. exact HQ. Qed.
Lemma wp_column_means h x k n X (Q : loc -> heap F -> Prop) : wf h -> abs h !! x = Some (Mat k n X) -> Z.of_nat n <= int_max -> Z.of_nat k <= int_max ->
  (forall d h', wf h' -> abs h !! d = None -> abs h' = <[d := AVec (col_means n k X)]> (abs h) -> Q d h') -> wp (column_means (Some x)) h Q.
Proof.
  intros W Hx Hn Hk HQ. unfold column_means. wbind. apply wp_deref_Some. wbind. eapply wp_m_transposen; [exact W|exact Hx|]. intros t h1 W1 N1 A1.
  wbind. eapply wp_m_size; [look|]. cbn [fst snd].
  wbind. apply wp_v_new; [exact W1|]. intros row h2 W2 N2 A2 _. rewrite A1 in N2, A2. split_none N2.
  wbind. eapply wp_v_resize; [exact W2|look|slia|]. intros h3 W3 A3 _. rewrite A2, insert_insert in A3.
  wbind. apply wp_v_new; [exact W3|]. intros mu h4 W4 N4 A4 _. rewrite A3 in N4, A4. split_none N4.
  wbind. eapply wp_v_resize; [exact W4|look|slia|]. intros h5 W5 A5 _. rewrite A4, insert_insert in A5. 
  wbind. eapply (wp_for_n (fun i h' => wf h' /\ exists n0 c0, abs h' = <[mu := (SVec (Z.of_nat k), (Some <$> take i (col_means n k X)) ++ replicate (k - i) None)]> (<[row := (SVec n0, c0)]> (<[t := Mat n k (mat_tr X)]> (abs h))))).
  - split; [exact W5|]. eexists _, _. rewrite A5, Nat2Z.id, take_0, Nat.sub_0_r. cbn [fmap list_fmap app]. rewrite resize_nil. reflexivity.
  - intros i h6 Hi (W6 & n0 & c0 & A6). wbind. eapply (wp_row_into h6 t row n k _ i); [exact W6|look|look|reflexivity|exact Hi|]. intros h7 W7 A7. rewrite A6 in A7.
    wbind. eapply wp_st_mean; [exact W7|rewrite A7; apply lookup_insert|].
    eapply wp_v_set; [exact W7|rewrite A7, lookup_insert_ne by congruence; apply lookup_insert|]. intros h8 W8 _ A8. rewrite A7 in A8. replace (Z.of_nat i <? 0) with false in A8 by slia. rewrite Nat2Z.id in A8.
    split; [exact W8|]. eexists _, _. rewrite A8. rewrite (insert_commute _ row mu) by congruence. rewrite insert_insert. rewrite insert_insert. f_equal. f_equal.
    assert (Hl : col_means n k X !! i = Some (f_mean (vlist n (fun i0 => X i0 i)))) by (unfold col_means, vlist at 1; rewrite list_lookup_fmap, lookup_seq_lt by exact Hi; reflexivity).
    rewrite (take_S_r _ _ _ Hl), fmap_app, <- app_assoc. assert (L : length (Some <$> take i (col_means n k X)) = i) by (rewrite fmap_length, take_length; unfold col_means; rewrite vlist_length; slia).
    rewrite insert_app_r_alt by slia. rewrite L, Nat.sub_diag. f_equal. replace (k - i)%nat with (S (k - S i)) by slia. reflexivity.
  - intros h6 (W6 & n0 & c0 & A6). rewrite take_ge in A6 by (unfold col_means; rewrite vlist_length; slia). rewrite Nat.sub_diag in A6. cbn [replicate] in A6. rewrite app_nil_r in A6.
    wbind. dele h7 W7 A7. wbind. dele h8 W8 A8. apply wp_ret. apply HQ; [exact W8|assumption|]. rewrite A8. f_equal. unfold AVec, col_means. rewrite vlist_length. reflexivity.
Qed.

Section obj.
Context (base : gmap loc (aobj F)) (x y : loc) (k n : nat) (X : nat -> nat -> F) (ys : list F) (reg : regtype) (la al : F).
Context (Hx : base !! x = Some (Mat k n X)) (Hy : base !! y = Some (AVec ys)) (El : length ys = n) (Hn : Z.of_nat n <= int_max) (Hkk : Z.of_nat (k * k) <= int_max).
Notation glmS := (glmS base x y k n reg la al).
Definition ridge_of : option F := match reg with RRidge => Some la | _ => None end.
Definition normal_model : list F * F :=
  let w := normal_pure n k X ys ridge_of in (w, s_sub (f_mean ys) (dotl w (col_means n k X))).
(** [t0] is NaN when it differs from itself: then nothing changes. *)
Lemma wp_normal_equation s Yh o h (Q : glm -> heap F -> Prop) : glmS s Yh o h ->
  (forall o' h', let t0 := nth 0 (normal_pure n k X ys None) s_zero in
     (if s_eq t0 t0 then glmS normal_model (AVec (preds Lin n k X normal_model.1 normal_model.2)) o' h' else o' = o /\ wf h' /\ abs h' = abs h) -> Q o' h') ->
  wp (normal_equation o) h Q.
Proof using Hx Hy El Hn Hkk.
  intros (W & Ls & lw & ly & -> & D & N1 & N2 & A) HQ. assert (Hk : Z.of_nat k <= int_max) by (destruct k; unfold int_max in *; lia).
  assert (x <> lw) by congruence. assert (x <> ly) by congruence. assert (y <> lw) by congruence. assert (y <> ly) by congruence.
  unfold normal_equation. cbn [mkglm g_init negb g_x g_y g_reg g_k g_la g_w].
  wbind. eapply (wp_column_means h x k n X); [exact W|look|exact Hn|exact Hk|]. intros mu h1 W1 N3 A1. assert (N3' := N3). rewrite A in N3', A1. split_none N3'.
  wbind. apply (wp_normal_w h1 x y k n X ys None); [exact W1|look|look|exact El|exact Hkk|]. intros t h2 W2 N4 A2. assert (N4' := N4). rewrite A1 in N4', A2. split_none N4'.
  wbind. apply wp_deref_Some. assert (Lp : forall r, length (normal_pure n k X ys r) = k) by (intros; apply vlist_length).
  wbind. eapply (wp_v_get h2 t (normal_pure n k X ys None)); [exact W2|look|]. change (0 <? 0) with false. cbv iota. change (Z.to_nat 0) with 0%nat. rewrite <- nth_lookup.
  cbv zeta in HQ. set (t0 := nth 0 (normal_pure n k X ys None) s_zero) in *.
  destruct (s_eq t0 t0) eqn:E; cbn [negb].
  2:{ wbind. dele h3 W3 A3. wbind. dele h4 W4 A4. apply wp_ret. apply HQ. split; [reflexivity|]. split; [exact W4|]. congruence. }
  wbind. replace (match reg with RRidge => Some (Z.of_nat k, la) | _ => None end) with (match ridge_of with None => None | Some l => Some (Z.of_nat k, l) end) by (unfold ridge_of; destruct reg; reflexivity).
  apply (wp_normal_w h2 x y k n X ys ridge_of); [exact W2|look|look|exact El|exact Hkk|]. intros w h3 W3 N5 A3. rewrite A2 in N5, A3. split_none N5.
  wbind. cbn [drop_ref]. eapply wp_del; [exact W3|look|]. intros h4 W4 A4 _. rewrite A3 in A4.
  rewrite !delete_insert_ne in A4 by congruence. rewrite delete_insert in A4 by exact N1.
  wbind. eapply wp_st_mean; [exact W4|look|]. wbind. apply wp_deref_Some. wbind. eapply wp_v_dot; [exact W4|look|look|].
  assert (Lc : length (col_means n k X) = k) by apply vlist_length. rewrite Lp, Lc, decide_True by reflexivity.
  wbind. eapply (wp_forward_raw x k n X Hn Lin _ h4 _ w ly normal_model.1 normal_model.2); [exact W4|exact A4|reflexivity|reflexivity|reflexivity|reflexivity|look|look|look|apply Lp|].
  intros d h5 W5 N6 A5. split_none N6. rewrite !delete_insert_ne in A5 by congruence. rewrite delete_insert in A5 by exact N2.
  wbind. dele h6 W6 A6. wbind. dele h7 W7 A7. apply wp_ret. apply HQ. split; [exact W7|]. split; [apply Lp|].
  exists w, d. split; [reflexivity|]. split; [congruence|]. split; [assumption|]. split; [assumption|]. rewrite A7. unfold normal_model. cbn [fst snd]. reflexivity.
Qed.

Definition newton_pure (lr : F) (s : list F * F) : list F * F :=
  let es := errs Lin n k X ys s.1 s.2 in
  let d := vlist k (mv_row (mat_tr (inv_entry k (gramF n X))) (xt_e n k X es) k) in
  (rw1 la al reg <$> zip_with s_sub s.1 ((fun g => s_mul g (s_div lr (s_of_Z (Z.of_nat n)))) <$> d), s_sub s.2 (s_div (s_mul lr (sumv es)) (s_of_Z (Z.of_nat n)))).
Lemma newton_pure_length lr s : length s.1 = k -> length (newton_pure lr s).1 = k.
Proof. intros E. unfold newton_pure. cbn [fst]. rewrite fmap_length, zip_with_length, fmap_length, vlist_length. lia. Qed.
Lemma wp_newton_epoch lr s o h (Q : glm -> heap F -> Prop) : glmS s (AVec (preds Lin n k X s.1 s.2)) o h ->
  (forall o' h', let s' := newton_pure lr s in glmS s' (AVec (preds Lin n k X s'.1 s'.2)) o' h' -> Q o' h') -> wp (newton_epoch lr o) h Q.
Proof using Hx Hy El Hn Hkk.
  intros (W & Ls & lw & ly & -> & D & N1 & N2 & A) HQ. assert (x <> lw) by congruence. assert (x <> ly) by congruence. assert (y <> lw) by congruence. assert (y <> ly) by congruence.
  assert (Hk : Z.of_nat k <= int_max) by (destruct k; unfold int_max in *; slia).
  unfold newton_epoch. cbn [mkglm g_yh g_y g_x g_n].
  wbind. eapply (wp_g_cost Lin _ h ly y lw); [exact W|reflexivity|look|look|rewrite preds_length; congruence|look|]. intros _.
  wbind. apply wp_deref_Some. wbind. eapply wp_v_op2n; [exact W|look|look| |intros Hne; exfalso; apply Hne; rewrite preds_length; congruence]. intros _. fold (errs Lin n k X ys s.1 s.2). new_as e h1 W1 N3 A1.
  set (es := errs Lin n k X ys s.1 s.2) in *. assert (Les : length es = n) by (apply errs_length; exact El).
  wbind. eapply wp_xt_vec; [exact W1|look|look|exact Les|exact Hk|]. new_as g h2 W2 N4 A2.
  wbind. apply wp_deref_Some. wbind. eapply wp_m_transposen; [exact W2|look|]. new_as xt h3 W3 N5 A3.
  wbind. eapply (wp_m_multn h3 xt x k n k); [exact W3|look|look|exact Hkk|]. new_as sd h4 W4 N6 A4.
  wbind. dele h5 W5 A5. wbind. apply wp_deref_Some. wbind. eapply wp_m_inverse; [exact W5|look|]. new_as iv h6 W6 N7 A6.
  wbind. eapply wp_m_transposen; [exact W6|look|]. new_as it h7 W7 N8 A7.
  wbind. eapply (wp_m_mult_vec h7 it g k k _ (xt_e n k X es)); [exact W7|look|look|rewrite xt_e_length; slia|exact Hk|]. rewrite xt_e_length. new_as t h8 W8 N9 A8.
  wbind. dele h9 W9 A9. wbind. dele h10 W10 A10.
  wbind. eapply (wp_upd reg la al s_sub _ t (vlist k (mv_row (mat_tr (inv_entry k (gramF n X))) (xt_e n k X es) k)) s.1 _ h10 (<[sd := Mat k k (gramF n X)]> (<[g := AVec (xt_e n k X es)]> (<[e := AVec es]> (<[ly := AVec (preds Lin n k X s.1 s.2)]> base)))) lw);
    [exact W10|reflexivity|reflexivity|reflexivity|reflexivity|rewrite A10|rewrite !lookup_insert_ne by congruence; assumption|rewrite !lookup_insert_ne by congruence; assumption|congruence|rewrite vlist_length; congruence|].
  { f_equal. rewrite !(insert_commute _ _ lw) by congruence. reflexivity. }
  intros lw' h11 W11 N10 A11. split_none N10. wbind. apply wp_deref_Some. wbind. eapply wp_v_sum; [exact W11|look|].
  set (s' := newton_pure lr s). assert (Ls' : length s'.1 = k) by (apply newton_pure_length; exact Ls).
  wbind. eapply (wp_forward_raw x k n X Hn Lin _ h11 _ lw' ly s'.1 s'.2); [exact W11|exact A11|reflexivity|reflexivity|reflexivity|reflexivity|look|look|look|exact Ls'|]. intros d h12 W12 N11 A12. split_none N11.
  rewrite !delete_insert_ne in A12 by congruence. rewrite delete_insert in A12 by exact N2.
  wbind. cbn [drop_ref]. dele h13 W13 A13. wbind. dele h14 W14 A14. wbind. dele h15 W15 A15. apply wp_ret. apply HQ. split; [exact W15|]. split; [exact Ls'|].
  exists lw', d. split; [reflexivity|]. split; [congruence|]. split; [assumption|]. split; [assumption|]. rewrite A15. reflexivity.
Qed.
Lemma wp_newton lr max s Yh o h (Q : glm -> heap F -> Prop) : max < int_max -> glmS s Yh o h ->
  (forall o' h', let s' := Nat.iter (Z.to_nat (Z.max 1 max)) (newton_pure lr) s in glmS s' (AVec (preds Lin n k X s'.1 s'.2)) o' h' -> Q o' h') -> wp (newton_raphson lr max o) h Q.
Proof using Hx Hy El Hn Hkk.
  intros Hm HS HQ. unfold newton_raphson. replace (g_init o) with true by (destruct HS as (_ & _ & ? & ? & -> & _); reflexivity). cbn [negb].
  wbind. eapply (wp_forward base x y k n X reg la al Hx Hn); [exact HS|]. clear o h HS. intros o h HS.
  eapply (wp_train_pure base x y k n X reg la al Lin (fun _ => newton_pure lr)); [exact Hm| |exact HS|].
  - clear - Hx Hy El Hn Hkk. intros i s o h Q _ HS HQ. eapply wp_newton_epoch; [exact HS|exact HQ].
  - intros o' h' HS'. apply HQ. cbv zeta. replace (Nat.iter (Z.to_nat (Z.max 1 max)) (newton_pure lr) s) with (foldl (fun s i => (fun _ => newton_pure lr) i s) s (seq 0 (Z.to_nat (Z.max 1 max)))); [exact HS'|].
    generalize (Z.to_nat (Z.max 1 max)). clear. intros T. induction T as [|T IH]; [reflexivity|]. rewrite seq_S, foldl_app, IH. reflexivity.
Qed.
End obj.
End glm.
