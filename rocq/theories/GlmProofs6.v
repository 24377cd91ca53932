(** * The adaptive optimisers of linear regression: whole runs, for any arithmetic. *)
From Verif Require Import Base BaseProofs Vec VecSpec VecProofs VecProofs2 Mat MatSpec MatProofs MatProofs2 MatProofs3 MatProofs4 MatProofs5 DetProofs Frame Stat StatProofs Act ActProofs ActProofs2 Cost CostProofs Sym Svm LinAlg LinAlgProofs Util UtilProofs Glm GlmProofs GlmProofs2 GlmProofs4 GlmProofs5.
Section glm.
Context {F : Type} `{Scalar F} `{Libm F}.
Implicit Types (h : heap F) (xs ys ws gs ms vs : list F) (X : nat -> nat -> F).
Section obj.
Context (base : gmap loc (aobj F)) (x y : loc) (k n : nat) (X : nat -> nat -> F) (ys : list F) (reg : regtype) (la al : F).
Context (Hx : base !! x = Some (Mat k n X)) (Hy : base !! y = Some (AVec ys)) (El : length ys = n) (Hn : Z.of_nat n <= int_max) (Hk : Z.of_nat k <= int_max).
Notation obj lw ly b := (mkglm x y k n reg la al lw ly b).
Lemma wp_join_adaptive P R bs m0 ly s Yh p h (Q : glm (F := F) -> heap F -> Prop) : base !! ly = None -> batches_at P R bs (<[ly := Yh]> base) m0 -> adS x y k n reg la al m0 ly s p h ->
  (forall o' h', glmS base x y k n reg la al s.1 (AVec (preds Lin n k X s.1.1 s.1.2)) o' h' -> Q o' h') ->
  wp (let! o := forward_pass Lin p.1 in free p.2.1 ;;; free p.2.2 ;;; del_batches bs ;;; ret o) h Q.
Proof using Hx Hn.
  intros Nly Bt (W & (Ls & _ & _) & lw & lm & lv & -> & N & N' & N'' & D1 & D2 & D3 & A) HQ. cbn [fst snd]. assert (Vx : m0 !! x = Some (Mat k n X)) by (eapply batches_old; [exact Bt|rewrite lookup_insert_ne by congruence; exact Hx]).
  assert (Vly : m0 !! ly = Some Yh) by (eapply batches_old; [exact Bt|apply lookup_insert]). assert (x <> lw /\ x <> lm /\ x <> lv /\ ly <> lw /\ ly <> lm /\ ly <> lv) as (? & ? & ? & ? & ? & ?) by (repeat split; congruence).
  wbind. eapply (wp_forward_raw x k n X Hn Lin (obj lw ly s.1.2) h _ lw ly s.1.1 s.1.2 Yh); [exact W|exact A|reflexivity|reflexivity|reflexivity|reflexivity|look|look|look|exact Ls|].
  intros d h1 W1 N1 A1. split_none N1. cbn [fst snd].
  wbind. eapply wp_free; [exact W1|rewrite A1, lookup_insert_ne, lookup_delete_ne by congruence; look|]. intros h2 W2 A2. rewrite A1 in A2.
  wbind. eapply wp_free; [exact W2|rewrite A2, lookup_delete_ne, lookup_insert_ne, lookup_delete_ne by congruence; look|]. intros h3 W3 A3. rewrite A2 in A3.
  assert (A3' : abs h3 = <[d := AVec (preds Lin n k X s.1.1 s.1.2)]> (<[lw := AVec s.1.1]> (delete ly m0))). { rewrite A3. clear A3 A2 A1. map_cases. } clear A3 A2 A1.
  assert (B1 := batches_drop _ _ _ _ _ _ _ Nly Bt).
  destruct (batches_insert _ _ _ _ _ lw (AVec s.1.1) B1) as [N2 B2]; [rewrite lookup_delete_ne by congruence; exact N|].
  destruct (batches_insert _ _ _ _ _ d (AVec (preds Lin n k X s.1.1 s.1.2)) B2) as [N3 B3]; [rewrite lookup_insert_ne by congruence; rewrite lookup_delete_ne by congruence; exact N1|]. rewrite <- A3' in B3.
  wbind. eapply wp_del_pairs; [exact W3|exact B3|]. intros h4 W4 A4. apply wp_ret. apply HQ. split; [exact W4|]. split; [exact Ls|]. exists lw, d. split; [reflexivity|]. split; [congruence|]. split; [exact N2|].
  split; [rewrite lookup_insert_ne in N3 by congruence; exact N3|exact A4].
Qed.
(** The state after T epochs (the first epoch is number 1). *)
Definition adaptive_pure (kk : opt) (lr : F) (T m nb : nat) (s : list F * F) : (list F * F) * (list F * list F) :=
  foldl (fun s e => opt_epoch_pure kk lr (Z.of_nat e + 1) m nb k X ys reg la al s) (s, (replicate k s_zero, replicate k s_zero)) (seq 0 T).
Lemma wp_adaptive kk lr max m s Yh o h (Q : glm -> heap F -> Prop) : max < int_max -> (0 < m <= n)%nat -> glmS base x y k n reg la al s Yh o h ->
  (forall o' h', let nb := (n / m)%nat in let s' := (adaptive_pure kk lr (Z.to_nat (Z.max 1 max)) (n / nb) nb s).1 in
     glmS base x y k n reg la al s' (AVec (preds Lin n k X s'.1 s'.2)) o' h' -> Q o' h') -> wp (adaptive kk lr max (Z.of_nat m) o) h Q.
Proof using Hx Hy El Hn Hk.
  intros Hm Hmn HS HQ. unfold adaptive. replace (g_init o) with true by (destruct HS as (_ & _ & ? & ? & -> & _); reflexivity). cbn [negb].
  assert (Hnb : (0 < n / m)%nat) by (apply Nat.div_str_pos; exact Hmn). assert (Hnn : (n / m <= n)%nat) by (apply Nat.div_le_upper_bound; nia). set (nb := (n / m)%nat) in *. assert (Hmb : (nb * (n / nb) <= n)%nat) by (apply Nat.mul_div_le; lia).
  assert (Hm0 : (0 < n / nb)%nat) by (apply Nat.div_str_pos; lia). set (mb := (n / nb)%nat) in *.
  wbind. replace (g_n o) with (Z.of_nat n) by (destruct HS as (_ & _ & ? & ? & -> & _); reflexivity). apply wp_idiv_nat; [apply Hmn|exact Hn|]. fold nb.
  wbind. eapply wp_split_batches; [exact Hx|exact Hy|exact El|exact Hn|exact Hk|exact HS|exact Hnb|]. intros bs m0 ly h1 Lb Nly Bt (W1 & Ls & lw & -> & N1 & A1). fold mb in Bt. cbn [mkglm g_w].
  wbind. apply wp_deref_Some. wbind. eapply wp_v_size_vec; [look|]. rewrite Ls. wbind. apply wp_v_full; [exact W1|lia|]. rewrite Nat2Z.id. nw lm h2 W2 N2 A2. wbind. apply wp_v_full; [exact W2|lia|]. rewrite Nat2Z.id. nw lv h3 W3 N3 A3.
  wbind. apply wp_train with (I := fun i p h => adS x y k n reg la al m0 ly (adaptive_pure kk lr i mb nb s) p h); [exact Hm| | |].
  - split; [exact W3|]. split; [cbn; repeat split; [exact Ls|apply replicate_length..]|]. exists lw, lm, lv. cbn [adaptive_pure seq foldl fst snd]. split; [reflexivity|]. repeat (split; [first [assumption|congruence]|]). exact A3.
  - intros i p h4 _ S4. unfold adaptive_pure at 1. rewrite seq_S, foldl_app. fold (adaptive_pure kk lr i mb nb s). set (si := adaptive_pure kk lr i mb nb s) in *. cbn [foldl plus].
    apply (wp_over_batches k n ys El (fun j p h => adS x y k n reg la al m0 ly (opt_epoch_pure kk lr (Z.of_nat i + 1) mb j k X ys reg la al si) p h)) with (i := 0%nat); [exact S4| |].
    + intros j [bi bo] p5 h5 Hj S5. cbn [plus] in *. destruct (ba_val _ _ _ _ _ Bt j _ Hj) as [V1 V2]. cbn [fst snd] in V1, V2. unfold mv_in in V1. assert (Hjn : (j < nb)%nat) by (apply lookup_lt_Some in Hj; lia).
      eapply (wp_opt_batch x y k n reg la al Hk); [exact S5|exact V1|exact V2|rewrite take_length; nia|exact Hm0|nia|]. intros p6 h6 S6. unfold opt_epoch_pure at 1. rewrite seq_S, foldl_app. exact S6.
    + intros p5 h5 S5. cbn [plus] in *. rewrite Lb in S5. exact S5.
  - intros p h4 S4. eapply wp_join_adaptive; [exact Nly|exact Bt|exact S4|]. exact HQ.
Qed.
End obj.
End glm.
