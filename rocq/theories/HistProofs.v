(** Proofs about call histories: coherence and refinement to the list-level specification. *)
From Verif Require Export Hist Pres VecProofs2 SortProofs.
From Coq Require Import ZifyBool ZifyNat.

Section histproofs.
Context {F : Type} `{Scalar F}.
Implicit Types (h : heap F) (s : state F).

Lemma pres_exec vd (op : vop F) : int_args op -> pres (exec vd op).
Proof.
  intros Hi. destruct op; cbn [exec]; unfold unit_;
    try (apply pres_bind; [|intros; apply pres_ret]).
  - apply pres_v_new.
  - apply pres_del.
  - apply pres_v_size.
  - apply pres_v_get.
  - apply pres_v_set.
  - apply pres_v_push_back.
  - apply pres_v_append.
  - apply pres_v_insert.
  - apply pres_v_ordered_insert.
  - apply pres_v_remove.
  - apply pres_v_remove_unordered.
  - apply pres_v_find.
  - apply pres_v_erase.
  - apply pres_v_erase_multiple.
  - apply pres_v_invert.
  - apply pres_v_sort.
  - apply pres_v_resize. exact Hi.
  - apply pres_v_clear.
  - apply pres_v_reset.
  - apply pres_v_fill.
  - apply pres_v_set_from.
  - apply pres_v_duplicate.
  - destruct o; apply pres_v_op2.
  - destruct o; first [apply pres_v_op2n|apply pres_v_op2n_early].
  - destruct o; apply pres_v_op2b.
  - apply pres_v_dot.
  - apply pres_v_sum.
Qed.

Lemma pres_run vd p : int_prog p -> pres (run vd p).
Proof.
  induction p as [|op k IH]; intros Hp; cbn [run int_prog] in *; [apply pres_ret|].
  apply pres_bind; [apply pres_exec, Hp|]. intros o. apply pres_bind; [apply IH, Hp|]. intros. apply pres_ret.
Qed.

Lemma wf_empty : wf (@empty_heap F).
Proof. constructor; simpl; intros *; rewrite ?lookup_empty; discriminate. Qed.

(** ** Simulation *)
Definition sim h s : Prop := wf h /\ abs h = AVec <$> s.

Lemma sim_lookup h s l xs : sim h s -> s !! l = Some xs -> abs h !! l = Some (AVec xs).
Proof. intros [_ A] E. rewrite A, lookup_fmap, E. reflexivity. Qed.
Lemma sim_fresh h s l : sim h s -> abs h !! l = None -> s !! l = None.
Proof. intros [_ A] E. rewrite A, lookup_fmap in E. destruct (s !! l); [discriminate|reflexivity]. Qed.
Lemma sim_insert h s h' l xs : sim h s -> wf h' -> abs h' = <[l := AVec xs]> (abs h) -> sim h' (<[l := xs]> s).
Proof. intros [_ A] W A'. split; [exact W|]. rewrite A', A, fmap_insert. reflexivity. Qed.
Lemma sim_same h s h' : sim h s -> wf h' -> abs h' = abs h -> sim h' s.
Proof. intros [_ A] W A'. split; [exact W|]. congruence. Qed.
Lemma sim_insert_same h s h' l xs : sim h s -> s !! l = Some xs -> wf h' -> abs h' = <[l := AVec xs]> (abs h) -> sim h' s.
Proof. intros Hs E W A'. pose proof (sim_insert h s h' l xs Hs W A') as Hs'. rewrite insert_id in Hs'; auto. Qed.

Lemma delete_take_drop' {A} (xs : list A) i : delete i xs = take i xs ++ drop (S i) xs.
Proof. apply delete_take_drop. Qed.

Lemma s_max_fun (a b : F) : s_max a b = (if s_lt b a then a else b). Proof. reflexivity. Qed.

Lemma exec_sim vd h s op : sim h s -> valid s op ->
  exists o h', exec vd op h = Ok o h' /\ exists s', vspec s op o s' /\ sim h' s'.
Proof.
  intros Hs Hv. apply wp_ok.
  assert (Hw : wf h) by apply Hs.
  destruct op; cbn [exec valid] in *; unfold unit_.
  - (* new *) wbind. apply wp_v_new; [exact Hw|]. intros r h' W N A _. apply wp_ret.
    eexists. split; [apply sp_new; eapply sim_fresh; eauto|]. eapply sim_insert; eauto.
  - (* del *) destruct Hv as [xs Hx]. wbind. eapply wp_del; [exact Hw|eapply sim_lookup; eauto|]. intros h' W A _. apply wp_ret.
    eexists. split; [apply sp_del|]. destruct Hs as [_ A0]. split; [exact W|]. rewrite A, A0, fmap_delete. reflexivity.
  - (* size *) destruct Hv as [xs Hx]. wbind. eapply wp_v_size_vec; [eapply sim_lookup; eauto|]. apply wp_ret.
    eexists. split; [eapply sp_size; eauto|exact Hs].
  - (* get *) destruct Hv as [xs Hx]. wbind. eapply wp_v_get; [exact Hw|eapply sim_lookup; eauto|]. apply wp_ret.
    eexists. split; [|exact Hs]. destruct (Z.ltb_spec i 0) as [Hi|Hi].
    + eapply sp_get_oob; eauto. lia.
    + destruct (xs !! Z.to_nat i) as [x|] eqn:E; simpl.
      * eapply sp_get; eauto.
      * eapply sp_get_oob; eauto. apply lookup_ge_None_1 in E. lia.
  - (* set *) destruct Hv as [xs Hx]. wbind. eapply wp_v_set; [exact Hw|eapply sim_lookup; eauto|]. intros h' W _ A. apply wp_ret.
    destruct (Z.ltb_spec i 0) as [Hi|Hi].
    + exists s. split; [eapply sp_set_oob; eauto; lia|eapply sim_same; eauto].
    + rewrite <- list_fmap_insert in A. rewrite <- (insert_length xs (Z.to_nat i) x) in A.
      destruct (decide (i < Z.of_nat (length xs))).
      * eexists. split; [eapply sp_set; eauto; lia|]. eapply sim_insert; eauto.
      * exists s. split; [eapply sp_set_oob; eauto; lia|]. rewrite list_insert_ge in A by lia. eapply sim_insert_same; eauto.
  - (* push *) destruct Hv as (xs & Hx & Hl). wbind. eapply wp_v_push_back_vec; [exact Hw|eapply sim_lookup; eauto|lia|]. intros h' W A. apply wp_ret.
    eexists. split; [eapply sp_push; eauto|]. eapply sim_insert; eauto.
  - (* append *) destruct Hv as (xs & Hx & Hr). destruct r as [b|].
    + destruct Hr as (ys & Hy & Hl). wbind. eapply wp_v_append; [exact Hw|eapply sim_lookup; eauto|eapply sim_lookup; eauto|exact Hl|]. intros h' W A. apply wp_ret.
      eexists. split; [eapply sp_append; eauto|]. eapply sim_insert; eauto.
    + cbn. exists s. split; [apply sp_append_null|exact Hs].
  - (* insert *) destruct Hv as (xs & Hx & Hl). wbind. eapply wp_v_insert; [exact Hw|eapply sim_lookup; eauto|lia|]. intros h' W A. apply wp_ret.
    destruct (decide (0 <= i <= Z.of_nat (length xs))).
    + eexists. split; [eapply sp_insert; eauto|]. eapply sim_insert; eauto.
    + exists s. split; [eapply sp_insert_oob; eauto|]. eapply sim_insert_same; eauto.
  - (* ordered_insert *) destruct Hv as (xs & Hx & Hl). wbind. eapply wp_v_ordered_insert; [exact Hw|eapply sim_lookup; eauto|lia|]. intros i h' Hi W A. apply wp_ret.
    eexists. split; [eapply sp_ordered_insert; eauto|]. eapply sim_insert; eauto.
  - (* remove *) destruct Hv as [xs Hx]. wbind. eapply wp_v_remove; [exact Hw|eapply sim_lookup; eauto|]. intros h' W A. apply wp_ret.
    destruct (decide (0 <= i)).
    + destruct (decide (i < Z.of_nat (length xs))).
      * eexists. split; [eapply sp_remove; eauto; lia|]. rewrite <- delete_take_drop'. eapply sim_insert; eauto.
      * exists s. split; [eapply sp_remove_oob; eauto; lia|].
        rewrite delete_take_drop', take_ge, drop_ge, app_nil_r in A by lia. eapply sim_insert_same; eauto.
    + exists s. split; [eapply sp_remove_oob; eauto; lia|]. eapply sim_insert_same; eauto.
  - (* remove_unordered *) destruct Hv as [xs Hx]. wbind. eapply wp_v_remove_unordered; [exact Hw|eapply sim_lookup; eauto|]. intros h' W A. apply wp_ret.
    destruct (decide (0 <= i < Z.of_nat (length xs))).
    + eexists. split; [eapply sp_remove_un; eauto; lia|]. eapply sim_insert; eauto.
    + exists s. split; [eapply sp_remove_un_oob; eauto; lia|]. eapply sim_insert_same; eauto.
  - (* find *) destruct Hv as [[xs Hx] Hf]. wbind. eapply wp_v_find; [exact Hw|eapply sim_lookup; eauto|exact Hf|]. intros r Hr. apply wp_ret.
    eexists. split; [eapply sp_find; eauto|exact Hs].
  - (* erase *) destruct Hv as [xs Hx]. wbind. eapply wp_v_erase; [exact Hw|eapply sim_lookup; eauto|]. intros r h' Hr W A. apply wp_ret.
    destruct (decide (0 <= r)).
    + eexists. split; [eapply (sp_erase s l x xs (Z.to_nat r)); eauto|].
      * rewrite Z2Nat.id by lia. exact Hr.
      * rewrite <- delete_take_drop'. eapply sim_insert; eauto.
    + exists s. split; [eapply sp_erase_none; eauto|eapply sim_insert_same; eauto].
      destruct Hr as [(i & y & -> & _)|[-> Hr]]; [lia|]. right. auto.
  - (* erase_multiple *) destruct Hv as [xs Hx]. wbind. eapply wp_v_erase_multiple; [exact Hw|eapply sim_lookup; eauto|]. intros ys h' W A Hp. apply wp_ret.
    eexists. split; [eapply sp_erase_mult; eauto|]. eapply sim_insert; eauto.
  - (* invert *) destruct Hv as [xs Hx]. wbind. eapply wp_v_invert; [exact Hw|eapply sim_lookup; eauto|]. intros h' W A. apply wp_ret.
    eexists. split; [eapply sp_invert; eauto|]. eapply sim_insert; eauto.
  - (* sort *) destruct Hv as (xs & P & Hx & HP & Fx). wbind. eapply wp_v_sort; [exact HP|exact Hw|eapply sim_lookup; eauto|exact Fx|]. intros ys h' W A Py Hnd. apply wp_ret.
    eexists. split; [eapply sp_sort; eauto|]. eapply sim_insert; eauto.
  - (* resize *) destruct Hv as (xs & Hx & Hn). pose proof (avec_len h l xs Hw (sim_lookup _ _ _ _ Hs Hx)) as Hlen.
    wbind. eapply wp_v_resize; [exact Hw|eapply sim_lookup; eauto|lia|]. intros h' W A _. apply wp_ret.
    eexists. split; [eapply sp_resize; eauto|]. eapply sim_insert; [exact Hs|exact W|]. rewrite A. f_equal. unfold AVec.
    rewrite take_length_le by lia. rewrite resize_le by (rewrite fmap_length; lia). rewrite fmap_take. f_equal. f_equal. lia.
  - (* clear *) destruct Hv as [xs Hx]. wbind. unfold v_clear. eapply wp_v_resize; [exact Hw|eapply sim_lookup; eauto|unfold int_max; lia|]. intros h' W A _. apply wp_ret.
    eexists. split; [apply sp_clear|]. eapply sim_insert; [exact Hs|exact W|]. rewrite A. change (Z.to_nat 0) with 0%nat. rewrite resize_0. reflexivity.
  - (* reset *) destruct Hv as [xs Hx]. pose proof (sim_lookup _ _ _ _ Hs Hx) as Ha. wbind. unfold v_reset. wbind. eapply wp_get_obj; [exact Ha|]. intros p Hp. simpl. destruct p as [b|].
    + eapply wp_obj_free; [exact Hw|exact Ha|reflexivity|]. intros h' W A _. apply wp_ret.
      eexists. split; [apply sp_reset|]. eapply sim_insert; [exact Hs|exact W|exact A].
    + apply wp_ret. apply wp_ret. eexists. split; [apply sp_reset|]. eapply sim_insert; [exact Hs|exact Hw|].
      apply (wf_ptr_nil h l _ _ Hw Ha) in Hp. apply fmap_nil_inv in Hp as ->. rewrite insert_id; auto.
  - (* fill *) destruct Hv as [xs Hx]. wbind. eapply wp_v_fill; [exact Hw|eapply sim_lookup; eauto|]. intros h' W _ A. apply wp_ret.
    rewrite Nat2Z.id in A. eexists. split; [eapply sp_fill; eauto|]. eapply sim_insert; eauto.
  - (* set_from *) destruct Hv as [[xs Hx] Hr]. destruct r as [b|].
    + destruct Hr as [ys Hy]. wbind. cbn [v_set_from]. eapply wp_v_set_from_vec; [exact Hw|eapply sim_lookup; eauto|eapply sim_lookup; eauto|]. intros h' W A. apply wp_ret.
      eexists. split; [eapply sp_set_from; eauto|]. eapply sim_insert; eauto.
    + cbn. exists s. split; [apply sp_set_from_null|exact Hs].
  - (* duplicate *) destruct Hv as [xs Hx]. wbind. eapply wp_v_duplicate; [exact Hw|eapply sim_lookup; eauto|]. intros r h' W N A. apply wp_ret.
    eexists. split; [eapply sp_dup; eauto; eapply sim_fresh; eauto|]. eapply sim_insert; eauto.
  - (* op2 *) destruct Hv as [[xs Hx] Hr]. destruct r as [b|].
    + destruct Hr as [ys Hy].
      assert (Hgo : wp (v_op2 (bop_fun o) l (Some b);;; ret OUnit) h (fun a h' => exists s', vspec s (HOp2 o l (Some b)) a s' /\ sim h' s')).
      { wbind. eapply wp_v_op2; [exact Hw|eapply sim_lookup; eauto|eapply sim_lookup; eauto|]. intros h' W A. apply wp_ret.
        destruct (decide (length xs = length ys)).
        - eexists. split; [eapply sp_op2; eauto|]. eapply sim_insert; eauto.
        - exists s. split; [eapply sp_op2_mismatch; eauto|]. eapply sim_same; eauto. }
      destruct o; exact Hgo.
    + destruct o; cbn; exists s; (split; [apply sp_op2_null|exact Hs]).
  - (* op2n *) destruct Hv as [[xs Hx] Hr]. destruct r as [b|].
    + destruct Hr as [ys Hy].
      assert (Hgo : wp (let! q := v_op2n (bop_fun o) l (Some b) in ret (ORef q)) h (fun a h' => exists s', vspec s (HOp2n o l (Some b)) a s' /\ sim h' s') /\
                    wp (let! q := v_op2n_early (bop_fun o) l (Some b) in ret (ORef q)) h (fun a h' => exists s', vspec s (HOp2n o l (Some b)) a s' /\ sim h' s')).
      { split; wbind.
        - eapply wp_v_op2n; [exact Hw|eapply sim_lookup; eauto|eapply sim_lookup; eauto| |].
          + intros E r h' W N A. apply wp_ret. eexists. split; [eapply sp_op2n; eauto; eapply sim_fresh; eauto|]. eapply sim_insert; eauto.
          + intros E. apply wp_ret. exists s. split; [eapply sp_op2n_mismatch; eauto|exact Hs].
        - eapply wp_v_op2n_early; [exact Hw|eapply sim_lookup; eauto|eapply sim_lookup; eauto| |].
          + intros E r h' W N A. apply wp_ret. eexists. split; [eapply sp_op2n; eauto; eapply sim_fresh; eauto|]. eapply sim_insert; eauto.
          + intros E h' W A. apply wp_ret. exists s. split; [eapply sp_op2n_mismatch; eauto|]. eapply sim_same; eauto. }
      destruct Hgo as [G1 G2]. destruct o; first [exact G1|exact G2].
    + destruct o; cbn; exists s; (split; [apply sp_op2n_null|exact Hs]).
  - (* op2b *) destruct Hv as ([zs Hz] & Hra & Hrb). destruct ra as [a|]; [destruct rb as [b|]|].
    + destruct Hra as [xs Hx]. destruct Hrb as [ys Hy].
      assert (Hgo : wp (v_op2b (bop_fun o) l (Some a) (Some b);;; ret OUnit) h (fun r h' => exists s', vspec s (HOp2b o l (Some a) (Some b)) r s' /\ sim h' s')).
      { wbind. eapply wp_v_op2b; [exact Hw|eapply sim_lookup; eauto|eapply sim_lookup; eauto|eapply sim_lookup; eauto|]. intros h' W A. apply wp_ret.
        destruct (decide (length xs = length ys)).
        - eexists. split; [eapply sp_op2b; eauto|]. eapply sim_insert; eauto.
        - exists s. split; [eapply sp_op2b_mismatch; eauto|]. eapply sim_same; eauto. }
      destruct o; exact Hgo.
    + destruct o; cbn; exists s; (split; [apply sp_op2b_null; auto|exact Hs]).
    + destruct o; cbn; exists s; (split; [apply sp_op2b_null; auto|exact Hs]).
  - (* dot *) destruct Hv as [[xs Hx] Hr]. destruct r as [b|].
    + destruct Hr as [ys Hy]. wbind. eapply wp_v_dot; [exact Hw|eapply sim_lookup; eauto|eapply sim_lookup; eauto|]. apply wp_ret.
      exists s. split; [|exact Hs]. destruct (decide (length xs = length ys)); [eapply sp_dot; eauto|eapply sp_dot_mismatch; eauto].
    + cbn. exists s. split; [apply sp_dot_null|exact Hs].
  - (* sum *) destruct Hv as [xs Hx]. wbind. eapply wp_v_sum; [exact Hw|eapply sim_lookup; eauto|]. apply wp_ret.
    exists s. split; [eapply sp_sum; eauto|exact Hs].
Qed.

Lemma run_sim vd p : forall h s, sim h s -> all_valid s p ->
  exists os h', run vd p h = Ok os h' /\ exists s', vspecs s p os s' /\ sim h' s'.
Proof.
  induction p as [|op k IH]; intros h s Hs Hv; cbn [run all_valid] in *.
  - exists [], h. split; [reflexivity|]. exists s. split; [constructor|exact Hs].
  - destruct Hv as [Hv Hv']. destruct (exec_sim vd h s op Hs Hv) as (o & h1 & E1 & s1 & Hsp & Hs1).
    destruct (IH o h1 s1 Hs1 (Hv' _ _ Hsp)) as (os & h2 & E2 & s2 & Hsps & Hs2).
    exists (o :: os), h2. split.
    + unfold bind. rewrite E1, E2. reflexivity.
    + exists s2. split; [econstructor; eauto|exact Hs2].
Qed.

Lemma sim_empty : sim empty_heap ∅.
Proof. split; [apply wf_empty|]. unfold abs. simpl. rewrite !fmap_empty. reflexivity. Qed.

End histproofs.
