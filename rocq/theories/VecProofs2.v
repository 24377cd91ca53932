(** Proofs about the vector model, part 2: structural operations, searches, reductions. *)
From Verif Require Export VecProofs VecSpec.
From Coq Require Import ZifyBool ZifyNat.
Ltac Zify.zify_post_hook ::= Z.to_euclidean_division_equations.

Section vecproofs2.
Context {F : Type} `{Scalar F}.
Implicit Types (h : heap F) (l : loc) (xs ys : list F).

(** A loop that overwrites cells [a..b) of object [lo] by those of [new]. *)
Lemma wp_write_loop h lo po sh (old new : list (cell F)) off n body (Q : unit -> heap F -> Prop) :
  wf h -> ptr_of h lo = Some po -> abs h !! lo = Some (sh, old) ->
  length new = length old -> 0 <= off -> 0 <= n -> off + n <= Z.of_nat (length old) ->
  take (Z.to_nat off) new = take (Z.to_nat off) old ->
  (forall i hi (Q' : unit -> heap F -> Prop), 0 <= i < n -> wf hi -> h_obj hi = h_obj h ->
      abs hi = <[lo := (sh, upto (Z.to_nat (off + i)) new old)]> (abs h) ->
      (forall v, new !! Z.to_nat (off + i) = Some (Some v) -> wp (store po (off + i) v) hi Q') ->
      wp (body i) hi Q') ->
  (forall h', wf h' -> h_obj h' = h_obj h -> abs h' = <[lo := (sh, upto (Z.to_nat (off + n)) new old)]> (abs h) -> Q tt h') ->
  wp (for_ 0 n body) h Q.
Proof.
  intros Hwf Hp Ha Hlen Hoff Hn Hle Htk Hbody HQ.
  apply wp_for with (I := fun i hi => wf hi /\ h_obj hi = h_obj h /\
     abs hi = <[lo := (sh, upto (Z.to_nat (off + i)) new old)]> (abs h)).
  - split; [assumption|]. split; [reflexivity|]. rewrite Z.add_0_r. unfold upto. rewrite Htk, take_drop, insert_id; auto.
  - intros i hi Hi (W & O & A). eapply Hbody; [lia|exact W|exact O|exact A|]. intros v Hv.
    eapply wp_store with (l := lo); [exact W|rewrite (ptr_of_obj h hi); assumption|rewrite A; apply lookup_insert| |].
    + rewrite upto_length by lia. lia.
    + intros h' W' O' _ A'. split; [assumption|]. split; [congruence|].
      rewrite A', A, insert_insert. f_equal. f_equal.
      replace (Z.to_nat (off + (i + 1))) with (S (Z.to_nat (off + i))) by lia. apply upto_S; [lia|assumption].
  - intros hi (W & O & A). apply HQ; auto. rewrite A. do 3 f_equal. lia.
Qed.

(** ** push_back *)
Lemma resize_snoc {A} (cs : list A) d : list.resize (S (length cs)) d cs = cs ++ [d].
Proof. rewrite resize_ge by lia. replace (S (length cs) - length cs)%nat with 1%nat by lia. reflexivity. Qed.

Lemma wp_v_push_back h l n cs x (Q : unit -> heap F -> Prop) : wf h -> abs h !! l = Some (SVec n, cs) ->
  n + 1 <= int_max ->
  (forall h', wf h' -> abs h' = <[l := (SVec (n + 1), cs ++ [Some x])]> (abs h) -> Q tt h') ->
  wp (v_push_back l x) h Q.
Proof.
  intros Hwf Ha Hn HQ. destruct (vec_len _ _ _ _ Hwf Ha) as [Hl Hl2].
  unfold v_push_back. wbind. eapply wp_v_size; [exact Ha|].
  wbind. apply wp_chk; [unfold int_max in *; lia|].
  wbind. eapply wp_obj_realloc; [exact Hwf|exact Ha|simpl; lia|]. simpl. intros h1 W1 A1 _.
  assert (Ha1 : abs h1 !! l = Some (SVec (n + 1), cs ++ [None])).
  { rewrite A1, lookup_insert. do 2 f_equal. rewrite <- resize_snoc. f_equal. lia. }
  wbind. eapply wp_data_ptr; [exact Ha1|]. intros p Hp.
  eapply wp_store; [exact W1|exact Hp|exact Ha1|rewrite app_length; simpl; lia|].
  intros h2 W2 _ _ A2. apply HQ; auto. rewrite A2, A1, insert_insert. do 2 f_equal.
  replace (Z.to_nat (n + 1 - 1)) with (length cs + 0)%nat by lia. rewrite insert_app_r. reflexivity.
Qed.

Lemma AVec_snoc xs x : (SVec (Z.of_nat (length xs) + 1), (Some <$> xs) ++ [Some x]) = AVec (xs ++ [x]) :> aobj F.
Proof. unfold AVec. rewrite app_length, fmap_app. simpl. f_equal. f_equal. lia. Qed.

Lemma wp_v_push_back_vec h l xs x (Q : unit -> heap F -> Prop) : wf h -> abs h !! l = Some (AVec xs) ->
  Z.of_nat (length xs) + 1 <= int_max ->
  (forall h', wf h' -> abs h' = <[l := AVec (xs ++ [x])]> (abs h) -> Q tt h') ->
  wp (v_push_back l x) h Q.
Proof.
  intros Hwf Ha Hn HQ. eapply wp_v_push_back; [exact Hwf|exact Ha|exact Hn|].
  intros h' W A. apply HQ; auto. rewrite A, AVec_snoc. reflexivity.
Qed.

(** ** append *)
Lemma wp_v_append h l b xs ys (Q : unit -> heap F -> Prop) : wf h ->
  abs h !! l = Some (AVec xs) -> abs h !! b = Some (AVec ys) ->
  Z.of_nat (length xs + length ys) <= int_max ->
  (forall h', wf h' -> abs h' = <[l := AVec (xs ++ ys)]> (abs h) -> Q tt h') ->
  wp (v_append l (Some b)) h Q.
Proof.
  intros Hwf Ha Hb Hlen HQ. unfold v_append. wbind. eapply wp_v_size_vec; [exact Hb|].
  destruct (Z.eqb_spec (Z.of_nat (length ys)) 0) as [E|E].
  - destruct ys; [|simpl in E; lia]. apply HQ; auto. rewrite app_nil_r, insert_id; auto.
  - wbind. eapply wp_v_size_vec; [exact Ha|].
    wbind. apply wp_chk; [unfold int_max in *; lia|].
    wbind. eapply wp_obj_realloc; [exact Hwf|exact Ha|simpl; lia|]. cbn [shape_size]. intros h1 W1 A1 _.
    assert (Ha1 : abs h1 !! l = Some (SVec (Z.of_nat (length xs) + Z.of_nat (length ys)), (Some <$> xs) ++ replicate (length ys) None)).
    { rewrite A1, lookup_insert. do 2 f_equal. rewrite resize_ge by (rewrite fmap_length; lia). rewrite fmap_length. do 2 f_equal. lia. }
    wbind. eapply wp_data_ptr; [exact Ha1|]. intros po Hpo.
    assert (exists sh cs, abs h1 !! b = Some (sh, cs)) as (shb & csb & Hb1).
    { rewrite A1. destruct (decide (b = l)) as [->|]; [rewrite lookup_insert|rewrite lookup_insert_ne by congruence; unfold AVec in Hb]; eauto. }
    wbind. eapply wp_data_ptr; [exact Hb1|]. intros q Hq.
    eapply wp_write_loop with (new := (Some <$> (xs ++ ys) : list (cell F))) (off := Z.of_nat (length xs));
      [exact W1|exact Hpo|exact Ha1| | | | | | |].
    + rewrite fmap_length, !app_length, fmap_length, replicate_length. lia.
    + lia.
    + lia.
    + rewrite app_length, fmap_length, replicate_length. lia.
    + rewrite fmap_app, !take_app_le by (rewrite fmap_length; lia). reflexivity.
    + intros i hi Q' Hi W O A Hst.
      destruct (lookup_lt_is_Some_2 ys (Z.to_nat i)) as [y Hy]; [lia|].
      wbind. eapply wp_load with (l := b) (i := i) (v := y); [exact W|rewrite (ptr_of_obj h1 hi); assumption| | lia | |].
      * instantiate (1 := if decide (b = l) then upto (Z.to_nat (Z.of_nat (length xs) + i)) (Some <$> (xs ++ ys)) ((Some <$> xs) ++ replicate (length ys) None) else csb).
        instantiate (1 := shb). rewrite A. destruct (decide (b = l)) as [->|Hne].
        -- rewrite lookup_insert. assert (shb = SVec (Z.of_nat (length xs) + Z.of_nat (length ys))) as -> by congruence. reflexivity.
        -- rewrite lookup_insert_ne by congruence. exact Hb1.
      * destruct (decide (b = l)) as [->|Hne].
        -- assert (EE : AVec xs = AVec ys :> aobj F) by congruence. unfold AVec in EE.
           assert (xs = ys) as -> by (apply (inj (fmap Some)); congruence).
           rewrite upto_lookup_lt by (rewrite ?fmap_length, ?app_length; lia).
           rewrite fmap_app, lookup_app_l by (rewrite fmap_length; lia). apply fmap_Some_lookup, Hy.
        -- rewrite A1, lookup_insert_ne in Hb1 by congruence. rewrite Hb in Hb1. injection Hb1 as <- <-.
           apply fmap_Some_lookup, Hy.
      * apply Hst. apply fmap_Some_lookup. rewrite lookup_app_r by lia. rewrite <- Hy. f_equal. lia.
    + intros h' W O A. apply HQ; auto. rewrite A, A1, insert_insert. unfold AVec.
      rewrite upto_all, app_length; [do 3 f_equal; lia| |];
      rewrite ?fmap_length, !app_length, ?fmap_length, ?replicate_length; lia.
Qed.

(** ** remove *)
Lemma delete_lookup {A} (xs : list A) i j : (i <= j)%nat -> (delete i xs) !! j = xs !! S j.
Proof.
  revert i j. induction xs as [|x xs IH]; intros i j Hij; [destruct i; reflexivity|].
  destruct i as [|i]; [reflexivity|]. destruct j as [|j]; [lia|]. cbn. apply IH. lia.
Qed.

Lemma take_delete_len {A} (xs : list A) i d : (i < length xs)%nat ->
  take i (delete i xs ++ [d]) = take i xs.
Proof.
  intros Hi. rewrite delete_take_drop, <- app_assoc, take_app_le by (rewrite take_length; lia).
  rewrite take_take. f_equal. lia.
Qed.

Lemma resize_pred {A} (cs : list A) d d' : list.resize (length cs) d' (cs ++ [d]) = cs.
Proof. rewrite resize_app_le by lia. apply resize_all. Qed.

Lemma wp_v_remove h l xs idx (Q : unit -> heap F -> Prop) : wf h -> abs h !! l = Some (AVec xs) ->
  (forall h', wf h' -> abs h' = <[l := AVec (if decide (0 <= idx) then delete (Z.to_nat idx) xs else xs)]> (abs h) -> Q tt h') ->
  wp (v_remove l idx) h Q.
Proof.
  intros Hwf Ha HQ. pose proof (avec_len _ _ _ Hwf Ha) as Hlen.
  unfold v_remove. wbind. eapply wp_v_size_vec; [exact Ha|].
  destruct (Z.ltb_spec idx 0) as [Hi|Hi]; simpl.
  { apply HQ; auto. rewrite decide_False by lia. rewrite insert_id; auto. }
  rewrite decide_True in HQ by lia.
  destruct (Z.leb_spec (Z.of_nat (length xs)) idx) as [Hi2|Hi2].
  { apply HQ; auto. assert (E : delete (Z.to_nat idx) xs = xs).
    { rewrite delete_take_drop, take_ge, drop_ge by lia. apply app_nil_r. }
    rewrite E, insert_id; auto. }
  destruct (Z.eqb_spec (Z.of_nat (length xs) - 1) 0) as [E|E].
  { eapply wp_obj_free; [exact Hwf|exact Ha|reflexivity|]. intros h' W A _. apply HQ; auto. rewrite A.
    assert (Ed : delete (Z.to_nat idx) xs = []).
    { apply nil_length_inv. rewrite length_delete; [|apply lookup_lt_is_Some_2; lia]. lia. }
    rewrite Ed. reflexivity. }
  assert (Hld : length (delete (Z.to_nat idx) xs) = (length xs - 1)%nat).
  { apply length_delete. apply lookup_lt_is_Some_2; lia. }
  wbind. eapply wp_data_ptr; [exact Ha|]. intros p Hp. wbind.
  destruct (lookup_lt_is_Some_2 xs (length xs - 1)) as [z Hz]; [lia|].
  set (new := (Some <$> (delete (Z.to_nat idx) xs ++ [z])) : list (cell F)).
  assert (Hnew : length new = length (Some <$> xs)).
  { unfold new. rewrite !fmap_length, app_length, Hld. simpl. lia. }
  apply wp_for with (I := fun i hi => wf hi /\ h_obj hi = h_obj h /\
     abs hi = <[l := (SVec (Z.of_nat (length xs)), upto (Z.to_nat i) new (Some <$> xs))]> (abs h)).
  - split; [assumption|]. split; [reflexivity|]. unfold upto.
    assert (Et : take (Z.to_nat idx) new = take (Z.to_nat idx) (Some <$> xs)).
    { unfold new. rewrite <- !fmap_take, take_delete_len by lia. reflexivity. }
    rewrite Et, take_drop, insert_id; auto.
  - intros i hi Hii (W & O & A).
    destruct (lookup_lt_is_Some_2 xs (Z.to_nat (i + 1))) as [x Hx]; [lia|].
    wbind. eapply wp_load with (l := l) (i := i + 1); [exact W|rewrite (ptr_of_obj h hi); assumption|rewrite A; apply lookup_insert|lia| |].
    + rewrite upto_lookup_ge by lia. apply fmap_Some_lookup, Hx.
    + eapply wp_store with (l := l); [exact W|rewrite (ptr_of_obj h hi); assumption|rewrite A; apply lookup_insert| |].
      * rewrite upto_length by lia. rewrite fmap_length. lia.
      * intros h' W' O' _ A'. split; [assumption|]. split; [congruence|]. rewrite A', A, insert_insert. do 2 f_equal.
        replace (Z.to_nat (i + 1)) with (S (Z.to_nat i)) in * by lia. apply upto_S; [lia|].
        unfold new. apply fmap_Some_lookup. rewrite lookup_app_l by lia. rewrite delete_lookup by lia. exact Hx.
  - intros h1 (W1 & O1 & A1).
    assert (Ha1 : abs h1 !! l = Some (SVec (Z.of_nat (length xs)), new)).
    { rewrite A1, lookup_insert. do 2 f_equal. unfold upto.
      assert (Ed : drop (Z.to_nat (Z.max idx (Z.of_nat (length xs) - 1))) (Some <$> xs : list (cell F)) = [Some z]).
      { rewrite (drop_S _ (Some z)); [|apply fmap_Some_lookup; rewrite <- Hz; f_equal; lia].
        rewrite drop_ge by (rewrite fmap_length; lia). reflexivity. }
      rewrite Ed. unfold new. rewrite fmap_app, take_app_alt; [reflexivity|]. rewrite fmap_length. lia. }
    eapply wp_obj_realloc; [exact W1|exact Ha1|simpl; lia|]. intros h2 W2 A2 _. apply HQ; auto.
    rewrite A2, A1, insert_insert. unfold AVec. rewrite Hld. f_equal. cbn [shape_size]. f_equal; [f_equal; lia|].
    unfold new. rewrite fmap_app. simpl. rewrite <- (resize_pred (Some <$> delete (Z.to_nat idx) xs) (Some z) None) at 2.
    f_equal. rewrite fmap_length. lia.
Qed.

(** ** remove_unordered *)
Lemma last_snoc_ex xs : xs <> [] -> exists ys z, xs = ys ++ [z].
Proof. intros Hx. destruct xs as [|x xs] using rev_ind; [congruence|eauto]. Qed.

Lemma remove_unord_length i xs : (i < length xs)%nat -> length (remove_unord i xs) = (length xs - 1)%nat.
Proof.
  intros Hi. unfold remove_unord. destruct (list.last xs) as [z|] eqn:E.
  - destruct (decide (S i = length xs)); rewrite ?insert_length, take_length; lia.
  - apply last_None in E as ->. simpl in Hi. lia.
Qed.

Lemma list_delete_perm i xs x : xs !! i = Some x -> x :: delete i xs ≡ₚ xs.
Proof. intros Hx. symmetry. apply delete_Permutation. exact Hx. Qed.

Lemma remove_unord_perm i xs x : xs !! i = Some x -> x :: remove_unord i xs ≡ₚ xs.
Proof.
  intros Hx. pose proof (lookup_lt_Some _ _ _ Hx) as Hi.
  destruct (last_snoc_ex xs) as (ys & z & ->); [intros ->; simpl in Hi; lia|].
  unfold remove_unord. rewrite last_snoc. rewrite app_length in *. simpl in *.
  destruct (decide (S i = length ys + 1)%nat) as [E|E].
  - assert (i = length ys) as -> by lia. rewrite take_app. rewrite lookup_app_r in Hx by lia.
    replace (length ys - length ys)%nat with 0%nat in Hx by lia. injection Hx as <-. apply Permutation_cons_append.
  - replace (length ys + 1 - 1)%nat with (length ys) by lia. rewrite take_app.
    rewrite lookup_app_l in Hx by lia.
    rewrite insert_take_drop by lia. rewrite <- (take_drop_middle ys i x Hx) at 3.
    rewrite <- !app_assoc. simpl. rewrite <- !Permutation_middle.
    rewrite !app_nil_r. reflexivity.
Qed.

Lemma wp_v_remove_unordered h l xs idx (Q : unit -> heap F -> Prop) : wf h -> abs h !! l = Some (AVec xs) ->
  (forall h', wf h' -> abs h' = <[l := AVec (if decide (0 <= idx < Z.of_nat (length xs)) then remove_unord (Z.to_nat idx) xs else xs)]> (abs h) -> Q tt h') ->
  wp (v_remove_unordered l idx) h Q.
Proof.
  intros Hwf Ha HQ. pose proof (avec_len _ _ _ Hwf Ha) as Hlen.
  unfold v_remove_unordered. wbind. eapply wp_v_size_vec; [exact Ha|].
  destruct (Z.ltb_spec idx 0) as [Hi|Hi]; simpl.
  { apply HQ; auto. rewrite decide_False by lia. rewrite insert_id; auto. }
  destruct (Z.leb_spec (Z.of_nat (length xs)) idx) as [Hi2|Hi2].
  { apply HQ; auto. rewrite decide_False by lia. rewrite insert_id; auto. }
  rewrite decide_True in HQ by lia.
  pose proof (remove_unord_length (Z.to_nat idx) xs ltac:(lia)) as Hrl.
  destruct (Z.eqb_spec (Z.of_nat (length xs) - 1) 0) as [E|E].
  { eapply wp_obj_free; [exact Hwf|exact Ha|reflexivity|]. intros h' W A _. apply HQ; auto. rewrite A.
    rewrite (nil_length_inv (remove_unord (Z.to_nat idx) xs)) by lia. reflexivity. }
  wbind. eapply wp_data_ptr; [exact Ha|]. intros p Hp. wbind.
  destruct (last_snoc_ex xs) as (ys & z & ->); [intros ->; simpl in *; lia|].
  unfold remove_unord in HQ, Hrl. rewrite last_snoc in HQ, Hrl. rewrite app_length in *. simpl in *.
  replace (length ys + 1 - 1)%nat with (length ys) in * by lia. rewrite take_app in HQ, Hrl.
  destruct (Z.ltb_spec idx (Z.of_nat (length ys + 1) - 1)) as [Hc|Hc].
  - wbind. eapply wp_load with (v := z); [exact Hwf|exact Hp|exact Ha|lia| |].
    { apply fmap_Some_lookup. rewrite lookup_app_r by lia.
      replace (Z.to_nat (Z.of_nat (length ys + 1) - 1) - length ys)%nat with 0%nat by lia. reflexivity. }
    eapply wp_store with (l := l); [exact Hwf|exact Hp|exact Ha|rewrite fmap_length, app_length; simpl; lia|].
    intros h1 W1 O1 _ A1.
    eapply wp_obj_realloc; [exact W1|rewrite A1; apply lookup_insert|simpl; lia|]. intros h2 W2 A2 _. apply HQ; auto.
    rewrite A2, A1, insert_insert. rewrite decide_False by lia. unfold AVec. rewrite insert_length. f_equal.
    cbn [shape_size]. f_equal; [f_equal; lia|].
    rewrite fmap_app, insert_app_l by (rewrite fmap_length; lia). simpl.
    rewrite list_fmap_insert. replace (Z.to_nat (Z.of_nat (length ys + 1) - 1)) with (length (<[Z.to_nat idx:=Some z]> (Some <$> ys : list (cell F)))) by (rewrite insert_length, fmap_length; lia).
    apply resize_pred.
  - apply wp_ret. eapply wp_obj_realloc; [exact Hwf|exact Ha|simpl; lia|]. intros h2 W2 A2 _. apply HQ; auto.
    rewrite A2. rewrite decide_True by lia. replace (Z.to_nat idx) with (length ys) by lia. rewrite take_app.
    unfold AVec. f_equal. cbn [shape_size]. f_equal; [f_equal; lia|].
    rewrite fmap_app. simpl. replace (Z.to_nat (Z.of_nat (length ys + 1) - 1)) with (length (Some <$> ys : list (cell F))) by (rewrite fmap_length; lia).
    apply resize_pred.
Qed.

(** ** find *)
Lemma wp_find_loop h l xs p v (Q : Z -> heap F -> Prop) : wf h -> abs h !! l = Some (AVec xs) -> ptr_of h l = Some p ->
  forall k from, (length xs - from = k)%nat ->
  (forall r, find_spec xs from v r -> Q r h) ->
  wp (v_find_loop k p (Z.of_nat from) v) h Q.
Proof.
  intros Hwf Ha Hp. induction k as [|k IH]; intros from Hk HQ; cbn [v_find_loop].
  - apply wp_ret. apply HQ. right. split; [reflexivity|]. intros j y Hj Hy. apply lookup_lt_Some in Hy. lia.
  - destruct (lookup_lt_is_Some_2 xs from) as [x Hx]; [lia|].
    wbind. eapply wp_load; [exact Hwf|exact Hp|exact Ha|lia|rewrite Nat2Z.id; apply fmap_Some_lookup, Hx|].
    destruct (s_eq x v) eqn:E.
    + apply wp_ret. apply HQ. left. exists from, x. repeat split; auto. intros; lia.
    + replace (Z.of_nat from + 1) with (Z.of_nat (S from)) by lia. apply IH; [lia|].
      intros r Hr. apply HQ. destruct Hr as [(i & y & -> & H1 & H2 & H3 & H4)|[-> H1]].
      * left. exists i, y. repeat split; auto; [lia|]. intros j z Hj Hz.
        destruct (decide (j = from)) as [->|]; [congruence|]. eapply H4; [|exact Hz]. lia.
      * right. split; auto. intros j z Hj Hz. destruct (decide (j = from)) as [->|]; [congruence|]. eapply H1; [|exact Hz]. lia.
Qed.

Lemma wp_v_find h l xs v from (Q : Z -> heap F -> Prop) : wf h -> abs h !! l = Some (AVec xs) -> 0 <= from ->
  (forall r, find_spec xs (Z.to_nat from) v r -> Q r h) -> wp (v_find l v from) h Q.
Proof.
  intros Hwf Ha Hf HQ. unfold v_find. wbind. eapply wp_v_size_vec; [exact Ha|].
  wbind. eapply wp_data_ptr; [exact Ha|]. intros p Hp.
  replace from with (Z.of_nat (Z.to_nat from)) at 2 by lia.
  eapply wp_find_loop; [exact Hwf|exact Ha|exact Hp|lia|exact HQ].
Qed.

Lemma wp_v_erase h l xs v (Q : unit -> heap F -> Prop) : wf h -> abs h !! l = Some (AVec xs) ->
  (forall r h', find_spec xs 0 v r -> wf h' ->
      abs h' = <[l := AVec (if decide (0 <= r) then delete (Z.to_nat r) xs else xs)]> (abs h) -> Q tt h') ->
  wp (v_erase l v) h Q.
Proof.
  intros Hwf Ha HQ. unfold v_erase. wbind. eapply wp_v_find; [exact Hwf|exact Ha|lia|].
  intros r Hr. destruct (Z.leb_spec 0 r).
  - eapply wp_v_remove; [exact Hwf|exact Ha|]. intros h' W A. eapply HQ; eauto.
  - eapply HQ; eauto. rewrite decide_False by lia. rewrite insert_id; auto.
Qed.

(** ** erase_multiple_unordered *)
Lemma filter_perm_length (P : F -> bool) xs : length xs = (length (List.filter P xs) + length (List.filter (fun x => negb (P x)) xs))%nat.
Proof. induction xs as [|x xs IH]; simpl; [reflexivity|]. destruct (P x); simpl; lia. Qed.

Lemma List_filter_perm (P : F -> bool) xs ys : xs ≡ₚ ys -> List.filter P xs ≡ₚ List.filter P ys.
Proof.
  induction 1; simpl; auto.
  - destruct (P x); auto.
  - destruct (P x), (P y); auto. apply perm_swap.
  - etrans; eauto.
Qed.

Lemma List_filter_id (P : F -> bool) xs : (forall x, x ∈ xs -> P x = true) -> List.filter P xs = xs.
Proof.
  induction xs as [|x xs IH]; intros HP; simpl; [reflexivity|].
  rewrite HP by left. rewrite IH; [reflexivity|]. intros y Hy. apply HP. right. assumption.
Qed.
Lemma List_filter_nil (P : F -> bool) xs : (forall x, x ∈ xs -> P x = false) -> List.filter P xs = [].
Proof.
  induction xs as [|x xs IH]; intros HP; simpl; [reflexivity|].
  rewrite HP by left. apply IH. intros y Hy. apply HP. right. assumption.
Qed.

Lemma remove_unord_prefix i j xs y : (j < i)%nat -> (i < length xs)%nat -> remove_unord i xs !! j = Some y -> xs !! j = Some y.
Proof.
  intros Hj Hi. unfold remove_unord. destruct (list.last xs); [|auto].
  destruct (decide (S i = length xs)).
  - rewrite lookup_take by lia. auto.
  - rewrite list_lookup_insert_ne by lia. rewrite lookup_take by lia. auto.
Qed.

Lemma wp_erase_mult_loop v : forall fuel h l xs from count (Q : Z -> heap F -> Prop), wf h -> abs h !! l = Some (AVec xs) ->
  (length xs < fuel)%nat ->
  (forall j y, (j < from)%nat -> xs !! j = Some y -> s_eq y v = false) ->
  (forall ys h', wf h' -> abs h' = <[l := AVec ys]> (abs h) ->
     ys ≡ₚ List.filter (fun x => negb (s_eq x v)) xs ->
     Q (count + Z.of_nat (length (List.filter (fun x => s_eq x v) xs))) h') ->
  wp (v_erase_mult_loop fuel l v (Z.of_nat from) count) h Q.
Proof.
  induction fuel as [|fuel IH]; intros h l xs from count Q Hwf Ha Hfuel Hpre HQ; [lia|].
  cbn [v_erase_mult_loop]. wbind. eapply wp_v_find; [exact Hwf|exact Ha|lia|].
  rewrite Nat2Z.id. intros r [(i & x & -> & H1 & Hx & H3 & H4)|[-> H1]].
  - replace (Z.of_nat i =? -1) with false by lia.
    pose proof (lookup_lt_Some _ _ _ Hx) as Hi.
    wbind. eapply wp_v_remove_unordered; [exact Hwf|exact Ha|]. intros h1 W1 A1.
    rewrite decide_True in A1 by lia. rewrite Nat2Z.id in A1.
    pose proof (remove_unord_perm i xs x Hx) as Hperm.
    eapply IH; [exact W1|rewrite A1; apply lookup_insert| | |].
    + rewrite remove_unord_length by lia. lia.
    + intros j y Hj Hy. apply remove_unord_prefix in Hy; [|lia|lia].
      destruct (decide (j < from)%nat); [eapply Hpre; eauto|]. eapply H4; [|exact Hy]. lia.
    + intros ys h' W' A' Hys.
      assert (Ec : count + Z.of_nat (length (List.filter (fun x => s_eq x v) xs)) =
              count + 1 + Z.of_nat (length (List.filter (fun x => s_eq x v) (remove_unord i xs)))).
      { apply (List_filter_perm (fun x => s_eq x v)) in Hperm. apply Permutation_length in Hperm.
        simpl in Hperm. rewrite H3 in Hperm. simpl in Hperm. lia. }
      rewrite <- Ec. apply HQ with (ys := ys); auto.
      * rewrite A', A1, insert_insert. reflexivity.
      * rewrite Hys. apply (List_filter_perm (fun x => negb (s_eq x v))) in Hperm. simpl in Hperm.
        rewrite H3 in Hperm. exact Hperm.
  - simpl. apply wp_ret.
    assert (Hall : forall x, x ∈ xs -> s_eq x v = false).
    { intros x [j Hj]%elem_of_list_lookup_1. destruct (decide (j < from)%nat); [eauto|]. eapply H1; [|exact Hj]. lia. }
    replace count with (count + Z.of_nat (length (List.filter (fun x => s_eq x v) xs))).
    2:{ rewrite List_filter_nil by exact Hall. simpl. lia. }
    apply HQ with (ys := xs); auto.
    + rewrite insert_id; auto.
    + rewrite List_filter_id; [reflexivity|]. intros x Hx. rewrite (Hall x Hx). reflexivity.
Qed.

Lemma wp_v_erase_multiple h l xs v (Q : Z -> heap F -> Prop) : wf h -> abs h !! l = Some (AVec xs) ->
  (forall ys h', wf h' -> abs h' = <[l := AVec ys]> (abs h) ->
     ys ≡ₚ List.filter (fun x => negb (s_eq x v)) xs ->
     Q (Z.of_nat (length (List.filter (fun x => s_eq x v) xs))) h') ->
  wp (v_erase_multiple_unordered l v) h Q.
Proof.
  intros Hwf Ha HQ. unfold v_erase_multiple_unordered. wbind. eapply wp_v_size_vec; [exact Ha|].
  eapply wp_erase_mult_loop with (from := 0%nat); [exact Hwf|exact Ha|lia|intros; lia|].
  intros ys h' W A P. eapply HQ; eauto.
Qed.

(** ** invert *)
Lemma wp_v_invert h l xs (Q : unit -> heap F -> Prop) : wf h -> abs h !! l = Some (AVec xs) ->
  (forall h', wf h' -> abs h' = <[l := AVec (reverse xs)]> (abs h) -> Q tt h') ->
  wp (v_invert l) h Q.
Proof.
  intros Hwf Ha HQ. unfold v_invert. wbind. eapply wp_v_size_vec; [exact Ha|].
  wbind. eapply wp_data_ptr; [exact Ha|]. intros p Hp.
  set (n := length xs) in *.
  apply wp_for with (I := fun i hi => exists zs, wf hi /\ h_obj hi = h_obj h /\ length zs = n /\
     abs hi = <[l := (SVec (Z.of_nat n), Some <$> zs)]> (abs h) /\
     forall j, (j < n)%nat -> zs !! j = if (Z.of_nat j <? i) || (Z.of_nat n - i <=? Z.of_nat j) then xs !! (n - 1 - j)%nat else xs !! j).
  - exists xs. split; [assumption|]. split; [reflexivity|]. split; [reflexivity|]. split; [symmetry; apply insert_id; exact Ha|]. intros j Hj.
    replace (Z.of_nat j <? 0) with false by lia. replace (Z.of_nat n - 0 <=? Z.of_nat j) with false by lia. reflexivity.
  - intros i hi Hi (zs & W & O & Hlz & A & Hz).
    destruct (lookup_lt_is_Some_2 zs (Z.to_nat i)) as [x Hx]; [lia|].
    destruct (lookup_lt_is_Some_2 zs (Z.to_nat (Z.of_nat n - i - 1))) as [y Hy]; [lia|].
    assert (Hpp : ptr_of hi l = Some p) by (rewrite (ptr_of_obj h hi); assumption).
    wbind. eapply wp_load with (l := l) (v := x); [exact W|exact Hpp|rewrite A; apply lookup_insert|lia|apply fmap_Some_lookup, Hx|].
    wbind. eapply wp_load with (l := l) (v := y); [exact W|exact Hpp|rewrite A; apply lookup_insert|lia|apply fmap_Some_lookup, Hy|].
    wbind. eapply wp_store with (l := l); [exact W|exact Hpp|rewrite A; apply lookup_insert|rewrite fmap_length; lia|].
    intros h1 W1 O1 _ A1. rewrite <- list_fmap_insert in A1.
    eapply wp_store with (l := l); [exact W1|rewrite (ptr_of_obj hi h1); assumption|rewrite A1; apply lookup_insert|rewrite fmap_length, insert_length; lia|].
    intros h2 W2 O2 _ A2. rewrite <- list_fmap_insert in A2.
    eexists. split; [exact W2|]. split; [congruence|]. split; [|split].
    2:{ rewrite A2, A1, A, !insert_insert. reflexivity. }
    + rewrite !insert_length. assumption.
    + intros j Hj.
      assert (Ex : xs !! Z.to_nat i = Some x).
      { rewrite Hz in Hx by lia. replace (Z.of_nat (Z.to_nat i) <? i) with false in Hx by lia.
        replace (Z.of_nat n - i <=? Z.of_nat (Z.to_nat i)) with false in Hx by lia. exact Hx. }
      assert (Ey : xs !! Z.to_nat (Z.of_nat n - i - 1) = Some y).
      { rewrite Hz in Hy by lia. replace (Z.of_nat (Z.to_nat (Z.of_nat n - i - 1)) <? i) with false in Hy by lia.
        replace (Z.of_nat n - i <=? Z.of_nat (Z.to_nat (Z.of_nat n - i - 1))) with false in Hy by lia. exact Hy. }
      destruct (decide (j = Z.to_nat (Z.of_nat n - i - 1))) as [->|Hn1].
      * rewrite list_lookup_insert by (rewrite insert_length; lia).
        replace (Z.of_nat n - (i + 1) <=? Z.of_nat (Z.to_nat (Z.of_nat n - i - 1))) with true by lia. rewrite orb_true_r.
        rewrite <- Ex. f_equal. lia.
      * rewrite list_lookup_insert_ne by congruence. destruct (decide (j = Z.to_nat i)) as [->|Hn2].
        -- rewrite list_lookup_insert by lia. replace (Z.of_nat (Z.to_nat i) <? i + 1) with true by lia. simpl.
           rewrite <- Ey. f_equal. lia.
        -- rewrite list_lookup_insert_ne by congruence. rewrite Hz by lia.
           replace (Z.of_nat j <? i + 1) with (Z.of_nat j <? i) by lia.
           replace (Z.of_nat n - (i + 1) <=? Z.of_nat j) with (Z.of_nat n - i <=? Z.of_nat j) by lia. reflexivity.
  - intros h' (zs & W & O & Hlz & A & Hz). apply HQ; auto. rewrite A. unfold AVec. rewrite reverse_length. fold n. do 3 f_equal.
    apply list_eq. intros j. destruct (decide (j < n)%nat) as [Hj|Hj].
    + rewrite Hz by lia. rewrite reverse_lookup by lia. fold n.
      destruct ((Z.of_nat j <? Z.max 0 (Z.of_nat n ÷ 2)) || (Z.of_nat n - Z.max 0 (Z.of_nat n ÷ 2) <=? Z.of_nat j)) eqn:E.
      * f_equal. lia.
      * f_equal. lia.
    + rewrite !lookup_ge_None_2; rewrite ?reverse_length; auto; lia.
Qed.

(** ** insert, ordered_insert *)
Lemma wp_v_insert h l xs pos x (Q : unit -> heap F -> Prop) : wf h -> abs h !! l = Some (AVec xs) ->
  Z.of_nat (length xs) + 1 <= int_max ->
  (forall h', wf h' -> abs h' = <[l := AVec (if decide (0 <= pos <= Z.of_nat (length xs))
        then take (Z.to_nat pos) xs ++ x :: drop (Z.to_nat pos) xs else xs)]> (abs h) -> Q tt h') ->
  wp (v_insert l pos x) h Q.
Proof.
  intros Hwf Ha Hlen HQ. unfold v_insert. wbind. eapply wp_v_size_vec; [exact Ha|].
  destruct (Z.ltb_spec pos 0) as [Hi|Hi]; simpl.
  { apply HQ; auto. rewrite decide_False by lia. rewrite insert_id; auto. }
  destruct (Z.leb_spec (Z.of_nat (length xs) + 1) pos) as [Hi2|Hi2].
  { apply HQ; auto. rewrite decide_False by lia. rewrite insert_id; auto. }
  rewrite decide_True in HQ by lia.
  destruct (Z.eqb_spec pos (Z.of_nat (length xs))) as [->|Hne].
  { eapply wp_v_push_back_vec; [exact Hwf|exact Ha|lia|]. intros h' W A. apply HQ; auto.
    rewrite Nat2Z.id, firstn_all, drop_all. exact A. }
  set (n := length xs) in *.
  wbind. apply wp_chk; [unfold int_max in *; lia|].
  wbind. eapply wp_v_resize; [exact Hwf|exact Ha|lia|]. intros h1 W1 A1 _.
  set (old := (Some <$> xs) ++ [None] : list (cell F)).
  assert (Ha1 : abs h1 !! l = Some (SVec (Z.of_nat n + 1), old)).
  { rewrite A1, lookup_insert. do 2 f_equal. unfold old. rewrite <- resize_snoc, fmap_length. f_equal. unfold n. lia. }
  wbind. eapply wp_data_ptr; [exact Ha1|]. intros p Hp.
  wbind. apply wp_for with (I := fun k hi => exists cs, wf hi /\ h_obj hi = h_obj h1 /\ length cs = S n /\
     abs hi = <[l := (SVec (Z.of_nat n + 1), cs)]> (abs h) /\
     forall j, (j <= n)%nat -> cs !! j = if Z.of_nat n - k <? Z.of_nat j then old !! (j - 1)%nat else old !! j).
  - exists old. split; [assumption|]. split; [reflexivity|]. split; [unfold old; rewrite app_length, fmap_length; simpl; fold n; lia|]. split.
    + rewrite <- (insert_id (abs h1) l _ Ha1), A1, insert_insert. reflexivity.
    + intros j Hj. replace (Z.of_nat n - 0 <? Z.of_nat j) with false by lia. reflexivity.
  - intros k hi Hk (cs & W & O & Hlc & A & Hc).
    assert (Hpp : ptr_of hi l = Some p) by (rewrite (ptr_of_obj h1 hi); assumption).
    set (i := Z.of_nat n + 1 - 1 - k). 
    destruct (lookup_lt_is_Some_2 xs (Z.to_nat (i - 1))) as [y Hy]; [unfold n in *; lia|].
    assert (Hy' : old !! Z.to_nat (i - 1) = Some (Some y)).
    { unfold old. rewrite lookup_app_l by (rewrite fmap_length; unfold n in *; lia). apply fmap_Some_lookup, Hy. }
    wbind. eapply wp_load with (l := l) (v := y); [exact W|exact Hpp|rewrite A; apply lookup_insert|unfold i; lia| |].
    { rewrite Hc by lia. replace (Z.of_nat n - k <? Z.of_nat (Z.to_nat (i - 1))) with false by (unfold i; lia). exact Hy'. }
    eapply wp_store with (l := l); [exact W|exact Hpp|rewrite A; apply lookup_insert|unfold i; lia|].
    intros h2 W2 O2 _ A2. eexists. split; [exact W2|]. split; [congruence|]. split; [|split].
    2:{ rewrite A2, A, insert_insert. reflexivity. }
    + rewrite insert_length. assumption.
    + intros j Hj. destruct (decide (j = Z.to_nat i)) as [->|Hnj].
      * rewrite list_lookup_insert by lia. replace (Z.of_nat n - (k + 1) <? Z.of_nat (Z.to_nat i)) with true by (unfold i; lia).
        rewrite <- Hy'. f_equal. unfold i. lia.
      * rewrite list_lookup_insert_ne by congruence. rewrite Hc by lia.
        replace (Z.of_nat n - (k + 1) <? Z.of_nat j) with (Z.of_nat n - k <? Z.of_nat j) by (unfold i in *; lia). reflexivity.
  - intros h2 (cs & W & O & Hlc & A & Hc).
    assert (Hpp : ptr_of h2 l = Some p) by (rewrite (ptr_of_obj h1 h2); assumption).
    eapply wp_store with (l := l); [exact W|exact Hpp|rewrite A; apply lookup_insert|lia|].
    intros h3 W3 O3 _ A3. apply HQ; auto. rewrite A3, A, insert_insert. f_equal. unfold AVec.
    assert (Hln : length (take (Z.to_nat pos) xs ++ x :: drop (Z.to_nat pos) xs) = S n).
    { rewrite app_length. simpl. rewrite take_length, drop_length. unfold n. lia. }
    rewrite Hln. f_equal; [f_equal; lia|].
    apply list_eq. intros j. destruct (decide (j <= n)%nat) as [Hj|Hj].
    2:{ rewrite !lookup_ge_None_2; auto; rewrite ?insert_length, ?fmap_length; lia. }
    rewrite list_lookup_fmap. destruct (decide (j = Z.to_nat pos)) as [->|Hnj].
    + rewrite list_lookup_insert by lia.
      replace (Z.to_nat pos) with (length (take (Z.to_nat pos) xs) + 0)%nat at 1 by (rewrite take_length; unfold n in *; lia).
      rewrite lookup_app_r by lia. rewrite Nat.add_comm, Nat.add_sub. reflexivity.
    + rewrite list_lookup_insert_ne by congruence. rewrite Hc by lia.
      destruct (decide (j < Z.to_nat pos)%nat) as [Hjp|Hjp].
      * replace (Z.of_nat n - Z.max 0 (Z.of_nat n + 1 - 1 - pos) <? Z.of_nat j) with false by lia.
        rewrite lookup_app_l by (rewrite take_length; unfold n in *; lia). rewrite lookup_take by lia.
        unfold old. rewrite lookup_app_l by (rewrite fmap_length; unfold n in *; lia). rewrite list_lookup_fmap. reflexivity.
      * replace (Z.of_nat n - Z.max 0 (Z.of_nat n + 1 - 1 - pos) <? Z.of_nat j) with true by lia.
        rewrite lookup_app_r by (rewrite take_length; lia). rewrite take_length_le by (unfold n in *; lia).
        replace (j - Z.to_nat pos)%nat with (S (j - 1 - Z.to_nat pos)) by lia. simpl. rewrite lookup_drop.
        unfold old. rewrite lookup_app_l by (rewrite fmap_length; unfold n in *; lia). rewrite list_lookup_fmap.
        do 2 f_equal. lia.
Qed.

Lemma wp_upper_loop h l xs p v (Q : Z -> heap F -> Prop) : wf h -> abs h !! l = Some (AVec xs) -> ptr_of h l = Some p ->
  forall k from, (from + k = length xs)%nat ->
  (forall j y, (j < from)%nat -> xs !! j = Some y -> s_lt v y = false) ->
  (forall i, upper_spec xs v i -> Q (Z.of_nat i) h) ->
  wp (v_upper_loop k p (Z.of_nat from) v) h Q.
Proof.
  intros Hwf Ha Hp. induction k as [|k IH]; intros from Hk Hpre HQ; cbn [v_upper_loop].
  - apply wp_ret. apply HQ. split; [lia|]. split; [exact Hpre|]. intros y Hy. apply lookup_lt_Some in Hy. lia.
  - destruct (lookup_lt_is_Some_2 xs from) as [x Hx]; [lia|].
    wbind. eapply wp_load; [exact Hwf|exact Hp|exact Ha|lia|rewrite Nat2Z.id; apply fmap_Some_lookup, Hx|].
    destruct (s_lt v x) eqn:E.
    + apply wp_ret. apply HQ. split; [lia|]. split; [exact Hpre|]. intros y Hy. congruence.
    + replace (Z.of_nat from + 1) with (Z.of_nat (S from)) by lia. apply IH; [lia| |exact HQ].
      intros j y Hj Hy. destruct (decide (j = from)) as [->|]; [congruence|]. eapply Hpre; [|exact Hy]. lia.
Qed.

Lemma wp_v_ordered_insert h l xs v (Q : unit -> heap F -> Prop) : wf h -> abs h !! l = Some (AVec xs) ->
  Z.of_nat (length xs) + 1 <= int_max ->
  (forall i h', upper_spec xs v i -> wf h' -> abs h' = <[l := AVec (take i xs ++ v :: drop i xs)]> (abs h) -> Q tt h') ->
  wp (v_ordered_insert l v) h Q.
Proof.
  intros Hwf Ha Hlen HQ. unfold v_ordered_insert. wbind. eapply wp_v_size_vec; [exact Ha|].
  wbind. eapply wp_data_ptr; [exact Ha|]. intros p Hp.
  wbind. rewrite Nat2Z.id. change 0 with (Z.of_nat 0).
  eapply wp_upper_loop; [exact Hwf|exact Ha|exact Hp|reflexivity|intros; lia|]. intros i Hi.
  eapply wp_v_insert; [exact Hwf|exact Ha|exact Hlen|]. intros h' W A.
  destruct Hi as (Hi1 & Hi2). rewrite decide_True in A by lia. rewrite Nat2Z.id in A.
  eapply HQ; eauto. split; auto.
Qed.

(** ** set_from, duplicate *)
Lemma wp_v_set_from_vec h l n cs b ys (Q : unit -> heap F -> Prop) : wf h -> abs h !! l = Some (SVec n, cs) -> abs h !! b = Some (AVec ys) ->
  (forall h', wf h' -> abs h' = <[l := AVec ys]> (abs h) -> Q tt h') -> wp (v_set_from_vec l b) h Q.
Proof.
  intros Hwf Hl Hb HQ. pose proof (avec_len _ _ _ Hwf Hb) as Hlen.
  unfold v_set_from_vec. wbind. eapply wp_v_size; [exact Hl|]. wbind. eapply wp_v_size_vec; [exact Hb|].
  wbind. eapply wp_v_resize_cond; [exact Hwf|exact Hl|lia|]. intros h2 W2 A2 _.
  pose proof (resize_operand h l n cs b ys _ Hwf Hl Hb eq_refl) as Hb2. rewrite <- A2 in Hb2.
  assert (Hr2 := lookup_insert (abs h) l (SVec (Z.of_nat (length ys)), list.resize (Z.to_nat (Z.of_nat (length ys))) None cs)).
  rewrite <- A2 in Hr2.
  wbind. eapply wp_v_size; [exact Hb2|].
  wbind. eapply wp_data_ptr; [exact Hr2|]. intros po Hpo.
  wbind. eapply wp_data_ptr; [exact Hb2|]. intros q Hq.
  eapply (wp_loop1 h2 b q ys l po _ _ (fun x => x)); [exact W2|exact Hb2|exact Hq|exact Hr2|exact Hpo|].
  intros h3 W3 O3 A3. apply HQ; auto. rewrite A3, A2, !insert_insert, list_fmap_id. reflexivity.
Qed.

Lemma wp_v_duplicate h l xs (Q : loc -> heap F -> Prop) : wf h -> abs h !! l = Some (AVec xs) ->
  (forall r h', wf h' -> abs h !! r = None -> abs h' = <[r := AVec xs]> (abs h) -> Q r h') -> wp (v_duplicate l) h Q.
Proof.
  intros Hwf Hl HQ. unfold v_duplicate. wbind. apply wp_v_new; [exact Hwf|]. intros r h1 W1 N1 A1 _.
  wbind. eapply wp_v_set_from_vec; [exact W1|rewrite A1; apply lookup_insert| |].
  { rewrite A1, lookup_insert_ne by congruence. exact Hl. }
  intros h2 W2 A2. apply HQ; auto. rewrite A2, A1, insert_insert. reflexivity.
Qed.

(** ** is_equal_approx *)
Lemma wp_equal_approx_loop h l xs p b ys q sh1 sh2 tol (Q : bool -> heap F -> Prop) : wf h ->
  abs h !! l = Some (sh1, Some <$> xs) -> ptr_of h l = Some p ->
  abs h !! b = Some (sh2, Some <$> ys) -> ptr_of h b = Some q -> length xs = length ys ->
  forall k i, (i + k = length xs)%nat ->
  Q (forallb (fun '(x, y) => s_equal_approx tol x y) (zip (drop i xs) (drop i ys))) h ->
  wp (equal_approx_loop k p q (Z.of_nat i) tol) h Q.
Proof.
  intros Hwf Ha Hp Hb Hq Hlen. induction k as [|k IH]; intros i Hk HQ; cbn [equal_approx_loop].
  - rewrite drop_ge in HQ by lia. exact HQ.
  - destruct (lookup_lt_is_Some_2 xs i) as [x Hx]; [lia|]. destruct (lookup_lt_is_Some_2 ys i) as [y Hy]; [lia|].
    wbind. eapply wp_load with (l := l); [exact Hwf|exact Hp|exact Ha|lia|rewrite Nat2Z.id; apply fmap_Some_lookup, Hx|].
    wbind. eapply wp_load with (l := b); [exact Hwf|exact Hq|exact Hb|lia|rewrite Nat2Z.id; apply fmap_Some_lookup, Hy|].
    rewrite (drop_S _ _ _ Hx), (drop_S _ _ _ Hy) in HQ. simpl in HQ.
    destruct (s_equal_approx tol x y); simpl in HQ; [|exact HQ].
    replace (Z.of_nat i + 1) with (Z.of_nat (S i)) by lia. apply IH; [lia|exact HQ].
Qed.

Lemma wp_v_is_equal_approx h l b xs ys tol (Q : bool -> heap F -> Prop) : wf h ->
  abs h !! l = Some (AVec xs) -> abs h !! b = Some (AVec ys) ->
  Q (if decide (l = b) then true else
     if decide (length xs = length ys) then forallb (fun '(x, y) => s_equal_approx tol x y) (zip xs ys) else false) h ->
  wp (v_is_equal_approx l (Some b) tol) h Q.
Proof.
  intros Hwf Ha Hb HQ. unfold v_is_equal_approx.
  destruct (decide (l = b)) as [->|Hne]; [rewrite Nat.eqb_refl; exact HQ|].
  rewrite (proj2 (Nat.eqb_neq l b) Hne).
  wbind. eapply wp_v_size_vec; [exact Ha|]. wbind. eapply wp_v_size_vec; [exact Hb|].
  destruct (decide (length xs = length ys)) as [E|E].
  - replace (Z.of_nat (length xs) =? Z.of_nat (length ys)) with true by lia. simpl.
    wbind. eapply wp_data_ptr; [exact Ha|]. intros p Hp.
    wbind. eapply wp_data_ptr; [exact Hb|]. intros q Hq.
    rewrite Nat2Z.id. change 0 with (Z.of_nat 0).
    eapply wp_equal_approx_loop; [exact Hwf|exact Ha|exact Hp|exact Hb|exact Hq|exact E|reflexivity|].
    rewrite !drop_0. exact HQ.
  - replace (Z.of_nat (length xs) =? Z.of_nat (length ys)) with false by lia. exact HQ.
Qed.

(** ** Reductions *)
Lemma wp_fold2 h l xs p b ys q sh (c0 : F) (f : F -> F -> F -> F) (Q : F -> heap F -> Prop) : wf h ->
  abs h !! l = Some (sh, Some <$> xs) -> ptr_of h l = Some p ->
  abs h !! b = Some (sh, Some <$> ys) -> ptr_of h b = Some q -> length xs = length ys ->
  Q (foldl (fun c '(x, y) => f c x y) c0 (zip xs ys)) h ->
  wp (for_acc 0 (Z.of_nat (length xs)) c0 (fun i c => let! x := load p i in let! y := load q i in ret (f c x y))) h Q.
Proof.
  intros Hwf Ha Hp Hb Hq Hlen HQ.
  apply wp_for_acc with (I := fun i c hi => hi = h /\ c = foldl (fun c '(x, y) => f c x y) c0 (take (Z.to_nat i) (zip xs ys))).
  - split; reflexivity.
  - intros i c hi Hi [-> ->].
    destruct (lookup_lt_is_Some_2 xs (Z.to_nat i)) as [x Hx]; [lia|]. destruct (lookup_lt_is_Some_2 ys (Z.to_nat i)) as [y Hy]; [lia|].
    wbind. eapply wp_load with (l := l); [exact Hwf|exact Hp|exact Ha|lia|apply fmap_Some_lookup, Hx|].
    wbind. eapply wp_load with (l := b); [exact Hwf|exact Hq|exact Hb|lia|apply fmap_Some_lookup, Hy|].
    apply wp_ret. split; [reflexivity|]. replace (Z.to_nat (i + 1)) with (S (Z.to_nat i)) by lia.
    rewrite (take_lookup_S _ _ (x, y)), foldl_app; [reflexivity|].
    apply lookup_zip_with_Some. eauto.
  - intros c hi [-> ->]. rewrite take_ge; [exact HQ|]. rewrite zip_with_length. lia.
Qed.

Lemma wp_v_sum h l xs (Q : F -> heap F -> Prop) : wf h -> abs h !! l = Some (AVec xs) ->
  Q (foldl s_add s_zero xs) h -> wp (v_sum l) h Q.
Proof.
  intros Hwf Ha HQ. unfold v_sum. wbind. eapply wp_v_size_vec; [exact Ha|].
  wbind. eapply wp_data_ptr; [exact Ha|]. intros p Hp.
  eapply wp_fold1 with (f := fun _ c x => s_add c x); [exact Hwf|exact Ha|exact Hp| |].
  - intros i a x h' _ Q' Hl HQ'. wbind. eapply wp_mono; [exact Hl|]. intros y h1 [-> ->]. exact HQ'.
  - rewrite foldl_index. exact HQ.
Qed.

Lemma wp_v_norm_sq h l xs (Q : F -> heap F -> Prop) : wf h -> abs h !! l = Some (AVec xs) ->
  Q (foldl (fun c x => s_add c (s_mul x x)) s_zero xs) h -> wp (v_norm_sq l) h Q.
Proof.
  intros Hwf Ha HQ. unfold v_norm_sq. wbind. eapply wp_v_size_vec; [exact Ha|].
  wbind. eapply wp_data_ptr; [exact Ha|]. intros p Hp.
  eapply wp_fold1 with (f := fun _ c x => s_add c (s_mul x x)); [exact Hwf|exact Ha|exact Hp| |].
  - intros i a x h' _ Q' Hl HQ'. wbind. eapply wp_mono; [exact Hl|]. intros y h1 [-> ->]. exact HQ'.
  - rewrite (foldl_index (fun c x => s_add c (s_mul x x))). exact HQ.
Qed.

Lemma wp_v_norm_2 h l xs (Q : F -> heap F -> Prop) : wf h -> abs h !! l = Some (AVec xs) ->
  Q (s_sqrt (foldl (fun c x => s_add c (s_mul x x)) s_zero xs)) h -> wp (v_norm_2 l) h Q.
Proof.
  intros Hwf Ha HQ. unfold v_norm_2. wbind. eapply wp_v_norm_sq; [exact Hwf|exact Ha|]. exact HQ.
Qed.

Lemma wp_v_dot h l b xs ys (Q : F -> heap F -> Prop) : wf h -> abs h !! l = Some (AVec xs) -> abs h !! b = Some (AVec ys) ->
  Q (if decide (length xs = length ys) then foldl (fun c '(x, y) => s_add c (s_mul x y)) s_zero (zip xs ys) else s_zero) h ->
  wp (v_dot l (Some b)) h Q.
Proof.
  intros Hwf Ha Hb HQ. unfold v_dot. wbind. eapply wp_v_size_vec; [exact Ha|]. wbind. eapply wp_v_size_vec; [exact Hb|].
  destruct (decide (length xs = length ys)) as [E|E].
  - replace (Z.of_nat (length xs) =? Z.of_nat (length ys)) with true by lia. simpl.
    wbind. eapply wp_data_ptr; [exact Ha|]. intros p Hp. wbind. eapply wp_data_ptr; [exact Hb|]. intros q Hq.
    assert (Hb' : abs h !! b = Some (SVec (Z.of_nat (length xs)), Some <$> ys)) by (rewrite E; exact Hb).
    eapply (wp_fold2 h l xs p b ys q _ s_zero (fun c x y => s_add c (s_mul x y))); eauto.
  - replace (Z.of_nat (length xs) =? Z.of_nat (length ys)) with false by lia. exact HQ.
Qed.

Definition dist_sq_fold xs ys : F :=
  foldl (fun c '(x, y) => s_add c (s_mul (s_sub x y) (s_sub x y))) s_zero (zip xs ys).

Lemma wp_v_dist_sq h l b xs ys (Q : F -> heap F -> Prop) : wf h -> abs h !! l = Some (AVec xs) -> abs h !! b = Some (AVec ys) ->
  Q (if decide (length xs = length ys) then dist_sq_fold xs ys else s_zero) h ->
  wp (v_dist_sq l (Some b)) h Q.
Proof.
  intros Hwf Ha Hb HQ. unfold v_dist_sq. wbind. eapply wp_v_size_vec; [exact Ha|]. wbind. eapply wp_v_size_vec; [exact Hb|].
  destruct (decide (length xs = length ys)) as [E|E].
  - replace (Z.of_nat (length xs) =? Z.of_nat (length ys)) with true by lia. simpl.
    wbind. eapply wp_data_ptr; [exact Ha|]. intros p Hp. wbind. eapply wp_data_ptr; [exact Hb|]. intros q Hq.
    assert (Hb' : abs h !! b = Some (SVec (Z.of_nat (length xs)), Some <$> ys)) by (rewrite E; exact Hb).
    eapply (wp_fold2 h l xs p b ys q _ s_zero (fun c x y => s_add c (s_mul (s_sub x y) (s_sub x y)))); eauto.
  - replace (Z.of_nat (length xs) =? Z.of_nat (length ys)) with false by lia. exact HQ.
Qed.

Lemma wp_v_dist h l b xs ys (Q : F -> heap F -> Prop) : wf h -> abs h !! l = Some (AVec xs) -> abs h !! b = Some (AVec ys) ->
  Q (if decide (length xs = length ys) then s_sqrt (dist_sq_fold xs ys) else s_zero) h ->
  wp (v_dist l (Some b)) h Q.
Proof.
  intros Hwf Ha Hb HQ. unfold v_dist. wbind. eapply wp_v_size_vec; [exact Ha|]. wbind. eapply wp_v_size_vec; [exact Hb|].
  destruct (decide (length xs = length ys)) as [E|E].
  - replace (Z.of_nat (length xs) =? Z.of_nat (length ys)) with true by lia. simpl.
    wbind. eapply wp_data_ptr; [exact Ha|]. intros p Hp. wbind. eapply wp_data_ptr; [exact Hb|]. intros q Hq.
    assert (Hb' : abs h !! b = Some (SVec (Z.of_nat (length xs)), Some <$> ys)) by (rewrite E; exact Hb).
    wbind. eapply (wp_fold2 h l xs p b ys q _ s_zero (fun c x y => s_add c (s_mul (s_sub x y) (s_sub x y)))); eauto.
  - replace (Z.of_nat (length xs) =? Z.of_nat (length ys)) with false by lia. exact HQ.
Qed.

Lemma foldl_ext' {A B} (f g : A -> B -> A) (zs : list B) : (forall a x, f a x = g a x) -> forall a, foldl f a zs = foldl g a zs.
Proof. intros E. induction zs as [|z zs IH]; intros a; simpl; [reflexivity|]. rewrite E. apply IH. Qed.

(** ** Extremal elements *)
Definition scan_fold (better : F -> F -> bool) (m0 : F) xs : F * Z :=
  (foldl (fun '(i, (m, k)) x => (i + 1, if better x m then (x, i) else (m, k))) (0, (m0, -1)) xs).2.

Lemma wp_v_max_scan h l xs (Q : F * Z -> heap F -> Prop) : wf h -> abs h !! l = Some (AVec xs) ->
  Q (scan_fold (fun x m => s_lt m x) (s_opp s_inf) xs) h -> wp (v_max_scan l) h Q.
Proof.
  intros Hwf Ha HQ. unfold v_max_scan. wbind. eapply wp_v_size_vec; [exact Ha|].
  wbind. eapply wp_data_ptr; [exact Ha|]. intros p Hp.
  eapply wp_fold1 with (f := fun i a x => if s_lt a.1 x then (x, i) else a); [exact Hwf|exact Ha|exact Hp| |].
  - intros i [m k] x h' _ Q' Hl HQ'. wbind. eapply wp_mono; [exact Hl|]. intros y h1 [-> ->]. exact HQ'.
  - unfold scan_fold in HQ.
    erewrite foldl_ext'; [exact HQ|]. intros [i [m k]] x. reflexivity.
Qed.
Lemma wp_v_min_scan h l xs (Q : F * Z -> heap F -> Prop) : wf h -> abs h !! l = Some (AVec xs) ->
  Q (scan_fold (fun x m => s_lt x m) s_inf xs) h -> wp (v_min_scan l) h Q.
Proof.
  intros Hwf Ha HQ. unfold v_min_scan. wbind. eapply wp_v_size_vec; [exact Ha|].
  wbind. eapply wp_data_ptr; [exact Ha|]. intros p Hp.
  eapply wp_fold1 with (f := fun i a x => if s_lt x a.1 then (x, i) else a); [exact Hwf|exact Ha|exact Hp| |].
  - intros i [m k] x h' _ Q' Hl HQ'. wbind. eapply wp_mono; [exact Hl|]. intros y h1 [-> ->]. exact HQ'.
  - unfold scan_fold in HQ.
    erewrite foldl_ext'; [exact HQ|]. intros [i [m k]] x. reflexivity.
Qed.

(** ** Constructors *)
Lemma wp_v_full h n x (Q : loc -> heap F -> Prop) : wf h -> 0 <= n <= int_max ->
  (forall r h', wf h' -> abs h !! r = None -> abs h' = <[r := AVec (replicate (Z.to_nat n) x)]> (abs h) -> Q r h') ->
  wp (v_full n x) h Q.
Proof.
  intros Hwf Hn HQ. unfold v_full. wbind. apply wp_v_new; [exact Hwf|]. intros r h1 W1 N1 A1 _.
  wbind. eapply wp_v_resize; [exact W1|rewrite A1; apply lookup_insert|lia|]. intros h2 W2 A2 _.
  wbind. eapply wp_v_fill; [exact W2|rewrite A2; apply lookup_insert|]. intros h3 W3 O3 A3.
  apply HQ; auto. rewrite A3, A2, A1, !insert_insert. reflexivity.
Qed.

(** ** division_element_wise (in place): UB *)
Lemma v_div_ub h l b xs ys : wf h -> abs h !! l = Some (AVec xs) -> abs h !! b = Some (AVec ys) ->
  length xs = length ys -> xs <> [] -> v_div l (Some b) h = UB.
Proof.
  intros Hwf Ha Hb E Hne.
  assert (Hnew : exists r h1, v_new h = Ok r h1 /\ wf h1 /\ abs h !! r = None /\ abs h1 = <[r := AVec []]> (abs h)).
  { apply wp_ok. apply wp_v_new; [exact Hwf|]. auto. }
  destruct Hnew as (r & h1 & E1 & W1 & N1 & A1).
  unfold v_div, bind at 1. rewrite E1. clear E1.
  assert (Ha1 : abs h1 !! l = Some (AVec xs)) by (rewrite A1, lookup_insert_ne by congruence; exact Ha).
  assert (Hb1 : abs h1 !! b = Some (AVec ys)) by (rewrite A1, lookup_insert_ne by congruence; exact Hb).
  assert (Hr1 : abs h1 !! r = Some (AVec [])) by (rewrite A1; apply lookup_insert).
  assert (Hs : forall l xs, abs h1 !! l = Some (AVec xs) -> v_size l h1 = Ok (Z.of_nat (length xs)) h1).
  { intros l' xs' Hl'. destruct (proj1 (wp_ok (v_size l') h1 (fun n h' => n = Z.of_nat (length xs') /\ h' = h1))) as (? & ? & E1 & -> & ->); [|exact E1].
    eapply wp_v_size_vec; [exact Hl'|]. auto. }
  unfold bind at 1. rewrite (Hs _ _ Ha1). unfold bind at 1. rewrite (Hs _ _ Hb1).
  replace (Z.of_nat (length xs) =? Z.of_nat (length ys)) with true by lia. cbn [negb].
  assert (Hp : forall l a, abs h1 !! l = Some a -> exists p, ptr_of h1 l = Some p /\ data_ptr l h1 = Ok p h1).
  { intros l' a' Hl'. destruct (proj1 (wp_ok (data_ptr l') h1 (fun p h' => ptr_of h1 l' = Some p /\ h' = h1))) as (p & ? & E1 & E2 & ->); [|eauto].
    eapply wp_data_ptr; [exact Hl'|]. auto. }
  destruct (Hp _ _ Ha1) as (p & Ep & Hdp). destruct (Hp _ _ Hb1) as (q & Eq & Hdq). destruct (Hp _ _ Hr1) as (po & Epo & Hdo).
  assert (po = None) as ->.
  { apply (wf_ptr_nil h1 r (SVec 0) []) in Hr1; auto. destruct Hr1 as [_ Hr1]. specialize (Hr1 eq_refl). congruence. }
  unfold bind at 1. rewrite Hdp. unfold bind at 1. rewrite Hdq. unfold bind at 1. rewrite Hdo.
  assert (Hl : loop2 s_div (Z.of_nat (length xs)) p q None h1 = UB).
  { unfold loop2, for_, for_acc. destruct xs as [|x xs]; [congruence|]. destruct ys as [|y ys]; [discriminate|].
    replace (Z.to_nat (Z.of_nat (length (x :: xs)) - 0)) with (S (length xs)) by (simpl length; lia). cbn [for_nat].
    assert (Hld : forall l p xs x, abs h1 !! l = Some (AVec (x :: xs)) -> ptr_of h1 l = Some p -> load p 0 h1 = Ok x h1).
    { intros l' p' xs' x' Hl' Hp'. destruct (proj1 (wp_ok (load p' 0) h1 (fun v h' => v = x' /\ h' = h1))) as (? & ? & E1 & -> & ->); [|exact E1].
      eapply wp_load; [exact W1|exact Hp'|exact Hl'|lia|reflexivity|auto]. }
    unfold bind at 1. unfold bind at 1. rewrite (Hld _ _ _ _ Ha1 Ep). unfold bind at 1. rewrite (Hld _ _ _ _ Hb1 Eq). reflexivity. }
  unfold bind at 1. rewrite Hl. reflexivity.
Qed.

Lemma wp_v_div_noop h l b xs ys (Q : unit -> heap F -> Prop) : wf h -> abs h !! l = Some (AVec xs) -> abs h !! b = Some (AVec ys) ->
  (length xs <> length ys \/ xs = []) -> (forall h', wf h' -> abs h' = abs h -> Q tt h') -> wp (v_div l (Some b)) h Q.
Proof.
  intros Hwf Ha Hb Hc HQ. unfold v_div. wbind. apply wp_v_new; [exact Hwf|]. intros r h1 W1 N1 A1 _.
  assert (Ha1 : abs h1 !! l = Some (AVec xs)) by (rewrite A1, lookup_insert_ne by congruence; exact Ha).
  assert (Hb1 : abs h1 !! b = Some (AVec ys)) by (rewrite A1, lookup_insert_ne by congruence; exact Hb).
  assert (Hr1 : abs h1 !! r = Some (AVec [])) by (rewrite A1; apply lookup_insert).
  wbind. eapply wp_v_size_vec; [exact Ha1|]. wbind. eapply wp_v_size_vec; [exact Hb1|].
  assert (Hdel : wp (del_obj r) h1 Q).
  { eapply wp_del; [exact W1|exact Hr1|]. intros h2 W2 A2 _. apply HQ; auto. rewrite A2, A1, delete_insert; auto. }
  destruct (Z.eqb_spec (Z.of_nat (length xs)) (Z.of_nat (length ys))) as [E|E]; cbn [negb]; [|exact Hdel].
  destruct Hc as [Hc| ->]; [lia|].
  wbind. eapply wp_data_ptr; [exact Ha1|]. intros p Hp. wbind. eapply wp_data_ptr; [exact Hb1|]. intros q Hq.
  wbind. eapply wp_data_ptr; [exact Hr1|]. intros po Hpo. wbind. exact Hdel.
Qed.

(** ** flatten_vectors *)
Lemma wp_v_total_size h : forall A vs acc (Q : Z -> heap F -> Prop),
  Forall2 (fun r v => exists b, r = Some b /\ abs h !! b = Some (AVec v)) A vs ->
  0 <= acc -> acc + Z.of_nat (length (concat vs)) <= int_max ->
  Q (acc + Z.of_nat (length (concat vs))) h -> wp (v_total_size A acc) h Q.
Proof.
  intros A vs acc Q Hall. revert acc. induction Hall as [|r v A vs (b & -> & Hb) Hall IH]; intros acc H0 Hle HQ; cbn [v_total_size].
  - simpl in HQ. rewrite Z.add_0_r in HQ. exact HQ.
  - simpl in Hle, HQ. rewrite app_length in Hle, HQ. wbind. cbn [deref]. apply wp_ret.
    wbind. eapply wp_v_size_vec; [exact Hb|]. wbind. apply wp_chk; [unfold int_max in *; lia|].
    apply IH; [lia|lia|]. replace (acc + Z.of_nat (length v) + Z.of_nat (length (concat vs))) with (acc + Z.of_nat (length v + length (concat vs))) by lia. exact HQ.
Qed.

Lemma wp_v_flatten_loop h l po sh (old : list (cell F)) (all : list F) : wf h -> ptr_of h l = Some po -> abs h !! l = Some (sh, old) ->
  length all = length old ->
  forall A vs pre hi (Q : unit -> heap F -> Prop),
  Forall2 (fun r v => exists b, r = Some b /\ b <> l /\ abs h !! b = Some (AVec v)) A vs ->
  all = pre ++ concat vs ->
  wf hi -> h_obj hi = h_obj h -> abs hi = <[l := (sh, upto (length pre) (Some <$> all) old)]> (abs h) ->
  (forall h', wf h' -> h_obj h' = h_obj h -> abs h' = <[l := (sh, Some <$> all)]> (abs h) -> Q tt h') ->
  wp (v_flatten_loop A po (Z.of_nat (length pre))) hi Q.
Proof.
  intros Hwf Hpo Hl Hlen A vs pre hi Q Hall. revert pre hi. induction Hall as [|r v A vs (b & -> & Hne & Hb) Hall IH];
    intros pre hi Eall W O Ab HQ; cbn [v_flatten_loop].
  - simpl in Eall. rewrite app_nil_r in Eall. subst pre. apply HQ; auto. rewrite Ab, upto_all; auto; rewrite ?fmap_length; lia.
  - simpl in Eall. wbind. cbn [deref]. apply wp_ret.
    assert (Hbi : abs hi !! b = Some (AVec v)) by (rewrite Ab, lookup_insert_ne by congruence; exact Hb).
    wbind. eapply wp_v_size_vec; [exact Hbi|]. wbind. eapply wp_data_ptr; [exact Hbi|]. intros q Hq. rewrite (ptr_of_obj h hi) in Hq by assumption. wbind.
    apply wp_for_acc with (I := fun j idx h' => idx = Z.of_nat (length pre) + j /\ wf h' /\ h_obj h' = h_obj h /\
       abs h' = <[l := (sh, upto (Z.to_nat idx) (Some <$> all) old)]> (abs h)).
    + rewrite Nat2Z.id. split; [lia|]. auto.
    + intros j idx h1 Hj (-> & W1 & O1 & A1).
      destruct (lookup_lt_is_Some_2 v (Z.to_nat j)) as [y Hy]; [lia|].
      assert (Hall_y : all !! Z.to_nat (Z.of_nat (length pre) + j) = Some y).
      { rewrite Eall. rewrite lookup_app_r by lia. rewrite lookup_app_l by lia. rewrite <- Hy. f_equal. lia. }
      wbind. eapply wp_load with (l := b) (v := y); [exact W1|rewrite (ptr_of_obj h h1); assumption|rewrite A1, lookup_insert_ne by congruence; exact Hb|lia|apply fmap_Some_lookup, Hy|].
      wbind. eapply wp_store with (l := l); [exact W1|rewrite (ptr_of_obj h h1); assumption|rewrite A1; apply lookup_insert| |].
      { rewrite upto_length by (rewrite fmap_length; lia). apply lookup_lt_Some in Hall_y. lia. }
      intros h2 W2 O2 _ A2. apply wp_ret. split; [lia|]. split; [assumption|]. split; [congruence|].
      rewrite A2, A1, insert_insert. do 2 f_equal.
      replace (Z.to_nat (Z.of_nat (length pre) + j + 1)) with (S (Z.to_nat (Z.of_nat (length pre) + j))) by lia.
      apply upto_S; [rewrite fmap_length; lia|]. apply fmap_Some_lookup, Hall_y.
    + intros idx h1 (-> & W1 & O1 & A1).
      replace (Z.of_nat (length pre) + Z.max 0 (Z.of_nat (length v))) with (Z.of_nat (length (pre ++ v))) in * by (rewrite app_length; lia).
      apply IH; auto.
      * rewrite <- app_assoc. assumption.
      * rewrite Nat2Z.id in A1. exact A1.
Qed.

Lemma wp_v_flatten h l n cs A vs (Q : unit -> heap F -> Prop) : wf h -> abs h !! l = Some (SVec n, cs) ->
  Forall2 (fun r v => exists b, r = Some b /\ b <> l /\ abs h !! b = Some (AVec v)) A vs ->
  Z.of_nat (length (concat vs)) <= int_max ->
  (forall h', wf h' -> abs h' = <[l := AVec (concat vs)]> (abs h) -> Q tt h') ->
  wp (v_flatten l A) h Q.
Proof.
  intros Hwf Hl Hall Hle HQ. unfold v_flatten. wbind. eapply wp_v_total_size with (vs := vs); [|lia|lia|].
  { eapply Forall2_impl; [exact Hall|]. intros r v (b & ? & ? & ?). eauto. }
  rewrite Z.add_0_l. wbind. eapply wp_v_resize; [exact Hwf|exact Hl|lia|]. intros h1 W1 A1 _.
  assert (Hl1 := lookup_insert (abs h) l (SVec (Z.of_nat (length (concat vs))), list.resize (Z.to_nat (Z.of_nat (length (concat vs)))) None cs)).
  rewrite <- A1 in Hl1. wbind. eapply wp_data_ptr; [exact Hl1|]. intros po Hpo.
  change 0 with (Z.of_nat (length (@nil F))).
  eapply wp_v_flatten_loop with (all := concat vs) (vs := vs); [exact W1|exact Hpo|exact Hl1| | |reflexivity|exact W1|reflexivity| |].
  - rewrite resize_length. lia.
  - eapply Forall2_impl; [exact Hall|]. intros r v (b & ? & ? & ?). exists b. rewrite A1, lookup_insert_ne by congruence. auto.
  - cbn [length]. rewrite upto_0, insert_id; auto.
  - intros h2 W2 O2 A2. apply HQ; auto. rewrite A2, A1, insert_insert. reflexivity.
Qed.

Lemma wp_v_flattenn h A vs (Q : loc -> heap F -> Prop) : wf h ->
  Forall2 (fun r v => exists b, r = Some b /\ abs h !! b = Some (AVec v)) A vs ->
  Z.of_nat (length (concat vs)) <= int_max ->
  (forall r h', wf h' -> abs h !! r = None -> abs h' = <[r := AVec (concat vs)]> (abs h) -> Q r h') ->
  wp (v_flattenn A) h Q.
Proof.
  intros Hwf Hall Hle HQ. unfold v_flattenn. wbind. apply wp_v_new; [exact Hwf|]. intros l h0 W0 N0 A0 _.
  assert (Hall0 : Forall2 (fun r v => exists b, r = Some b /\ b <> l /\ abs h0 !! b = Some (AVec v)) A vs).
  { eapply Forall2_impl; [exact Hall|]. intros r v (b & ? & ?). exists b. assert (b <> l) by congruence. rewrite A0, lookup_insert_ne by congruence. auto. }
  wbind. eapply wp_v_total_size with (vs := vs); [|lia|lia|].
  { eapply Forall2_impl; [exact Hall0|]. intros r v (b & ? & ? & ?). eauto. }
  rewrite Z.add_0_l. wbind. eapply wp_v_resize; [exact W0|rewrite A0; apply lookup_insert|lia|]. intros h1 W1 A1 _.
  assert (Hl1 := lookup_insert (abs h0) l (SVec (Z.of_nat (length (concat vs))), list.resize (Z.to_nat (Z.of_nat (length (concat vs)))) None (Some <$> @nil F))).
  rewrite <- A1 in Hl1. wbind. eapply wp_data_ptr; [exact Hl1|]. intros po Hpo.
  wbind. change 0 with (Z.of_nat (length (@nil F))).
  eapply wp_v_flatten_loop with (all := concat vs) (vs := vs); [exact W1|exact Hpo|exact Hl1| | |reflexivity|exact W1|reflexivity| |].
  - rewrite resize_length. lia.
  - eapply Forall2_impl; [exact Hall0|]. intros r v (b & ? & ? & ?). exists b. rewrite A1, lookup_insert_ne by congruence. auto.
  - cbn [length]. rewrite upto_0, insert_id; auto.
  - intros h2 W2 O2 A2. apply HQ; auto. rewrite A2, A1, A0, !insert_insert. reflexivity.
Qed.

(** ** cross *)
Lemma wp_v_cross h l b a0 a1 a2 b0 b1 b2 (Q : loc -> heap F -> Prop) : wf h ->
  abs h !! l = Some (AVec [a0; a1; a2]) -> abs h !! b = Some (AVec [b0; b1; b2]) ->
  (forall r h', wf h' -> abs h !! r = None ->
     abs h' = <[r := AVec [s_sub (s_mul a1 b2) (s_mul a2 b1); s_opp (s_sub (s_mul a0 b2) (s_mul a2 b0)); s_sub (s_mul a0 b1) (s_mul a1 b0)]]> (abs h) -> Q r h') ->
  wp (v_cross l (Some b)) h Q.
Proof.
  intros Hwf Ha Hb HQ. unfold v_cross. wbind. cbn [deref]. apply wp_ret.
  do 3 (wbind; eapply wp_v_get; [exact Hwf|exact Ha|]; cbv beta).
  do 3 (wbind; eapply wp_v_get; [exact Hwf|exact Hb|]; cbv beta).
  wbind. apply wp_v_new; [exact Hwf|]. intros r h1 W1 N1 A1 _.
  wbind. eapply wp_v_resize; [exact W1|rewrite A1; apply lookup_insert|unfold int_max; lia|]. intros h2 W2 A2 _.
  wbind. eapply wp_v_set; [exact W2|rewrite A2; apply lookup_insert|]. intros h3 W3 O3 A3. cbn in A3.
  wbind. eapply wp_v_set; [exact W3|rewrite A3; apply lookup_insert|]. intros h4 W4 O4 A4. cbn in A4.
  wbind. eapply wp_v_set; [exact W4|rewrite A4; apply lookup_insert|]. intros h5 W5 O5 A5. cbn in A5.
  apply HQ; auto. rewrite A5, A4, A3, A2, A1, !insert_insert. reflexivity.
Qed.

End vecproofs2.
