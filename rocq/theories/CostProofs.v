(** * What the cost and regularisation functions compute, for any scalar arithmetic. *)
From Verif Require Import Base BaseProofs Vec VecSpec VecProofs VecProofs2 Mat MatSpec MatProofs MatProofs2 MatProofs3 MatProofs4 MatProofs5 Frame StatProofs Act ActProofs ActProofs2 Cost.

Section proofs.
Context {F : Type} `{Scalar F} `{Libm F}.
Implicit Types (h : heap F) (z o a b : loc).

Lemma kobj_cells k c w xs : (KObj k c w xs : aobj F) = (match k with KV => SVec (Z.of_nat (length xs)) | KM => SMat (Z.of_nat c) (Z.of_nat w) end, Some <$> xs).
Proof. destruct k; reflexivity. Qed.
Lemma kobj_len h z k c w xs : wf h -> abs h !! z = Some (KObj k c w xs) -> Z.of_nat (length xs) <= int_max /\ match k with KV => True | KM => length xs = (c * w)%nat end.
Proof. intros Hw Hz. rewrite kobj_cells in Hz. destruct (wf_abs_len h z _ _ Hw Hz) as [E L]. destruct k; cbn in *; rewrite fmap_length in *; lia. Qed.
Lemma wp_k_data_size h z k c w xs (Q : Z -> heap F -> Prop) : wf h -> abs h !! z = Some (KObj k c w xs) -> Q (Z.of_nat (length xs)) h -> wp (k_data_size k z) h Q.
Proof.
  intros Hw Hz HQ. destruct (kobj_len h z k c w xs Hw Hz) as [_ L]. destruct k; cbn in *.
  - eapply wp_v_size_vec; eauto.
  - eapply wp_m_data_size; [exact Hz|]. replace (Z.of_nat c * Z.of_nat w) with (Z.of_nat (length xs)) by lia. exact HQ.
Qed.

Definition fold2 (f : F -> F -> F) (xs ys : list F) : F := foldl (fun s '(x, y) => s_add s (f x y)) s_zero (zip xs ys).

Lemma cost_fold_ok k f fin h a b c w c' w' xs ys (Q : F -> heap F -> Prop) : wf h ->
  abs h !! a = Some (KObj k c w xs) -> abs h !! b = Some (KObj k c' w' ys) -> length xs = length ys ->
  wp (fin a (fold2 f xs ys) (Z.of_nat (length xs))) h Q ->
  wp (cost_fold k f (Some a) (Some b) fin) h Q.
Proof.
  intros Hw Ha Hb E HQ. unfold cost_fold. wbind. apply wp_ret. wbind. eapply wp_k_data_size; [exact Hw|exact Ha|].
  wbind. apply wp_ret. wbind. eapply wp_k_data_size; [exact Hw|exact Hb|].
  rewrite E, Z.eqb_refl. cbn [negb]. rewrite <- E.
  rewrite kobj_cells in Ha, Hb.
  wbind. eapply wp_data_ptr; [exact Ha|]. intros p Hp. wbind. eapply wp_data_ptr; [exact Hb|]. intros q Hq.
  wbind. apply wp_for_acc with (I := fun i s hi => hi = h /\ s = foldl (fun s '(x, y) => s_add s (f x y)) s_zero (take (Z.to_nat i) (zip xs ys))).
  - split; reflexivity.
  - intros i s hi Hi [-> ->].
    destruct (lookup_lt_is_Some_2 xs (Z.to_nat i)) as [v Hv]; [lia|]. destruct (lookup_lt_is_Some_2 ys (Z.to_nat i)) as [v' Hv']; [lia|].
    wbind. eapply wp_load with (l := a); [exact Hw|exact Hp|exact Ha|lia|apply fmap_Some_lookup, Hv|].
    wbind. eapply wp_load with (l := b); [exact Hw|exact Hq|exact Hb|lia|apply fmap_Some_lookup, Hv'|].
    apply wp_ret. split; [reflexivity|]. replace (Z.to_nat (i + 1)) with (S (Z.to_nat i)) by lia.
    rewrite (take_S_r _ _ (v, v')); [rewrite foldl_app; reflexivity|]. apply lookup_zip_with_Some. eauto.
  - intros s hi [-> ->]. rewrite take_ge; [exact HQ|]. rewrite zip_with_length. lia.
Qed.
Lemma cost_fold_mismatch k f fin h a b c w c' w' xs ys : wf h ->
  abs h !! a = Some (KObj k c w xs) -> abs h !! b = Some (KObj k c' w' ys) -> length xs <> length ys ->
  cost_fold k f (Some a) (Some b) fin h = Ok s_zero h.
Proof.
  intros Hw Ha Hb E. apply wp_eq. unfold cost_fold. wbind. apply wp_ret. wbind. eapply wp_k_data_size; [exact Hw|exact Ha|].
  wbind. apply wp_ret. wbind. eapply wp_k_data_size; [exact Hw|exact Hb|].
  destruct (Z.eqb_spec (Z.of_nat (length xs)) (Z.of_nat (length ys))); [lia|]. cbn. auto.
Qed.

Lemma wp_k_new_like k h a c w xs (Q : loc -> heap F -> Prop) : wf h -> abs h !! a = Some (KObj k c w xs) ->
  (forall o h' cs, wf h' -> abs h !! o = None -> abs h' = <[o := ((KObj k c w xs).1, cs)]> (abs h) -> length cs = length xs ->
    (forall l, l <> o -> ptr_of h' l = ptr_of h l) -> Q o h') ->
  wp (let! o := k_new k in k_resize_like k o a ;;; ret o) h Q.
Proof.
  intros Hw Ha HQ. destruct (kobj_len h a k c w xs Hw Ha) as [L1 L2]. unfold k_new, k_resize_like. destruct k; cbn in Ha; wbind.
  - apply wp_v_new; [exact Hw|]. intros o h1 W1 N1 A1 P1. wbind. wbind. eapply wp_v_size_vec; [rewrite A1, lookup_insert_ne by congruence; exact Ha|].
    eapply wp_v_resize; [exact W1|rewrite A1; apply lookup_insert|lia|]. intros h2 W2 A2 P2. apply wp_ret.
    eapply HQ; [exact W2|exact N1|rewrite A2, A1, insert_insert; reflexivity| |]; [rewrite resize_length; lia|]. intros l Hl. rewrite P2, P1 by assumption. reflexivity.
  - apply wp_m_new; [exact Hw|]. intros o h1 W1 N1 A1 P1. wbind. wbind. eapply wp_m_size; [rewrite A1, lookup_insert_ne by congruence; exact Ha|].
    eapply wp_m_resize; [exact W1|rewrite A1; apply lookup_insert|lia|]. intros h2 W2 A2 P2. apply wp_ret.
    eapply HQ; [exact W2|exact N1|rewrite A2, A1, insert_insert; reflexivity| |]; [rewrite resize_length; lia|]. intros l Hl. rewrite P2, P1 by assumption. reflexivity.
Qed.
Lemma bind_assoc3 {A B} (m : M F A) (n : A -> M F unit) (kk : A -> M F B) h :
  (let! x := m in n x ;;; kk x) h = (let! x := (let! x := m in n x ;;; ret x) in kk x) h.
Proof. unfold bind, ret. destruct (m h) as [x h1| | |]; try reflexivity. destruct (n x h1); reflexivity. Qed.
Lemma wp_bind_assoc3 {A B} (m : M F A) (n : A -> M F unit) (kk : A -> M F B) h Q :
  wp (let! x := m in n x ;;; ret x) h (fun x h' => wp (kk x) h' Q) -> wp (let! x := m in n x ;;; kk x) h Q.
Proof. intros G. unfold wp at 1. rewrite bind_assoc3. apply wp_bind. exact G. Qed.

Lemma d_loop_ok k g h a b c w c' w' xs ys (Q : option loc -> heap F -> Prop) : wf h ->
  abs h !! a = Some (KObj k c w xs) -> abs h !! b = Some (KObj k c' w' ys) -> length xs = length ys ->
  (forall o h', wf h' -> abs h !! o = None -> abs h' = <[o := KObj k c w (zip_with g xs ys)]> (abs h) -> Q (Some o) h') ->
  wp (d_loop k g (Some a) (Some b)) h Q.
Proof.
  intros Hw Ha Hb E HQ. unfold d_loop. wbind. apply wp_ret. wbind. eapply wp_k_data_size; [exact Hw|exact Ha|].
  wbind. apply wp_ret. wbind. eapply wp_k_data_size; [exact Hw|exact Hb|].
  rewrite E, Z.eqb_refl. cbn [negb]. rewrite <- E.
  wbind. eapply wp_data_ptr; [rewrite kobj_cells in Ha; exact Ha|]. intros p Hp. wbind. eapply wp_data_ptr; [rewrite kobj_cells in Hb; exact Hb|]. intros q Hq.
  apply (wp_bind_assoc3 (k_new k) (fun o => k_resize_like k o a)). eapply wp_k_new_like; [exact Hw|exact Ha|]. intros o h1 cs W1 N1 A1 L1 P1.
  assert (Hao : a <> o) by congruence. assert (Hbo : b <> o) by congruence.
  wbind. eapply wp_data_ptr; [rewrite A1; apply lookup_insert|]. intros po Hpo.
  assert (Ha1 : abs h1 !! a = Some (KObj k c w xs)) by (rewrite A1, lookup_insert_ne by congruence; exact Ha).
  assert (Hb1 : abs h1 !! b = Some (KObj k c' w' ys)) by (rewrite A1, lookup_insert_ne by congruence; exact Hb).
  rewrite kobj_cells in Ha1, Hb1.
  wbind. eapply wp_map_loop with (new := zip_with g xs ys) (lo := o); [exact W1|exact Hpo|rewrite A1; apply lookup_insert| |lia| |].
  - rewrite zip_with_length. lia.
  - intros i hi v Q' Hi Hm Hv Hs. apply lookup_zip_with_Some in Hv as (x & y & -> & Hx & Hy).
    assert (Hlen : length (zip_with g xs ys) = length cs) by (rewrite zip_with_length; lia).
    wbind. eapply wp_load_mid with (la := a) (j := i); [exact Hm|exact Hlen|rewrite A1; apply lookup_insert|rewrite P1 by assumption; exact Hp|exact Ha1|lia|apply fmap_Some_lookup, Hx|].
    wbind. eapply wp_load_mid with (la := b) (j := i); [exact Hm|exact Hlen|rewrite A1; apply lookup_insert|rewrite P1 by assumption; exact Hq|exact Hb1|lia|apply fmap_Some_lookup, Hy|exact Hs].
  - intros h2 W2 _ A2. apply wp_ret. apply HQ; [exact W2|exact N1|]. rewrite A2, A1, insert_insert. f_equal. rewrite !kobj_cells. cbn [fst].
    rewrite zip_with_length, E, Nat.min_id. reflexivity.
Qed.
Lemma d_loop_mismatch k g h a b c w c' w' xs ys : wf h ->
  abs h !! a = Some (KObj k c w xs) -> abs h !! b = Some (KObj k c' w' ys) -> length xs <> length ys ->
  d_loop k g (Some a) (Some b) h = Ok None h.
Proof.
  intros Hw Ha Hb E. apply wp_eq. unfold d_loop. wbind. apply wp_ret. wbind. eapply wp_k_data_size; [exact Hw|exact Ha|].
  wbind. apply wp_ret. wbind. eapply wp_k_data_size; [exact Hw|exact Hb|].
  destruct (Z.eqb_spec (Z.of_nat (length xs)) (Z.of_nat (length ys))); [lia|]. cbn. auto.
Qed.

(** The loop of mae_deriv: every element of the prediction is converted to int. *)
Definition isign (i : Z) : F := if i <? 0 then s_m1 else if i =? 0 then s_zero else s_one.
Lemma d_mae_ok k rb h a c w xs is (Q : option loc -> heap F -> Prop) : wf h ->
  abs h !! a = Some (KObj k c w xs) -> Forall2 (fun x i => m_to_int x = Some i) xs is ->
  (forall o h', wf h' -> abs h !! o = None -> abs h' = <[o := KObj k c w (isign <$> is)]> (abs h) -> Q (Some o) h') ->
  wp (d_mae k (Some a) rb) h Q.
Proof.
  intros Hw Ha E HQ. pose proof (Forall2_length _ _ _ E) as El. unfold d_mae. wbind. apply wp_ret. wbind. eapply wp_k_data_size; [exact Hw|exact Ha|].
  wbind. eapply wp_data_ptr; [rewrite kobj_cells in Ha; exact Ha|]. intros p Hp.
  apply (wp_bind_assoc3 (k_new k) (fun o => k_resize_like k o a)). eapply wp_k_new_like; [exact Hw|exact Ha|]. intros o h1 cs W1 N1 A1 L1 P1.
  assert (Hao : a <> o) by congruence.
  wbind. eapply wp_data_ptr; [rewrite A1; apply lookup_insert|]. intros po Hpo.
  assert (Ha1 : abs h1 !! a = Some (KObj k c w xs)) by (rewrite A1, lookup_insert_ne by congruence; exact Ha).
  rewrite kobj_cells in Ha1.
  wbind. eapply wp_map_loop with (new := isign <$> is) (lo := o); [exact W1|exact Hpo|rewrite A1; apply lookup_insert| |lia| |].
  - rewrite fmap_length. lia.
  - intros i hi v Q' Hi Hm Hv Hs. rewrite list_lookup_fmap in Hv. destruct (is !! Z.to_nat i) as [n|] eqn:En; [|discriminate]. injection Hv as <-.
    destruct (Forall2_lookup_r _ _ _ _ _ E En) as (x & Hx & Hn).
    assert (Hlen : length (isign <$> is) = length cs) by (rewrite fmap_length; lia).
    wbind. eapply wp_load_mid with (la := a) (j := i); [exact Hm|exact Hlen|rewrite A1; apply lookup_insert|rewrite P1 by assumption; exact Hp|exact Ha1|lia|apply fmap_Some_lookup, Hx|].
    wbind. unfold int_sign. rewrite Hn. apply wp_ret. exact Hs.
  - intros h2 W2 _ A2. apply wp_ret. apply HQ; [exact W2|exact N1|]. rewrite A2, A1, insert_insert. f_equal. rewrite !kobj_cells. cbn [fst].
    rewrite fmap_length, El. reflexivity.
Qed.

(** Nested loops that fill a matrix. *)
Lemma wp_mfill h lo p c r g0 (u : nat -> nat -> F) (body : Z -> Z -> M F unit) (Q : unit -> heap F -> Prop) : wf h ->
  abs h !! lo = Some (MatP c r g0) -> ptr_of h lo = Some p ->
  (forall i j g hi (Q' : unit -> heap F -> Prop), (i < r)%nat -> (j < c)%nat -> mst h lo c r g hi ->
     wp (store p (Z.of_nat i * Z.of_nat c + Z.of_nat j) (u i j)) hi Q' -> wp (body (Z.of_nat i) (Z.of_nat j)) hi Q') ->
  (forall h', wf h' -> h_obj h' = h_obj h -> abs h' = <[lo := Mat c r u]> (abs h) -> Q tt h') ->
  wp (for_ 0 (Z.of_nat r) (fun i => for_ 0 (Z.of_nat c) (fun j => body i j))) h Q.
Proof.
  intros Hw Ha Hp Hb HQ.
  set (inv := fun i j i' j' => if decide (i' < i \/ (i' = i /\ j' < j))%nat then Some (u i' j') else g0 i' j').
  apply wp_for_n with (I := fun i hi => mst h lo c r (inv i 0%nat) hi).
  - eapply mst_ext; [apply mst_init; eauto|]. unfold inv. intros. rewrite decide_False by lia. reflexivity.
  - intros i hi Hi HI. apply wp_for_n with (I := fun j hi => mst h lo c r (inv i j) hi).
    + exact HI.
    + clear hi HI. intros j hi Hj HI. eapply Hb; [lia|lia|exact HI|].
      eapply wp_mstore; [exact HI|exact Hp|lia|lia|]. intros h' HI'. eapply mst_ext; [exact HI'|]. unfold inv, upd. intros i' j' _ _.
      repeat case_decide; try reflexivity; try lia; destruct_and?; subst; try lia; f_equal; lia.
    + intros h1 H1. eapply mst_ext; [exact H1|]. unfold inv. intros. repeat case_decide; try reflexivity; lia.
  - intros h1 [W O A]. apply HQ; auto. rewrite A, Mat_MatP. f_equal. apply MatP_ext. unfold inv. intros. rewrite decide_True by lia. reflexivity.
Qed.

Lemma mlist_nth_fmap (g : F -> F) c r xs : length xs = (c * r)%nat -> mlist c r (fun i j => g (nth (i * c + j) xs s_zero)) = g <$> xs.
Proof.
  intros L. apply list_eq. intros i. unfold mlist. rewrite !list_lookup_fmap. destruct (decide (i < r * c)%nat) as [Hi|Hi].
  - rewrite lookup_seq_lt by lia. destruct (lookup_lt_is_Some_2 xs i) as [x Hx]; [lia|]. rewrite Hx. cbn. do 2 f_equal.
    assert (c <> 0)%nat by lia. rewrite (Nat.mul_comm (i / c)), <- Nat.div_mod by assumption. apply nth_lookup_Some. exact Hx.
  - rewrite !lookup_ge_None_2; [reflexivity|lia|rewrite seq_length; lia].
Qed.

Lemma reg_fold_ok k f h a c w xs (Q : F -> heap F -> Prop) : wf h -> abs h !! a = Some (KObj k c w xs) ->
  Q (foldl f s_zero xs) h -> wp (reg_fold k f (Some a)) h Q.
Proof.
  intros Hw Ha HQ. unfold reg_fold. wbind. apply wp_ret. wbind. eapply wp_k_data_size; [exact Hw|exact Ha|].
  rewrite kobj_cells in Ha. wbind. eapply wp_data_ptr; [exact Ha|]. intros p Hp.
  apply wp_for_acc with (I := fun i s hi => hi = h /\ s = foldl f s_zero (take (Z.to_nat i) xs)).
  - split; reflexivity.
  - intros i s hi Hi [-> ->]. destruct (lookup_lt_is_Some_2 xs (Z.to_nat i)) as [v Hv]; [lia|].
    wbind. eapply wp_load with (l := a); [exact Hw|exact Hp|exact Ha|lia|apply fmap_Some_lookup, Hv|].
    apply wp_ret. split; [reflexivity|]. replace (Z.to_nat (i + 1)) with (S (Z.to_nat i)) by lia.
    rewrite (take_S_r _ _ v) by assumption. rewrite foldl_app. reflexivity.
  - intros s hi [-> ->]. rewrite take_ge by lia. exact HQ.
Qed.

Definition reg_val (lambda alpha : F) (t : regtype) (xs : list F) : F :=
  match t with
  | RRidge => s_div (s_mul (foldl (fun s x => s_add s (s_mul x x)) s_zero xs) lambda) s_two
  | RLasso => s_mul (foldl (fun s x => s_add s (s_abs x)) s_zero xs) lambda
  | RElastic => s_mul (foldl (fun s x => s_add (s_add s (s_mul alpha (s_abs x))) (s_mul (s_mul (s_div (s_sub s_one alpha) s_two) x) x)) s_zero xs) lambda
  | RNone | RClip => s_zero
  end.
Lemma reg_term_ok k h a c w xs lambda alpha t : wf h -> abs h !! a = Some (KObj k c w xs) ->
  reg_term k (Some a) lambda alpha t h = Ok (reg_val lambda alpha t xs) h.
Proof.
  intros Hw Ha. apply wp_eq. unfold reg_term. wbind. apply wp_ret. wbind. eapply wp_k_data_size; [exact Hw|exact Ha|].
  destruct t; try (apply wp_ret; split; reflexivity); wbind; (eapply reg_fold_ok; [exact Hw|exact Ha|]); apply wp_ret; split; reflexivity.
Qed.

Lemma reg_deriv_ok k h a c w xs lambda alpha t (Q : option loc -> heap F -> Prop) : wf h -> abs h !! a = Some (KObj k c w xs) ->
  (forall o h', wf h' -> abs h !! o = None -> abs h' = <[o := KObj k c w (reg_d1 lambda alpha t <$> xs)]> (abs h) -> Q (Some o) h') ->
  wp (reg_deriv_term k (Some a) lambda alpha t) h Q.
Proof.
  intros Hw Ha HQ. destruct (kobj_len h a k c w xs Hw Ha) as [L1 L2]. unfold reg_deriv_term, k_new. destruct k; cbn in Ha; wbind.
  - apply wp_v_new; [exact Hw|]. intros o h1 W1 N1 A1 P1. wbind. apply wp_ret. wbind.
    eapply wp_v_size_vec; [rewrite A1, lookup_insert_ne by congruence; exact Ha|].
    wbind. eapply wp_v_resize; [exact W1|rewrite A1; apply lookup_insert|lia|]. intros h2 W2 A2 P2.
    wbind. eapply wp_data_ptr; [rewrite A2; apply lookup_insert|]. intros po Hpo.
    wbind. eapply wp_map_loop with (new := reg_d1 lambda alpha t <$> xs) (lo := o); [exact W2|exact Hpo|rewrite A2; apply lookup_insert| | | |].
    + rewrite fmap_length, resize_length. lia.
    + rewrite resize_length. lia.
    + intros i hi v Q' Hi Hm Hv Hs. rewrite list_lookup_fmap in Hv. destruct (xs !! Z.to_nat i) as [x|] eqn:Hx; [|discriminate]. injection Hv as <-.
      destruct Hm as [Wm _ Am]. wbind. eapply wp_v_get; [exact Wm|rewrite Am, A2, A1, !lookup_insert_ne by congruence; exact Ha|].
      destruct (Z.ltb_spec i 0); [lia|]. rewrite Hx. exact Hs.
    + intros h3 W3 _ A3. apply wp_ret. apply HQ; [exact W3|exact N1|]. rewrite A3, A2, A1, !insert_insert. cbn. rewrite avec_map. reflexivity.
  - apply wp_m_new; [exact Hw|]. intros o h1 W1 N1 A1 P1. wbind. apply wp_ret. wbind.
    eapply wp_m_size; [rewrite A1, lookup_insert_ne by congruence; exact Ha|].
    wbind. eapply wp_m_resize; [exact W1|rewrite A1; apply lookup_insert|lia|]. intros h2 W2 A2 P2.
    wbind. eapply wp_data_ptr; [rewrite A2; apply lookup_insert|]. intros po Hpo. cbn [fst snd].
    assert (Ho : exists g0, abs h2 !! o = Some (MatP c w g0)).
    { destruct (MatP_new (F := F) c w) as [g0 Hg0]. exists g0. rewrite A2, lookup_insert, Hg0. reflexivity. }
    destruct Ho as [g0 Ho]. rewrite (amat_Mat h a c w xs Hw Ha) in Ha.
    wbind. eapply wp_mfill with (u := fun i j => reg_d1 lambda alpha t (nth (i * c + j) xs s_zero)); [exact W2|exact Ho|exact Hpo| |].
    + intros i j g hi Q' Hi Hj [Wm _ Am] Hs. wbind. eapply wp_m_get; [exact Wm|rewrite Am, A2, A1, !lookup_insert_ne by congruence; exact Ha|].
      rewrite decide_True by lia. rewrite !Nat2Z.id. exact Hs.
    + intros h3 W3 _ A3. apply wp_ret. apply HQ; [exact W3|exact N1|]. rewrite A3, A2, A1, !insert_insert. f_equal. unfold Mat. cbn. f_equal.
      apply (mlist_nth_fmap (reg_d1 lambda alpha t)). exact L2.
Qed.
End proofs.
