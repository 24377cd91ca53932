(** * Consequences for the functions of activation.cpp, and softmax. *)
From Verif Require Import Base BaseProofs Vec VecSpec VecProofs VecProofs2 Mat MatSpec MatProofs MatProofs2 MatProofs3 MatProofs4 MatProofs5 Frame Act ActProofs.

Ltac mapeq := apply map_eq; intros i_;
  repeat match goal with
      | |- context [ (<[i_ := _]> _) !! i_ ] => rewrite !lookup_insert
      | |- context [ (delete i_ _) !! i_ ] => rewrite !lookup_delete
      | |- context [ (<[?k := _]> _) !! i_ ] => destruct (decide (k = i_)) as [->|?]; [rewrite !lookup_insert | rewrite !(lookup_insert_ne _ k i_) by assumption]
      | |- context [ (delete ?k _) !! i_ ] => destruct (decide (k = i_)) as [->|?]; [rewrite !lookup_delete | rewrite !(lookup_delete_ne _ k i_) by assumption]
      end; try reflexivity; try congruence.
Section proofs.
Context {F : Type} `{Scalar F} `{Libm F}.
Implicit Types (h : heap F) (z o : loc) (r : option loc).

(** The result of the expression is a temporary, not [z] itself. *)
Fixpoint aowned (e : aexp (F := F)) : bool :=
  match e with AZ => false | ACall e2 e1 => aowned e2 || aowned e1 | _ => true end.
Lemma aeval_owned e : forall r h p h', aeval e r h = Ok p h' -> aowned e = true -> p.2 = true.
Proof.
  induction e as [|k0 v|k0 n f e IH|k0 f e1 IH1 e2 IH2|e IH|e2 IH2 e1 IH1]; intros r h p h' E Ho; try discriminate; cbn [aeval] in E.
  1-4: repeat match type of E with
       | bind ?m ?f ?h = _ => unfold bind at 1 in E; destruct (m h) as [? ?| | |]; try discriminate
       end; unfold ret in E; injection E as <- <-; reflexivity.
  unfold bind at 1 in E. destruct (aeval e1 r h) as [a h1| | |] eqn:E1; try discriminate.
  unfold bind at 1 in E. destruct (aeval e2 a.1 h1) as [b h2| | |] eqn:E2; try discriminate.
  destruct b as [b1 [|]]; cbn [fst snd] in E.
  - unfold bind at 1 in E. destruct (drop_ref _ _ _) as [? ?| | |]; try discriminate. unfold ret in E. injection E as <- <-. reflexivity.
  - unfold ret in E. injection E as <- <-. cbn. cbn in Ho. destruct (aowned e2) eqn:O2; [discriminate (IH2 _ _ _ _ E2 eq_refl)|]. exact (IH1 _ _ _ _ E1 Ho).
Qed.

Lemma run_exp_val e k h z c w xs (Q : option loc -> heap F -> Prop) : wf h -> abs h !! z = Some (KObj k c w xs) ->
  atyp k e = Some k -> aoutc false e = OVal -> aowned e = true ->
  (forall o h', wf h' -> abs h !! o = None -> abs h' = <[o := KObj k c w (asem e <$> xs)]> (abs h) -> Q (Some o) h') ->
  wp (run_exp e (Some z)) h Q.
Proof.
  intros Hw Hz Ht Ho Hown HQ. unfold run_exp. wbind.
  pose proof (aeval_ok e k false k h (Some z) z c w xs Hw Ht (conj eq_refl Hz)) as G. rewrite Ho in G.
  unfold wp in *. destruct (aeval e (Some z) h) as [p h'| | |] eqn:E; try contradiction.
  pose proof (aeval_owned _ _ _ _ _ E Hown) as Hp. destruct p as [a b]. cbn in Hp. subst b. destruct G as [W (o & Ea & N & A)]. cbn in Ea. subst a.
  cbn. auto.
Qed.
Lemma run_exp_null e k k' h z c w xs (Q : option loc -> heap F -> Prop) : wf h -> abs h !! z = Some (KObj k c w xs) ->
  atyp k e = Some k' -> aoutc false e = ONull ->
  (forall h', wf h' -> abs h' = abs h -> Q None h') -> wp (run_exp e (Some z)) h Q.
Proof.
  intros Hw Hz Ht Ho HQ. unfold run_exp. wbind.
  pose proof (aeval_ok e k false k' h (Some z) z c w xs Hw Ht (conj eq_refl Hz)) as G. rewrite Ho in G.
  eapply wp_mono; [exact G|]. intros [a b] h' [W (Ea & A & _)]. cbn in Ea. subst a. apply wp_ret. apply HQ; auto.
Qed.
Lemma run_exp_UB e k k' h z c w xs : wf h -> abs h !! z = Some (KObj k c w xs) ->
  atyp k e = Some k' -> aoutc false e = OUB -> run_exp e (Some z) h = UB.
Proof.
  intros Hw Hz Ht Ho. unfold run_exp. apply bind_UB_first.
  pose proof (aeval_ok e k false k' h (Some z) z c w xs Hw Ht (conj eq_refl Hz)) as G. rewrite Ho in G. exact G.
Qed.
(** A null argument. *)
Lemma run_exp_None e k k' h : wf h -> atyp k e = Some k' ->
  match aoutc true e with OUB => run_exp e None h = UB | _ => wp (run_exp e None) h (fun (o : option loc) h' => o = None /\ wf h' /\ abs h' = abs h) end.
Proof.
  intros Hw Ht.
  pose proof (aeval_ok e k true k' h None 0%nat 0%nat 0%nat [] Hw Ht eq_refl) as G.
  destruct (aoutc true e) eqn:E; [exfalso; eapply aoutc_null; eauto| |].
  - unfold run_exp. wbind. eapply wp_mono; [exact G|]. intros [a b] h' [W (Ea & A & _)]. cbn in Ea. subst a. apply wp_ret. auto.
  - unfold run_exp. apply bind_UB_first. exact G.
Qed.

Lemma act_loop_ok k f h z c w xs (Q : option loc -> heap F -> Prop) : wf h -> abs h !! z = Some (KObj k c w xs) ->
  (forall o h', wf h' -> abs h !! o = None -> abs h' = <[o := KObj k c w (f <$> xs)]> (abs h) -> Q (Some o) h') ->
  wp (act_loop k f (Some z)) h Q.
Proof.
  intros Hw Hz HQ. unfold act_loop. wbind. apply wp_ret. destruct k; cbn in Hz; wbind.
  - eapply wp_v_mapn; [exact Hw|exact Hz|]. intros. apply wp_ret. apply HQ; auto.
  - eapply wp_m_mapn; [exact Hw|exact Hz|]. intros. apply wp_ret. apply HQ; auto.
Qed.

(** ** softmax *)
(** Element i is exp(x_i) / (((0 + exp(x_0)) + exp(x_1)) + ...). *)
Definition softmax_l (xs : list F) : list F :=
  let s := foldl s_add s_zero (s_exp <$> xs) in (fun x => s_div (s_exp x) s) <$> xs.

Lemma wp_softmax_normv h z xs (Q : option loc -> heap F -> Prop) : wf h -> abs h !! z = Some (AVec xs) ->
  (forall o h', wf h' -> abs h !! o = None -> abs h' = <[o := AVec (softmax_l xs)]> (abs h) -> Q (Some o) h') ->
  wp (softmax_normv (Some z)) h Q.
Proof.
  intros Hw Hz HQ. pose proof (avec_len _ _ _ Hw Hz) as Hlen. unfold softmax_normv. wbind. apply wp_ret. wbind. eapply wp_v_size_vec; [exact Hz|].
  wbind. apply wp_v_new; [exact Hw|]. intros a h1 W1 N1 A1 _. assert (z <> a) by congruence.
  wbind. eapply wp_v_resize; [exact W1|rewrite A1; apply lookup_insert|lia|]. intros h2 W2 A2 _.
  assert (Hz2 : abs h2 !! z = Some (AVec xs)) by (rewrite A2, A1, !lookup_insert_ne by congruence; exact Hz).
  wbind. apply (la1_ok KV true s_exp h2 z 0%nat 0%nat xs); [exact W2|exact Hz2|]. intros e h3 W3 N3 A3. cbn [KObj] in A3.
  wbind. apply wp_ret.
  assert (a <> e) by (intros ->; rewrite A2, lookup_insert in N3; discriminate). assert (z <> e) by congruence.
  set (es := s_exp <$> xs) in *. assert (Hes : length es = length xs) by apply fmap_length.
  assert (He3 : abs h3 !! e = Some (AVec es)) by (rewrite A3; apply lookup_insert).
  assert (Ha3 : abs h3 !! a = Some (SVec (Z.of_nat (length xs)), list.resize (Z.to_nat (Z.of_nat (length xs))) None [])).
  { rewrite A3, lookup_insert_ne, A2 by congruence. apply lookup_insert. }
  wbind. eapply wp_data_ptr; [exact He3|]. intros pe Hpe. wbind. eapply wp_data_ptr; [exact Ha3|]. intros pa Hpa.
  rewrite <- Hes. wbind.
  apply wp_for_acc_n with (I := fun i s hi => hi = h3 /\ s = foldl s_add s_zero (take i es)).
  - split; reflexivity.
  - intros i s hi Hi [-> ->]. destruct (lookup_lt_is_Some_2 es i Hi) as [x Hx].
    wbind. eapply wp_load with (l := e); [exact W3|exact Hpe|exact He3|lia|rewrite Nat2Z.id; apply fmap_Some_lookup, Hx|].
    apply wp_ret. split; [reflexivity|]. rewrite (take_S_r _ _ x Hx), foldl_app. reflexivity.
  - intros s hi [-> ->]. rewrite firstn_all. wbind. change (for_ 0 (Z.of_nat (length es)) _) with (loop1 (fun x => s_div x (foldl s_add s_zero es)) (Z.of_nat (length es)) pe pa).
    eapply wp_loop1 with (la := e) (lo := a); [exact W3|exact He3|exact Hpe|rewrite Ha3, Hes; reflexivity|exact Hpa|].
    intros h4 W4 O4 A4. wbind. eapply wp_del; [exact W4|rewrite A4, lookup_insert_ne by congruence; exact He3|]. intros h5 W5 A5 _. apply wp_ret.
    apply HQ; [exact W5|exact N1|]. rewrite A5, A4, A3, A2, A1. unfold softmax_l. cbv zeta. fold es.
    rewrite A2, A1, !lookup_insert_ne in N3 by congruence.
    replace (AVec ((λ x, s_div (s_exp x) (foldl s_add s_zero es)) <$> xs)) with ((SVec (Z.of_nat (length es)), Some <$> ((λ x, s_div x (foldl s_add s_zero es)) <$> es)) : aobj F).
    + mapeq.
    + rewrite avec_map, Hes. do 2 f_equal. unfold es at 2. rewrite <- (list_fmap_compose s_exp). reflexivity.
Qed.
Lemma softmax_l_len xs : length (softmax_l xs) = length xs.
Proof. apply fmap_length. Qed.

(** ** A vector function applied to every row *)
Lemma wp_row_loop (P : list F -> Prop) (f : option loc -> M F (option loc)) (g : list F -> list F) h z a row c rows g0 n0 cs0 (Q : unit -> heap F -> Prop) :
  (forall h z xs (Q : option loc -> heap F -> Prop), wf h -> abs h !! z = Some (AVec xs) -> P xs ->
    (forall o h', wf h' -> abs h !! o = None -> abs h' = <[o := AVec (g xs)]> (abs h) -> Q (Some o) h') -> wp (f (Some z)) h Q) ->
  (forall xs, length (g xs) = length xs) -> Forall P rows ->
  wf h -> abs h !! z = Some (Rows c rows) -> width c rows -> Z.of_nat c <= int_max ->
  abs h !! a = Some (MatP c (length rows) g0) -> abs h !! row = Some (SVec n0, cs0) -> a <> z ->
  (forall h' n1 cs1, wf h' -> abs h' = <[a := Rows c (g <$> rows)]> (<[row := (SVec n1, cs1)]> (abs h)) -> Q tt h') ->
  wp (for_ 0 (Z.of_nat (length rows)) (fun i =>
    m_row_get_into z i (Some row) ;;;
    let! sfn := f (Some row) in
    m_row_set_vec a i sfn ;;;
    drop_ref true sfn)) h Q.
Proof.
  intros Hf Hg HP Hw Hz Hwd Hc Ha Hr Haz HQ.
  assert (a <> row) by (intros ->; rewrite Ha in Hr; discriminate). assert (z <> row) by (intros ->; rewrite Hz in Hr; discriminate).
  apply wp_for_n with (I := fun i hi => wf hi /\ exists n1 cs1, abs hi = <[a := MatP c (length rows) (fun i' j => if decide (i' < i)%nat then Some (nth j (g (nth i' rows [])) s_zero) else g0 i' j)]> (<[row := (SVec n1, cs1)]> (abs h))).
  - split; [exact Hw|]. exists n0, cs0. rewrite insert_commute by congruence. rewrite (insert_id (<[a:=_]> (abs h)) row).
    + rewrite insert_id; [reflexivity|]. rewrite Ha. reflexivity.
    + rewrite lookup_insert_ne by congruence. exact Hr.
  - intros i hi Hi (Wi & n1 & cs1 & Ai). destruct (lookup_lt_is_Some_2 rows i Hi) as [xs Hx].
    assert (Hxl : length xs = c) by (eapply width_row; eauto).
    wbind. eapply wp_m_row_get_into with (l := z) (t := row) (c := c) (rows := rows) (row := xs); [exact Wi|rewrite Ai, !lookup_insert_ne by congruence; exact Hz|exact Hwd|rewrite Ai, lookup_insert_ne, lookup_insert by congruence; reflexivity|lia|rewrite Nat2Z.id; exact Hx|exact Hc|].
    intros h1 W1 A1 _. wbind. eapply Hf with (xs := xs); [exact W1|rewrite A1; apply lookup_insert|eapply Forall_lookup_1; eauto|].
    intros o h2 W2 N2 A2.
    assert (Hoa : o <> a).
    { intros ->. rewrite A1, lookup_insert_ne, Ai, lookup_insert in N2 by congruence. discriminate. }
    assert (Hor : o <> row) by (intros ->; rewrite A1, lookup_insert in N2; discriminate).
    wbind. eapply wp_m_row_set_vecP with (b := o); [exact W2|rewrite A2, lookup_insert_ne, A1, lookup_insert_ne, Ai by congruence; apply lookup_insert|rewrite A2; apply lookup_insert|].
    intros h3 W3 _ A3. rewrite decide_True in A3 by (rewrite Hg; lia). cbn [drop_ref].
    eapply wp_del; [exact W3|rewrite A3, lookup_insert_ne, A2 by congruence; apply lookup_insert|]. intros h4 W4 A4 _. split; [exact W4|].
    exists (Z.of_nat (length xs)), (Some <$> xs). rewrite A4, A3, A2, A1, Ai.
    rewrite A1, Ai, !lookup_insert_ne in N2 by congruence. rewrite Nat2Z.id.
    replace (MatP c (length rows) (λ i' j, if decide (i' = i) then Some (nth j (g xs) s_zero) else if decide (i' < i)%nat then Some (nth j (g (nth i' rows [])) s_zero) else g0 i' j))
      with (MatP c (length rows) (λ i' j, if decide (i' < S i)%nat then Some (nth j (g (nth i' rows [])) s_zero) else g0 i' j)).
    + change (SVec (Z.of_nat (length xs)), Some <$> xs) with (AVec xs). mapeq.
    + unfold MatP. f_equal. apply mlist_ext. intros i' j Hi' Hj. destruct (decide (i' = i)) as [->|Hne].
      * rewrite decide_True by lia. rewrite (nth_lookup_Some _ _ _ _ Hx). reflexivity.
      * destruct (decide (i' < i)%nat); [rewrite decide_True by lia; reflexivity|rewrite decide_False by lia; reflexivity].
  - intros hi (Wi & n1 & cs1 & Ai). eapply HQ; [exact Wi|]. rewrite Ai. f_equal.
    assert (width c (g <$> rows)) as Hwd'.
    { unfold width in *. rewrite Forall_fmap. eapply Forall_impl; [|exact Hwd]. intros x Hx. cbn. rewrite Hg. exact Hx. }
    rewrite (Rows_Mat _ _ Hwd'), Mat_MatP, fmap_length. unfold MatP. f_equal. apply mlist_ext. intros i j Hi Hj.
    rewrite decide_True by lia. destruct (lookup_lt_is_Some_2 rows i Hi) as [xs Hx]. rewrite (nth_lookup_Some _ _ _ _ Hx).
    rewrite (nth_lookup_Some (g <$> rows) i [] (g xs)); [reflexivity|]. rewrite list_lookup_fmap, Hx. reflexivity.
Qed.

Lemma MatP_new c (r : nat) : exists g0, (SMat (Z.of_nat c) (Z.of_nat r), list.resize (Z.to_nat (Z.of_nat c * Z.of_nat r)) None []) = (MatP c r g0 : aobj F).
Proof.
  exists (fun _ _ => None). unfold MatP. f_equal. rewrite resize_nil, MatProofs.mlist_const. f_equal. lia.
Qed.
Lemma wp_softmax_normm h z c rows (Q : option loc -> heap F -> Prop) : wf h -> abs h !! z = Some (Rows c rows) -> width c rows -> Z.of_nat c <= int_max ->
  (forall o h', wf h' -> abs h !! o = None -> abs h' = <[o := Rows c (softmax_l <$> rows)]> (abs h) -> Q (Some o) h') ->
  wp (softmax_normm (Some z)) h Q.
Proof.
  intros Hw Hz Hwd Hc HQ. destruct (wf_abs_len h z _ _ Hw Hz) as [Hl Hm]. cbn in Hl, Hm.
  unfold softmax_normm. wbind. apply wp_ret. wbind. eapply wp_m_size; [exact Hz|].
  cbv beta iota. wbind. apply wp_m_new; [exact Hw|]. intros a h1 W1 N1 A1 _. assert (z <> a) by congruence.
  wbind. eapply wp_m_resize; [exact W1|rewrite A1; apply lookup_insert|lia|]. intros h2 W2 A2 _.
  destruct (MatP_new c (length rows)) as [g0 Hg0]. rewrite Hg0, A1, insert_insert in A2.
  wbind. apply wp_v_new; [exact W2|]. intros row h3 W3 N3 A3 _.
  assert (row <> a) by (intros ->; rewrite A2, lookup_insert in N3; discriminate).
  assert (N3' : abs h !! row = None) by (rewrite A2, lookup_insert_ne in N3 by congruence; exact N3). assert (z <> row) by congruence.
  wbind. eapply wp_v_resize; [exact W3|rewrite A3; apply lookup_insert|lia|]. intros h4 W4 A4 _. rewrite A3, insert_insert, A2 in A4.
  wbind. eapply (wp_row_loop (fun _ => True) softmax_normv softmax_l h4 z a row c rows g0).
  - intros h' z' xs Q' W Hx _ HQ'. eapply wp_softmax_normv; eauto.
  - apply softmax_l_len.
  - apply Forall_true. auto.
  - exact W4.
  - rewrite A4, !lookup_insert_ne by congruence. exact Hz.
  - exact Hwd.
  - exact Hc.
  - rewrite A4, lookup_insert_ne by congruence. apply lookup_insert.
  - rewrite A4. apply lookup_insert.
  - congruence.
  - intros h5 n1 cs1 W5 A5. wbind. eapply wp_del; [exact W5|rewrite A5, lookup_insert_ne, lookup_insert by congruence; reflexivity|]. intros h6 W6 A6 _. apply wp_ret.
    apply HQ; [exact W6|exact N1|]. rewrite A6, A5, A4. mapeq.
Qed.

(** ** adj_softmax *)
Definition imax (c k : F) : F := if s_lt c k then k else c.
Definition adj_c (ks : list Z) : F := s_opp (foldl imax (s_opp s_inf) (s_of_Z <$> ks)).
Lemma wp_adj_shift h z xs ks (Q : F -> heap F -> Prop) : wf h -> abs h !! z = Some (AVec xs) -> Forall2 (fun x k => m_to_int x = Some k) xs ks ->
  Q (adj_c ks) h -> wp (adj_shift z) h Q.
Proof.
  intros Hw Hz Hk HQ. unfold adj_shift. wbind. eapply wp_v_size_vec; [exact Hz|]. wbind. eapply wp_data_ptr; [exact Hz|]. intros p Hp.
  pose proof (Forall2_length _ _ _ Hk) as Hlen. wbind.
  apply wp_for_acc_n with (I := fun i s hi => hi = h /\ s = foldl imax (s_opp s_inf) (take i (s_of_Z <$> ks))).
  - split; reflexivity.
  - intros i s hi Hi [-> ->]. destruct (lookup_lt_is_Some_2 xs i Hi) as [x Hx].
    destruct (Forall2_lookup_l _ _ _ _ _ Hk Hx) as (k & Hki & Ek).
    wbind. eapply wp_load with (l := z); [exact Hw|exact Hp|exact Hz|lia|rewrite Nat2Z.id; apply fmap_Some_lookup, Hx|].
    rewrite Ek. apply wp_ret. split; [reflexivity|].
    rewrite (take_S_r _ _ (s_of_Z k)), foldl_app; [reflexivity|]. rewrite list_lookup_fmap, Hki. reflexivity.
  - intros s hi [-> ->]. rewrite firstn_all2 by (rewrite fmap_length; lia). apply wp_ret. exact HQ.
Qed.
Lemma adj_shift_UB h z xs i x : wf h -> abs h !! z = Some (AVec xs) -> xs !! i = Some x -> m_to_int x = None -> adj_shift z h = UB.
Proof.
  intros Hw Hz Hx Hn. unfold adj_shift. apply bind_UB. eapply wp_v_size_vec; [exact Hz|]. apply bind_UB. eapply wp_data_ptr; [exact Hz|]. intros p Hp.
  apply bind_UB_first.
  (* the first element that does not convert *)
  assert (exists i0 x0, xs !! i0 = Some x0 /\ m_to_int x0 = None /\ forall i' x', (i' < i0)%nat -> xs !! i' = Some x' -> m_to_int x' <> None) as (i0 & x0 & Hx0 & Hn0 & Hmin).
  { clear - Hx Hn. revert i Hx. induction xs as [|y ys IH]; intros i Hx; [discriminate|].
    destruct (m_to_int y) as [k|] eqn:Ey; [|exists 0%nat, y; split; [reflexivity|]; split; [exact Ey|]; intros; lia].
    destruct i as [|i]; [cbn in Hx; congruence|]. destruct (IH i Hx) as (i0 & x0 & H1 & H2 & H3). exists (S i0), x0. split; [exact H1|]. split; [exact H2|].
    intros [|i'] x' Hi Hx'; cbn in Hx'; [congruence|]. apply (H3 i'); [lia|exact Hx']. }
  apply for_acc_UB with (I := fun i s hi => hi = h) (i0 := i0).
  - eapply lookup_lt_Some; eauto.
  - reflexivity.
  - intros i' s hi Hi ->. destruct (lookup_lt_is_Some_2 xs i') as [y Hy]; [apply lookup_lt_Some in Hx0; lia|].
    wbind. eapply wp_load with (l := z); [exact Hw|exact Hp|exact Hz|lia|rewrite Nat2Z.id; apply fmap_Some_lookup, Hy|].
    destruct (m_to_int y) eqn:Ey; [apply wp_ret; reflexivity|]. destruct (Hmin _ _ Hi Hy Ey).
  - intros s hi ->. apply bind_UB. eapply wp_load with (l := z); [exact Hw|exact Hp|exact Hz|lia|rewrite Nat2Z.id; apply fmap_Some_lookup, Hx0|].
    rewrite Hn0. reflexivity.
Qed.
Lemma wp_adj_softmax_normv h z xs ks (Q : option loc -> heap F -> Prop) : wf h -> abs h !! z = Some (AVec xs) -> Forall2 (fun x k => m_to_int x = Some k) xs ks ->
  (forall o h', wf h' -> abs h !! o = None -> abs h' = <[o := AVec (softmax_l ((fun x => s_add x (adj_c ks)) <$> xs))]> (abs h) -> Q (Some o) h') ->
  wp (adj_softmax_normv (Some z)) h Q.
Proof.
  intros Hw Hz Hk HQ. unfold adj_softmax_normv. wbind. apply wp_ret. wbind. eapply wp_adj_shift; [exact Hw|exact Hz|exact Hk|].
  wbind. apply (la1_ok KV true _ h z 0%nat 0%nat xs); [exact Hw|exact Hz|]. intros n h1 W1 N1 A1. cbn [KObj] in A1.
  wbind. eapply wp_softmax_normv; [exact W1|rewrite A1; apply lookup_insert|]. intros o h2 W2 N2 A2.
  assert (o <> n) by (intros ->; rewrite A1, lookup_insert in N2; discriminate). rewrite A1, lookup_insert_ne in N2 by congruence.
  wbind. cbn [drop_ref]. eapply wp_del; [exact W2|rewrite A2, lookup_insert_ne, A1 by congruence; apply lookup_insert|]. intros h3 W3 A3 _. apply wp_ret.
  apply HQ; [exact W3|exact N2|]. rewrite A3, A2, A1. mapeq.
Qed.
Lemma adj_softmax_normv_UB h z xs i x : wf h -> abs h !! z = Some (AVec xs) -> xs !! i = Some x -> m_to_int x = None -> adj_softmax_normv (Some z) h = UB.
Proof.
  intros. unfold adj_softmax_normv. apply bind_UB. apply wp_ret. apply bind_UB_first. eapply adj_shift_UB; eauto.
Qed.
Lemma wp_adj_softmax_derivv h z xs ks ks' (Q : option loc -> heap F -> Prop) : wf h -> abs h !! z = Some (AVec xs) -> Forall2 (fun x k => m_to_int x = Some k) xs ks ->
  Forall2 (fun x k => m_to_int (s_add x (adj_c ks)) = Some k) xs ks' ->
  (forall o h', wf h' -> abs h !! o = None -> abs h' = <[o := AVec (softmax_l ((fun x => s_add (s_add x (adj_c ks)) (adj_c ks')) <$> xs))]> (abs h) -> Q (Some o) h') ->
  wp (adj_softmax_derivv (Some z)) h Q.
Proof.
  intros Hw Hz Hk Hk' HQ. unfold adj_softmax_derivv. wbind. apply wp_ret. wbind. eapply wp_adj_shift; [exact Hw|exact Hz|exact Hk|].
  wbind. apply (la1_ok KV true _ h z 0%nat 0%nat xs); [exact Hw|exact Hz|]. intros n h1 W1 N1 A1. cbn [KObj] in A1.
  wbind. eapply wp_adj_softmax_normv with (ks := ks'); [exact W1|rewrite A1; apply lookup_insert| |].
  { apply Forall2_fmap_l. exact Hk'. }
  intros o h2 W2 N2 A2. rewrite <- list_fmap_compose in A2.
  assert (o <> n) by (intros ->; rewrite A1, lookup_insert in N2; discriminate). rewrite A1, lookup_insert_ne in N2 by congruence.
  wbind. cbn [drop_ref]. eapply wp_del; [exact W2|rewrite A2, lookup_insert_ne, A1 by congruence; apply lookup_insert|]. intros h3 W3 A3 _. apply wp_ret.
  apply HQ; [exact W3|exact N2|]. rewrite A3, A2, A1. mapeq.
Qed.
Lemma wp_adj_rows (P : list F -> Prop) f g h z c rows (Q : option loc -> heap F -> Prop) :
  (forall h z xs (Q : option loc -> heap F -> Prop), wf h -> abs h !! z = Some (AVec xs) -> P xs ->
    (forall o h', wf h' -> abs h !! o = None -> abs h' = <[o := AVec (g xs)]> (abs h) -> Q (Some o) h') -> wp (f (Some z)) h Q) ->
  (forall xs, length (g xs) = length xs) -> Forall P rows ->
  wf h -> abs h !! z = Some (Rows c rows) -> width c rows -> Z.of_nat c <= int_max ->
  (forall o h', wf h' -> abs h !! o = None -> abs h' = <[o := Rows c (g <$> rows)]> (abs h) -> Q (Some o) h') ->
  wp (adj_softmax_rows f (Some z)) h Q.
Proof.
  intros Hf Hg HP Hw Hz Hwd Hc HQ. unfold adj_softmax_rows. wbind. apply wp_ret. wbind. eapply wp_m_duplicate; [exact Hw|exact Hz|]. intros a h1 W1 N1 A1.
  assert (z <> a) by congruence. assert (Hz1 : abs h1 !! z = Some (Rows c rows)) by (rewrite A1, lookup_insert_ne by congruence; exact Hz).
  wbind. eapply wp_m_size; [exact Hz1|]. cbv beta iota.
  wbind. apply wp_v_new; [exact W1|]. intros row h3 W3 N3 A3 _.
  assert (row <> a) by (intros ->; rewrite A1, lookup_insert in N3; discriminate).
  assert (N3' : abs h !! row = None) by (rewrite A1, lookup_insert_ne in N3 by congruence; exact N3). assert (z <> row) by congruence.
  wbind. eapply wp_v_resize; [exact W3|rewrite A3; apply lookup_insert|lia|]. intros h4 W4 A4 _. rewrite A3, insert_insert, A1 in A4.
  wbind. eapply (wp_row_loop P f g h4 z a row c rows); [exact Hf|exact Hg|exact HP|exact W4| |exact Hwd|exact Hc| | |congruence|].
  - rewrite A4, !lookup_insert_ne by congruence. exact Hz.
  - rewrite A4, lookup_insert_ne, lookup_insert by congruence. f_equal. fold (Rows c rows). rewrite (Rows_Mat _ _ Hwd). apply Mat_MatP.
  - rewrite A4. apply lookup_insert.
  - intros h5 n1 cs1 W5 A5. wbind. eapply wp_del; [exact W5|rewrite A5, lookup_insert_ne, lookup_insert by congruence; reflexivity|]. intros h6 W6 A6 _. apply wp_ret.
    apply HQ; [exact W6|exact N1|]. rewrite A6, A5, A4. mapeq.
Qed.

(** ** softmax_derivm calls itself on the same argument. *)
Lemma bind_NoFuel {A B} (m : M F A) (k : A -> M F B) h : wp m h (fun x h' => k x h' = NoFuel) -> bind m k h = NoFuel.
Proof. unfold wp, bind. destruct (m h); tauto. Qed.
Lemma bind_NoFuel_first {A B} (m : M F A) (k : A -> M F B) h : m h = NoFuel -> bind m k h = NoFuel.
Proof. unfold bind. intros ->. reflexivity. Qed.
Lemma softmax_derivm_diverges fuel : forall h z c rows, wf h -> abs h !! z = Some (Rows c rows) -> width c rows -> Z.of_nat c <= int_max ->
  rows <> [] -> softmax_derivm fuel (Some z) h = NoFuel.
Proof.
  induction fuel as [|fuel IH]; intros h z c rows Hw Hz Hwd Hc Hne; [reflexivity|]. destruct (wf_abs_len h z _ _ Hw Hz) as [Hl Hm]. cbn in Hl, Hm.
  cbn [softmax_derivm]. apply bind_NoFuel. apply wp_ret. apply bind_NoFuel. eapply wp_m_size; [exact Hz|]. cbv beta iota.
  apply bind_NoFuel. apply wp_m_new; [exact Hw|]. intros a h1 W1 N1 A1 _. assert (z <> a) by congruence.
  apply bind_NoFuel. eapply wp_m_resize; [exact W1|rewrite A1; apply lookup_insert|lia|]. intros h2 W2 A2 _. rewrite A1, insert_insert in A2.
  apply bind_NoFuel. apply wp_v_new; [exact W2|]. intros row h3 W3 N3 A3 _.
  assert (row <> a) by (intros ->; rewrite A2, lookup_insert in N3; discriminate).
  assert (N3' : abs h !! row = None) by (rewrite A2, lookup_insert_ne in N3 by congruence; exact N3). assert (z <> row) by congruence.
  apply bind_NoFuel. eapply wp_v_resize; [exact W3|rewrite A3; apply lookup_insert|lia|]. intros h4 W4 A4 _. rewrite A3, insert_insert, A2 in A4.
  apply bind_NoFuel_first. unfold for_, for_acc. destruct rows as [|xs rows]; [congruence|].
  replace (Z.to_nat (Z.of_nat (length (xs :: rows)) - 0)) with (S (length rows)) by (cbn; lia). cbn [for_nat].
  apply bind_NoFuel_first. apply bind_NoFuel.
  eapply wp_m_row_get_into with (l := z) (t := row) (c := c) (rows := xs :: rows) (row := xs); [exact W4|rewrite A4, !lookup_insert_ne by congruence; exact Hz|exact Hwd|rewrite A4, lookup_insert; reflexivity|lia|reflexivity|exact Hc|].
  intros h5 W5 A5 _. apply bind_NoFuel_first. eapply IH; [exact W5|rewrite A5, A4, !lookup_insert_ne by congruence; exact Hz|exact Hwd|exact Hc|congruence].
Qed.

(** ** The softmax Jacobian *)
Definition jac (as_ : list F) (i j : nat) : F :=
  let ai := nth i as_ s_zero in let aj := nth j as_ s_zero in
  if decide (i = j) then s_mul ai (s_sub s_one ai) else s_mul (s_opp ai) aj.
Lemma wp_softmax_deriv_normv h z xs (Q : option loc -> heap F -> Prop) : wf h -> abs h !! z = Some (AVec xs) -> Z.of_nat (length xs * length xs) <= int_max ->
  (forall o h', wf h' -> abs h !! o = None -> abs h' = <[o := Mat (length xs) (length xs) (jac (softmax_l xs))]> (abs h) -> Q (Some o) h') ->
  wp (softmax_deriv_normv (Some z)) h Q.
Proof.
  intros Hw Hz Hm HQ. pose proof (avec_len _ _ _ Hw Hz) as Hlen. unfold softmax_deriv_normv. wbind. eapply wp_softmax_normv; [exact Hw|exact Hz|]. intros a h1 W1 N1 A1.
  assert (z <> a) by congruence. set (s := softmax_l xs) in *. assert (Hs : length s = length xs) by apply softmax_l_len. set (n := length xs) in *.
  wbind. apply wp_ret. wbind. apply wp_ret. wbind. eapply wp_v_size_vec; [rewrite A1, lookup_insert_ne by congruence; exact Hz|].
  wbind. eapply wp_v_size_vec; [rewrite A1; apply lookup_insert|]. rewrite Hs. fold n.
  wbind. apply wp_m_new; [exact W1|]. intros d h2 W2 N2 A2 _.
  assert (d <> a) by (intros ->; rewrite A1, lookup_insert in N2; discriminate). rewrite A1, lookup_insert_ne in N2 by congruence.
  wbind. eapply wp_m_resize; [exact W2|rewrite A2; apply lookup_insert|lia|]. intros h3 W3 A3 _. rewrite A2, insert_insert, A1 in A3.
  destruct (MatP_new n n) as [g0 Hg0]. rewrite Hg0 in A3.
  assert (Ha3 : abs h3 !! a = Some (AVec s)) by (rewrite A3, lookup_insert_ne, lookup_insert by congruence; reflexivity).
  wbind. eapply wp_data_ptr; [exact Ha3|]. intros pa Hpa. wbind.
  apply wp_for_n with (I := fun i hi => wf hi /\ h_obj hi = h_obj h3 /\ abs hi = <[d := MatP n n (fun i' j => if decide (i' < i)%nat then Some (jac s i' j) else g0 i' j)]> (abs h3)).
  - split; [exact W3|]. split; [reflexivity|]. rewrite insert_id; [reflexivity|]. rewrite A3. apply lookup_insert.
  - intros i hi Hi (Wi & Oi & Ai).
    apply wp_for_n with (I := fun j hj => wf hj /\ h_obj hj = h_obj h3 /\ abs hj = <[d := MatP n n (fun i' j' => if decide (i' < i \/ i' = i /\ j' < j)%nat then Some (jac s i' j') else g0 i' j')]> (abs h3)).
    + split; [exact Wi|]. split; [exact Oi|]. rewrite Ai. f_equal. unfold MatP. f_equal. apply mlist_ext. intros i' j' _ _.
      destruct (decide (i' < i)%nat); [rewrite decide_True by lia|rewrite decide_False by lia]; reflexivity.
    + intros j hj Hj (Wj & Oj & Aj).
      destruct (lookup_lt_is_Some_2 s i ltac:(lia)) as [x Hx]. destruct (lookup_lt_is_Some_2 s j ltac:(lia)) as [y Hy].
      assert (Haj : abs hj !! a = Some (AVec s)) by (rewrite Aj, lookup_insert_ne by congruence; exact Ha3).
      assert (Hpj : ptr_of hj a = Some pa) by (unfold ptr_of in *; rewrite Oj; exact Hpa).
      assert (Hstep : forall v, v = jac s i j -> wp (m_set d (Z.of_nat i) (Z.of_nat j) v) hj (fun _ h' => wf h' /\ h_obj h' = h_obj h3 /\
         abs h' = <[d := MatP n n (fun i' j' => if decide (i' < i \/ i' = i /\ j' < S j)%nat then Some (jac s i' j') else g0 i' j')]> (abs h3))).
      { intros v ->. eapply wp_m_set; [exact Wj|rewrite Aj; apply lookup_insert|]. intros h' W' O' A'. split; [exact W'|]. split; [congruence|].
        rewrite A', decide_True by lia. rewrite Aj, insert_insert. f_equal. unfold MatP. f_equal. apply mlist_ext. intros i' j' _ _. unfold upd. rewrite !Nat2Z.id.
        destruct (decide (i' = i /\ j' = j)) as [[-> ->]|Hne]; [rewrite decide_True by lia; reflexivity|].
        destruct (decide (i' < i \/ i' = i /\ j' < j)%nat); [rewrite decide_True by lia|rewrite decide_False by lia]; reflexivity. }
      wbind. eapply wp_load with (l := a); [exact Wj|exact Hpj|exact Haj|lia|rewrite Nat2Z.id; apply fmap_Some_lookup, Hx|].
      unfold jac in Hstep. rewrite (nth_lookup_Some _ _ s_zero _ Hx), (nth_lookup_Some _ _ s_zero _ Hy) in Hstep.
      destruct (Z.eqb_spec (Z.of_nat i) (Z.of_nat j)) as [E|E].
      * apply Hstep. rewrite decide_True by lia. reflexivity.
      * wbind. eapply wp_load with (l := a); [exact Wj|exact Hpj|exact Haj|lia|rewrite Nat2Z.id; apply fmap_Some_lookup, Hy|].
        apply Hstep. rewrite decide_False by lia. reflexivity.
    + intros hj (Wj & Oj & Aj). split; [exact Wj|]. split; [exact Oj|]. rewrite Aj. f_equal. unfold MatP. f_equal. apply mlist_ext. intros i' j' _ Hj'.
      destruct (decide (i' < S i)%nat); [rewrite decide_True by lia|rewrite decide_False by lia]; reflexivity.
  - intros hi (Wi & Oi & Ai). wbind. eapply wp_del; [exact Wi|rewrite Ai, lookup_insert_ne by congruence; exact Ha3|]. intros h5 W5 A5 _. apply wp_ret.
    apply HQ; [exact W5|exact N2|]. rewrite A5, Ai, A3. rewrite Mat_MatP.
    replace (MatP n n (fun i' j => if decide (i' < n)%nat then Some (jac s i' j) else g0 i' j)) with (MatP n n (fun i' j => Some (jac s i' j))).
    + mapeq.
    + unfold MatP. f_equal. apply mlist_ext. intros i' j' Hi' _. rewrite decide_True by lia. reflexivity.
Qed.
End proofs.
