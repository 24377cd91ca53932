(** * Back-propagation and batch training of the perceptron, for any arithmetic. *)
From Verif Require Import Base BaseProofs Vec VecSpec VecProofs VecProofs2 Mat MatSpec MatProofs MatProofs2 MatProofs3 MatProofs4 MatProofs5 DetProofs Frame Act ActProofs ActProofs2 Cost CostProofs Sym Svm LinAlg LinAlgProofs Util UtilProofs Glm GlmProofs GlmProofs2 GlmProofs4 Mlp MlpProofs.
Section mlp.
Context {F : Type} `{Scalar F} `{Libm F}.
Implicit Types (h : heap F) (xs ys ws v es : list F) (X W A : nat -> nat -> F).

Lemma vm_ne (m : gmap loc (aobj F)) a b x y c n d : m !! a = Some (SMat x y, c) -> m !! b = Some (SVec n, d) -> a <> b.
Proof. intros E1 E2 ->. congruence. Qed.
Lemma outs_length n k hh X p : length (outs n k hh X p) = n.
Proof. apply preds_length. Qed.
Lemma sub_rows_vlist_length hh m (D : nat -> nat -> F) bs : length bs = hh -> length (sub_rows ((fun i => vlist hh (D i)) <$> seq 0 m) bs) = hh.
Proof. intros E. rewrite sub_rows_length; [exact E|]. apply list.Forall_forall. intros row Hr. apply elem_of_list_fmap in Hr as (i & -> & _). rewrite vlist_length. congruence. Qed.
Lemma bp_shaped lr m k hh X reg la al es p : shaped hh p -> shaped hh (bp lr m k hh X reg la al es p).
Proof.
  intros [S1 S2]. split; cbn [bp t_b1 t_w2]; [|rewrite fmap_length, zip_with_length, fmap_length, xt_e_length; lia].
  apply (sub_rows_vlist_length hh m (fun i j => s_mul (s_mul (s_mul (nth i es s_zero) (nth j (rw1 la al reg <$> zip_with s_sub (t_w2 p) ((fun x => s_mul x (s_div lr (s_of_Z (Z.of_nat m)))) <$> xt_e m hh (ha k X p) es)) s_zero)) (sgd KM (hz k X p i j))) (s_div lr (s_of_Z (Z.of_nat m))))), S1.
Qed.
Lemma msgd_shaped lr k hh X ys reg la al i p : shaped hh p -> shaped hh (msgd lr k hh X ys reg la al i p).
Proof.
  intros [S1 S2]. split; cbn [msgd t_b1 t_w2]; unfold hzv; rewrite ?zip_with_length, ?fmap_length, ?zip_with_length, ?fmap_length, ?zip_with_length, ?fmap_length, ?zip_with_length, ?xt_e_length; lia.
Qed.

Lemma wp_upd_w2 (o : mlp (F := F)) s h d ws ds (Q : unit -> heap F -> Prop) : wf h -> abs h !! p_w2 o = Some (AVec ws) -> abs h !! d = Some (AVec ds) -> d <> p_w2 o -> length ds = length ws ->
  (forall h', wf h' -> abs h' = <[p_w2 o := AVec (rw1 (p_la o) (p_al o) (p_reg o) <$> zip_with s_sub ws ((fun x => s_mul x s) <$> ds))]> (delete d (abs h)) -> Q tt h') -> wp (upd_w2 o s (Some d)) h Q.
Proof.
  intros V Hw Hd D El HQ. unfold upd_w2. set (w := p_w2 o) in *. wbind. apply wp_deref_Some. wbind. eapply wp_v_mapn; [exact V|exact Hd|]. intros q h1 W1 N1 A1. assert (q <> w) by congruence. assert (q <> d) by congruence.
  wbind. eapply wp_v_op2; [exact W1|look|look|]. intros h2 W2 A2. rewrite fmap_length, decide_True in A2 by congruence. rewrite A1 in A2.
  wbind. eapply wp_del; [exact W2|look|]. intros h3 W3 A3 _. rewrite A2, delete_insert_ne, delete_insert in A3 by congruence.
  wbind. eapply wp_del; [exact W3|look|]. intros h4 W4 A4 _. rewrite A3, delete_insert_ne in A4 by congruence.
  wbind. eapply wp_reg_weights; [exact W4|look|]. intros n h5 W5 N5 A5. rewrite A4 in A5, N5. split_none N5.
  eapply wp_assign_v; [exact W5|look|look|congruence|]. intros h6 W6 A6. rewrite A5, delete_insert in A6 by (rewrite lookup_insert_ne by congruence; exact N5). rewrite insert_insert in A6. apply HQ; [exact W6|exact A6].
Qed.
Lemma wp_upd_w1 (o : mlp (F := F)) s h d c r W D0 (Q : unit -> heap F -> Prop) : wf h -> abs h !! p_w1 o = Some (Mat c r W) -> abs h !! d = Some (Mat c r D0) -> d <> p_w1 o ->
  (forall h', wf h' -> abs h' = <[p_w1 o := Mat c r (fun i j => rw1 (p_la o) (p_al o) (p_reg o) (s_sub (W i j) (s_mul (D0 i j) s)))]> (delete d (abs h)) -> Q tt h') -> wp (upd_w1 o s (Some d)) h Q.
Proof.
  intros V Hw Hd D HQ. unfold upd_w1. set (w := p_w1 o) in *. wbind. apply wp_deref_Some. wbind. eapply wp_m_mapn_dup; [exact V|exact Hd|]. intros q h1 W1 N1 A1. assert (q <> w) by congruence. assert (q <> d) by congruence.
  wbind. eapply wp_m_op2; [exact W1|look|look|]. intros h2 W2 A2. rewrite A1, mlist_fmap, mlist_zip in A2.
  wbind. eapply wp_del; [exact W2|look|]. intros h3 W3 A3 _. rewrite A2, delete_insert_ne, delete_insert in A3 by congruence.
  wbind. eapply wp_del; [exact W3|look|]. intros h4 W4 A4 _. rewrite A3, delete_insert_ne in A4 by congruence.
  wbind. eapply wp_reg_weights_m; [exact W4|look|]. intros n h5 W5 N5 A5. rewrite A4 in A5, N5. split_none N5.
  eapply wp_assign_m; [exact W5|look|look|congruence|]. intros h6 W6 A6. rewrite A5, delete_insert in A6 by (rewrite lookup_insert_ne by congruence; exact N5). rewrite insert_insert in A6. apply HQ; [exact W6|exact A6].
Qed.
Lemma wp_vsub_rows h l b c r (f : nat -> nat -> F) v (Q : unit -> heap F -> Prop) : wf h -> abs h !! b = Some (Mat c r f) -> abs h !! l = Some (AVec v) -> length v = c ->
  (forall h', wf h' -> abs h' = <[l := AVec (sub_rows ((fun i => vlist c (f i)) <$> seq 0 r) v)]> (abs h) -> Q tt h') -> wp (v_sub_rows l (Some b)) h Q.
Proof.
  intros V Hb Hl El HQ. rewrite Mat_Rows in Hb. eapply wp_v_sub_rows; [exact V|exact Hb| |exact Hl|exact El|exact HQ].
  apply list.Forall_forall. intros row Hr. apply elem_of_list_fmap in Hr as (i & -> & _). apply vlist_length.
Qed.

Lemma wp_backprop lr (o : mlp (F := F)) hh k p h x y yh z a m X ys yhs (Q : mlp -> heap F -> Prop) : shaped hh p -> p_b2 o = t_b2 p -> wf h -> pars o hh k p h -> p_w2 o <> p_b1 o ->
  abs h !! x = Some (Mat k m X) -> abs h !! y = Some (AVec ys) -> abs h !! yh = Some (AVec yhs) -> length ys = m -> length yhs = m ->
  abs h !! z = Some (Mat hh m (hz k X p)) -> abs h !! a = Some (Mat hh m (ha k X p)) -> Z.of_nat hh <= int_max -> Z.of_nat (m * hh) <= int_max -> Z.of_nat (k * hh) <= int_max ->
  (forall h', let p' := bp lr m k hh X (p_reg o) (p_la o) (p_al o) (zip_with s_sub yhs ys) p in
     wf h' -> abs h' = <[p_b1 o := AVec (t_b1 p')]> (<[p_w1 o := Mat hh k (t_w1 p')]> (<[p_w2 o := AVec (t_w2 p')]> (abs h))) -> Q (p_set_b2 o (t_b2 p')) h') ->
  wp (backprop lr (Some x) (Some y) yh z a (Z.of_nat m) o) h Q.
Proof.
  intros [S1 S2] Eb V (P1 & P2 & P3) D21 Hx Hy Hyh Ely Elyh Hz Ha Lh Lm Lk HQ. set (m0 := abs h) in *.
  assert (p_w1 o <> p_w2 o) by (eapply vm_ne; [exact P1|exact P3]). assert (p_w1 o <> p_b1 o) by (eapply vm_ne; [exact P1|exact P2]).
  assert (x <> p_w2 o) by (eapply vm_ne; [exact Hx|exact P3]). assert (z <> p_w2 o) by (eapply vm_ne; [exact Hz|exact P3]).
  unfold backprop. set (es := zip_with s_sub yhs ys) in *. assert (Les : length es = m) by (unfold es; rewrite zip_with_length; lia).
  wbind. eapply wp_v_op2n; [exact V|exact Hyh|exact Hy| |intros Hne; exfalso; apply Hne; congruence]. intros _ e h1 W1 N1 A1. fold es in A1. fold m0 in A1, N1.
  assert (e <> p_w1 o /\ e <> p_w2 o /\ e <> p_b1 o /\ e <> x /\ e <> z /\ e <> a) as (? & ? & ? & ? & ? & ?) by (repeat split; congruence).
  wbind. eapply wp_xt_vec; [exact W1|look|look|exact Les|exact Lh|]. intros d2 h2 W2 N2 A2. rewrite A1 in A2, N2. split_none N2. clear A1 W1 h1.
  assert (d2 <> p_w1 o /\ d2 <> p_w2 o /\ d2 <> p_b1 o /\ d2 <> x /\ d2 <> z) as (? & ? & ? & ? & ?) by (repeat split; congruence).
  set (c := s_div lr (s_of_Z (Z.of_nat m))) in *.
  wbind. eapply wp_upd_w2; [exact W2|look|look|congruence|rewrite xt_e_length; congruence|]. intros h3 W3 A3. rewrite A2, delete_insert in A3 by (rewrite lookup_insert_ne by congruence; exact N2). clear A2 W2 h2.
  set (w2' := rw1 (p_la o) (p_al o) (p_reg o) <$> zip_with s_sub (t_w2 p) ((fun x => s_mul x c) <$> xt_e m hh (ha k X p) es)) in *.
  assert (Lw2 : length w2' = hh) by (unfold w2'; rewrite fmap_length, zip_with_length, fmap_length, xt_e_length; slia).
  wbind. apply wp_deref_Some. wbind. eapply wp_v_sum; [exact W3|look|]. cbv zeta. cbn [p_w2 p_w1 p_b1 p_set_b2].
  wbind. eapply wp_v_outer; [exact W3|look|look|rewrite Lw2, Les, Nat.mul_comm; exact Lm|]. rewrite Lw2, Les. intros d11 h4 W4 N4 A4. rewrite A3 in A4, N4. split_none N4. clear A3 W3 h3.
  assert (d11 <> p_w1 o /\ d11 <> p_b1 o /\ d11 <> x /\ d11 <> z) as (? & ? & ? & ?) by (repeat split; congruence).
  wbind. eapply wp_sigd_m; [exact W4|look|]. intros sd h5 W5 N5 A5. rewrite A4 in A5, N5. split_none N5. clear A4 W4 h4.
  assert (sd <> p_w1 o /\ sd <> p_b1 o /\ sd <> x) as (? & ? & ?) by (repeat split; congruence).
  wbind. eapply wp_m_op2n; [exact W5|look|look|]. intros d12 h6 W6 N6 A6. rewrite A5 in A6, N6. rewrite mlist_zip in A6. split_none N6. clear A5 W5 h5.
  assert (d12 <> p_w1 o /\ d12 <> p_b1 o /\ d12 <> x) as (? & ? & ?) by (repeat split; congruence).
  set (D := fun i j => s_mul (outer es w2' i j) (sgd KM (hz k X p i j))) in *. fold (Mat hh m D) in A6.
  wbind. cbn [drop_ref]. eapply wp_del; [exact W6|look|]. intros h7 W7 A7 _. rewrite A6, delete_insert_ne, delete_insert in A7 by (rewrite ?lookup_insert_ne by congruence; congruence). clear A6 W6 h6.
  wbind. apply wp_deref_Some. wbind. eapply wp_m_transposen; [exact W7|look|]. intros xt h8 W8 N8 A8. rewrite A7 in A8, N8. split_none N8. clear A7 W7 h7.
  assert (xt <> p_w1 o /\ xt <> p_b1 o) as (? & ?) by (repeat split; congruence).
  wbind. eapply (wp_m_multn h8 xt d12 k m hh (mat_tr X) D); [exact W8|look|look|exact Lk|]. intros d13 h9 W9 N9 A9. rewrite A8 in A9, N9. split_none N9. clear A8 W8 h8.
  assert (d13 <> p_w1 o /\ d13 <> p_b1 o) as (? & ?) by (repeat split; congruence).
  wbind. eapply wp_del; [exact W9|look|]. intros h10 W10 A10 _. rewrite A9, delete_insert_ne, delete_insert in A10 by (rewrite ?lookup_insert_ne by congruence; congruence). clear A9 W9 h9.
  wbind. eapply wp_upd_w1; [exact W10|cbn [p_w1 p_set_b2]; look|look|cbn [p_w1 p_set_b2]; congruence|]. cbn [p_w1 p_set_b2 p_la p_al p_reg]. intros h11 W11 A11.
  rewrite A10, delete_insert in A11 by (rewrite ?lookup_insert_ne by congruence; congruence). clear A10 W10 h10.
  wbind. apply wp_deref_Some. wbind. eapply wp_m_mapn_dup; [exact W11|look|]. intros q h12 W12 N12 A12. rewrite A11 in A12, N12. rewrite mlist_fmap in A12. split_none N12. clear A11 W11 h11.
  assert (q <> p_b1 o) by congruence.
  wbind. eapply wp_vsub_rows; [exact W12|look|look|exact S1|]. intros h13 W13 A13. rewrite A12 in A13. clear A12 W12 h12.
  wbind. eapply wp_del; [exact W13|look|]. intros h14 W14 A14 _. rewrite A13 in A14. clear A13 W13 h13.
  wbind. eapply wp_del; [exact W14|rewrite A14, lookup_delete_ne by congruence; look|]. intros h15 W15 A15 _. rewrite A14 in A15. clear A14 W14 h14.
  wbind. eapply wp_del; [exact W15|rewrite A15, !lookup_delete_ne by congruence; look|]. intros h16 W16 A16 _. rewrite A15 in A16. clear A15 W15 h15.
  wbind. eapply wp_del; [exact W16|rewrite A16, !lookup_delete_ne by congruence; look|]. intros h17 W17 A17 _. rewrite A16 in A17. clear A16 W16 h16.
  apply wp_ret. rewrite Eb. apply (HQ h17 W17). rewrite A17. cbn [bp t_b1 t_w1 t_w2]. fold c. fold w2'. change (fun i j => s_mul (s_mul (nth i es s_zero) (nth j w2' s_zero)) (sgd KM (hz k X p i j))) with D. clear HQ.
  apply map_eq. intros l.
  destruct (decide (p_b1 o = l)) as [<-|E1]; [rewrite !lookup_delete_ne by congruence; rewrite !lookup_insert; reflexivity|].
  destruct (decide (p_w1 o = l)) as [<-|E2]; [rewrite !lookup_delete_ne by congruence; rewrite !(lookup_insert_ne _ (p_b1 o)) by congruence; rewrite !(lookup_insert_ne _ q) by congruence; rewrite !lookup_insert; reflexivity|].
  destruct (decide (p_w2 o = l)) as [<-|E3]; [rewrite !lookup_delete_ne by congruence; rewrite (lookup_insert_ne _ (p_b1 o)) by congruence; rewrite (lookup_insert_ne _ q) by congruence; rewrite (lookup_insert_ne _ (p_w1 o)) by congruence; rewrite (lookup_insert_ne _ d12), (lookup_insert_ne _ d11), lookup_insert by congruence; rewrite !lookup_insert_ne by congruence; rewrite lookup_insert; reflexivity|].
  rewrite !(lookup_insert_ne _ (p_b1 o) l), !(lookup_insert_ne _ (p_w1 o) l), !(lookup_insert_ne _ (p_w2 o) l) by congruence.
  destruct (decide (e = l)) as [<-|E4]; [rewrite lookup_delete; congruence|]. rewrite lookup_delete_ne by congruence.
  destruct (decide (d11 = l)) as [<-|E5]; [rewrite lookup_delete; congruence|]. rewrite lookup_delete_ne by congruence.
  destruct (decide (d12 = l)) as [<-|E6]; [rewrite lookup_delete; congruence|]. rewrite lookup_delete_ne by congruence.
  destruct (decide (q = l)) as [<-|E7]; [rewrite lookup_delete; congruence|]. rewrite lookup_delete_ne by congruence.
  rewrite !lookup_insert_ne by congruence. reflexivity.
Qed.
End mlp.
