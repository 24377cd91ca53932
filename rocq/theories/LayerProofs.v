(** * Proofs about the layers. *)
From Verif Require Import Base BaseProofs Vec VecSpec VecProofs VecProofs2 Mat MatSpec MatProofs MatProofs2 MatProofs3 MatProofs4 MatProofs5 Act Sym ActProofs CostProofs StatProofs Util UtilProofs Cost Glm GlmProofs GlmProofs2
  Mlp MlpProofs MlpProofs6 Layer RInst LibmR PropAct PropAct2 PropSvm LsqMath GlmMath LayerSpec Svm.
From Coq Require Import Reals Lra.
Open Scope R_scope.
Implicit Types (h : heap R).

Lemma uniform_sym s u : uniform (- s) s u = spread s u. Proof. unfold uniform, spread. scal. ring. Qed.
Lemma normal_R s g : normal s g = s * g. Proof. unfold normal. scal. ring. Qed.
Lemma wp_weight_dist_m t (c r : nat) h (Q : (R -> R) -> heap R -> Prop) : (1 <= c)%nat -> (Z.of_nat (c + r) <= int_max)%Z ->
  (forall d, (forall u, d u = dist_m t c r u) -> Q d h) -> wp (weight_dist_m t (Z.of_nat c) (Z.of_nat r)) h Q.
Proof.
  intros Hc Hs HQ.
  assert (HI : forall a b (Q' : Z -> heap R -> Prop), (0 <= a <= 6)%Z -> (0 < b)%Z -> Q' (a / b)%Z h -> wp (idiv a b) h Q').
  { intros a b Q' Ha Hb H'. assert (E : Z.quot a b = (a / b)%Z) by (apply Z.quot_div_nonneg; lia). apply wp_idiv; [lia| |rewrite E; exact H'].
    rewrite E. pose proof (Z.div_le_upper_bound a b 6 Hb ltac:(nia)). pose proof (Z.div_pos a b ltac:(lia) Hb). unfold int_max. lia. }
  destruct t; unfold weight_dist_m; cbn [dist_m] in HQ.
  - apply HQ. intros u. unfold uniform. scal. ring.
  - wbind. apply wp_chk; [unfold int_max in *; lia|]. wbind. apply HI; [lia..|]. apply HQ. intros u. rewrite normal_R, <- Nat2Z.inj_add. reflexivity.
  - wbind. apply wp_chk; [unfold int_max in *; lia|]. wbind. apply HI; [lia..|]. apply HQ. intros u. rewrite <- Nat2Z.inj_add. apply uniform_sym.
  - wbind. apply HI; [lia..|]. apply HQ. intros u. apply normal_R.
  - wbind. apply HI; [lia..|]. apply HQ. intros u. apply uniform_sym.
  - wbind. apply HI; [lia..|]. apply HQ. intros u. apply normal_R.
  - wbind. apply HI; [lia..|]. apply HQ. intros u. apply uniform_sym.
  - apply HQ. intros u. rewrite INR_IZR_INZ. unfold uniform, spread. scal. cbn. unfold Rdiv. ring.
Qed.
Lemma weight_dist_v_R t n u : weight_dist_v t (Z.of_nat n) u = dist_v t n u.
Proof.
  destruct t; cbn [weight_dist_v dist_v]; rewrite ?INR_IZR_INZ.
  - unfold uniform. scal. ring.
  - rewrite normal_R. reflexivity.
  - apply uniform_sym.
  - rewrite normal_R. reflexivity.
  - apply uniform_sym.
  - rewrite normal_R. reflexivity.
  - apply uniform_sym.
  - unfold uniform, spread. scal. cbn. unfold Rdiv. ring.
Qed.
Lemma wp_weight_initialization_v t raw h l n cs (Q : unit -> heap R -> Prop) : wf h -> abs h !! l = Some (SVec n, cs) ->
  (forall h', wf h' -> abs h' = <[l := AVec (drawn_v t (length cs) raw)]> (abs h) -> Q tt h') -> wp (weight_initialization_v t raw l) h Q.
Proof.
  intros V Ha HQ. destruct (vec_len _ _ _ _ V Ha) as [El Hl]. unfold weight_initialization_v. wbind. eapply wp_v_size; [exact Ha|]. eapply wp_weight_init_v; [exact V|exact Ha|]. intros h' W A. apply HQ; [exact W|]. rewrite A.
  f_equal. f_equal. unfold drawn_v. unfold vlist. apply list_fmap_ext. intros i x E. rewrite <- weight_dist_v_R. f_equal. lia.
Qed.

Lemma wp_weight_initialization_m t raw h l (c r : nat) cs (Q : unit -> heap R -> Prop) : wf h -> abs h !! l = Some (SMat (Z.of_nat c) (Z.of_nat r), cs) -> (1 <= c)%nat -> (Z.of_nat (c + r) <= int_max)%Z ->
  (forall h', wf h' -> abs h' = <[l := Mat c r (drawn_m t c r raw)]> (abs h) -> Q tt h') -> wp (weight_initialization_m t raw l) h Q.
Proof.
  intros V Ha Hc Hs HQ. unfold weight_initialization_m. wbind. eapply wp_m_size; [exact Ha|]. cbn [fst snd]. wbind. apply wp_weight_dist_m; [exact Hc|exact Hs|]. intros d Hd.
  eapply wp_weight_init_m; [exact V|exact Ha|]. intros h' W A. apply HQ; [exact W|]. rewrite A. f_equal. apply Mat_ext. intros i j _ _. apply Hd.
Qed.

(** ** The hidden layer *)
Lemma wp_hl_initialize raw (o : hlayer R) h x w b (k n u : nat) X x0 y0 cw nb cb (Q : hlayer R -> heap R -> Prop) : wf h -> hl_init o = false -> hl_in o = Some x -> hl_w o = Some w -> hl_b o = Some b -> w <> x -> hl_n o = Z.of_nat u -> (1 <= u)%nat ->
  abs h !! x = Some (Mat k n X) -> abs h !! w = Some (SMat x0 y0, cw) -> abs h !! b = Some (SVec nb, cb) -> (Z.of_nat (u * k) <= int_max)%Z -> (Z.of_nat (u + k) <= int_max)%Z ->
  (forall h', wf h' -> abs h' = <[w := Mat u k (drawn_m (hl_wi o) u k raw)]> (<[b := (SVec (Z.of_nat u), list.resize u None cb)]> (abs h)) -> Q (hl_done o true) h') -> wp (hl_initialize raw o) h Q.
Proof.
  intros V Ei Ex Ew Eb D Eu Hu Hx Hw Hb Hl Hs HQ. unfold hl_initialize. rewrite Ei, Ex, Ew, Eb, Eu. assert (w <> b) by congruence.
  wbind. apply wp_deref_Some. wbind. apply wp_deref_Some. wbind. eapply wp_m_size; [exact Hx|]. cbn [fst snd].
  wbind. eapply wp_m_resize; [exact V|exact Hw|lia|]. intros h1 W1 A1 _. wbind. apply wp_deref_Some.
  wbind. eapply wp_v_resize; [exact W1|look|lia|]. intros h2 W2 A2 _. rewrite A1 in A2. clear A1.
  wbind. eapply (wp_weight_initialization_m _ _ _ w u k); [exact W2|look|exact Hu|exact Hs|]. intros h3 W3 A3. rewrite A2 in A3. clear A2.
  wbind. apply wp_ret. apply wp_ret. apply HQ; [exact W3|]. rewrite A3, Nat2Z.id. rewrite (insert_commute _ w b) by congruence. rewrite insert_insert, insert_commute by congruence. rewrite (insert_commute _ w b) by congruence. reflexivity.
Qed.
Lemma wp_norm_m f h z c r g (Q : option loc -> heap R -> Prop) : wf h -> abs h !! z = Some (Mat c r g) -> m_ok f ->
  (forall d h', wf h' -> abs h !! d = None -> abs h' = <[d := Mat c r (fun i j => run_norm_real f (g i j))]> (abs h) -> Q (Some d) h') -> wp (run_norm_matrix f (Some z)) h Q.
Proof.
  intros V Hz Hf HQ. pose proof (C37_norm_matrix f h z c r (mlist c r g) V Hz Hf) as G. apply wp_runs in G. eapply wp_mono; [exact G|]. cbv beta. intros a h' [W (d & -> & N & A)].
  apply HQ; [exact W|exact N|]. rewrite A, mlist_fmap. reflexivity.
Qed.
Lemma wp_norm_v f h z xs (Q : option loc -> heap R -> Prop) : wf h -> abs h !! z = Some (AVec xs) -> v_ok f ->
  (forall d h', wf h' -> abs h !! d = None -> abs h' = <[d := AVec (run_norm_real f <$> xs)]> (abs h) -> Q (Some d) h') -> wp (run_norm_vector f (Some z)) h Q.
Proof.
  intros V Hz [F1 F2] HQ. pose proof (C37_norm_vector f h z xs V Hz F1 F2) as G. apply wp_runs in G. eapply wp_mono; [exact G|]. cbv beta. intros a h' [W (d & -> & N & A)]. apply HQ; assumption.
Qed.
Definition hl_fwd_body (o : hlayer R) : M R (hlayer R) :=
  bind (deref (hl_z o)) (fun z => bind (m_multb z (hl_in o) (hl_w o)) (fun _ => bind (m_add_vec z (hl_b o)) (fun _ => bind (run_norm_matrix (hl_act o) (Some z)) (fun a => ret (hl_put_a o a))))).
Lemma dense_eq k (X W : nat -> nat -> R) bs i j : add_rows (mat_mul k X W) bs i j = dense k X W bs i j.
Proof. unfold add_rows, dense. rewrite mat_mul_R. reflexivity. Qed.
Lemma wp_fwd_body (o : hlayer R) h x w b z (k n u : nat) X W bs x0 y0 cz (Q : hlayer R -> heap R -> Prop) : wf h -> hl_in o = Some x -> hl_w o = Some w -> hl_b o = Some b -> hl_z o = Some z -> z <> x -> z <> w -> m_ok (hl_act o) ->
  abs h !! x = Some (Mat k n X) -> abs h !! w = Some (Mat u k W) -> abs h !! b = Some (AVec bs) -> length bs = u -> abs h !! z = Some (SMat x0 y0, cz) -> (Z.of_nat (n * u) <= int_max)%Z ->
  (forall a h', wf h' -> abs h !! a = None -> abs h' = <[a := Mat u n (fun i j => run_norm_real (hl_act o) (dense k X W bs i j))]> (<[z := Mat u n (dense k X W bs)]> (abs h)) -> Q (hl_put_a o (Some a)) h') ->
  wp (hl_fwd_body o) h Q.
Proof.
  intros V Ex Ew Eb Ez D1 D2 Hf Hx Hw Hb El Hz Hl HQ. unfold hl_fwd_body. rewrite Ex, Ew, Eb, Ez. assert (z <> b) by (intros ->; rewrite Hz in Hb; discriminate).
  wbind. apply wp_deref_Some. wbind. eapply wp_m_multb; [exact V|congruence|congruence|exact Hz|exact Hx|exact Hw|exact Hl|]. intros h1 W1 A1.
  wbind. eapply wp_m_add_vec; [exact W1|look|look|exact El|]. intros h2 W2 A2. rewrite A1, insert_insert in A2. clear A1.
  wbind. eapply wp_norm_m; [exact W2|look|exact Hf|]. intros a h3 W3 N3 A3. rewrite A2 in N3, A3. apply lookup_insert_None in N3 as [N3 Da].
  apply wp_ret. apply HQ; [exact W3|exact N3|]. rewrite A3. f_equal; [|f_equal]; apply Mat_ext; intros i j _ _; rewrite dense_eq; reflexivity.
Qed.
Definition hl_test_body (rx : option loc) (o : hlayer R) : M R (hlayer R) :=
  bind (xt_vec (hl_w o) rx) (fun zt => bind (deref zt) (fun z => bind (v_add z (hl_b o)) (fun _ => bind (run_norm_vector (hl_act o) zt) (fun a => ret (hl_put_zt o zt a))))).
(** The pre-activations of one row. *)
Definition dense1 (k u : nat) (xs : list R) W bs : list R := vlist u (fun j => Rsum k (fun t => nth t xs 0 * W t j) + nth j bs 0).
Lemma wp_test_body (o : hlayer R) h x w b (k u : nat) xs W bs (Q : hlayer R -> heap R -> Prop) : wf h -> hl_w o = Some w -> hl_b o = Some b -> v_ok (hl_act o) ->
  abs h !! x = Some (AVec xs) -> length xs = k -> abs h !! w = Some (Mat u k W) -> abs h !! b = Some (AVec bs) -> length bs = u -> (Z.of_nat u <= int_max)%Z ->
  (forall zt a h', wf h' -> abs h !! zt = None -> abs h !! a = None -> zt <> a -> abs h' = <[a := AVec (run_norm_real (hl_act o) <$> dense1 k u xs W bs)]> (<[zt := AVec (dense1 k u xs W bs)]> (abs h)) -> Q (hl_put_zt o (Some zt) (Some a)) h') ->
  wp (hl_test_body (Some x) o) h Q.
Proof.
  intros V Ew Eb Hf Hx Ek Hw Hb El Hl HQ. unfold hl_test_body. rewrite Ew, Eb.
  wbind. eapply wp_xt_vec; [exact V|exact Hw|exact Hx|exact Ek|exact Hl|]. intros zt h1 W1 N1 A1. wbind. apply wp_deref_Some.
  wbind. eapply wp_v_op2; [exact W1|look|look|]. intros h2 W2 A2. rewrite xt_e_length, decide_True in A2 by congruence. rewrite A1, insert_insert in A2. clear A1.
  assert (E : zip_with s_add (xt_e k u W xs) bs = dense1 k u xs W bs).
  { apply list_eq. intros j. unfold dense1. rewrite lookup_zip_with. unfold xt_e. destruct (decide (j < u)%nat) as [Hj|Hj].
    - rewrite !vlist_lookup by exact Hj. cbn. destruct (bs !! j) as [v|] eqn:Ej; [|apply lookup_ge_None in Ej; lia]. cbn. f_equal.
      pose proof (xt_e_R k u W xs j Hj) as E'. unfold xt_e in E'. rewrite nth_vlist in E' by exact Hj. rewrite (nth_lookup_Some _ _ 0 _ Ej). transitivity (mv_row (mat_tr W) xs k j + v); [reflexivity|]. f_equal. rewrite E'. apply Rsum_ext. intros. apply Rmult_comm.
    - rewrite !(lookup_ge_None_2 (vlist u _)) by (rewrite vlist_length; lia). reflexivity. }
  rewrite E in A2. wbind. eapply wp_norm_v; [exact W2|look|exact Hf|]. intros a h3 W3 N3 A3. rewrite A2 in N3, A3. apply lookup_insert_None in N3 as [N3 Da].
  apply wp_ret. apply HQ; assumption.
Qed.
Lemma fwd_body_UB (o : hlayer R) h x w b z (k n u : nat) X W cb x0 y0 cz : wf h -> hl_in o = Some x -> hl_w o = Some w -> hl_b o = Some b -> hl_z o = Some z -> z <> x -> z <> w ->
  abs h !! x = Some (Mat k n X) -> abs h !! w = Some (Mat u k W) -> abs h !! b = Some (SVec (Z.of_nat u), cb) -> cb !! 0%nat = Some None -> abs h !! z = Some (SMat x0 y0, cz) -> (Z.of_nat (n * u) <= int_max)%Z -> (1 <= u)%nat -> (1 <= n)%nat ->
  hl_fwd_body o h = UB.
Proof.
  intros V Ex Ew Eb Ez D1 D2 Hx Hw Hb Hc Hz Hl Hu Hn. unfold hl_fwd_body. rewrite Ex, Ew, Eb, Ez. assert (z <> b) by (intros ->; rewrite Hz in Hb; discriminate).
  apply bind_UB. apply wp_deref_Some. apply bind_UB. eapply wp_m_multb; [exact V|congruence|congruence|exact Hz|exact Hx|exact Hw|exact Hl|]. intros h1 W1 A1. apply bind_UB_first. unfold m_add_vec.
  assert (Vz : abs h1 !! z = Some (Mat u n (mat_mul k X W))) by (rewrite A1; apply lookup_insert). assert (Vb : abs h1 !! b = Some (SVec (Z.of_nat u), cb)) by (rewrite A1, lookup_insert_ne by congruence; exact Hb).
  apply bind_UB. eapply wp_m_size; [exact Vz|]. apply bind_UB. eapply wp_v_size; [exact Vb|]. cbn [fst snd]. rewrite Z.eqb_refl. cbn [negb].
  apply bind_UB. eapply wp_data_ptr; [exact Vz|]. intros pa Pa. apply bind_UB. eapply wp_data_ptr; [exact Vb|]. intros pb Pb. unfold add_vec_loop.
  apply for_UB with (I := fun _ h' => h' = h1) (i0 := 0%nat); [lia|reflexivity|intros; lia|]. intros ? ->. apply for_UB with (I := fun _ h' => h' = h1) (i0 := 0%nat); [lia|reflexivity|intros; lia|]. intros ? ->.
  apply bind_UB. change (Z.of_nat 0 * Z.of_nat u + Z.of_nat 0)%Z with 0%Z.
  eapply wp_load with (l := z) (i := 0%Z); [exact W1|exact Pa|exact Vz|lia|change (Z.to_nat 0) with (0 * u + 0)%nat; rewrite list_lookup_fmap, mlist_lookup by lia; reflexivity|].
  apply bind_UB_first. eapply load_hole; [exact W1|exact Pb|exact Vb|exact Hc].
Qed.

(** ** The output layer *)
Definition lin (n k : nat) (X : nat -> nat -> R) (ws : list R) (b : R) : list R := vlist n (fun i => Rsum k (fun t => X i t * nth t ws 0) + b).
Lemma wp_ol_initialize raw rb (o : olayer R) h w (u : nat) nw cw (Q : olayer R -> heap R -> Prop) : wf h -> ol_init o = false -> ol_w o = Some w -> ol_n o = Z.of_nat u -> (Z.of_nat u <= int_max)%Z ->
  abs h !! w = Some (SVec nw, cw) -> (forall h', wf h' -> abs h' = <[w := AVec (drawn_v (ol_wi o) u raw)]> (abs h) -> Q (ol_ready o rb) h') -> wp (ol_initialize raw rb o) h Q.
Proof.
  intros V Ei Ew Eu Hl Hw HQ. unfold ol_initialize. rewrite Ei, Ew, Eu. wbind. apply wp_deref_Some. wbind. eapply wp_v_resize; [exact V|exact Hw|lia|]. intros h1 W1 A1 _.
  wbind. eapply wp_weight_initialization_v; [exact W1|look|]. intros h2 W2 A2. rewrite A1, insert_insert, resize_length, Nat2Z.id in A2. apply wp_ret. apply HQ; assumption.
Qed.
Definition ol_fwd_body (o : olayer R) : M R (olayer R) :=
  bind (propagate (ol_w o) (ol_b o) (ol_in o)) (fun z => bind (run_norm_vector (ol_act o) z) (fun a => ret (ol_put_za o z a))).
Lemma wp_ol_fwd_body (o : olayer R) h x w (k n : nat) X ws (Q : olayer R -> heap R -> Prop) : wf h -> ol_in o = Some x -> ol_w o = Some w -> v_ok (ol_act o) ->
  abs h !! x = Some (Mat k n X) -> abs h !! w = Some (AVec ws) -> length ws = k -> (Z.of_nat n <= int_max)%Z ->
  (forall z a h', wf h' -> abs h !! z = None -> abs h !! a = None -> z <> a -> abs h' = <[a := AVec (run_norm_real (ol_act o) <$> lin n k X ws (ol_b o))]> (<[z := AVec (lin n k X ws (ol_b o))]> (abs h)) -> Q (ol_put_za o (Some z) (Some a)) h') ->
  wp (ol_fwd_body o) h Q.
Proof.
  intros V Ex Ew Hf Hx Hw El Hl HQ. unfold ol_fwd_body. rewrite Ex, Ew. wbind. eapply wp_propagate; [exact V|exact Hx|exact Hw|exact El|exact Hl|]. intros z h1 W1 N1 A1.
  assert (E : (fun y => s_add y (ol_b o)) <$> vlist n (mv_row X ws k) = lin n k X ws (ol_b o)).
  { unfold lin, vlist. rewrite <- list_fmap_compose. apply list_fmap_ext. intros i y E. cbn. rewrite mv_row_R. reflexivity. }
  rewrite E in A1. wbind. eapply wp_norm_v; [exact W1|look|exact Hf|]. intros a h2 W2 N2 A2. rewrite A1 in N2, A2. apply lookup_insert_None in N2 as [N2 D]. apply wp_ret. apply HQ; assumption.
Qed.
