(** * Stochastic and mini-batch training of the perceptron, for any arithmetic. *)
From Verif Require Import Base BaseProofs Vec VecSpec VecProofs VecProofs2 Mat MatSpec MatProofs MatProofs2 MatProofs3 MatProofs4 MatProofs5 DetProofs Frame Act ActProofs ActProofs2 Cost CostProofs Sym Svm LinAlg LinAlgProofs Util UtilProofs Glm GlmProofs GlmProofs2 GlmProofs4 Mlp MlpProofs MlpProofs2 MlpProofs3.
Section mlp.
Context {F : Type} `{Scalar F} `{Libm F}.
Implicit Types (h : heap F) (xs ys ws v es : list F) (X W : nat -> nat -> F).
Context (x y : loc) (k n hh : nat) (reg : regtype) (la al : F).
Context (Hh : Z.of_nat hh <= int_max) (Hkh : Z.of_nat (k * hh) <= int_max).
Notation obj base := (mlpS base x y k n hh reg la al).

(** ** Frame lemmas *)
Lemma own_in base p Y o h l : obj base p Y o h -> l ∈ owned o -> exists a, abs h !! l = Some a.
Proof.
  intros S I. unfold owned in I. rewrite !elem_of_cons, elem_of_nil in I. destruct I as [->|[->|[->|[->|[->|[->|[]]]]]]].
  - destruct (obj_yh S) as (? & ? & E). eauto.
  - exists (Mat hh k (t_w1 p)). apply S.
  - exists (AVec (t_w2 p)). apply S.
  - exists (AVec (t_b1 p)). exact (ms_b1 S).
  - destruct (ms_z2 S) as (? & ? & ? & E). eauto.
  - destruct (ms_a2 S) as (? & ? & ? & E). eauto.
Qed.
Lemma own_fresh base p Y o h l : obj base p Y o h -> abs h !! l = None -> l ∉ owned o /\ base !! l = None.
Proof. intros S N. assert (I : l ∉ owned o) by (intros I; destruct (own_in _ _ _ _ _ _ S I); congruence). split; [exact I|]. rewrite <- (ms_frame S) by exact I. exact N. Qed.
Lemma obj_upd base p Y o h h' l (v : aobj F) : obj base p Y o h -> l ∉ owned o -> wf h' -> abs h' = <[l := v]> (abs h) -> obj (<[l := v]> base) p Y o h'.
Proof.
  intros S N W' A'. assert (E : forall l', l' ∈ owned o -> abs h' !! l' = abs h !! l') by (intros l' I; rewrite A'; apply lookup_insert_ne; intros ->; tauto).
  assert (I : forall l', l' ∈ [p_yh o; p_w1 o; p_w2 o; p_b1 o; p_z2 o; p_a2 o] -> l' ∈ owned o) by auto.
  split; [exact W'|apply S|exact (ms_obj S)|apply S| | | | | | | |]; rewrite ?E by (apply I; rewrite !elem_of_cons; tauto).
  - intros l' I'. rewrite lookup_insert_ne by (intros ->; tauto). apply S, I'.
  - apply S.
  - apply S.
  - exact (ms_b1 S).
  - apply S.
  - apply S.
  - exact (ms_a2 S).
  - intros l' I'. rewrite A'. destruct (decide (l = l')) as [->|D]; [rewrite !lookup_insert; reflexivity|]. rewrite !lookup_insert_ne by exact D. apply S, I'.
Qed.
Lemma obj_new base p Y o h h' l (v : aobj F) : obj base p Y o h -> abs h !! l = None -> wf h' -> abs h' = <[l := v]> (abs h) -> obj (<[l := v]> base) p Y o h'.
Proof. intros S N. apply obj_upd; [exact S|]. eapply own_fresh; [exact S|exact N]. Qed.
Lemma obj_del base p Y o h h' l : obj base p Y o h -> l ∉ owned o -> wf h' -> abs h' = delete l (abs h) -> obj (delete l base) p Y o h'.
Proof.
  intros S N W' A'. assert (E : forall l', l' ∈ owned o -> abs h' !! l' = abs h !! l') by (intros l' I; rewrite A'; apply lookup_delete_ne; intros ->; tauto).
  assert (I : forall l', l' ∈ [p_yh o; p_w1 o; p_w2 o; p_b1 o; p_z2 o; p_a2 o] -> l' ∈ owned o) by auto.
  split; [exact W'|apply S|exact (ms_obj S)|apply S| | | | | | | |]; rewrite ?E by (apply I; rewrite !elem_of_cons; tauto).
  - intros l' I'. rewrite lookup_delete_ne by (intros ->; tauto). apply S, I'.
  - apply S.
  - apply S.
  - exact (ms_b1 S).
  - apply S.
  - apply S.
  - exact (ms_a2 S).
  - intros l' I'. rewrite A'. destruct (decide (l = l')) as [->|D]; [rewrite !lookup_delete; reflexivity|]. rewrite !lookup_delete_ne by exact D. apply S, I'.
Qed.
Lemma obj_same base p Y o h h' : obj base p Y o h -> wf h' -> abs h' = abs h -> obj base p Y o h'.
Proof. intros [] W' A'. split; rewrite ?A'; try assumption. Qed.
Lemma obj_forget base p Y o h : obj base p Y o h -> obj base p None o h.
Proof. intros S. pose proof (obj_yh S). destruct S. split; assumption. Qed.
(** [_y_hat = v] with v a fresh object. *)
Lemma obj_swap base p Y o h h' l v : obj base p Y o h -> base !! l = Some (AVec v) -> wf h' -> abs h' = delete (p_yh o) (abs h) -> obj (delete l base) p (Some v) (p_set_yh o l) h'.
Proof.
  intros S E W' A'. destruct (obj_in S E) as [Vl Nl]. pose proof (ms_own S) as ND. pose proof ND as ND'. apply owned_ne in ND' as (? & ? & ? & ? & ? & ? & ? & ? & ? & ? & ? & ? & ? & ? & ?).
  assert (l <> p_yh o) by (intros ->; apply Nl; unfold owned; rewrite !elem_of_cons; tauto).
  split; cbn [p_set_yh p_yh p_w1 p_w2 p_b1 p_z2 p_a2]; rewrite ?A', ?lookup_delete_ne by congruence.
  - exact W'.
  - apply S.
  - rewrite (ms_obj S). reflexivity.
  - unfold owned in *. cbn [p_set_yh p_yh p_w1 p_w2 p_b1 p_z2 p_a2]. apply list.NoDup_cons in ND as [_ ND]. apply list.NoDup_cons. split; [|exact ND]. rewrite elem_of_cons in Nl. tauto.
  - intros l' I. destruct (decide (l = l')) as [->|D]; [apply lookup_delete|]. rewrite lookup_delete_ne by exact D. apply (ms_new S). unfold owned in *. cbn [p_set_yh p_yh p_w1 p_w2 p_b1 p_z2 p_a2] in I. rewrite !elem_of_cons in *. destruct I as [->|I]; [congruence|]. tauto.
  - apply S.
  - apply S.
  - exact (ms_b1 S).
  - exact Vl.
  - apply S.
  - exact (ms_a2 S).
  - intros l' I. destruct (decide (l = l')) as [->|D]; [exfalso; apply I; unfold owned; cbn [p_set_yh p_yh]; rewrite elem_of_cons; tauto|]. rewrite (lookup_delete_ne base) by exact D.
    destruct (decide (p_yh o = l')) as [<-|D2]; [rewrite lookup_delete; symmetry; apply (ms_new S); unfold owned; rewrite elem_of_cons; tauto|]. rewrite lookup_delete_ne by exact D2. apply (ms_frame S).
    unfold owned in *. cbn [p_set_yh p_yh p_w1 p_w2 p_b1 p_z2 p_a2] in I. rewrite !not_elem_of_cons in *. intuition congruence.
Qed.
(** The three parameter objects were overwritten. *)
Lemma obj_params base p Y o h h' p' : obj base p Y o h -> wf h' -> shaped hh p' ->
  abs h' = <[p_b1 o := AVec (t_b1 p')]> (<[p_w1 o := Mat hh k (t_w1 p')]> (<[p_w2 o := AVec (t_w2 p')]> (abs h))) -> obj base p' Y (p_set_b2 o (t_b2 p')) h'.
Proof.
  intros S W1 Sp A1. pose proof (ms_own S) as ND. pose proof ND as ND'. apply owned_ne in ND' as (? & ? & ? & ? & ? & ? & ? & ? & ? & ? & ? & ? & ? & ? & ?).
  split; cbn [p_set_b2 p_yh p_w1 p_w2 p_b1 p_z2 p_a2]; [exact W1|exact Sp|rewrite (ms_obj S); reflexivity|exact ND|apply S|look|look|look| | | |]; rewrite ?A1, ?lookup_insert_ne by congruence.
  - apply S.
  - apply S.
  - exact (ms_a2 S).
  - intros l Nl. change (l ∉ owned o) in Nl. assert (l <> p_b1 o /\ l <> p_w1 o /\ l <> p_w2 o) as (? & ? & ?) by (unfold owned in Nl; rewrite !not_elem_of_cons in Nl; tauto).
    rewrite !lookup_insert_ne by congruence. apply S, Nl.
Qed.
Lemma obj_fields base p Y o h : obj base p Y o h -> p_x o = Some x /\ p_y o = Some y /\ p_n o = Z.of_nat n /\ p_b2 o = t_b2 p /\ p_reg o = reg /\ p_la o = la /\ p_al o = al /\ p_init o = true.
Proof. intros S. rewrite (ms_obj S). cbn. tauto. Qed.
Lemma wp_obj_backprop lr base p Y o h xb yb yh z a m X yb' yhs (Q : mlp -> heap F -> Prop) : obj base p Y o h ->
  base !! xb = Some (Mat k m X) -> base !! yb = Some (AVec yb') -> base !! yh = Some (AVec yhs) -> length yb' = m -> length yhs = m ->
  base !! z = Some (Mat hh m (hz k X p)) -> base !! a = Some (Mat hh m (ha k X p)) -> Z.of_nat (m * hh) <= int_max ->
  (forall o' h', let p' := bp lr m k hh X reg la al (zip_with s_sub yhs yb') p in obj base p' Y o' h' -> Q o' h') ->
  wp (backprop lr (Some xb) (Some yb) yh z a (Z.of_nat m) o) h Q.
Proof using Hh Hkh.
  intros S Bx By Byh Ly Lyh Bz Ba Lm HQ. destruct (obj_fields _ _ _ _ _ S) as (Ex & Ey & En & Eb & Er & Ela & Eal & Ei). pose proof (obj_pars S) as P.
  pose proof (ms_own S) as ND'. apply owned_ne in ND' as (? & ? & ? & ? & ? & ? & ? & ? & ? & ? & ? & ? & ? & ? & ?).
  eapply (wp_backprop lr o hh k p h xb yb yh z a m X yb' yhs); [apply S|exact Eb|apply S|exact P|congruence| | | |exact Ly|exact Lyh| | |exact Hh|exact Lm|exact Hkh|];
    try (eapply obj_in; [exact S|eassumption]). rewrite Er, Ela, Eal. cbv zeta. intros h1 W1 A1. apply HQ. eapply obj_params; [exact S|exact W1|apply bp_shaped, S|exact A1].
Qed.

(** ** sgd *)
Section sg.
Context (base : gmap loc (aobj F)) (X : nat -> nat -> F) (ys : list F).
Context (Hx : base !! x = Some (Mat k n X)) (Hy : base !! y = Some (AVec ys)) (El : length ys = n).
Context (row ot yt lz la2 : loc) (ND : NoDup [row; ot; yt; lz; la2]) (Hnew : forall l, l ∈ [row; ot; yt; lz; la2] -> base !! l = None).
Definition sgS (p : par) (o : mlp) h : Prop := exists b n0 c0 O0 Y0 n1 c1 n2 c2, obj b p None o h /\ (forall l, l ∉ [row; ot; yt; lz; la2] -> b !! l = base !! l) /\
  b !! row = Some (SVec n0, c0) /\ b !! ot = Some (SVec 1, [O0]) /\ b !! yt = Some (SVec 1, [Y0]) /\ b !! lz = Some (SVec n1, c1) /\ b !! la2 = Some (SVec n2, c2).
Lemma wp_p_sgd_epoch lr (idx : Z -> Z) (i : nat) (e : Z) p o h (Q : mlp -> heap F -> Prop) : idx e = Z.of_nat i -> (i < n)%nat -> sgS p o h ->
  (forall o' h', sgS (msgd lr k hh X ys reg la al i p) o' h' -> Q o' h') -> wp (p_sgd_epoch lr idx row ot yt lz la2 e o) h Q.
Proof using Hh Hkh Hx Hy El ND Hnew.
  intros Ei Hi (b & n0 & c0 & O0 & Y0 & n1 & c1 & n2 & c2 & S & Rest & B1 & B2 & B3 & B4 & B5) HQ.
  destruct (obj_fields _ _ _ _ _ S) as (Ex & Ey & En & Eb & Er & Ela & Eal & Einit). unfold p_sgd_epoch. rewrite Ei, Ex, Ey.
  assert (Nx : x ∉ [row; ot; yt; lz; la2]) by (intros I; rewrite (Hnew _ I) in Hx; congruence). assert (Ny : y ∉ [row; ot; yt; lz; la2]) by (intros I; rewrite (Hnew _ I) in Hy; congruence).
  assert (Bx : b !! x = Some (Mat k n X)) by (rewrite Rest by exact Nx; exact Hx). assert (By : b !! y = Some (AVec ys)) by (rewrite Rest by exact Ny; exact Hy).
  rewrite !not_elem_of_cons in Nx, Ny. destruct Nx as (? & ? & ? & ? & ? & _). destruct Ny as (? & ? & ? & ? & ? & _).
  rewrite !list.NoDup_cons, !not_elem_of_cons in ND. destruct ND as ((? & ? & ? & ? & _) & (? & ? & ? & _) & (? & ? & _) & (? & _) & _ & _).
  destruct (obj_in S Bx) as [Vx Ox]. destruct (obj_in S B1) as [V1 O1]. destruct (obj_in S B2) as [V2 O2].
  destruct (obj_in S B3) as [V3 O3]. destruct (obj_in S B4) as [V4 O4]. destruct (obj_in S B5) as [V5 O5].
  wbind. apply wp_deref_Some. wbind. eapply wp_row_into; [apply S|exact Vx|exact V1|reflexivity|exact Hi|]. intros h1 W1 A1. set (xs := vlist k (X i)) in *. assert (Lxs : length xs = k) by apply vlist_length.
  pose proof (obj_upd _ _ _ _ _ _ _ _ S O1 W1 A1) as S1. assert (By1 : <[row := AVec xs]> b !! y = Some (AVec ys)) by (rewrite lookup_insert_ne by congruence; exact By).
  destruct (obj_in S1 By1) as [Vy1 _].
  wbind. apply wp_deref_Some. wbind. eapply wp_v_get; [exact W1|exact Vy1|]. destruct (Z.ltb_spec (Z.of_nat i) 0) as [Lt|_]; [slia|]. rewrite Nat2Z.id.
  destruct (lookup_lt_is_Some_2 ys i) as [yi Hyi]; [slia|]. rewrite Hyi. change (default s_zero (Some yi)) with yi. assert (Enth : nth i ys s_zero = yi) by (apply nth_lookup_Some; exact Hyi).
  wbind. eapply wp_v_set; [exact W1|rewrite A1, lookup_insert_ne by congruence; exact V2|]. cbn [Z.ltb Z.compare]. intros h2 W2 _ A2. change (<[Z.to_nat 0:=Some yi]> [O0]) with [Some yi] in A2.
  pose proof (obj_upd _ _ _ _ _ _ _ _ S1 O2 W2 A2) as S2. pose proof (obj_pars S2) as P2.
  wbind. eapply (wp_p_evaluatev o hh k p (ms_shape S) Hh Eb h2 row xs); [exact W2|exact P2|rewrite A2, lookup_insert_ne, A1, lookup_insert by congruence; reflexivity|exact Lxs|]. intros h3 W3 A3. rewrite A2 in A3.
  pose proof (obj_upd _ _ _ _ _ _ _ _ S1 O2 W3 A3) as S3. set (q := out1 k hh xs p) in *.
  wbind. eapply wp_v_set; [exact W3|rewrite A3, lookup_insert_ne, A1, lookup_insert_ne by congruence; exact V3|]. cbn [Z.ltb Z.compare]. intros h4 W4 _ A4. change (<[Z.to_nat 0:=Some q]> [Y0]) with [Some q] in A4.
  pose proof (obj_upd _ _ _ _ _ _ _ _ S3 O3 W4 A4) as S4. pose proof (obj_pars S4) as P4.
  set (zs := hzv k hh (t_w1 p) (t_b1 p) xs) in *.
  wbind. eapply (wp_propagatev o hh k p (ms_shape S) Hh h4 row lz la2 xs); [exact W4|exact P4|rewrite A4, lookup_insert_ne, A3, lookup_insert_ne, A1, lookup_insert by congruence; reflexivity|exact Lxs|rewrite A4, lookup_insert_ne, A3, lookup_insert_ne, A1, lookup_insert_ne by congruence; exact V4|rewrite A4, lookup_insert_ne, A3, lookup_insert_ne, A1, lookup_insert_ne by congruence; exact V5|congruence|].
  fold zs. intros h5 W5 A5.
  (* the heap as an extension of b *)
  set (b5 := <[la2 := AVec (sg KV <$> zs)]> (<[lz := AVec zs]> (<[yt := (SVec 1, [Some q])]> (<[ot := (SVec 1, [Some yi])]> (<[row := AVec xs]> b))))).
  assert (S5 : obj b5 p None o h5).
  { pose proof (ms_own S4) as ND4. split; [exact W5|apply S|exact (ms_obj S)|exact ND4| | | | | | | |].
    - intros l I. unfold b5. rewrite !lookup_insert_ne by (intros ->; tauto). apply S, I.
    - rewrite A5, !lookup_insert_ne; [apply S4| |]; intros E; [apply O4|apply O5]; rewrite E; unfold owned; rewrite !elem_of_cons; tauto.
    - rewrite A5, !lookup_insert_ne; [apply S4| |]; intros E; [apply O4|apply O5]; rewrite E; unfold owned; rewrite !elem_of_cons; tauto.
    - rewrite A5, !lookup_insert_ne; [exact (ms_b1 S4)| |]; intros E; [apply O4|apply O5]; rewrite E; unfold owned; rewrite !elem_of_cons; tauto.
    - rewrite A5, !lookup_insert_ne; [exact (ms_yh S4)| |]; intros E; [apply O4|apply O5]; rewrite E; unfold owned; rewrite !elem_of_cons; tauto.
    - rewrite A5, !lookup_insert_ne; [exact (ms_z2 S4)| |]; intros E; [apply O4|apply O5]; rewrite E; unfold owned; rewrite !elem_of_cons; tauto.
    - rewrite A5, !lookup_insert_ne; [exact (ms_a2 S4)| |]; intros E; [apply O4|apply O5]; rewrite E; unfold owned; rewrite !elem_of_cons; tauto.
    - intros l I. rewrite A5. unfold b5. destruct (decide (la2 = l)) as [<-|D1]; [rewrite !lookup_insert; reflexivity|]. rewrite !(lookup_insert_ne _ la2) by exact D1.
      destruct (decide (lz = l)) as [<-|D2]; [rewrite !lookup_insert; reflexivity|]. rewrite !(lookup_insert_ne _ lz) by exact D2. apply (ms_frame S4), I. }
  clear S4 P4 S3 S2 P2 S1 A5 A4 A3 A2 A1 Vy1 By1. pose proof (obj_pars S5) as P5.
  assert (I1 : b5 !! row = Some (AVec xs)) by (unfold b5; rewrite !lookup_insert_ne by congruence; apply lookup_insert). assert (I2 : b5 !! ot = Some (AVec [yi])) by (unfold b5; rewrite !lookup_insert_ne by congruence; apply lookup_insert).
  assert (I3 : b5 !! yt = Some (AVec [q])) by (unfold b5; rewrite !lookup_insert_ne by congruence; apply lookup_insert). assert (I4 : b5 !! lz = Some (AVec zs)) by (unfold b5; rewrite !lookup_insert_ne by congruence; apply lookup_insert).
  assert (I5 : b5 !! la2 = Some (AVec (sg KV <$> zs))) by (unfold b5; apply lookup_insert).
  destruct (obj_in S5 I1) as [J1 _]. destruct (obj_in S5 I2) as [J2 _]. destruct (obj_in S5 I3) as [J3 _].
  destruct (obj_in S5 I4) as [J4 _]. destruct (obj_in S5 I5) as [J5 _].
  wbind. eapply wp_p_cost; [exact W5|exact P5|exact J3|exact J2|reflexivity|]. cbv zeta. set (er := s_sub q yi).
  pose proof (ms_own S5) as ND5. apply owned_ne in ND5 as (? & ? & ? & ? & ? & ? & ? & ? & ? & ? & ? & ? & ? & ? & ?). destruct (ms_shape S) as [Sb Sw]. destruct P5 as (Q1 & Q2 & Q3).
  assert (Lzs : length zs = hh) by (unfold zs, hzv; rewrite zip_with_length, xt_e_length; slia).
  assert (row <> p_w2 o /\ lz <> p_w2 o) as [? ?] by (split; intros E; [apply O1|apply O4]; rewrite E; unfold owned; rewrite !elem_of_cons; tauto).
  wbind. eapply wp_v_mapn; [exact W5|exact J5|]. intros d2 h6 W6 N6 A6. assert (d2 <> p_w2 o /\ d2 <> lz /\ d2 <> row /\ d2 <> p_w1 o /\ d2 <> p_b1 o) as (? & ? & ? & ? & ?) by (repeat split; congruence).
  wbind. eapply wp_upd_w2; [exact W6|look|look|congruence|rewrite !fmap_length; congruence|]. intros h7 W7 A7. rewrite A6, delete_insert in A7 by exact N6. rewrite Er, Ela, Eal in A7. clear A6 W6 h6.
  set (w2' := rw1 la al reg <$> zip_with s_sub (t_w2 p) ((fun u => s_mul u lr) <$> ((fun u => s_mul u er) <$> (sg KV <$> zs)))) in *.
  assert (Lw2 : length w2' = hh) by (unfold w2'; rewrite fmap_length, zip_with_length, !fmap_length; slia). cbn [p_w2 p_set_b2 p_b1].
  wbind. eapply wp_v_mapn; [exact W7|look|]. intros d11 h8 W8 N8 A8. rewrite A7 in A8, N8. split_none N8. clear A7 W7 h7. assert (d11 <> lz /\ d11 <> row /\ d11 <> p_w1 o /\ d11 <> p_b1 o) as (? & ? & ? & ?) by (repeat split; congruence).
  wbind. eapply wp_sigd_v; [exact W8|look|]. intros sd h9 W9 N9 A9. rewrite A8 in A9, N9. split_none N9. clear A8 W8 h8. assert (sd <> row /\ sd <> p_w1 o /\ sd <> p_b1 o) as (? & ? & ?) by (repeat split; congruence).
  wbind. eapply wp_v_op2n_early; [exact W9|look|look| |intros Hne; exfalso; apply Hne; rewrite !fmap_length; congruence]. intros _ d12 h10 W10 N10 A10. rewrite A9 in A10, N10. split_none N10. clear A9 W9 h9.
  set (dd := zip_with s_mul ((fun u => s_mul u er) <$> w2') (sgd KV <$> zs)) in *. assert (Ldd : length dd = hh) by (unfold dd; rewrite zip_with_length, !fmap_length; slia). assert (d12 <> row /\ d12 <> p_w1 o /\ d12 <> p_b1 o) as (? & ? & ?) by (repeat split; congruence).
  wbind. cbn [drop_ref]. eapply wp_del; [exact W10|look|]. intros h11 W11 A11 _. rewrite A10, delete_insert_ne, delete_insert in A11 by (rewrite ?lookup_insert_ne by congruence; congruence). clear A10 W10 h10.
  wbind. eapply wp_v_outer; [exact W11|look|look|rewrite Ldd, Lxs, Nat.mul_comm; exact Hkh|]. rewrite Ldd, Lxs. intros d13 h12 W12 N12 A12. rewrite A11 in A12, N12. split_none N12. clear A11 W11 h11. assert (d13 <> p_w1 o /\ d13 <> p_b1 o) as (? & ?) by (split; congruence).
  wbind. eapply wp_upd_w1; [exact W12|cbn [p_w1 p_set_b2]; look|look|cbn [p_w1 p_set_b2]; congruence|]. cbn [p_w1 p_set_b2 p_la p_al p_reg]. rewrite Er, Ela, Eal. intros h13 W13 A13.
  rewrite A12, delete_insert in A13 by (rewrite ?lookup_insert_ne by congruence; congruence). clear A12 W12 h12.
  wbind. apply wp_deref_Some. wbind. eapply wp_v_mapn; [exact W13|look|]. intros qq h14 W14 N14 A14. rewrite A13 in A14, N14. split_none N14. clear A13 W13 h13. assert (qq <> p_b1 o) by congruence.
  wbind. eapply wp_v_op2; [exact W14|look|look|]. intros h15 W15 A15. rewrite fmap_length, decide_True in A15 by congruence. rewrite A14 in A15. clear A14 W14 h14.
  wbind. eapply wp_del; [exact W15|look|]. intros h16 W16 A16 _. rewrite A15 in A16. clear A15 W15 h15.
  wbind. eapply wp_del; [exact W16|rewrite A16, lookup_delete_ne by congruence; look|]. intros h17 W17 A17 _. rewrite A16 in A17. clear A16 W16 h16.
  wbind. eapply wp_del; [exact W17|rewrite A17, !lookup_delete_ne by congruence; look|]. intros h18 W18 A18 _. rewrite A17 in A18. clear A17 W17 h17.
  set (p' := msgd lr k hh X ys reg la al i p). assert (Ep : t_b1 p' = zip_with s_sub (t_b1 p) ((fun u => s_mul u lr) <$> dd) /\ t_w2 p' = w2' /\ t_b2 p' = s_sub (t_b2 p) (s_mul lr er) /\ Mat hh k (t_w1 p') = Mat hh k (fun r j => rw1 la al reg (s_sub (t_w1 p r j) (s_mul (outer xs dd r j) lr)))).
  { unfold p', msgd. cbv zeta. rewrite Enth. repeat split. }
  destruct Ep as (Ep1 & Ep2 & Ep3 & Ep4).
  assert (A19 : abs h18 = <[p_b1 o := AVec (t_b1 p')]> (<[p_w1 o := Mat hh k (t_w1 p')]> (<[p_w2 o := AVec (t_w2 p')]> (abs h5)))).
  { rewrite A18, Ep1, Ep2, Ep4. apply map_eq. intros l.
    destruct (decide (p_b1 o = l)) as [<-|E1]; [rewrite !lookup_delete_ne by congruence; rewrite !lookup_insert; reflexivity|].
    destruct (decide (p_w1 o = l)) as [<-|E2]; [rewrite !lookup_delete_ne by congruence; rewrite !(lookup_insert_ne _ (p_b1 o)) by congruence; rewrite !(lookup_insert_ne _ qq) by congruence; rewrite !lookup_insert; reflexivity|].
    destruct (decide (p_w2 o = l)) as [<-|E3]; [rewrite !lookup_delete_ne by congruence; rewrite (lookup_insert_ne _ (p_b1 o)) by congruence; rewrite (lookup_insert_ne _ qq) by congruence; rewrite (lookup_insert_ne _ (p_w1 o)) by congruence; rewrite (lookup_insert_ne _ d12), (lookup_insert_ne _ d11), lookup_insert by congruence; rewrite !lookup_insert_ne by congruence; rewrite lookup_insert; reflexivity|].
    rewrite !(lookup_insert_ne _ (p_b1 o) l), !(lookup_insert_ne _ (p_w1 o) l), !(lookup_insert_ne _ (p_w2 o) l) by congruence.
    destruct (decide (d11 = l)) as [<-|E5]; [rewrite lookup_delete; congruence|]. rewrite lookup_delete_ne by congruence.
    destruct (decide (d12 = l)) as [<-|E6]; [rewrite lookup_delete; congruence|]. rewrite lookup_delete_ne by congruence.
    destruct (decide (qq = l)) as [<-|E7]; [rewrite lookup_delete; congruence|]. rewrite lookup_delete_ne by congruence.
    rewrite !lookup_insert_ne by congruence. reflexivity. }
  clear A18. assert (S19 : obj b5 p' None (p_set_b2 o (t_b2 p')) h18) by (eapply obj_params; [exact S5|exact W18|apply msgd_shaped, S|exact A19]).
  pose proof (obj_pars S19) as P19. destruct (obj_in S19 I1) as [K1 _].
  replace (p_set_b2 o (s_sub (p_b2 o) (s_mul lr er))) with (p_set_b2 o (t_b2 p')) by (rewrite Ep3, Eb; reflexivity).
  wbind. eapply (wp_p_evaluatev (p_set_b2 o (t_b2 p')) hh k p' (ms_shape S19) Hh eq_refl h18 row xs); [exact W18|exact P19|exact K1|exact Lxs|]. intros h20 W20 A20. apply wp_ret. apply HQ.
  exists b5. eexists _, _, _, _, _, _, _, _. split; [eapply obj_same; [exact S19|exact W20|exact A20]|]. split; [|split; [exact I1|split; [exact I2|split; [exact I3|split; [exact I4|exact I5]]]]].
  intros l I. unfold b5. rewrite !not_elem_of_cons in I. destruct I as (? & ? & ? & ? & ? & _). rewrite !lookup_insert_ne by congruence. apply Rest. rewrite !not_elem_of_cons. repeat split; try assumption. apply not_elem_of_nil.
Qed.
End sg.
End mlp.
