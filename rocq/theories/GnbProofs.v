(** * Execution lemmas for MLPPGaussianNB. *)
From Verif Require Import Base BaseProofs Vec VecSpec VecProofs VecProofs2 Mat MatSpec MatProofs MatProofs2 MatProofs3 MatProofs4 MatProofs5 Frame Stat StatProofs Act ActProofs ActProofs2 Cost CostProofs Sym Svm Util UtilProofs LinAlg LinAlgProofs Gnb.

Section gnb.
Context {F : Type} `{Scalar F} `{Libm F}.
Implicit Types (h : heap F) (xs ys prs mus sgs : list F).

(** Running sum and scores after the classes k-1 .. k-t. *)
Fixpoint chain (upd : nat -> F -> F) (k t : nat) : F * list F :=
  match t with
  | O => (s_one, [])
  | S t => let st := chain upd k t in let y := upd (k - 1 - t)%nat st.1 in (y, s_exp y :: st.2)
  end.
Definition upd_point prs mus sgs (v : nat -> F) (i : nat) (y : F) : F := s_add y (gn_term (nth i prs s_zero) (nth i mus s_zero) (nth i sgs s_zero) (v i)).
Definition upd_row prs mus sgs (c : nat) (v : nat -> F) (i : nat) (y : F) : F :=
  foldl (fun y t => s_add y (gn_term (nth i prs s_zero) (nth i mus s_zero) (nth i sgs s_zero) (v t))) y (seq 0 c).
Lemma get_nth h l xs (i : nat) (Q : F -> heap F -> Prop) : wf h -> abs h !! l = Some (AVec xs) -> Q (nth i xs s_zero) h -> wp (v_get l (Z.of_nat i)) h Q.
Proof. intros W A HQ. eapply wp_v_get; [exact W|exact A|]. replace (Z.of_nat i <? 0) with false by lia. rewrite Nat2Z.id, <- nth_lookup. exact HQ. Qed.

Record gstate h (o : gnb) (k : nat) prs mus sgs : Prop := GS {
  gs_k : gn_k o = Z.of_nat k; gs_pr : abs h !! gn_pr o = Some (AVec prs); gs_mu : abs h !! gn_mu o = Some (AVec mus); gs_sg : abs h !! gn_sg o = Some (AVec sgs) }.

Lemma gn_model_test_eq h o k prs mus sgs x xs : wf h -> gstate h o k prs mus sgs -> abs h !! x = Some (AVec xs) ->
  gn_model_test o (Some x) h = Ok (s_of_Z (gn_argmax (chain (upd_point prs mus sgs (fun i => nth i xs s_zero)) k k).2)) h.
Proof.
  intros W [Ek Hp Hm Hs] Hx. apply wp_eq. unfold gn_model_test. rewrite Ek. replace (Z.of_nat k <? 0) with false by lia.
  wbind. apply wp_for_acc_n with (I := fun t st hi => hi = h /\ st = chain (upd_point prs mus sgs (fun i => nth i xs s_zero)) k t).
  - split; reflexivity.
  - intros t st hi Ht [-> ->]. cbv zeta. replace (Z.of_nat k - 1 - Z.of_nat t) with (Z.of_nat (k - 1 - t)) by lia.
    wbind. eapply get_nth; [exact W|exact Hs|]. wbind. apply wp_deref_Some. wbind. eapply get_nth; [exact W|exact Hx|]. wbind. eapply get_nth; [exact W|exact Hm|]. wbind. eapply get_nth; [exact W|exact Hp|].
    apply wp_ret. split; reflexivity.
  - intros st hi [-> ->]. apply wp_ret. split; reflexivity.
Qed.
(** The values of the rows labelled i. *)
Definition members (n c : nat) (X : nat -> nat -> F) ys (i : Z) : list F := concat (map (fun j => if s_eq (nth j ys s_zero) (s_of_Z i) then vlist c (X j) else []) (seq 0 n)).
Lemma members_le n c X ys i : (length (members n c X ys i) <= n * c)%nat.
Proof.
  unfold members. induction n as [|n IH]; [cbn; lia|]. rewrite seq_S, map_app, concat_app, app_length. cbn [map concat]. rewrite app_nil_r, Nat.add_0_l. destruct (s_eq _ _); [rewrite vlist_length; lia|cbn; lia].
Qed.
Lemma gn_members_eq h x y (n c : nat) X ys (i : Z) : wf h -> abs h !! x = Some (Mat c n X) -> abs h !! y = Some (AVec ys) -> gn_members x y i h = Ok (members n c X ys i) h.
Proof.
  intros W Hx Hy. apply wp_eq. unfold gn_members. wbind. eapply wp_m_size; [exact Hx|]. cbn [fst snd].
  apply wp_for_acc_n with (I := fun j acc hi => hi = h /\ acc = members j c X ys i).
  - split; reflexivity.
  - intros j acc hi Hj [-> ->]. unfold members. rewrite seq_S, map_app, concat_app. cbn [map concat]. rewrite app_nil_r, Nat.add_0_l. fold (members j c X ys i). generalize (members j c X ys i). intros acc0.
    apply wp_for_acc_n with (I := fun t acc hi => hi = h /\ acc = acc0 ++ (if s_eq (nth j ys s_zero) (s_of_Z i) then vlist t (X j) else [])).
    + split; [reflexivity|]. destruct (s_eq _ _); symmetry; apply app_nil_r.
    + intros t acc hi Ht [-> ->]. wbind. eapply get_nth; [exact W|exact Hy|]. destruct (s_eq (nth j ys s_zero) (s_of_Z i)).
      * wbind. eapply wp_m_get_mat; [exact W|exact Hx|exact Hj|exact Ht|]. apply wp_ret. split; [reflexivity|]. rewrite <- app_assoc. f_equal. unfold vlist. rewrite seq_S, fmap_app. reflexivity.
      * apply wp_ret. split; reflexivity.
    + intros acc hi [-> ->]. split; reflexivity.
  - intros acc hi [-> ->]. split; reflexivity.
Qed.
Definition mu_of n c X ys (i : nat) : F := f_mean (members n c X ys (Z.of_nat i)).
Definition sg_of n c X ys (i : nat) : F := s_sqrt (f_variance (members n c X ys (Z.of_nat i))).

Lemma cells_done (k : nat) (f : nat -> F) (cs : list (option F)) : length cs = k -> (forall i, (i < k)%nat -> cs !! i = Some (Some (f i))) -> cs = Some <$> vlist k f.
Proof.
  intros L E. apply list_eq_same_length with (n := k); [rewrite fmap_length, vlist_length; reflexivity|exact L|]. intros i a b Hi Ha Hb. rewrite E in Ha by exact Hi. rewrite list_lookup_fmap, vlist_lookup in Hb by exact Hi. cbn in Hb. congruence.
Qed.
Lemma AVec_cells k (f : nat -> F) : (SVec (Z.of_nat k), Some <$> vlist k f) = AVec (vlist k f).
Proof. unfold AVec. rewrite vlist_length. reflexivity. Qed.

(** What gn_new's objects look like before evaluate, and the frame around them. *)
Lemma wp_moments h (o : gnb) x y (k n c : nat) X ys nm cm ns cs (Q : unit -> heap F -> Prop) : wf h -> abs h !! x = Some (Mat c n X) -> abs h !! y = Some (AVec ys) ->
  gn_k o = Z.of_nat k -> (Z.of_nat k <= int_max) -> abs h !! gn_mu o = Some (SVec nm, cm) -> abs h !! gn_sg o = Some (SVec ns, cs) -> gn_mu o <> gn_sg o -> x <> gn_mu o -> x <> gn_sg o -> y <> gn_mu o -> y <> gn_sg o ->
  (forall h', wf h' -> abs h' = <[gn_sg o := AVec (vlist k (sg_of n c X ys))]> (<[gn_mu o := AVec (vlist k (mu_of n c X ys))]> (abs h)) -> Q tt h') -> wp (gn_moments o x y) h Q.
Proof.
  intros W Hx Hy Ek Hk Hm Hs D0 D1 D2 D3 D4 HQ. unfold gn_moments. rewrite Ek.
  wbind. eapply wp_v_resize; [exact W|exact Hm|lia|]. intros h1 W1 A1 _. rewrite Nat2Z.id in A1.
  wbind. eapply wp_v_resize; [exact W1|look; exact Hs|lia|]. intros h2 W2 A2 _. rewrite Nat2Z.id, A1 in A2.
  wbind. eapply wp_v_new; [exact W2|]. intros t h3 W3 N3 A3 _. rewrite A2 in A3, N3.
  apply lookup_insert_None in N3 as [N3 Dt2]. apply lookup_insert_None in N3 as [Nt Dt1].
  assert (Dt3 : t <> x) by congruence. assert (Dt4 : t <> y) by congruence.
  destruct (amat_len _ _ _ _ _ W Hx) as [Lx Hle].
  wbind. apply wp_for_n with (I := fun s hi => wf hi /\ exists c1 c2 n0 c0, length c1 = k /\ length c2 = k /\ (forall i, (k - s <= i < k)%nat -> c1 !! i = Some (Some (mu_of n c X ys i))) /\ (forall i, (k - s <= i < k)%nat -> c2 !! i = Some (Some (sg_of n c X ys i))) /\
     abs hi = <[t := (SVec n0, c0)]> (<[gn_sg o := (SVec (Z.of_nat k), c2)]> (<[gn_mu o := (SVec (Z.of_nat k), c1)]> (abs h)))).
  - split; [exact W3|]. eexists (list.resize k None cm), (list.resize k None cs), _, _. split_and!; [apply resize_length|apply resize_length|intros; lia|intros; lia|exact A3].
  - intros s hi Hs' (Wi & c1 & c2 & n0 & c0 & L1 & L2 & E1 & E2 & Ai). cbv zeta. replace (Z.of_nat k - 1 - Z.of_nat s) with (Z.of_nat (k - 1 - s)) by lia. set (i := (k - 1 - s)%nat) in *.
    assert (Hi : (i < k)%nat) by (unfold i; lia). assert (His : forall j, (k - S s <= j < k)%nat -> j = i \/ (k - s <= j < k)%nat) by (unfold i; lia). clearbody i.
    wbind. unfold wp at 1. rewrite (gn_members_eq hi x y n c X ys (Z.of_nat i)) by (first [exact Wi|look; assumption]).
    wbind. eapply wp_v_set_data; [exact Wi|look| |]. { pose proof (members_le n c X ys (Z.of_nat i)). clear - H1 Hle. nia. }
    intros h4 W4 A4. rewrite Ai, insert_insert in A4.
    wbind. unfold wp at 1. rewrite (st_mean_eq h4 t (members n c X ys (Z.of_nat i))) by (first [exact W4|look]).
    wbind. eapply wp_v_set; [exact W4|look|]. intros h5 W5 _ A5. replace (Z.of_nat i <? 0) with false in A5 by (clear; lia). rewrite Nat2Z.id, A4 in A5.
    wbind. unfold wp at 1. rewrite (st_sd_eq h5 t (members n c X ys (Z.of_nat i))) by (first [exact W5|look]).
    eapply wp_v_set; [exact W5|look|]. intros h6 W6 _ A6. replace (Z.of_nat i <? 0) with false in A6 by (clear; lia). rewrite Nat2Z.id, A5 in A6.
    split; [exact W6|]. eexists (<[i := Some (mu_of n c X ys i)]> c1), (<[i := Some (sg_of n c X ys i)]> c2), (Z.of_nat (length (members n c X ys (Z.of_nat i)))), (Some <$> members n c X ys (Z.of_nat i)). split_and!.
    + rewrite insert_length. exact L1.
    + rewrite insert_length. exact L2.
    + intros j Hj. destruct (decide (i = j)) as [->|Dj]; [apply list_lookup_insert; rewrite L1; exact Hi|]. rewrite list_lookup_insert_ne by exact Dj. apply E1. destruct (His j Hj); congruence.
    + intros j Hj. destruct (decide (i = j)) as [->|Dj]; [apply list_lookup_insert; rewrite L2; exact Hi|]. rewrite list_lookup_insert_ne by exact Dj. apply E2. destruct (His j Hj); congruence.
    + rewrite A6. apply map_eq. intros l. destruct (decide (t = l)) as [->|?]; [|destruct (decide (gn_sg o = l)) as [<-|?]; [|destruct (decide (gn_mu o = l)) as [<-|?]]]; repeat (rewrite lookup_insert || rewrite lookup_insert_ne by congruence); reflexivity.
  - intros hi (Wi & c1 & c2 & n0 & c0 & L1 & L2 & E1 & E2 & Ai). eapply wp_del; [exact Wi|look|]. intros h4 W4 A4 _. apply HQ; [exact W4|].
    rewrite A4, Ai. rewrite (cells_done k (mu_of n c X ys) c1 L1) by (intros i Hi; apply E1; lia). rewrite (cells_done k (sg_of n c X ys) c2 L2) by (intros i Hi; apply E2; lia). rewrite !AVec_cells.
    rewrite delete_insert; [reflexivity|]. rewrite !lookup_insert_ne by congruence. exact Nt.
Qed.
Lemma wp_priors h (o : gnb) y (k : nat) ys np cp (Q : unit -> heap F -> Prop) : wf h -> abs h !! y = Some (AVec ys) -> gn_k o = Z.of_nat k -> (Z.of_nat k <= int_max) -> abs h !! gn_pr o = Some (SVec np, cp) -> y <> gn_pr o ->
  Forall (fun v => m_to_int v <> None) ys ->
  (forall h', wf h' -> abs h' = <[gn_pr o := AVec (replicate k (s_mul s_zero (s_div s_one (s_of_Z (Z.of_nat (length ys))))))]> (abs h) -> Q tt h') -> wp (gn_priors o y) h Q.
Proof.
  intros W Hy Ek Hk Hp D Hl HQ. unfold gn_priors. rewrite Ek. wbind. eapply wp_v_resize; [exact W|exact Hp|lia|]. intros h1 W1 A1 _.
  wbind. eapply wp_v_fill; [exact W1|look|]. intros h2 W2 _ A2. rewrite A1, insert_insert, Nat2Z.id in A2.
  wbind. eapply wp_v_size_vec; [look; exact Hy|].
  wbind. apply wp_for_n with (I := fun i hi => wf hi /\ abs hi = abs h2).
  - split; [exact W2|reflexivity].
  - intros i hi Hi [Wi Ai]. wbind. eapply get_nth; [exact Wi|rewrite Ai; look; exact Hy|]. destruct (lookup_lt_is_Some_2 ys i Hi) as [v Hv]. rewrite (nth_lookup_Some _ _ _ _ Hv).
    destruct (m_to_int v) as [z|] eqn:Ez; [|exfalso; exact (proj1 (Forall_lookup _ _) Hl _ _ Hv Ez)].
    wbind. eapply wp_v_get; [exact Wi|rewrite Ai; look|]. eapply wp_v_set; [exact Wi|rewrite Ai; look|]. intros h3 W3 _ A3. split; [exact W3|]. rewrite A3, Ai. destruct (Z.ltb_spec z 0); [reflexivity|].
    apply insert_id. rewrite A2, lookup_insert. unfold AVec. do 2 f_equal. destruct (decide (Z.to_nat z < k)%nat) as [Hz|Hz].
    + rewrite lookup_replicate_2 by exact Hz. cbn [default]. symmetry. apply list_insert_id. rewrite list_lookup_fmap, lookup_replicate_2 by exact Hz. reflexivity.
    + rewrite list_insert_ge; [reflexivity|]. rewrite fmap_length, replicate_length. lia.
  - intros hi [Wi Ai]. unfold v_scalar_multiply. eapply wp_v_map; [exact Wi|rewrite Ai; look|]. intros h3 W3 A3. apply HQ; [exact W3|]. rewrite A3, Ai, A2, insert_insert, fmap_replicate. reflexivity.
Qed.
Lemma wp_fit h (o : gnb) x y (k n c N : nat) X ys prs mus sgs cy (Q : unit -> heap F -> Prop) : wf h -> abs h !! x = Some (Mat c n X) -> abs h !! y = Some (AVec ys) -> length ys = N -> (N <= n)%nat -> gstate h o k prs mus sgs ->
  abs h !! gn_yh o = Some (SVec (Z.of_nat N), cy) -> length cy = N -> gn_yh o ∉ [x; y; gn_pr o; gn_mu o; gn_sg o] ->
  (forall h', wf h' -> abs h' = <[gn_yh o := AVec (vlist N (fun i => s_of_Z (gn_argmax (chain (upd_row prs mus sgs c (X i)) k k).2)))]> (abs h) -> Q tt h') -> wp (gn_fit o x y) h Q.
Proof.
  intros W Hx Hy LN HN [Ek Hp Hm Hs] Hyh Ly D HQ. rewrite !not_elem_of_cons in D. destruct D as (D1 & D2 & D3 & D4 & D5 & _). unfold gn_fit. wbind. eapply wp_v_size_vec; [exact Hy|]. rewrite LN.
  set (f := fun i => s_of_Z (gn_argmax (chain (upd_row prs mus sgs c (X i)) k k).2)) in *.
  apply wp_for_n with (I := fun i hi => wf hi /\ exists cs, length cs = N /\ (forall j, (j < i)%nat -> cs !! j = Some (Some (f j))) /\ abs hi = <[gn_yh o := (SVec (Z.of_nat N), cs)]> (abs h)).
  - split; [exact W|]. exists cy. split_and!; [exact Ly|intros; lia|symmetry; apply insert_id, Hyh].
  - intros i hi Hi (Wi & cs & Lc & Ec & Ai). wbind. rewrite Ek.
    apply wp_for_acc_n with (I := fun t st hj => hj = hi /\ st = chain (upd_row prs mus sgs c (X i)) k t).
    + split; reflexivity.
    + intros t st hj Ht [-> ->]. cbv zeta. replace (Z.of_nat k - 1 - Z.of_nat t) with (Z.of_nat (k - 1 - t)) by lia. wbind. eapply wp_m_size; [look; exact Hx|]. cbn [fst snd].
      wbind. apply wp_for_acc_n with (I := fun q yv hj => hj = hi /\ yv = upd_row prs mus sgs q (X i) (k - 1 - t) (chain (upd_row prs mus sgs c (X i)) k t).1).
      * split; reflexivity.
      * intros q yv hj Hq [-> ->]. wbind. eapply get_nth; [exact Wi|look; exact Hs|]. wbind. eapply get_nth; [exact Wi|look; exact Hm|]. wbind. eapply wp_m_get_mat; [exact Wi|look; exact Hx|lia|exact Hq|]. wbind. eapply get_nth; [exact Wi|look; exact Hp|].
        apply wp_ret. split; [reflexivity|]. unfold upd_row. rewrite seq_S, foldl_app. reflexivity.
      * intros yv hj [-> ->]. apply wp_ret. split; reflexivity.
    + intros st hj [-> ->]. eapply wp_v_set; [exact Wi|look|]. intros h3 W3 _ A3. replace (Z.of_nat i <? 0) with false in A3 by (clear; lia). rewrite Nat2Z.id, Ai, insert_insert in A3. split; [exact W3|].
      exists (<[i := Some (f i)]> cs). split_and!; [rewrite insert_length; exact Lc| |exact A3]. intros j Hj. destruct (decide (i = j)) as [->|Dj]; [apply list_lookup_insert; lia|]. rewrite list_lookup_insert_ne by exact Dj. apply Ec. lia.
  - intros hi (Wi & cs & Lc & Ec & Ai). apply HQ; [exact Wi|]. rewrite Ai, (cells_done N f cs Lc) by (intros j Hj; apply Ec; exact Hj). rewrite AVec_cells. reflexivity.
Qed.
Definition prior_cell (N : nat) : F := s_mul s_zero (s_div s_one (s_of_Z (Z.of_nat N))).
Lemma wp_gn_new h x y (k n c N : nat) X ys (Q : gnb -> heap F -> Prop) : wf h -> abs h !! x = Some (Mat c n X) -> abs h !! y = Some (AVec ys) -> length ys = N -> (N <= n)%nat -> (Z.of_nat k <= int_max) -> Forall (fun v => m_to_int v <> None) ys ->
  (forall o h', wf h' -> gstate h' o k (replicate k (prior_cell N)) (vlist k (mu_of n c X ys)) (vlist k (sg_of n c X ys)) -> gn_y o = Some y -> gn_x o = Some x -> gn_init o = true ->
    abs h' !! gn_yh o = Some (AVec (vlist N (fun i => s_of_Z (gn_argmax (chain (upd_row (replicate k (prior_cell N)) (vlist k (mu_of n c X ys)) (vlist k (sg_of n c X ys)) c (X i)) k k).2)))) ->
    (forall l, abs h !! l <> None -> abs h' !! l = abs h !! l) -> Q o h') -> wp (gn_new (Some x) (Some y) (Z.of_nat k)) h Q.
Proof.
  intros W Hx Hy LN HN Hk Hl HQ. unfold gn_new.
  wbind. eapply wp_v_new; [exact W|]. intros mu h1 W1 N1 A1 _. wbind. eapply wp_v_new; [exact W1|]. intros sg h2 W2 N2 A2 _. wbind. eapply wp_v_new; [exact W2|]. intros pr h3 W3 N3 A3 _. wbind. eapply wp_v_new; [exact W3|]. intros yh h4 W4 N4 A4 _.
  rewrite A1 in N2, A2. rewrite A2 in N3, A3. rewrite A3 in N4, A4. apply lookup_insert_None in N2 as [N2 M1]. apply lookup_insert_None in N3 as [N3 M2]. apply lookup_insert_None in N3 as [N3 M3].
  apply lookup_insert_None in N4 as [N4 M4]. apply lookup_insert_None in N4 as [N4 M5]. apply lookup_insert_None in N4 as [N4 M6].
  assert (x <> mu /\ x <> sg /\ x <> pr /\ x <> yh) as (X1 & X2 & X3 & X4) by (split_and!; congruence). assert (y <> mu /\ y <> sg /\ y <> pr /\ y <> yh) as (Y1 & Y2 & Y3 & Y4) by (split_and!; congruence).
  assert (HNi : Z.of_nat N <= int_max) by (rewrite <- LN; eapply avec_len; [exact W|exact Hy]).
  wbind. apply wp_deref_Some. wbind. eapply wp_v_size_vec; [look; exact Hy|]. rewrite LN. wbind. eapply wp_v_resize; [exact W4|look|lia|]. intros h5 W5 A5 _. rewrite A4, insert_insert, Nat2Z.id in A5. cbv zeta.
  wbind. unfold gn_evaluate. cbn [gn_x gn_y]. wbind. apply wp_deref_Some. wbind. apply wp_deref_Some.
  wbind. eapply wp_moments with (k := k); [exact W5|look; exact Hx|look; exact Hy|reflexivity|exact Hk|cbn [gn_mu]; look|cbn [gn_sg]; look|cbn; congruence..|]. cbn [gn_mu gn_sg]. intros h6 W6 A6. rewrite A5 in A6.
  wbind. eapply wp_priors with (k := k); [exact W6|look; exact Hy|reflexivity|exact Hk|cbn [gn_pr]; look|cbn; congruence|exact Hl|]. cbn [gn_pr]. intros h7 W7 A7. rewrite A6, LN in A7. fold (prior_cell N) in A7.
  wbind. cbn [gn_k]. replace (Z.of_nat k <? 0) with false by (clear; lia). apply wp_ret.
  eapply wp_fit with (N := N) (k := k) (n := n) (c := c); [exact W7|look; exact Hx|look; exact Hy|exact LN|exact HN| |cbn [gn_yh]; look|cbn [gn_yh]|cbn; rewrite !not_elem_of_cons; split_and!; try congruence; apply not_elem_of_nil|].
  - split; cbn [gn_k gn_pr gn_mu gn_sg]; [reflexivity|look; reflexivity|look; reflexivity|look; reflexivity].
  - apply resize_length.
  - cbn [gn_yh]. intros h8 W8 A8. apply wp_ret. apply HQ; try reflexivity; [exact W8| |rewrite A8; cbn [gn_yh]; apply lookup_insert|].
    + split; cbn [gn_k gn_pr gn_mu gn_sg]; [reflexivity|look; reflexivity|look; reflexivity|look; reflexivity].
    + intros l Hl'. rewrite A8, A7. rewrite !lookup_insert_ne by congruence. reflexivity.
Qed.
Lemma wp_gn_set_test h o k prs mus sgs m (c n : nat) X (Q : option loc -> heap F -> Prop) : wf h -> gstate h o k prs mus sgs -> abs h !! m = Some (Mat c n X) -> (Z.of_nat c <= int_max) -> (Z.of_nat n <= int_max) ->
  (forall yh h', wf h' -> abs h !! yh = None -> abs h' = <[yh := AVec (vlist n (fun i => s_of_Z (gn_argmax (chain (upd_point prs mus sgs (fun t => nth t (vlist c (X i)) s_zero)) k k).2)))]> (abs h) -> Q (Some yh) h') -> wp (gn_model_set_test o (Some m)) h Q.
Proof.
  intros W S Hm Hc Hn HQ. pose proof S as [Ek Hp Hmu Hs]. unfold gn_model_set_test. wbind. apply wp_deref_Some. wbind. eapply wp_v_new; [exact W|]. intros yh h1 W1 N1 A1 _. assert (m <> yh) by congruence. wbind. eapply wp_m_size; [look; exact Hm|]. cbn [fst snd].
  wbind. eapply wp_v_resize; [exact W1|look|lia|]. intros h2 W2 A2 _. rewrite A1, insert_insert, Nat2Z.id in A2. wbind. eapply wp_v_new; [exact W2|]. intros t h3 W3 N3 A3 _. rewrite A2 in A3, N3. apply lookup_insert_None in N3 as [N3 M]. assert (m <> t) by congruence.
  wbind. eapply wp_v_resize; [exact W3|look|lia|]. intros h4 W4 A4 _. rewrite A3, insert_insert in A4.
  set (f := fun i => s_of_Z (gn_argmax (chain (upd_point prs mus sgs (fun t => nth t (vlist c (X i)) s_zero)) k k).2)) in *.
  wbind. apply wp_for_n with (I := fun i hi => wf hi /\ exists cs n0 c0, length cs = n /\ (forall j, (j < i)%nat -> cs !! j = Some (Some (f j))) /\ abs hi = <[t := (SVec n0, c0)]> (<[yh := (SVec (Z.of_nat n), cs)]> (abs h))).
  - split; [exact W4|]. eexists _, _, _. split_and!; [apply resize_length|intros; lia|exact A4].
  - intros i hi Hi (Wi & cs & n0 & c0 & Lc & Ec & Ai). wbind. eapply wp_row_into with (i := i) (X := X) (k := c) (n := n); [exact Wi|look; exact Hm|look|reflexivity|exact Hi|]. intros h5 W5 A5. rewrite Ai, insert_insert in A5.
    assert (D1 : gn_pr o <> t /\ gn_pr o <> yh) by (split; congruence). assert (D2 : gn_mu o <> t /\ gn_mu o <> yh) by (split; congruence). assert (D3 : gn_sg o <> t /\ gn_sg o <> yh) by (split; congruence). destruct D1, D2, D3.
    wbind. unfold wp at 1. rewrite (gn_model_test_eq h5 o k prs mus sgs t (vlist c (X i)) W5); [|split; [exact Ek|look; assumption|look; assumption|look; assumption]|look].
    eapply wp_v_set; [exact W5|look|]. intros h6 W6 _ A6. replace (Z.of_nat i <? 0) with false in A6 by (clear; lia). rewrite Nat2Z.id, A5 in A6. split; [exact W6|]. exists (<[i := Some (f i)]> cs). do 2 eexists. split_and!; [rewrite insert_length; exact Lc| |].
    + intros j Hj. destruct (decide (i = j)) as [->|Dj]; [apply list_lookup_insert; lia|]. rewrite list_lookup_insert_ne by exact Dj. apply Ec. lia.
    + rewrite A6. rewrite (insert_commute _ yh t) by congruence. rewrite insert_insert. reflexivity.
  - intros hi (Wi & cs & n0 & c0 & Lc & Ec & Ai). wbind. eapply wp_del; [exact Wi|look|]. intros h5 W5 A5 _. apply wp_ret. apply HQ; [exact W5|exact N1|]. rewrite A5, Ai, delete_insert by (rewrite lookup_insert_ne by congruence; exact N3). rewrite (cells_done n f cs Lc) by (intros j Hj; apply Ec; exact Hj). rewrite AVec_cells. reflexivity.
Qed.
End gnb.
