(** * k-means++ initialisation leaves the last centroid uninitialised (two clusters). *)
From Verif Require Import Base BaseProofs Vec VecSpec VecProofs VecProofs2 Mat MatSpec MatProofs MatProofs2 MatProofs3 MatProofs4 MatProofs5 Frame StatProofs Act ActProofs ActProofs2 Cost CostProofs Sym Svm LinAlg LinAlgProofs Util UtilProofs Knn KnnProofs Kmeans KmeansProofs.

Section pp.
Context {F : Type} `{Scalar F}.
Implicit Types (h : heap F).

(** Reading a row of a partially initialised matrix. *)
Lemma wp_m_row_get_intoP h l t n cs c r g (y : nat) v (Q : unit -> heap F -> Prop) : wf h -> abs h !! l = Some (MatP c r g) -> abs h !! t = Some (SVec n, cs) ->
  (y < r)%nat -> length v = c -> (forall j, (j < c)%nat -> g y j = Some (nth j v s_zero)) -> Z.of_nat c <= int_max ->
  (forall h', wf h' -> abs h' = <[t := AVec v]> (abs h) -> Q tt h') -> wp (m_row_get_into l (Z.of_nat y) (Some t)) h Q.
Proof.
  intros Hwf Ha Ht Hy Hv Hg Hle HQ. assert (t <> l) as Htl by (intros ->; rewrite Ha in Ht; discriminate).
  unfold m_row_get_into. wbind. eapply wp_m_size; [exact Ha|]. cbv beta iota zeta. replace ((Z.of_nat y <? 0) || (Z.of_nat r <=? Z.of_nat y)) with false by lia.
  wbind. eapply wp_v_size; [exact Ht|]. wbind. eapply wp_v_resize_cond; [exact Hwf|exact Ht|lia|]. intros h2 W2 A2 P2.
  assert (Ha2 : abs h2 !! l = Some (MatP c r g)) by (rewrite A2, !lookup_insert_ne by congruence; exact Ha).
  wbind. eapply wp_data_ptr; [rewrite A2; apply lookup_insert|]. intros po Hpo. wbind. eapply wp_data_ptr; [exact Ha2|]. intros p Hp.
  eapply wp_map_loop with (new := v); [exact W2|exact Hpo|rewrite A2; apply lookup_insert|rewrite resize_length; lia|rewrite resize_length; lia| |].
  - intros i hi x Q' Hi Hm Hx Hs. wbind. destruct Hm as [M1 M2 M3].
    eapply wp_load with (l := l) (v := x); [exact M1|rewrite (ptr_of_obj h2 hi); assumption|rewrite M3, lookup_insert_ne by congruence; exact Ha2|lia| |exact Hs].
    replace (Z.to_nat (Z.of_nat y * Z.of_nat c + i)) with (y * c + Z.to_nat i)%nat by lia. rewrite mlist_lookup by lia. rewrite Hg by lia. rewrite (nth_lookup_Some _ _ _ _ Hx). reflexivity.
  - intros h3 W3 O3 A3. apply HQ; [exact W3|]. rewrite A3, A2, insert_insert. unfold AVec. rewrite Hv. reflexivity.
Qed.
Lemma row_get_into_UB h l t n cs c r g (y : nat) : wf h -> abs h !! l = Some (MatP c r g) -> abs h !! t = Some (SVec n, cs) -> (y < r)%nat -> (0 < c)%nat -> Z.of_nat c <= int_max -> g y 0%nat = None ->
  m_row_get_into l (Z.of_nat y) (Some t) h = UB.
Proof.
  intros Hwf Ha Ht Hy Hc Hle Hg. assert (t <> l) as Htl by (intros ->; rewrite Ha in Ht; discriminate).
  unfold m_row_get_into. apply bind_UB. eapply wp_m_size; [exact Ha|]. cbv beta iota zeta. replace ((Z.of_nat y <? 0) || (Z.of_nat r <=? Z.of_nat y)) with false by lia.
  apply bind_UB. eapply wp_v_size; [exact Ht|]. apply bind_UB. eapply wp_v_resize_cond; [exact Hwf|exact Ht|lia|]. intros h2 W2 A2 P2.
  assert (Ha2 : abs h2 !! l = Some (MatP c r g)) by (rewrite A2, !lookup_insert_ne by congruence; exact Ha).
  apply bind_UB. eapply wp_data_ptr; [rewrite A2; apply lookup_insert|]. intros po Hpo. apply bind_UB. eapply wp_data_ptr; [exact Ha2|]. intros p Hp.
  apply for_UB with (I := fun _ hi => hi = h2) (i0 := 0%nat); [exact Hc|reflexivity|intros; lia|]. intros hi ->. apply bind_UB_first. rewrite Z.add_0_r.
  apply abs_lookup_Some in Ha2 as (o & Ho & _ & Hcs). unfold ptr_of in Hp. rewrite Ho in Hp. injection Hp as <-. unfold load. destruct (o_data o) as [bk|]; [|reflexivity]. destruct (h_blk h2 !! bk) as [cs'|]; [|reflexivity]. cbn in Hcs. subst cs'. replace (Z.of_nat y * Z.of_nat c <? 0) with false by lia.
  replace (Z.to_nat (Z.of_nat y * Z.of_nat c)) with (y * c + 0)%nat by lia. rewrite mlist_lookup by lia. rewrite Hg. reflexivity.
Qed.

(** The object: data of dimension d >= 1 with at least one row, two clusters, k-means++, fresh matrices. *)
Theorem C56_kmeanspp_two_clusters_refuted h o d pts pick n ui x mc : wf h -> km_x o = Some x -> abs h !! x = Some (Rows d pts) -> width d pts -> abs h !! km_mu o = Some (SMat 0 0, mc) -> (exists rx ry rc, abs h !! km_r o = Some (SMat rx ry, rc)) ->
  x <> km_mu o -> x <> km_r o -> km_mu o <> km_r o -> km_init o = false -> km_type o = KMeansPP -> km_k o = 2 -> (0 < d)%nat -> (0 < length pts)%nat -> Z.of_nat (d * 2) <= int_max -> Z.of_nat (2 * length pts) <= int_max ->
  0 <= pick 0 < Z.of_nat (length pts) -> km_train pick n ui o h = UB.
Proof.
  intros W Ex Hx Wp Hm (rx & ry & rc & Hr) D1 D2 D3 Ei Et Ek Hd Hn Hd2 Hn2 Hp. unfold km_train. rewrite Ex, Ei. unfold km_initialize. rewrite Ex, Et.
  destruct o as [rx0 mu r k ini ty]. cbn [km_x km_mu km_r km_k km_init km_type] in *. subst rx0 ini ty k.
  assert (mc = []) as ->. { destruct (mat_len h mu 0 0 mc W Hm) as [L _]. destruct mc; [reflexivity|cbn in L; slia]. }
  destruct (lookup_lt_is_Some_2 pts (Z.to_nat (pick 0)) ltac:(slia)) as [xp Hxp]. assert (Lx : length xp = d) by (exact (proj1 (list.Forall_forall _ _) Wp xp (elem_of_list_lookup_2 _ _ _ Hxp))).
  set (g := fun i j => if decide (i = 0%nat) then Some (nth j xp s_zero) else None : option F).
  apply bind_UB. wbind. unfold km_pp_init. cbn [km_x km_mu km_k]. wbind. apply wp_deref_Some. wbind. eapply wp_m_size; [exact Hx|]. cbn [fst snd]. wbind. eapply wp_m_resize_if; [exact W|exact Hm|slia|]. intros h1 W1 A1 _.
  assert (E0 : (SMat (Z.of_nat d) 2, list.resize (Z.to_nat (Z.of_nat d * 2)) None []) = (MatP d 2 (fun _ _ => None) : aobj F)). { unfold MatP. f_equal. rewrite resize_nil, MatProofs.mlist_const. f_equal. slia. }
  rewrite E0 in A1. wbind. eapply wp_m_size; [rewrite A1; apply lookup_insert|]. cbn [fst snd].
  wbind. eapply wp_v_tmp; [exact W1|slia|]. intros t t0 h2 W2 N2 A2. rewrite A1 in N2, A2. split_none N2. assert (x <> t) by congruence. assert (r <> t) by congruence.
  wbind. eapply wp_m_row_get_into with (row := xp); [exact W2|look|exact Wp|look|slia|exact Hxp|slia|]. intros h3 W3 A3 _. rewrite A2, insert_insert in A3.
  wbind. eapply wp_m_row_set_vecP with (c := d) (r := 2%nat) (v := xp); [exact W3|look|look|]. intros h4 W4 _ A4. rewrite decide_True in A4 by slia. rewrite A3, (insert_commute _ mu t), insert_insert in A4 by congruence. change (Z.to_nat 0) with 0%nat in A4. fold g in A4.
  wbind. eapply wp_v_tmp; [exact W4|slia|]. intros xj xj0 h5 W5 N5 A5. rewrite A4 in N5, A5. split_none N5. assert (x <> xj) by congruence. assert (r <> xj) by congruence.
  wbind. eapply wp_v_tmp; [exact W5|slia|]. intros fa fa0 h6 W6 N6 A6. rewrite A5 in N6, A6. split_none N6. assert (x <> fa) by congruence. assert (r <> fa) by congruence.
  wbind. change (2 - 1) with 1. apply wp_ret. wbind. dele h7 W7 A7. wbind. dele h8 W8 A8. dele h9 W9 A9. apply wp_ret.
  apply bind_UB_first. unfold km_evaluate. cbn [km_x km_mu km_r km_k km_init negb].
  apply bind_UB. apply wp_deref_Some. apply bind_UB. eapply wp_m_size; [look|]. cbn [fst snd]. apply bind_UB. eapply wp_m_resize_if; [exact W9|look|slia|]. intros g1 V1 B1 _. rewrite A9, (insert_commute _ r mu) in B1 by congruence.
  apply bind_UB. eapply wp_m_size; [look|]. cbn [fst snd]. apply bind_UB. eapply wp_m_size; [look|]. cbn [fst snd].
  apply bind_UB. eapply wp_v_tmp; [exact V1|slia|]. intros cc cc0 g2 V2 M2 B2. rewrite B1 in M2, B2. split_none M2. assert (x <> cc) by congruence.
  apply bind_UB. eapply wp_v_tmp; [exact V2|slia|]. intros xi xi0 g3 V3 M3 B3. rewrite B2 in M3, B3. split_none M3. assert (x <> xi) by congruence.
  apply bind_UB. eapply wp_v_tmp; [exact V3|slia|]. intros mj mj0 g4 V4 M4 B4. rewrite B3 in M4, B4. split_none M4. assert (x <> mj) by congruence.
  apply bind_UB. change 2 with (Z.of_nat 2) in B4. eapply wp_m_fill_mat; [exact V4|look|]. intros g5 V5 _ B5. rewrite B4 in B5.
  apply bind_UB_first. destruct (lookup_lt_is_Some_2 pts 0 Hn) as [x0 Hx0].
  apply for_acc_UB with (I := fun _ _ hi => hi = g5) (i0 := 0%nat); [exact Hn|reflexivity|intros; slia|]. intros idx hi ->.
  assert (Hg0 : forall j, (j < d)%nat -> g 0%nat j = Some (nth j xp s_zero)) by (intros j _; unfold g; rewrite decide_True by reflexivity; reflexivity).
  assert (HM5 : abs g5 !! mu = Some (MatP d 2 g)) by (rewrite B5; rewrite !lookup_insert_ne by congruence; apply lookup_insert).
  apply bind_UB. eapply (wp_m_row_get_intoP g5 mu cc) with (y := 0%nat) (v := xp); [exact V5|exact HM5|look|slia|exact Lx|exact Hg0|slia|]. intros g6 V6 B6.
  apply bind_UB. eapply wp_m_row_get_into with (row := x0); [exact V6|rewrite B6, B5; rewrite !lookup_insert_ne by congruence; exact Hx|exact Wp|rewrite B6, B5; look|slia|exact Hx0|slia|]. intros g7 V7 B7 _.
  apply bind_UB. eapply wp_v_dist; [exact V7|rewrite B7; apply lookup_insert|rewrite B7, B6, lookup_insert_ne by congruence; apply lookup_insert|].
  apply bind_UB_first. change 2 with (Z.of_nat 2). 
  apply for_acc_UB with (I := fun _ _ hi => wf hi /\ abs hi !! mu = Some (MatP d 2 g) /\ abs hi !! xi = Some (AVec x0) /\ abs hi !! cc = Some (AVec xp) /\ exists n1 c1, abs hi !! mj = Some (SVec n1, c1)) (i0 := 1%nat); [slia| | |].
  - split_and!; [exact V7|rewrite B7, B6, !lookup_insert_ne by congruence; exact HM5|rewrite B7; apply lookup_insert|rewrite B7, B6, lookup_insert_ne by congruence; apply lookup_insert|]. do 2 eexists. rewrite B7, B6, B5, !lookup_insert_ne by congruence. apply lookup_insert.
  - intros i st hi Hi (Wi & I1 & I2 & I3 & n1 & c1 & I4). replace i with 0%nat by slia. wbind. eapply (wp_m_row_get_intoP hi mu mj) with (y := 0%nat) (v := xp); [exact Wi|exact I1|exact I4|slia|exact Lx|exact Hg0|slia|]. intros g8 V8 B8.
    wbind. eapply wp_v_dist; [exact V8|rewrite B8, lookup_insert_ne by congruence; exact I2|rewrite B8; apply lookup_insert|]. destruct (s_lt _ _).
    + wbind. eapply (wp_m_row_get_intoP g8 mu cc) with (y := 0%nat) (v := xp); [exact V8|rewrite B8, lookup_insert_ne by congruence; exact I1|rewrite B8, lookup_insert_ne by congruence; exact I3|slia|exact Lx|exact Hg0|slia|]. intros g9 V9 B9.
      wbind. eapply wp_v_dist; [exact V9|rewrite B9, B8, !lookup_insert_ne by congruence; exact I2|rewrite B9; apply lookup_insert|]. apply wp_ret. split_and!; [exact V9|rewrite B9, B8, !lookup_insert_ne by congruence; exact I1|rewrite B9, B8, !lookup_insert_ne by congruence; exact I2|rewrite B9; apply lookup_insert|]. do 2 eexists. rewrite B9, B8, lookup_insert_ne by congruence. apply lookup_insert.
    + apply wp_ret. split_and!; [exact V8|rewrite B8, !lookup_insert_ne by congruence; exact I1|rewrite B8, !lookup_insert_ne by congruence; exact I2|rewrite B8, !lookup_insert_ne by congruence; exact I3|]. do 2 eexists. rewrite B8. apply lookup_insert.
  - intros st hi (Wi & I1 & I2 & I3 & n1 & c1 & I4). apply bind_UB_first. eapply row_get_into_UB with (y := 1%nat); [exact Wi|exact I1|exact I4|slia|exact Hd|slia|]. unfold g. rewrite decide_False by slia. reflexivity.
Qed.
End pp.
