(** * What MLPPKMeans computes, for any arithmetic. *)
From Verif Require Import Base BaseProofs Vec VecSpec VecProofs VecProofs2 Mat MatSpec MatProofs MatProofs2 MatProofs3 MatProofs4 MatProofs5 Frame StatProofs Act ActProofs ActProofs2 Cost CostProofs Sym Svm LinAlg LinAlgProofs Util UtilProofs Knn KnnProofs Kmeans.

Section km.
Context {F : Type} `{Scalar F}.
Implicit Types (h : heap F) (pts mus : list (list F)) (b : gmap loc (aobj F)).

(** ** Pure description *)
Definition near_step x mus (st : F * nat) (j : nat) : F * nat :=
  if s_lt (vdist x (nth j mus [])) (fst st) then (vdist x (nth j mus []), j) else st.
(** The index after a point: [idx] is the index left by the previous point. *)
Definition assign1 x mus (idx : nat) : nat := snd (foldl (near_step x mus) (vdist x (nth 0 mus []), idx) (seq 0 (length mus))).
Fixpoint assigns pts mus (idx : nat) : list nat :=
  match pts with [] => [] | x :: pts => let i := assign1 x mus idx in i :: assigns pts mus i end.
Definition assignment pts mus : list nat := assigns pts mus 0.
Definition ind (a : list nat) (i j : nat) : F := if decide (nth i a 0%nat = j) then s_one else s_zero.

Lemma assigns_length pts mus : forall idx, length (assigns pts mus idx) = length pts.
Proof. induction pts as [|x pts IH]; intros idx; cbn; [reflexivity|]. rewrite IH. reflexivity. Qed.
Lemma assigns_snoc pts x mus : forall idx, assigns (pts ++ [x]) mus idx = assigns pts mus idx ++ [assign1 x mus (List.last (assigns pts mus idx) idx)].
Proof.
  induction pts as [|y pts IH]; intros idx; [reflexivity|]. cbn [app assigns]. rewrite IH. do 3 f_equal.
  destruct (assigns pts mus (assign1 y mus idx)) eqn:E; [reflexivity|]. cbn [List.last]. generalize (assign1 y mus idx). clear. intros m. revert n. induction l as [|a l IH]; intros n; [reflexivity|]. cbn [List.last]. destruct l; [reflexivity|apply (IH n)].
Qed.
Lemma near_lt x mus st k : (snd st < length mus)%nat -> (k <= length mus)%nat -> (snd (foldl (near_step x mus) st (seq 0 k)) < length mus)%nat.
Proof.
  intros Hs. induction k as [|k IH]; intros Hk; [exact Hs|]. rewrite seq_S, foldl_app. cbn [foldl]. unfold near_step at 1. specialize (IH ltac:(lia)). destruct (s_lt _ _); [cbn; lia|exact IH].
Qed.
Lemma assign1_lt x mus idx : (idx < length mus)%nat -> (assign1 x mus idx < length mus)%nat.
Proof. intros Hi. apply near_lt; [exact Hi|lia]. Qed.
Lemma assigns_lt pts mus : forall idx, (idx < length mus)%nat -> Forall (fun i => (i < length mus)%nat) (assigns pts mus idx).
Proof. induction pts as [|x pts IH]; intros idx Hi; cbn; [constructor|]. pose proof (assign1_lt x mus idx Hi). constructor; auto. Qed.

(** ** Temporaries *)
Lemma wp_v_tmp h n (Q : loc -> heap F -> Prop) : wf h -> 0 <= n <= int_max ->
  (forall t c0 h', wf h' -> abs h !! t = None -> abs h' = <[t := (SVec n, c0)]> (abs h) -> Q t h') -> wp (v_tmp n) h Q.
Proof.
  intros W Hn HQ. unfold v_tmp. wbind. eapply wp_v_new; [exact W|]. intros t h1 W1 N1 A1 _. wbind. eapply wp_v_resize; [exact W1|rewrite A1; apply lookup_insert|exact Hn|]. intros h2 W2 A2 _. apply wp_ret. rewrite A1, insert_insert in A2. eapply HQ; [exact W2|exact N1|exact A2].
Qed.

(** ** _evaluate *)
Lemma wp_near_loop b h mu cc xi mj d mus x nc c0 nm cm (idx : nat) d0 (Q : F * Z -> heap F -> Prop) : wf h ->
  abs h = <[mj := (SVec nm, cm)]> (<[xi := AVec x]> (<[cc := (SVec nc, c0)]> b)) ->
  mu <> cc -> mu <> xi -> mu <> mj -> cc <> xi -> cc <> mj -> xi <> mj ->
  b !! mu = Some (Rows d mus) -> width d mus -> Z.of_nat d <= int_max ->
  (forall h' nc c0 nm cm, wf h' -> abs h' = <[mj := (SVec nm, cm)]> (<[xi := AVec x]> (<[cc := (SVec nc, c0)]> b)) ->
     Q (prod_map id Z.of_nat (foldl (near_step x mus) (d0, idx) (seq 0 (length mus)))) h') ->
  wp (for_acc 0 (Z.of_nat (length mus)) (d0, Z.of_nat idx) (fun j st =>
      m_row_get_into mu j (Some mj) ;;;
      let! d := v_dist xi (Some mj) in
      if s_lt d (fst st) then
        m_row_get_into mu j (Some cc) ;;;
        let! d' := v_dist xi (Some cc) in
        ret (d', j)
      else ret st)) h Q.
Proof.
  intros W A D1 D2 D3 D4 D5 D6 Hmu Hwd Hd HQ.
  apply wp_for_acc_n with (I := fun j st hi => wf hi /\ (exists nc c0 nm cm, abs hi = <[mj := (SVec nm, cm)]> (<[xi := AVec x]> (<[cc := (SVec nc, c0)]> b))) /\
    st = prod_map id Z.of_nat (foldl (near_step x mus) (d0, idx) (seq 0 j))).
  - split_and!; [exact W|do 4 eexists; exact A|reflexivity].
  - intros j st hi Hj (Wi & (nc' & c0' & nm' & cm' & Ai) & ->). destruct (lookup_lt_is_Some_2 mus j Hj) as [m Hm].
    wbind. eapply wp_m_row_get_into with (row := m); [exact Wi|look|exact Hwd|look|slia|rewrite Nat2Z.id; exact Hm|exact Hd|]. intros h1 W1 A1 _. rewrite Ai, insert_insert in A1.
    wbind. eapply wp_v_dist; [exact W1|look|look|]. fold (vdist x m). rewrite seq_S, foldl_app. cbn [foldl]. rewrite Nat.add_0_l. set (st := foldl (near_step x mus) (d0, idx) (seq 0 j)). unfold near_step. rewrite (nth_lookup_Some _ _ _ _ Hm).
    change (fst (prod_map id Z.of_nat st)) with (fst st). destruct (s_lt (vdist x m) (fst st)).
    + wbind. eapply wp_m_row_get_into with (row := m); [exact W1|look|exact Hwd|look|slia|rewrite Nat2Z.id; exact Hm|exact Hd|]. intros h2 W2 A2 _.
      assert (A2' : abs h2 = <[mj := AVec m]> (<[xi := AVec x]> (<[cc := AVec m]> b))).
      { rewrite A2, A1, (insert_commute _ cc mj), (insert_commute _ cc xi), insert_insert by congruence. reflexivity. }
      wbind. eapply wp_v_dist; [exact W2|look|look|]. apply wp_ret. split_and!; [exact W2|do 4 eexists; exact A2'|reflexivity].
    + apply wp_ret. split_and!; [exact W1|do 4 eexists; exact A1|reflexivity].
  - intros st hi (Wi & (nc' & c0' & nm' & cm' & Ai) & ->). eapply HQ; [exact Wi|exact Ai].
Qed.

(** The object [o] with its data [pts], centroids [mus] and assignment matrix [ra], the rest of the heap being [b]. *)
Record kmS b (o : kmeans) (d : nat) pts mus (ra : aobj F) h : Prop := {
  ks_wf : wf h;
  ks_abs : abs h = <[km_mu o := Rows d mus]> (<[km_r o := ra]> b);
  ks_x : exists x, km_x o = Some x /\ b !! x = Some (Rows d pts) /\ x <> km_mu o /\ x <> km_r o;
  ks_ne : km_mu o <> km_r o;
  ks_wp : width d pts;
  ks_wm : width d mus;
  ks_mus : (0 < length mus)%nat;
  ks_d : Z.of_nat d <= int_max }.
Definition r_part (a : list nat) (i : nat) (i' j : nat) : F := if decide (i' < i)%nat then ind a i' j else s_zero.

Lemma last_nth (l : list nat) (y z : nat) : List.last (l ++ [y]) z = y.
Proof. apply List.last_last. Qed.
Lemma wp_km_evaluate b o d pts mus x0 y0 cs h (Q : unit -> heap F -> Prop) : kmS b o d pts mus (SMat x0 y0, cs) h -> km_init o = true -> km_k o = Z.of_nat (length mus) ->
  Z.of_nat (length mus * length pts) <= int_max ->
  (forall h', kmS b o d pts mus (Mat (length mus) (length pts) (ind (assignment pts mus))) h' -> Q tt h') -> wp (km_evaluate o) h Q.
Proof.
  intros [W A (x & Ex & Hx & Dxm & Dxr) Dmr Wp Wm Hm Hd] Ei Ek Hkn HQ. unfold km_evaluate. rewrite Ei. cbn [negb]. rewrite Ex. wbind. apply wp_deref_Some. wbind. eapply wp_m_size; [look|]. cbn [fst snd].
  destruct o as [rx mu r k ini ty]. cbn [km_x km_mu km_r km_k km_init km_type] in *. subst rx ini k.
  wbind. eapply wp_m_resize_if; [exact W|look|slia|]. intros h1 W1 A1 _. rewrite A, insert_commute, insert_insert in A1 by congruence.
  wbind. eapply wp_m_size; [look|]. cbn [fst snd]. wbind. eapply wp_m_size; [look|]. cbn [fst snd].
  wbind. eapply wp_v_tmp; [exact W1|slia|]. intros cc cc0 h2 W2 N2 A2. rewrite A1 in N2, A2. split_none N2.
  wbind. eapply wp_v_tmp; [exact W2|slia|]. intros xi xi0 h3 W3 N3 A3. rewrite A2 in N3, A3. split_none N3.
  wbind. eapply wp_v_tmp; [exact W3|slia|]. intros mj mj0 h4 W4 N4 A4. rewrite A3 in N4, A4. split_none N4.
  assert (x <> cc) by congruence. assert (x <> xi) by congruence. assert (x <> mj) by congruence.
  wbind. eapply wp_m_fill_mat; [exact W4|look|]. intros h5 W5 _ A5. rewrite A4 in A5.
  assert (A5' : abs h5 = <[mj := (SVec (Z.of_nat d), mj0)]> (<[xi := (SVec (Z.of_nat d), xi0)]> (<[cc := (SVec (Z.of_nat d), cc0)]> (<[mu := Rows d mus]> (<[r := Mat (length mus) (length pts) (r_part (assigns (take 0 pts) mus 0) 0)]> b))))).
  { rewrite A5. rewrite !(insert_commute _ r) by congruence. rewrite insert_insert. reflexivity. }
  clear A5 A4 A3 A2 A1. wbind.
  apply wp_for_acc_n with (I := fun i idx hi => wf hi /\ idx = Z.of_nat (List.last (assigns (take i pts) mus 0) 0%nat) /\
    exists n1 c1 n2 c2 n3 c3, abs hi = <[mj := (SVec n1, c1)]> (<[xi := (SVec n2, c2)]> (<[cc := (SVec n3, c3)]> (<[mu := Rows d mus]> (<[r := Mat (length mus) (length pts) (r_part (assigns (take i pts) mus 0) i)]> b))))).
  - split_and!; [exact W5|reflexivity|do 6 eexists; exact A5'].
  - intros i idx hi Hi (Wi & -> & n1 & c1 & n2 & c2 & n3 & c3 & Ai). destruct (lookup_lt_is_Some_2 pts i Hi) as [xp Hxp]. destruct mus as [|m0 mus0] eqn:Emus; [cbn in Hm; lia|]. rewrite <- Emus in *.
    wbind. eapply wp_m_row_get_into with (row := m0); [exact Wi|look|exact Wm|look|slia|rewrite Emus; reflexivity|exact Hd|]. intros g1 V1 B1 _. rewrite Ai in B1. rewrite (insert_commute _ cc mj), (insert_commute _ cc xi), insert_insert in B1 by congruence.
    wbind. eapply wp_m_row_get_into with (row := xp); [exact V1|look|exact Wp|look|slia|rewrite Nat2Z.id; exact Hxp|exact Hd|]. intros g2 V2 B2 _. rewrite B1, (insert_commute _ xi mj), insert_insert in B2 by congruence.
    wbind. eapply wp_v_dist; [exact V2|look|look|]. fold (vdist xp m0).
    wbind. eapply wp_near_loop with (mus := mus) (d := d); [exact V2|exact B2|congruence|congruence|congruence|congruence|congruence|congruence|look|exact Wm|exact Hd|].
    intros g3 n4 c4 n5 c5 V3 B3. assert (En : vdist xp m0 = vdist xp (nth 0 mus [])) by (rewrite Emus; reflexivity). rewrite En.
    change (snd (prod_map id Z.of_nat ?p)) with (Z.of_nat (snd p)). set (prev := List.last (assigns (take i pts) mus 0) 0%nat).
    change (snd (foldl (near_step xp mus) (vdist xp (nth 0 mus []), prev) (seq 0 (length mus)))) with (assign1 xp mus prev).
    assert (Lp : (prev < length mus)%nat). { unfold prev. pose proof (assigns_lt (take i pts) mus 0 Hm) as L. destruct (assigns (take i pts) mus 0) eqn:E0; [exact Hm|]. rewrite <- E0 in *. assert (List.last (assigns (take i pts) mus 0) 0%nat ∈ assigns (take i pts) mus 0) as Hin by (rewrite E0; apply elem_of_list_In; destruct (exists_last (l := n :: l) ltac:(discriminate)) as (l' & a & ->); rewrite last_last; apply in_or_app; right; left; reflexivity). rewrite list.Forall_forall in L. auto. }
    pose proof (assign1_lt xp mus prev Lp) as La. assert (Es : assigns (take (S i) pts) mus 0 = assigns (take i pts) mus 0 ++ [assign1 xp mus prev]) by (rewrite (take_S_r _ _ _ Hxp), assigns_snoc; reflexivity).
    wbind. eapply wp_m_set; [exact V3|look; rewrite lookup_insert, Mat_MatP; reflexivity|]. intros g4 V4 _ B4. rewrite decide_True in B4 by slia. rewrite !Nat2Z.id in B4. apply wp_ret.
    split; [exact V4|]. split; [rewrite Es, last_nth; reflexivity|]. rewrite B3 in B4. rewrite (insert_commute _ r mj), (insert_commute _ r xi), (insert_commute _ r cc), (insert_commute _ r mu), insert_insert in B4 by congruence.
    do 6 eexists. rewrite B4. do 5 f_equal. rewrite Mat_MatP. apply MatP_ext. intros i' j Hi' Hj. unfold MatProofs.upd, r_part, ind. rewrite Es.
    pose proof (assigns_length (take i pts) mus 0) as Ll. rewrite take_length in Ll. destruct (decide (i' = i)) as [->|Hne].
    + rewrite (decide_True (P := (i < S i)%nat)) by slia. rewrite (decide_False (P := (i < i)%nat)) by slia. rewrite app_nth2 by slia. replace (i - length (assigns (take i pts) mus 0))%nat with 0%nat by slia. cbn [nth].
      clear. destruct (decide (assign1 xp mus prev = j)) as [<-|Hj]; [rewrite decide_True by auto; reflexivity|rewrite decide_False by (intros [_ E]; congruence); reflexivity].
    + rewrite (decide_False (P := i' = i /\ _)) by tauto. destruct (decide (i' < i)%nat) as [L|L].
      * rewrite (decide_True (P := (i' < S i)%nat)) by (clear - L; lia). rewrite app_nth1 by (rewrite Ll; clear - L Hi; lia). reflexivity.
      * rewrite (decide_False (P := (i' < S i)%nat)) by (clear - L Hne; lia). reflexivity.
  - intros idx hi (Wi & _ & n1 & c1 & n2 & c2 & n3 & c3 & Ai). rewrite take_ge in Ai by slia.
    wbind. dele h6 W6 A6. wbind. dele h7 W7 A7. dele h8 W8 A8. apply HQ. split; cbn [km_x km_mu km_r]; try assumption.
    + rewrite A8. do 2 f_equal. apply Mat_ext. intros i j Hi _. unfold r_part. rewrite decide_True by exact Hi. reflexivity.
    + exists x. auto.
Qed.

(** ** _compute_mu *)
Definition cnum (w : nat) pts (a : list nat) (i n : nat) : list F :=
  foldl (fun acc j => zip_with s_add acc ((fun x => s_mul x (ind a j i)) <$> nth j pts [])) (replicate w s_zero) (seq 0 n).
Definition cden (a : list nat) (i n : nat) : F := lsum n (fun j => ind a j i).
Definition centroid (w : nat) pts (a : list nat) (i : nat) : list F := (fun x => s_mul x (s_div s_one (cden a i (length pts)))) <$> cnum w pts a i (length pts).
(** The centroids after _compute_mu. *)
Definition moved (d : nat) pts mus (a : list nat) : list (list F) :=
  if decide (length mus = d) then vlist (length mus) (centroid d pts a) else mus.

Lemma cnum_length w pts a i n : width w pts -> (n <= length pts)%nat -> length (cnum w pts a i n) = w.
Proof.
  intros Hw. induction n as [|n IH]; intros Hn; [apply replicate_length|]. unfold cnum. rewrite seq_S, foldl_app. cbn [foldl]. fold (cnum w pts a i n). rewrite zip_with_length, fmap_length, IH by lia. rewrite Nat.add_0_l.
  rewrite (proj1 (list.Forall_forall _ _) Hw (nth n pts [])); [lia|]. apply elem_of_list_In, nth_In. lia.
Qed.
Lemma centroid_length w pts a i : width w pts -> length (centroid w pts a i) = w.
Proof. intros Hw. unfold centroid. rewrite fmap_length, cnum_length by (exact Hw || lia). reflexivity. Qed.
Lemma moved_length d pts mus a : length (moved d pts mus a) = length mus.
Proof. unfold moved. case_decide; [apply vlist_length|reflexivity]. Qed.
Lemma moved_width d pts mus a : width d pts -> width d mus -> width d (moved d pts mus a).
Proof.
  intros Hp Hm. unfold moved. case_decide as E; [|exact Hm]. unfold width. rewrite list.Forall_forall. intros row Hr. unfold vlist in Hr. rewrite elem_of_list_fmap in Hr. destruct Hr as (i & -> & _). apply centroid_length. exact Hp.
Qed.

Lemma wp_row_set_any h l (q : loc) c rows y (v : list F) (Q : unit -> heap F -> Prop) : wf h -> abs h !! l = Some (Rows c rows) -> width c rows ->
  abs h !! q = Some (AVec v) -> 0 <= y < Z.of_nat (length rows) ->
  (forall h', wf h' -> abs h' = <[l := Rows c (if decide (length v = c) then <[Z.to_nat y := v]> rows else rows)]> (abs h) -> Q tt h') ->
  wp (m_row_set_vec l y (Some q)) h Q.
Proof.
  intros Hwf Ha Hw Hb Hy HQ. case_decide as E.
  - eapply wp_m_row_set_vec; [exact Hwf|exact Ha|exact Hw|exact Hb|exact E|exact Hy|]. intros h' W' _ A'. apply HQ; auto.
  - unfold m_row_set_vec. wbind. eapply wp_v_size_vec; [exact Hb|]. wbind. eapply wp_m_size; [exact Ha|]. cbv beta iota zeta.
    replace (Z.of_nat (length v) =? Z.of_nat c) with false by lia. cbn [negb]. apply wp_ret. apply HQ; [exact Hwf|]. rewrite insert_id; auto.
Qed.

Lemma wp_km_compute_mu b o d pts mus a h (Q : unit -> heap F -> Prop) : kmS b o d pts mus (Mat (length mus) (length pts) (ind a)) h ->
  Z.of_nat (length mus) <= int_max ->
  (forall h', kmS b o d pts (moved d pts mus a) (Mat (length mus) (length pts) (ind a)) h' -> Q tt h') -> wp (km_compute_mu o) h Q.
Proof.
  intros [W A (x & Ex & Hx & Dxm & Dxr) Dmr Wp Wm Hm Hd] Hk HQ. unfold km_compute_mu. wbind. eapply wp_m_size; [look|]. cbn [fst snd]. wbind. eapply wp_m_size; [look|]. cbn [fst snd].
  destruct o as [rx mu r k ini ty]. cbn [km_x km_mu km_r km_k km_init km_type] in *. subst rx.
  wbind. eapply wp_v_tmp; [exact W|slia|]. intros nu nu0 h2 W2 N2 A2. rewrite A in N2, A2. split_none N2.
  wbind. apply wp_deref_Some. wbind. eapply wp_m_size; [look|]. cbn [fst snd].
  wbind. eapply wp_v_tmp; [exact W2|slia|]. intros xj xj0 h3 W3 N3 A3. rewrite A2 in N3, A3. split_none N3.
  wbind. eapply wp_v_tmp; [exact W3|slia|]. intros mt mt0 h4 W4 N4 A4. rewrite A3 in N4, A4. split_none N4.
  wbind. eapply wp_v_tmp; [exact W4|slia|]. intros mv mv0 h5 W5 N5 A5. rewrite A4 in N5, A5. split_none N5.
  assert (x <> nu) by congruence. assert (x <> xj) by congruence. assert (x <> mt) by congruence. assert (x <> mv) by congruence.
  set (new := moved d pts mus a). pose proof (moved_length d pts mus a) as Ln. fold new in Ln. pose proof (moved_width d pts mus a Wp Wm) as Wn. fold new in Wn.
  assert (Wi : forall i, width d (take i new ++ drop i mus)). { intros i. apply Forall_app; split; [apply Forall_take|apply Forall_drop]; assumption. }
  assert (Li : forall i, (i <= length mus)%nat -> length (take i new ++ drop i mus) = length mus). { intros i Hi. rewrite app_length, take_length, drop_length. clear - Hi Ln; lia. }
  wbind. apply wp_for_n with (I := fun i hi => wf hi /\ exists n1 c1 n2 c2 n3 c3 c4, abs hi = <[mv := (SVec n1, c1)]> (<[mt := (SVec n2, c2)]> (<[xj := (SVec n3, c3)]> (<[nu := (SVec (Z.of_nat (length mus)), c4)]> (<[mu := Rows d (take i new ++ drop i mus)]> (<[r := Mat (length mus) (length pts) (ind a)]> b)))))).
  - split; [exact W5|do 7 eexists; exact A5].
  - intros i hi Hi (Wh & n1 & c1 & n2 & c2 & n3 & c3 & c4 & Ai).
    wbind. eapply wp_v_fill; [exact Wh|look|]. intros g1 V1 _ B1. rewrite Nat2Z.id in B1. rewrite Ai in B1. rewrite !(insert_commute _ nu) in B1 by congruence. rewrite insert_insert in B1.
    wbind. apply wp_for_acc_n with (I := fun j den hi => wf hi /\ den = cden a i j /\ exists n1 c1 n2 c2 n3 c3, abs hi = <[mv := (SVec n1, c1)]> (<[mt := (SVec n2, c2)]> (<[xj := (SVec n3, c3)]> (<[nu := AVec (if decide (length mus = d) then cnum d pts a i j else replicate (length mus) s_zero)]> (<[mu := Rows d (take i new ++ drop i mus)]> (<[r := Mat (length mus) (length pts) (ind a)]> b)))))).
    + split_and!; [exact V1|reflexivity|]. do 6 eexists. rewrite B1. rewrite !(insert_commute _ nu) by congruence. case_decide as E; [|reflexivity]. rewrite <- E at 3. reflexivity.
    + intros j den hj Hj (Wj & -> & n1' & c1' & n2' & c2' & n3' & c3' & Aj). destruct (lookup_lt_is_Some_2 pts j Hj) as [xp Hxp].
      wbind. eapply wp_m_row_get_into with (row := xp); [exact Wj|look|exact Wp|look|slia|rewrite Nat2Z.id; exact Hxp|exact Hd|]. intros g2 V2 B2 _. rewrite Aj in B2. rewrite !(insert_commute _ xj) in B2 by congruence. rewrite insert_insert in B2.
      wbind. eapply wp_m_get; [exact V2|look|]. rewrite decide_True by slia. rewrite !Nat2Z.id. wbind. eapply wp_m_get; [exact V2|look|]. rewrite decide_True by slia. rewrite !Nat2Z.id.
      wbind. unfold v_scalar_multiplyb. wbind. apply wp_deref_Some. eapply wp_v_mapb_cond with (xs := xp); [exact V2|look|look|]. intros g3 V3 B3. rewrite B2 in B3. rewrite !(insert_commute _ mt) in B3 by congruence. rewrite insert_insert in B3.
      wbind. eapply wp_v_op2; [exact V3|look|look|]. intros g4 V4 B4. apply wp_ret. split; [exact V4|]. split; [unfold cden, lsum; rewrite seq_S, foldl_app; reflexivity|].
      assert (Lx : length xp = d) by (exact (proj1 (list.Forall_forall _ _) Wp xp (elem_of_list_lookup_2 _ _ _ Hxp))).
      rewrite fmap_length, Lx in B4. destruct (decide (length mus = d)) as [E|E].
      * rewrite decide_True in B4 by (apply cnum_length; [exact Wp|slia]). do 6 eexists. rewrite B4, B3. rewrite !(insert_commute _ nu) by congruence. rewrite insert_insert. unfold cnum. rewrite seq_S, foldl_app. cbn [foldl]. rewrite Nat.add_0_l, (nth_lookup_Some _ _ _ _ Hxp). reflexivity.
      * rewrite decide_False in B4 by (rewrite replicate_length; exact E). do 6 eexists. rewrite B4, B3. rewrite !(insert_commute _ mt) by congruence. reflexivity.
    + intros den hj (Wj & -> & n1' & c1' & n2' & c2' & n3' & c3' & Aj).
      wbind. unfold v_scalar_multiplyb. wbind. apply wp_deref_Some. eapply wp_v_mapb_cond; [exact Wj|look|look|]. intros g3 V3 B3. rewrite Aj, insert_insert in B3.
      eapply wp_row_set_any; [exact V3|look|apply Wi|look|rewrite Li by slia; slia|]. intros g4 V4 B4. rewrite B3 in B4. rewrite !(insert_commute _ mu) in B4 by congruence. rewrite insert_insert in B4. split; [exact V4|].
      assert (Lnum : length (if decide (length mus = d) then cnum d pts a i (length pts) else replicate (length mus) s_zero) = length mus).
      { destruct (decide (length mus = d)) as [E|E]; [rewrite E; apply cnum_length; [exact Wp|lia]|apply replicate_length]. }
      rewrite fmap_length, Lnum, Nat2Z.id in B4. do 7 eexists. rewrite B4. rewrite !(insert_commute _ mu) by congruence. unfold AVec at 2. rewrite Lnum. repeat f_equal.
      destruct (lookup_lt_is_Some_2 mus i Hi) as [mi Hmi]. destruct (lookup_lt_is_Some_2 new i ltac:(slia)) as [ni Hni]. rewrite (take_S_r _ _ _ Hni), (drop_S _ _ _ Hmi), <- app_assoc. cbn [app].
      destruct (decide (length mus = d)) as [E|E].
      * rewrite insert_app_r_alt by (rewrite take_length; slia). rewrite take_length. replace (i - (i `min` length new))%nat with 0%nat by slia. cbn. do 2 f_equal.
        unfold new, moved in Hni. rewrite decide_True in Hni by exact E. unfold vlist in Hni. rewrite list_lookup_fmap, lookup_seq_lt in Hni by exact Hi. injection Hni as <-. reflexivity.
      * unfold new, moved in Hni. rewrite decide_False in Hni by exact E. rewrite Hni in Hmi. injection Hmi as ->. reflexivity.
  - intros hi (Wh & n1 & c1 & n2 & c2 & n3 & c3 & c4 & Ai). rewrite take_ge, drop_ge, app_nil_r in Ai by slia.
    wbind. dele h6 W6 A6. wbind. dele h7 W7 A7. wbind. dele h8 W8 A8. dele h9 W9 A9. apply HQ. split; cbn [km_x km_mu km_r]; try assumption.
    + exists x. auto.
    + rewrite moved_length; exact Hm.
Qed.

(** ** _cost *)
Definition vnorm2 (xs ys : list F) : F := foldl (fun c x => s_add c (s_mul x x)) s_zero (zip_with s_sub xs ys).
Definition km_costv pts mus (a : list nat) : F :=
  foldl (fun acc i => foldl (fun acc j => s_add acc (s_mul (ind a i j) (vnorm2 (nth i pts []) (nth j mus [])))) acc (seq 0 (length mus))) s_zero (seq 0 (length pts)).

Lemma wp_km_cost b o d pts mus a h (Q : F -> heap F -> Prop) : kmS b o d pts mus (Mat (length mus) (length pts) (ind a)) h -> km_init o = true ->
  (forall h', kmS b o d pts mus (Mat (length mus) (length pts) (ind a)) h' -> Q (km_costv pts mus a) h') -> wp (km_cost o) h Q.
Proof.
  intros [W A (x & Ex & Hx & Dxm & Dxr) Dmr Wp Wm Hm Hd] Ei HQ. unfold km_cost. rewrite Ei. cbn [negb]. rewrite Ex. wbind. apply wp_deref_Some. wbind. eapply wp_m_size; [look|]. cbn [fst snd].
  destruct o as [rx mu r k ini ty]. cbn [km_x km_mu km_r km_k km_init km_type] in *. subst rx ini.
  wbind. eapply wp_v_tmp; [exact W|slia|]. intros xi xi0 h2 W2 N2 A2. rewrite A in N2, A2. split_none N2.
  wbind. eapply wp_m_size; [look|]. cbn [fst snd].
  wbind. eapply wp_v_tmp; [exact W2|slia|]. intros mj mj0 h3 W3 N3 A3. rewrite A2 in N3, A3. split_none N3.
  wbind. eapply wp_v_tmp; [exact W3|slia|]. intros sb sb0 h4 W4 N4 A4. rewrite A3 in N4, A4. split_none N4.
  wbind. eapply wp_m_size; [look|]. cbn [fst snd].
  assert (x <> xi) by congruence. assert (x <> mj) by congruence. assert (x <> sb) by congruence.
  wbind. apply wp_for_acc_n with (I := fun i sum hi => wf hi /\ sum = foldl (fun acc i => foldl (fun acc j => s_add acc (s_mul (ind a i j) (vnorm2 (nth i pts []) (nth j mus [])))) acc (seq 0 (length mus))) s_zero (seq 0 i) /\
    exists n1 c1 n2 c2 n3 c3, abs hi = <[sb := (SVec n1, c1)]> (<[mj := (SVec n2, c2)]> (<[xi := (SVec n3, c3)]> (<[mu := Rows d mus]> (<[r := Mat (length mus) (length pts) (ind a)]> b))))).
  - split_and!; [exact W4|reflexivity|do 6 eexists; exact A4].
  - intros i sum hi Hi (Wh & -> & n1 & c1 & n2 & c2 & n3 & c3 & Ai). destruct (lookup_lt_is_Some_2 pts i Hi) as [xp Hxp].
    assert (Lx : length xp = d) by (exact (proj1 (list.Forall_forall _ _) Wp xp (elem_of_list_lookup_2 _ _ _ Hxp))).
    wbind. eapply wp_m_row_get_into with (row := xp); [exact Wh|look|exact Wp|look|slia|rewrite Nat2Z.id; exact Hxp|exact Hd|]. intros g1 V1 B1 _. rewrite Ai in B1. rewrite (insert_commute _ xi sb), (insert_commute _ xi mj), insert_insert in B1 by congruence.
    rewrite seq_S, foldl_app. cbn [foldl]. rewrite Nat.add_0_l. set (acc0 := foldl _ _ (seq 0 i)).
    apply wp_for_acc_n with (I := fun j sum hi => wf hi /\ sum = foldl (fun acc j => s_add acc (s_mul (ind a i j) (vnorm2 (nth i pts []) (nth j mus [])))) acc0 (seq 0 j) /\
      exists n1 c1 n2 c2, abs hi = <[sb := (SVec n1, c1)]> (<[mj := (SVec n2, c2)]> (<[xi := AVec xp]> (<[mu := Rows d mus]> (<[r := Mat (length mus) (length pts) (ind a)]> b))))).
    + split_and!; [exact V1|reflexivity|do 4 eexists; exact B1].
    + intros j sum hj Hj (Wj & -> & n1' & c1' & n2' & c2' & Aj). destruct (lookup_lt_is_Some_2 mus j Hj) as [m Hmj].
      assert (Lm : length m = d) by (exact (proj1 (list.Forall_forall _ _) Wm m (elem_of_list_lookup_2 _ _ _ Hmj))).
      wbind. eapply wp_m_row_get_into with (row := m); [exact Wj|look|exact Wm|look|slia|rewrite Nat2Z.id; exact Hmj|exact Hd|]. intros g2 V2 B2 _. rewrite Aj in B2. rewrite (insert_commute _ mj sb), insert_insert in B2 by congruence.
      wbind. eapply wp_v_op2b with (xs := xp) (ys := m); [exact V2|look|look|look|]. intros g3 V3 B3. rewrite decide_True in B3 by congruence. rewrite B2, insert_insert in B3.
      wbind. eapply wp_m_get; [exact V3|look|]. rewrite decide_True by slia. rewrite !Nat2Z.id. wbind. eapply wp_v_norm_sq; [exact V3|look|]. fold (vnorm2 xp m). apply wp_ret.
      split_and!; [exact V3|rewrite seq_S, foldl_app; cbn [foldl]; rewrite Nat.add_0_l, (nth_lookup_Some _ _ _ _ Hxp), (nth_lookup_Some _ _ _ _ Hmj); reflexivity|do 4 eexists; exact B3].
    + intros sum hj (Wj & -> & n1' & c1' & n2' & c2' & Aj). split_and!; [exact Wj|reflexivity|do 6 eexists; exact Aj].
  - intros sum hi (Wh & -> & n1 & c1 & n2 & c2 & n3 & c3 & Ai).
    wbind. dele h6 W6 A6. wbind. dele h7 W7 A7. wbind. dele h8 W8 A8. apply wp_ret. apply HQ. split; cbn [km_x km_mu km_r]; try assumption. exists x. auto.
Qed.

(** ** train, once initialised *)
Definition km_step (d : nat) pts mus : list (list F) := moved d pts mus (assignment pts mus).
Lemma kmS_len b o d pts mus ra h : kmS b o d pts mus ra h -> forall d' , length (Nat.iter d' (km_step d pts) mus) = length mus.
Proof. intros _. induction d' as [|n IH]; [reflexivity|]. rewrite Nat.iter_succ. unfold km_step at 1. rewrite moved_length. exact IH. Qed.

Lemma wp_km_epoch b o d pts mus ui h (Q : unit -> heap F -> Prop) : kmS b o d pts mus (Mat (length mus) (length pts) (ind (assignment pts mus))) h -> km_init o = true -> km_k o = Z.of_nat (length mus) ->
  Z.of_nat (length mus * length pts) <= int_max -> Z.of_nat (length mus) <= int_max ->
  (forall h', let mus' := km_step d pts mus in kmS b o d pts mus' (Mat (length mus) (length pts) (ind (assignment pts mus'))) h' -> Q tt h') -> wp (km_epoch ui o) h Q.
Proof.
  intros HS Ei Ek Hkn Hk HQ. unfold km_epoch. wbind. eapply wp_km_cost; [exact HS|exact Ei|]. intros h1 HS1. wbind. eapply wp_km_compute_mu; [exact HS1|exact Hk|]. intros h2 HS2. fold (km_step d pts mus) in HS2.
  pose proof (moved_length d pts mus (assignment pts mus)) as L. fold (km_step d pts mus) in L. rewrite <- L in HS2.
  wbind. eapply wp_km_evaluate; [exact HS2|exact Ei|rewrite L; exact Ek|rewrite L; exact Hkn|]. intros h3 HS3. destruct ui.
  - wbind. eapply wp_km_cost; [exact HS3|exact Ei|]. intros h4 HS4. apply wp_ret. apply HQ. rewrite L in HS4. exact HS4.
  - apply wp_ret. apply HQ. rewrite L in HS3. exact HS3.
Qed.

Lemma wp_km_train_init b o d pts mus pick epochs ui x0 y0 cs h (Q : kmeans -> heap F -> Prop) : kmS b o d pts mus (SMat x0 y0, cs) h -> km_init o = true -> km_k o = Z.of_nat (length mus) ->
  Z.of_nat (length mus * length pts) <= int_max -> Z.of_nat (length mus) <= int_max ->
  (forall h', let mus' := Nat.iter (Z.to_nat (Z.max 1 epochs)) (km_step d pts) mus in
    kmS b o d pts mus' (Mat (length mus) (length pts) (ind (assignment pts mus'))) h' -> Q o h') -> wp (km_train pick epochs ui o) h Q.
Proof.
  intros HS Ei Ek Hkn Hk HQ. unfold km_train. destruct (ks_x _ _ _ _ _ _ _ HS) as (x & Ex & _). rewrite Ex, Ei. wbind. apply wp_ret. wbind. eapply wp_km_evaluate; [exact HS|exact Ei|exact Ek|exact Hkn|]. intros h1 HS1.
  wbind. replace (Z.max 1 epochs) with (Z.of_nat (Z.to_nat (Z.max 1 epochs))) by lia. apply wp_for_n with (I := fun n hi => let mus' := Nat.iter n (km_step d pts) mus in kmS b o d pts mus' (Mat (length mus) (length pts) (ind (assignment pts mus'))) hi).
  - exact HS1.
  - cbv zeta. intros n hi _ HSi. pose proof (kmS_len _ _ _ _ _ _ _ HS n) as L. rewrite <- L in HSi. eapply wp_km_epoch; [exact HSi|exact Ei|rewrite L; exact Ek|rewrite L; exact Hkn|rewrite L; exact Hk|]. cbv zeta. intros h' HS'. rewrite Nat.iter_succ. rewrite L in HS'. exact HS'.
  - cbv zeta. intros hi HSi. apply wp_ret. apply HQ. exact HSi.
Qed.

(** ** Filling an uninitialised matrix row by row *)
Definition pf (rows : list (list F)) (g : nat -> nat -> option F) (i : nat) : nat -> nat -> option F :=
  fun i' j => if decide (i' < i)%nat then Some (nth j (nth i' rows []) s_zero) else g i' j.
Lemma pf_step c r rows g i v : nth i rows [] = v -> MatP c r (fun i' j => if decide (i' = i) then Some (nth j v s_zero) else pf rows g i i' j) = MatP c r (pf rows g (S i)).
Proof.
  intros Ev. apply MatP_ext. intros i' j _ _. unfold pf. destruct (decide (i' = i)) as [->|Hne].
  - rewrite decide_True by lia. rewrite Ev. reflexivity.
  - destruct (decide (i' < i)%nat); [rewrite decide_True by lia; reflexivity|rewrite decide_False by lia; reflexivity].
Qed.
Lemma pf_full c rows g : width c rows -> MatP c (length rows) (pf rows g (length rows)) = Rows c rows.
Proof. intros Hw. rewrite Rows_Mat, Mat_MatP by exact Hw. apply MatP_ext. intros i j Hi _. unfold pf. rewrite decide_True by exact Hi. reflexivity. Qed.

(** ** _centroid_initialization *)
Record kmI b (o : kmeans) (d : nat) pts (mm ra : aobj F) h : Prop := {
  ki_wf : wf h;
  ki_abs : abs h = <[km_mu o := mm]> (<[km_r o := ra]> b);
  ki_x : exists x, km_x o = Some x /\ b !! x = Some (Rows d pts) /\ x <> km_mu o /\ x <> km_r o;
  ki_ne : km_mu o <> km_r o;
  ki_wp : width d pts;
  ki_d : Z.of_nat d <= int_max }.
Definition seeds pts (k : nat) (pick : Z -> Z) : list (list F) := (fun i => nth (Z.to_nat (pick (Z.of_nat i))) pts []) <$> seq 0 k.
Definition picks_ok pts (k : nat) (pick : Z -> Z) : Prop := forall i, (i < k)%nat -> 0 <= pick (Z.of_nat i) < Z.of_nat (length pts).

Lemma seeds_length pts k pick : length (seeds pts k pick) = k.
Proof. unfold seeds. rewrite fmap_length, seq_length. reflexivity. Qed.
Lemma width_nth d pts i : width d pts -> (i < length pts)%nat -> length (nth i pts []) = d.
Proof. intros Hw Hi. destruct (lookup_lt_is_Some_2 pts i Hi) as [row Hr]. rewrite (nth_lookup_Some _ _ _ _ Hr). exact (proj1 (list.Forall_forall _ _) Hw row (elem_of_list_lookup_2 _ _ _ Hr)). Qed.
Lemma seeds_width d pts k pick : width d pts -> picks_ok pts k pick -> width d (seeds pts k pick).
Proof.
  intros Hw Hp. apply list.Forall_forall. intros row Hr. unfold seeds in Hr. rewrite elem_of_list_fmap in Hr. destruct Hr as (i & -> & Hi). apply elem_of_seq in Hi. apply width_nth; [exact Hw|]. specialize (Hp i ltac:(lia)). lia.
Qed.

Lemma wp_km_centroid_init b o d pts mx my mc ra (k : nat) pick h (Q : unit -> heap F -> Prop) : kmI b o d pts (SMat mx my, mc) ra h -> km_k o = Z.of_nat k -> (0 < k)%nat -> Z.of_nat (d * k) <= int_max -> picks_ok pts k pick ->
  (forall h', kmS b o d pts (seeds pts k pick) ra h' -> Q tt h') -> wp (km_centroid_init pick o) h Q.
Proof.
  intros [W A (x & Ex & Hx & Dxm & Dxr) Dmr Wp Hd] Ek Hk Hdk Hp HQ. unfold km_centroid_init. rewrite Ex. wbind. apply wp_deref_Some. wbind. eapply wp_m_size; [look|]. cbn [fst snd]. rewrite Ek.
  destruct o as [rx mu r k' ini ty]. cbn [km_x km_mu km_r km_k km_init km_type] in *. subst rx k'.
  wbind. eapply wp_m_resize_if; [exact W|look|slia|]. intros h1 W1 A1 _. rewrite A, insert_insert in A1.
  destruct (cells_MatP h1 mu d k _ W1 ltac:(rewrite A1; apply lookup_insert)) as [g Hg]. rewrite A1, lookup_insert in Hg. injection Hg as Hg. rewrite Hg in A1.
  wbind. eapply wp_m_size; [look|]. cbn [fst snd]. wbind. eapply wp_v_tmp; [exact W1|slia|]. intros t t0 h2 W2 N2 A2. rewrite A1 in N2, A2. split_none N2. assert (x <> t) by congruence.
  pose proof (seeds_length pts k pick) as Ls. pose proof (seeds_width d pts k pick Wp Hp) as Ws.
  wbind. apply wp_for_n with (I := fun i hi => wf hi /\ exists n1 c1, abs hi = <[t := (SVec n1, c1)]> (<[mu := MatP d k (pf (seeds pts k pick) g i)]> (<[r := ra]> b))).
  - split; [exact W2|]. do 2 eexists. rewrite A2. reflexivity.
  - intros i hi Hi (Wh & n1 & c1 & Ai). pose proof (Hp i Hi) as Hpi. destruct (lookup_lt_is_Some_2 pts (Z.to_nat (pick (Z.of_nat i))) ltac:(slia)) as [xp Hxp].
    wbind. eapply wp_m_row_get_into with (row := xp); [exact Wh|look|exact Wp|look|slia|exact Hxp|exact Hd|]. intros g1 V1 B1 _. rewrite Ai, insert_insert in B1.
    assert (Lx : length xp = d) by (exact (proj1 (list.Forall_forall _ _) Wp xp (elem_of_list_lookup_2 _ _ _ Hxp))).
    eapply wp_m_row_set_vecP; [exact V1|look|look|]. intros g2 V2 _ B2. rewrite decide_True in B2 by (split; [exact Lx|slia]). rewrite Nat2Z.id in B2. split; [exact V2|]. do 2 eexists. rewrite B2, B1. rewrite (insert_commute _ mu t), insert_insert by congruence. do 2 f_equal. apply pf_step.
    unfold seeds. rewrite (nth_lookup_Some _ i _ xp); [reflexivity|]. rewrite list_lookup_fmap, lookup_seq_lt by exact Hi. cbn. f_equal. apply nth_lookup_Some. exact Hxp.
  - intros hi (Wh & n1 & c1 & Ai). dele h6 W6 A6. pose proof (pf_full d (seeds pts k pick) g Ws) as Ef. rewrite Ls in Ef. rewrite Ef in A6. apply HQ. split; cbn [km_x km_mu km_r]; try assumption.
    + exists x. auto.
    + rewrite Ls. exact Hk.
Qed.

(** ** model_test, model_set_test *)
Definition near0 (x : list F) (c : list F) mus : list F := foldl (fun c m => if s_lt (vdist x m) (vdist x c) then m else c) c mus.
Lemma near0_width d x c mus : length c = d -> width d mus -> length (near0 x c mus) = d.
Proof. intros Hc Hw. revert c Hc. induction Hw as [|m mus Hm Hw IH]; intros c Hc; [exact Hc|]. cbn. apply IH. destruct (s_lt _ _); assumption. Qed.

Lemma wp_near_scan h mu cc xi mj d mus x c nm cm b (w : nat) (Q : unit -> heap F -> Prop) : wf h ->
  abs h = <[mj := (SVec nm, cm)]> (<[cc := AVec c]> b) -> mj <> cc -> mu <> mj -> mu <> cc -> xi <> mj -> xi <> cc ->
  b !! mu = Some (Rows d mus) -> b !! xi = Some (AVec x) -> width d mus -> Z.of_nat d <= int_max -> (w <= length mus)%nat ->
  (forall h' nm cm, wf h' -> abs h' = <[mj := (SVec nm, cm)]> (<[cc := AVec (near0 x c (take w mus))]> b) -> Q tt h') ->
  wp (for_ 0 (Z.of_nat w) (fun j =>
      m_row_get_into mu j (Some mj) ;;;
      let! d1 := v_dist xi (Some mj) in
      let! d2 := v_dist xi (Some cc) in
      if s_lt d1 d2 then v_set_from_vec cc mj else ret tt)) h Q.
Proof.
  intros W A D1 D2 D3 D4 D5 Hmu Hxi Wm Hd Hw HQ. apply wp_for_n with (I := fun j hi => wf hi /\ exists nm cm, abs hi = <[mj := (SVec nm, cm)]> (<[cc := AVec (near0 x c (take j mus))]> b)).
  - split; [exact W|]. do 2 eexists. exact A.
  - intros j hi Hj (Wh & n1 & c1 & Ai). destruct (lookup_lt_is_Some_2 mus j ltac:(slia)) as [m Hm]. wbind. eapply wp_m_row_get_into with (row := m); [exact Wh|look|exact Wm|look|slia|rewrite Nat2Z.id; exact Hm|exact Hd|]. intros g1 V1 B1 _. rewrite Ai, insert_insert in B1.
    wbind. eapply wp_v_dist; [exact V1|look|look|]. fold (vdist x m). wbind. eapply wp_v_dist; [exact V1|look|look|]. fold (vdist x (near0 x c (take j mus))). rewrite (take_S_r _ _ _ Hm). unfold near0. rewrite foldl_app. cbn [foldl]. fold (near0 x c (take j mus)).
    destruct (s_lt _ _).
    + eapply wp_v_set_from_vec; [exact V1|look|look|]. intros g2 V2 B2. split; [exact V2|]. do 2 eexists. rewrite B2, B1. rewrite (insert_commute _ cc mj), insert_insert by congruence. reflexivity.
    + apply wp_ret. split; [exact V1|]. do 2 eexists. exact B1.
  - intros hi (Wh & n1 & c1 & Ai). eapply HQ; [exact Wh|exact Ai].
Qed.

Lemma wp_km_model_test (o : kmeans) d mus (p : loc) x h (Q : option loc -> heap F -> Prop) : wf h -> abs h !! km_mu o = Some (Rows d mus) -> width d mus -> (0 < length mus)%nat -> Z.of_nat d <= int_max ->
  abs h !! p = Some (AVec x) -> km_init o = true ->
  (forall t h', wf h' -> abs h !! t = None -> abs h' = <[t := AVec (near0 x (nth 0 mus []) mus)]> (abs h) -> Q (Some t) h') -> wp (km_model_test o (Some p)) h Q.
Proof.
  intros W Hmu Wm Hm Hd Hp Ei HQ. unfold km_model_test. rewrite Ei. cbn [negb]. wbind. eapply wp_m_size; [exact Hmu|]. cbn [fst snd].
  wbind. eapply wp_v_tmp; [exact W|slia|]. intros cc c0 h1 W1 N1 A1. destruct (lookup_lt_is_Some_2 mus 0 Hm) as [m0 Hm0]. assert (km_mu o <> cc) by congruence. assert (p <> cc) by congruence.
  wbind. eapply wp_m_row_get_into with (row := m0); [exact W1|rewrite A1, lookup_insert_ne by congruence; exact Hmu|exact Wm|rewrite A1; apply lookup_insert|slia|exact Hm0|exact Hd|]. intros h2 W2 A2 _. rewrite A1, insert_insert in A2.
  wbind. eapply wp_v_tmp; [exact W2|slia|]. intros mj mj0 h3 W3 N3 A3. rewrite A2 in N3, A3. split_none N3. assert (km_mu o <> mj) by congruence. assert (p <> mj) by congruence.
  wbind. eapply wp_near_scan with (w := length mus); [exact W3|exact A3|congruence|congruence|congruence| | |exact Hmu|exact Hp|exact Wm|exact Hd|lia|]; [congruence|congruence|].
  intros h4 n1 c1 W4 A4. rewrite take_ge in A4 by lia. wbind. dele h5 W5 A5. apply wp_ret. apply HQ; [exact W5|exact N1|]. rewrite (nth_lookup_Some _ _ _ _ Hm0). exact A5.
Qed.

Lemma wp_km_model_set_test (o : kmeans) d mus d' (xs : list (list F)) X x0 (n : nat) xc xcs w rh rc h (Q : option loc -> heap F -> Prop) : wf h -> abs h !! km_mu o = Some (Rows d mus) -> width d mus -> (0 < length mus)%nat -> Z.of_nat d <= int_max -> Z.of_nat d' <= int_max ->
  km_x o = Some x0 -> abs h !! x0 = Some (SMat xc (Z.of_nat n), xcs) -> abs h !! km_r o = Some (SMat (Z.of_nat w) rh, rc) -> (w <= length mus)%nat ->
  abs h !! X = Some (Rows d' xs) -> width d' xs -> (n <= length xs)%nat -> Z.of_nat (d * n) <= int_max -> km_init o = true ->
  (forall t h', wf h' -> abs h !! t = None -> abs h' = <[t := Rows d ((fun x => near0 x (nth 0 mus []) (take w mus)) <$> take n xs)]> (abs h) -> Q (Some t) h') -> wp (km_model_set_test o (Some X)) h Q.
Proof.
  intros W Hmu Wm Hm Hd Hd' Ex Hx0 Hr Hw HX WX Hn Hdn Ei HQ. unfold km_model_set_test. rewrite Ei. cbn [negb]. rewrite Ex. wbind. apply wp_deref_Some. wbind. eapply wp_m_size; [exact Hx0|]. cbn [fst snd].
  wbind. eapply wp_m_new; [exact W|]. intros out h1 W1 N1 A1 _. wbind. eapply wp_m_size; [rewrite A1, lookup_insert_ne by congruence; exact Hmu|]. cbn [fst snd]. wbind. eapply wp_m_resize; [exact W1|rewrite A1; apply lookup_insert|slia|]. intros h2 W2 A2 _. rewrite A1, insert_insert in A2.
  destruct (MatP_new (F := F) d n) as [g Hg]. rewrite Hg in A2. clear Hg. assert (km_mu o <> out) by congruence. assert (X <> out) by congruence. assert (km_r o <> out) by congruence. destruct (lookup_lt_is_Some_2 mus 0 Hm) as [m0 Hm0].
  wbind. eapply wp_v_tmp; [exact W2|slia|]. intros cc c0 h3 W3 N3 A3. rewrite A2 in N3, A3. split_none N3. assert (km_mu o <> cc) by congruence. assert (X <> cc) by congruence. assert (km_r o <> cc) by congruence.
  wbind. eapply wp_m_size; [look|]. cbn [fst snd]. wbind. eapply wp_v_tmp; [exact W3|slia|]. intros xi xi0 h4 W4 N4 A4. rewrite A3 in N4, A4. split_none N4. assert (km_mu o <> xi) by congruence. assert (X <> xi) by congruence. assert (km_r o <> xi) by congruence.
  wbind. eapply wp_v_tmp; [exact W4|slia|]. intros mj mj0 h5 W5 N5 A5. rewrite A4 in N5, A5. split_none N5. assert (km_mu o <> mj) by congruence. assert (X <> mj) by congruence. assert (km_r o <> mj) by congruence.
  wbind. eapply wp_m_size; [look|]. cbn [fst snd].
  set (res := (fun x => near0 x (nth 0 mus []) (take w mus)) <$> take n xs). assert (Lr : length res = n) by (unfold res; rewrite fmap_length, take_length; clear - Hn; lia). assert (Em0 : nth 0 mus [] = m0) by (apply nth_lookup_Some; exact Hm0).
  assert (L0 : length m0 = d) by (exact (proj1 (list.Forall_forall _ _) Wm m0 (elem_of_list_lookup_2 _ _ _ Hm0))).
  assert (Wr : width d res). { apply list.Forall_forall. intros row Hrow. unfold res in Hrow. rewrite elem_of_list_fmap in Hrow. destruct Hrow as (y & -> & _). apply near0_width; [rewrite Em0; exact L0|]. apply Forall_take. exact Wm. }
  wbind. apply wp_for_n with (I := fun i hi => wf hi /\ exists n1 c1 n2 c2 n3 c3, abs hi = <[mj := (SVec n1, c1)]> (<[xi := (SVec n2, c2)]> (<[cc := (SVec n3, c3)]> (<[out := MatP d n (pf res g i)]> (abs h))))).
  - split; [exact W5|]. do 6 eexists. rewrite A5. reflexivity.
  - intros i hi Hi (Wh & n1 & c1 & n2 & c2 & n3 & c3 & Ai). destruct (lookup_lt_is_Some_2 xs i ltac:(slia)) as [xp Hxp].
    wbind. eapply wp_m_row_get_into with (row := m0); [exact Wh|look|exact Wm|look|slia|exact Hm0|exact Hd|]. intros g1 V1 B1 _. rewrite Ai in B1. rewrite (insert_commute _ cc mj), (insert_commute _ cc xi), insert_insert in B1 by congruence.
    wbind. eapply wp_m_row_get_into with (row := xp); [exact V1|look|exact WX|look|slia|rewrite Nat2Z.id; exact Hxp|exact Hd'|]. intros g2 V2 B2 _. rewrite B1, (insert_commute _ xi mj), insert_insert in B2 by congruence.
    wbind. eapply wp_near_scan with (w := w) (b := <[xi := AVec xp]> (<[out := MatP d n (pf res g i)]> (abs h))) (x := xp) (c := m0); [exact V2|rewrite B2, (insert_commute _ xi cc) by congruence; reflexivity|congruence|congruence|congruence|congruence|congruence|rewrite !lookup_insert_ne by congruence; exact Hmu|apply lookup_insert|exact Wm|exact Hd|exact Hw|].
    intros g3 n4 c4 V3 B3. assert (Eri : nth i res [] = near0 xp m0 (take w mus)). { apply nth_lookup_Some. unfold res. rewrite list_lookup_fmap, lookup_take, Hxp, Em0 by exact Hi. reflexivity. }
    eapply wp_m_row_set_vecP; [exact V3|look|look|]. intros g4 V4 _ B4. rewrite decide_True in B4 by (split; [apply near0_width; [exact L0|apply Forall_take; exact Wm]|slia]). rewrite Nat2Z.id, (pf_step _ _ _ _ _ _ Eri), B3 in B4. split; [exact V4|]. do 6 eexists. rewrite B4.
    rewrite (insert_commute _ out mj), (insert_commute _ out cc), (insert_commute _ out xi), insert_insert, (insert_commute _ cc xi) by congruence. reflexivity.
  - intros hi (Wh & n1 & c1 & n2 & c2 & n3 & c3 & Ai). wbind. dele h6 W6 A6. wbind. dele h7 W7 A7. wbind. dele h8 W8 A8. apply wp_ret. apply HQ; [exact W8|exact N1|]. pose proof (pf_full d res g Wr) as Ef. rewrite Lr in Ef. rewrite A8, Ef. reflexivity.
Qed.
End km.
