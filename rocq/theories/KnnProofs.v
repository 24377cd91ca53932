(** * What MLPPKNN computes. *)
From Verif Require Import Base BaseProofs Vec VecSpec VecProofs VecProofs2 Mat MatSpec MatProofs MatProofs2 MatProofs3 MatProofs4 MatProofs5 Frame StatProofs Act ActProofs ActProofs2 Cost CostProofs Sym Svm Util UtilProofs Knn.

Section knn.
Context {F : Type} `{Scalar F} `{Libm F}.
Implicit Types (h : heap F) (xs ys : list F) (rows : list (list F)) (d : nat -> F) (ns : list nat) (zs : list Z).

(** ** The search *)
Definition scan_step d ns (nb j : nat) : nat := if bool_decide (j ∈ ns) then nb else if s_lt (d j) (d nb) then j else nb.
Definition scan d n ns : nat := foldl (scan_step d ns) 0%nat (seq 0 n).
Fixpoint nn d (n k : nat) : list nat :=
  match k with
  | O => []
  | S k => let ns := nn d n k in let b := scan d n ns in if bool_decide (b ∈ ns) then ns else ns ++ [b]
  end.

Definition before d (a b : nat) : Prop := s_lt (d a) (d b) = true \/ s_lt (d b) (d a) = false /\ (a < b)%nat.

Section order.
Context (P : F -> Prop) (HP : swo_on P) (d : nat -> F) (n : nat) (Pd : forall j, (j < n)%nat -> P (d j)).
Lemma before_trans a b c : (a < n)%nat -> (b < n)%nat -> (c < n)%nat -> before d a b -> before d b c -> before d a c.
Proof.
  intros La Lb Lc. pose proof (Pd a La) as Pa. pose proof (Pd b Lb) as Pb. pose proof (Pd c Lc) as Pc. unfold before. intros [H1|[H1 H1']] [H2|[H2 H2']].
  - left. exact (swo_trans P HP _ (d b) _ Pa Pb Pc H1 H2).
  - destruct (swo_cotrans P HP _ (d c) _ Pa Pc Pb H1) as [E|E]; [left; exact E|congruence].
  - destruct (swo_cotrans P HP _ (d a) _ Pb Pa Pc H2) as [E|E]; [congruence|left; exact E].
  - right. split; [|lia]. destruct (s_lt (d c) (d a)) eqn:E; [|reflexivity]. destruct (swo_cotrans P HP _ (d b) _ Pc Pb Pa E) as [E'|E']; congruence.
Qed.
Lemma before_irrefl a : (a < n)%nat -> ~ before d a a.
Proof. intros La [E|[_ E]]; [|lia]. rewrite (swo_irrefl P HP _ (Pd a La)) in E. discriminate. Qed.
Lemma before_asym a b : (a < n)%nat -> (b < n)%nat -> before d a b -> ~ before d b a.
Proof. intros La Lb H1 H2. exact (before_irrefl a La (before_trans a b a La Lb La H1 H2)). Qed.

Lemma scan_ok ns : (0 < n)%nat -> forall m, (m <= n)%nat -> let nb := foldl (scan_step d ns) 0%nat (seq 0 m) in
  (nb < n)%nat /\ (nb <= m)%nat /\ (nb = 0%nat \/ (nb < m)%nat /\ nb ∉ ns /\ s_lt (d nb) (d 0%nat) = true) /\ forall j, (j < m)%nat -> j ∉ ns -> j = nb \/ before d nb j.
Proof.
  intros Hn. induction m as [|m IH]; intros Hm; cbv zeta.
  - cbn. split_and!; [lia|lia|left; reflexivity|intros; lia].
  - specialize (IH ltac:(lia)). cbv zeta in IH. destruct IH as (L & Lm & H1 & H2). rewrite seq_S, foldl_app. cbn [foldl]. rewrite Nat.add_0_l. revert L Lm H1 H2. generalize (foldl (scan_step d ns) 0%nat (seq 0 m)) as nb. intros nb L Lm H1 H2.
    unfold scan_step. destruct (bool_decide_reflect (m ∈ ns)) as [E|E].
    + split_and!; [exact L|lia|destruct H1 as [->|(? & ? & ?)]; [left; reflexivity|right; split; [lia|]; auto]|]. intros j Lj Nj. destruct (decide (j = m)) as [->|Hj]; [tauto|]. apply H2; [lia|exact Nj].
    + destruct (s_lt (d m) (d nb)) eqn:El.
      * split_and!; [lia|lia| |].
        -- right. split; [lia|]. split; [exact E|]. destruct H1 as [->|(_ & _ & H1)]; [exact El|]. exact (swo_trans P HP _ (d nb) _ (Pd m ltac:(lia)) (Pd _ L) (Pd _ Hn) El H1).
        -- intros j Lj Nj. destruct (decide (j = m)) as [->|Hj]; [left; reflexivity|]. right. assert (B : before d m nb) by (left; exact El). destruct (H2 j ltac:(lia) Nj) as [->|B']; [exact B|]. exact (before_trans m nb j ltac:(lia) L ltac:(lia) B B').
      * split_and!; [exact L|lia|destruct H1 as [->|(? & ? & ?)]; [left; reflexivity|right; split; [lia|]; auto]|]. intros j Lj Nj. destruct (decide (j = m)) as [->|Hj]; [|apply H2; [lia|exact Nj]].
        destruct (decide (m = nb)) as [->|Hne]; [left; reflexivity|]. right. right. split; [exact El|lia].
Qed.

Definition closer (j : nat) : bool := s_lt (d j) (d 0%nat).
Record nearest (ns : list nat) (k : nat) : Prop := {
  nst_nodup : NoDup ns;
  nst_lt : Forall (fun a => (a < n)%nat) ns;
  nst_out : forall a b, a ∈ ns -> (b < n)%nat -> b ∉ ns -> before d a b;
  nst_sorted : forall i j a b, (i < j)%nat -> ns !! i = Some a -> ns !! j = Some b -> before d a b;
  nst_closer : forall a, a ∈ ns -> a = 0%nat \/ closer a = true;
  nst_len : (0%nat ∈ ns /\ (length ns <= k)%nat) \/ (0%nat ∉ ns /\ length ns = k) }.
Lemma nn_nearest : (0 < n)%nat -> forall k, nearest (nn d n k) k.
Proof.
  intros Hn. induction k as [|k [I1 I2 I3 I4 I5 I6]].
  - cbn [nn]. split.
    + constructor.
    + constructor.
    + intros a b Ha. apply elem_of_nil in Ha. tauto.
    + intros i j a b _ Ha. rewrite lookup_nil in Ha. discriminate.
    + intros a Ha. apply elem_of_nil in Ha. tauto.
    + right. split; [apply not_elem_of_nil|reflexivity].
  - cbn [nn]. set (ns := nn d n k) in *. destruct (scan_ok ns Hn n (Nat.le_refl n)) as (L & _ & S1 & S2). fold (scan d n ns) in L, S1, S2. set (b := scan d n ns) in *.
    destruct (bool_decide_reflect (b ∈ ns)) as [Eb|Eb].
    + split; try assumption. left. destruct S1 as [E|(_ & E & _)]; [|tauto]. rewrite E in Eb. split; [exact Eb|]. destruct I6 as [[_ E6]|[E6 _]]; [lia|tauto].
    + assert (N0 : 0%nat ∉ ns). { intros E0. destruct S1 as [E|(_ & _ & E)]; [congruence|]. apply (before_asym 0%nat b Hn L (I3 _ _ E0 L Eb)). left. exact E. }
      destruct I6 as [[E6 _]|[_ E6]]; [tauto|]. split.
      * apply list.NoDup_app. split; [exact I1|]. split; [intros x Hx Hx'; apply elem_of_list_singleton in Hx'; congruence|apply NoDup_singleton].
      * apply Forall_app. split; [exact I2|]. constructor; [exact L|constructor].
      * intros a c. rewrite elem_of_app, elem_of_list_singleton. intros [Ha| ->] Lc Nc; rewrite elem_of_app, elem_of_list_singleton in Nc; [apply I3; tauto|]. destruct (S2 c Lc ltac:(tauto)) as [->|B]; [tauto|exact B].
      * intros i j a c Hij Ha Hc. pose proof (lookup_lt_Some _ _ _ Hc) as Lc. rewrite app_length in Lc. cbn in Lc. rewrite lookup_app_l in Ha by lia.
        destruct (decide (j < length ns)%nat) as [Lj|Lj]; [rewrite lookup_app_l in Hc by exact Lj; exact (I4 i j a c Hij Ha Hc)|].
        rewrite lookup_app_r in Hc by lia. replace (j - length ns)%nat with 0%nat in Hc by lia. injection Hc as <-. apply I3; [apply elem_of_list_lookup_2 in Ha; exact Ha|exact L|exact Eb].
      * intros a. rewrite elem_of_app, elem_of_list_singleton. intros [Ha| ->]; [auto|]. destruct S1 as [E|(_ & _ & E)]; [left; exact E|right; exact E].
      * rewrite app_length. cbn [length]. destruct S1 as [E|(_ & _ & E)].
        -- left. rewrite E. split; [|lia]. apply elem_of_app. right. apply elem_of_list_singleton. reflexivity.
        -- right. split; [|lia]. rewrite elem_of_app, elem_of_list_singleton. intros [G|G]; [tauto|]. rewrite <- G in E. rewrite (swo_irrefl P HP _ (Pd _ Hn)) in E. discriminate.
Qed.
Lemma nearest_length ns k : (0 < n)%nat -> nearest ns k -> length ns = Nat.min k (S (length (filter (fun j => closer j = true) (seq 0 n)))).
Proof.
  intros Hn [I1 I2 I3 I4 I5 I6]. rewrite list.Forall_forall in I2.
  set (cs := filter (fun j => closer j = true) (seq 0 n)). assert (Nc : NoDup cs) by (apply list.NoDup_filter, NoDup_seq).
  assert (C0 : 0%nat ∉ cs). { unfold cs. rewrite elem_of_list_filter. intros [E _]. unfold closer in E. rewrite (swo_irrefl P HP _ (Pd _ Hn)) in E. discriminate. }
  assert (Hin : forall j, j ∈ cs <-> closer j = true /\ (j < n)%nat) by (intros j; unfold cs; rewrite elem_of_list_filter, elem_of_seq; intuition lia).
  destruct I6 as [[E0 El]|[E0 El]].
  - assert (length ns = S (length cs)); [|lia]. change (S (length cs)) with (length (0%nat :: cs)). apply Permutation_length. apply NoDup_Permutation; [exact I1|apply list.NoDup_cons; auto|].
    intros j. rewrite elem_of_cons, Hin. split.
    + intros Hj. destruct (I5 j Hj); auto.
    + intros [->|[Ej Lj]]; [exact E0|]. destruct (decide (j ∈ ns)) as [Hj|Hj]; [exact Hj|]. destruct (before_asym 0%nat j Hn Lj (I3 0%nat j E0 Lj Hj)). left. exact Ej.
  - assert (length ns <= length cs)%nat; [|lia]. apply submseteq_length. apply NoDup_submseteq; [exact I1|]. intros j Hj. apply Hin. destruct (I5 j Hj) as [->|E]; [tauto|]. auto.
Qed.
End order.

(** ** The search in the heap *)
Definition vdist xs ys : F := if decide (length xs = length ys) then s_sqrt (dist_sq_fold xs ys) else s_zero.
Definition rdist xs rows (j : nat) : F := vdist xs (nth j rows []).

Lemma in_fmap_nat (j : nat) ns (S0 : gset Z) : (forall z, z ∈ S0 <-> exists a, a ∈ ns /\ z = Z.of_nat a) -> bool_decide (Z.of_nat j ∈ S0) = bool_decide (j ∈ ns).
Proof. intros E. apply bool_decide_ext. rewrite E. split; [intros (a & Ha & Eq); apply Nat2Z.inj in Eq as ->; exact Ha|eauto]. Qed.

Lemma wp_knn_scan (h0 : gmap loc (aobj F)) h x t1 t2 p c rows xs n1 c1 n2 c2 ns (S0 : gset Z) (Q : Z -> heap F -> Prop) : wf h ->
  abs h = <[t2 := (SVec n2, c2)]> (<[t1 := (SVec n1, c1)]> h0) -> t1 <> t2 -> x <> t1 -> x <> t2 -> p <> t1 -> p <> t2 ->
  h0 !! x = Some (Rows c rows) -> width c rows -> Z.of_nat c <= int_max -> h0 !! p = Some (AVec xs) ->
  (forall z, z ∈ S0 <-> exists a, a ∈ ns /\ z = Z.of_nat a) ->
  (forall h' n1' c1' n2' c2', wf h' -> abs h' = <[t2 := (SVec n2', c2')]> (<[t1 := (SVec n1', c1')]> h0) -> Q (Z.of_nat (scan (rdist xs rows) (length rows) ns)) h') ->
  wp (knn_scan x t1 t2 (Some p) (Z.of_nat (length rows)) S0) h Q.
Proof.
  intros W A D D1 D2 D3 D4 Hx Hwd Hc Hp HS HQ.
  unfold knn_scan. apply wp_for_acc_n with (I := fun j z hi => wf hi /\ (exists n1' c1' n2' c2', abs hi = <[t2 := (SVec n2', c2')]> (<[t1 := (SVec n1', c1')]> h0)) /\
     z = Z.of_nat (foldl (scan_step (rdist xs rows) ns) 0%nat (seq 0 j)) /\ (foldl (scan_step (rdist xs rows) ns) 0%nat (seq 0 j) <= j)%nat).
  - split; [exact W|]. split; [|split; [reflexivity|cbn; lia]]. exists n1, c1, n2, c2. exact A.
  - intros j z hi Hj (Wi & (n1' & c1' & n2' & c2' & Ai) & -> & Lb). rewrite (in_fmap_nat j ns S0 HS), seq_S, foldl_app. cbn [foldl]. rewrite Nat.add_0_l. revert Lb. generalize (foldl (scan_step (rdist xs rows) ns) 0%nat (seq 0 j)) as b. intros b Lb.
    unfold scan_step. case_bool_decide as Ej; [apply wp_ret; split_and!; [exact Wi|eauto|reflexivity|lia]|].
    destruct (lookup_lt_is_Some_2 rows j Hj) as [rj Rj]. destruct (lookup_lt_is_Some_2 rows b ltac:(lia)) as [rb Rb].
    wbind. eapply wp_m_row_get_into with (row := rj); [exact Wi|look; exact Hx|exact Hwd|look|lia|rewrite Nat2Z.id; exact Rj|exact Hc|]. intros h1 W1 A1 _.
    rewrite Ai, insert_commute, insert_insert in A1 by congruence.
    wbind. eapply wp_m_row_get_into with (row := rb); [exact W1|look; exact Hx|exact Hwd|look|lia|rewrite Nat2Z.id; exact Rb|exact Hc|]. intros h2 W2 A2 _.
    rewrite A1, insert_insert in A2.
    wbind. apply wp_deref_Some. wbind. eapply wp_v_dist; [exact W2|look; exact Hp|look|]. wbind. eapply wp_v_dist; [exact W2|look; exact Hp|look|]. apply wp_ret.
    assert (Ej' : rdist xs rows j = vdist xs rj) by (unfold rdist; rewrite (nth_lookup_Some _ _ _ _ Rj); reflexivity).
    assert (Eb' : rdist xs rows b = vdist xs rb) by (unfold rdist; rewrite (nth_lookup_Some _ _ _ _ Rb); reflexivity).
    fold (vdist xs rj) (vdist xs rb). rewrite Ej', Eb'. split_and!; [exact W2|do 4 eexists; exact A2|destruct (s_lt _ _); reflexivity|destruct (s_lt _ _); lia].
  - intros z hi (Wi & (n1' & c1' & n2' & c2' & Ai) & -> & _). eapply HQ; [exact Wi|exact Ai].
Qed.
Lemma for_acc_to_nat {A} k (a : A) (body : Z -> A -> M F A) : for_acc 0 k a body = for_acc 0 (Z.of_nat (Z.to_nat k)) a body.
Proof. unfold for_acc. replace (Z.to_nat (k - 0)) with (Z.to_nat (Z.of_nat (Z.to_nat k) - 0)) by lia. reflexivity. Qed.
Lemma rows_int h x c rows : wf h -> abs h !! x = Some (Rows c rows) -> width c rows -> rows <> [] -> Z.of_nat c <= int_max.
Proof.
  intros W Hx Hwd Hr. assert (exists k n X, abs h !! x = Some (Mat k n X) /\ k = c /\ n = length rows) as (k & n & X & Hm & -> & ->) by (eexists _, _, _; split; [rewrite Hx; f_equal; apply Rows_Mat; exact Hwd|]; auto).
  destruct (amat_len h x _ _ _ W Hm) as [_ L]. destruct rows; [congruence|]. cbn [length] in L. nia.
Qed.
Lemma wp_knn_nearest h o x p c rows xs (Q : list Z -> heap F -> Prop) : wf h -> kn_x o = Some x -> abs h !! x = Some (Rows c rows) -> width c rows -> abs h !! p = Some (AVec xs) ->
  rows <> [] ->
  (forall h', wf h' -> abs h' = abs h -> Q (Z.of_nat <$> nn (rdist xs rows) (length rows) (Z.to_nat (kn_k o))) h') ->
  wp (knn_nearest o (Some p)) h Q.
Proof.
  intros W Ex Hx Hwd Hp Hne HQ. pose proof (rows_int h x c rows W Hx Hwd Hne) as Hc. unfold knn_nearest. rewrite Ex.
  wbind. eapply wp_v_new; [exact W|]. intros t1 h1 W1 N1 A1 _. wbind. eapply wp_v_new; [exact W1|]. intros t2 h2 W2 N2 A2 _. rewrite A1 in N2, A2. split_none N2.
  wbind. eapply wp_m_size; [look; rewrite !lookup_insert_ne by congruence; exact Hx|]. cbn [fst snd].
  assert (D : t1 <> t2) by congruence. assert (D1 : x <> t1) by congruence. assert (D2 : x <> t2) by congruence. assert (D3 : p <> t1) by congruence. assert (D4 : p <> t2) by congruence.
  wbind. rewrite for_acc_to_nat.
  apply wp_for_acc_n with (I := fun i st hi => wf hi /\ (exists n1 c1 n2 c2, abs hi = <[t2 := (SVec n2, c2)]> (<[t1 := (SVec n1, c1)]> (abs h))) /\
    fst st = Z.of_nat <$> nn (rdist xs rows) (length rows) i /\ (forall z, z ∈ snd st <-> exists a, a ∈ nn (rdist xs rows) (length rows) i /\ z = Z.of_nat a)).
  - split_and!; [exact W2|do 4 eexists; exact A2|reflexivity|]. intros z. cbn. rewrite elem_of_empty. split; [tauto|]. intros (a & Ha & _). apply elem_of_nil in Ha. exact Ha.
  - intros i st hi Hi (Wi & (n1 & c1 & n2 & c2 & Ai) & E1 & E2). wbind. eapply wp_knn_scan with (ns := nn (rdist xs rows) (length rows) i); [exact Wi|exact Ai|exact D|exact D1|exact D2|exact D3|exact D4|exact Hx|exact Hwd|exact Hc|exact Hp|exact E2|].
    intros h' n1' c1' n2' c2' W' A'. apply wp_ret. cbn [nn]. set (ns := nn (rdist xs rows) (length rows) i) in *. set (b := scan (rdist xs rows) (length rows) ns). rewrite (in_fmap_nat b ns _ E2).
    case_bool_decide as Eb; (split_and!; [exact W'|do 4 eexists; exact A'| |]); cbn [fst snd]; try assumption.
    + rewrite E1, fmap_app. reflexivity.
    + intros z. rewrite elem_of_union, elem_of_singleton, E2. split.
      * intros [->|(a & Ha & ->)]; [exists b|exists a]; (split; [|reflexivity]); apply elem_of_app; [right; apply elem_of_list_singleton; reflexivity|left; exact Ha].
      * intros (a & Ha & ->). apply elem_of_app in Ha as [Ha|Ha%elem_of_list_singleton]; [right; eauto|left; congruence].
  - intros st hi (Wi & (n1 & c1 & n2 & c2 & Ai) & E1 & _). wbind. eapply wp_del; [exact Wi|look|]. intros h3 W3 A3 _. rewrite Ai, delete_insert in A3 by (rewrite lookup_insert_ne by congruence; exact N2).
    wbind. eapply wp_del; [exact W3|look|]. intros h4 W4 A4 _. rewrite A3, delete_insert in A4 by exact N1. apply wp_ret. rewrite E1. apply HQ; [exact W4|exact A4].
Qed.

(** ** The vote *)
Definition occ (c : Z) zs : nat := length (filter (fun z => z = c) zs).
Lemma occ_app c zs zs' : occ c (zs ++ zs') = (occ c zs + occ c zs')%nat.
Proof. unfold occ. rewrite list.filter_app, app_length. reflexivity. Qed.
Lemma occ_single c z : occ c [z] = if decide (z = c) then 1%nat else 0%nat.
Proof. unfold occ. rewrite filter_cons, filter_nil. destruct (decide (z = c)); reflexivity. Qed.
Lemma occ_take c zs i : (occ c (take i zs) <= occ c zs)%nat.
Proof. rewrite <- (take_drop i zs) at 2. rewrite occ_app. lia. Qed.
Definition votes zs (nl : list Z) (c : Z) : nat := (occ c nl * occ c zs)%nat.
Definition best_step zs nl (st : Z * Z) (c : Z) : Z * Z := if snd st <? Z.of_nat (votes zs nl c) then (c, Z.of_nat (votes zs nl c)) else st.
Definition best zs nl : Z := fst (foldl (best_step zs nl) (nth 0 zs 0, Z.of_nat (votes zs nl (nth 0 zs 0))) zs).

Lemma wp_label h y ys zs p i z (Q : Z -> heap F -> Prop) : wf h -> abs h !! y = Some (AVec ys) -> ptr_of h y = Some p -> Forall2 (fun v k => m_to_int v = Some k) ys zs ->
  zs !! i = Some z -> Q z h -> wp (label_at p (Z.of_nat i)) h Q.
Proof.
  intros W Hy Hp HZ Hz HQ. destruct (Forall2_lookup_r _ _ _ _ _ HZ Hz) as (v & Hv & Ev). unfold label_at.
  wbind. eapply wp_load with (l := y); [exact W|exact Hp|exact Hy|lia|rewrite Nat2Z.id; apply fmap_Some_lookup; exact Hv|]. rewrite Ev. apply wp_ret. exact HQ.
Qed.
Lemma wp_knn_class h o y ys zs nl (Q : Z -> heap F -> Prop) : wf h -> kn_y o = Some y -> abs h !! y = Some (AVec ys) -> Forall2 (fun v k => m_to_int v = Some k) ys zs ->
  (forall c, Z.of_nat (votes zs nl c) <= int_max) -> zs <> [] -> Q (best zs nl) h -> wp (knn_class o nl) h Q.
Proof.
  intros W Ey Hy HZ Hb Hne HQ. pose proof (Forall2_length _ _ _ HZ) as Hlen. unfold knn_class. rewrite Ey. wbind. eapply wp_v_size_vec; [exact Hy|].
  destruct (Z.eqb_spec (Z.of_nat (length ys)) 0) as [E|_]; [destruct zs; [congruence|cbn in Hlen; lia]|]. wbind. eapply wp_data_ptr; [exact Hy|]. intros p Hp. rewrite Hlen.
  wbind. apply wp_for_acc_n with (I := fun i (m : gmap Z Z) hi => hi = h /\ forall c, count_of m c = 0).
  - split; [reflexivity|]. intros c. unfold count_of. rewrite lookup_empty. reflexivity.
  - intros i m hi Hi [-> E]. destruct (lookup_lt_is_Some_2 zs i Hi) as [z Hz]. wbind. eapply wp_label; [exact W|exact Hy|exact Hp|exact HZ|exact Hz|]. apply wp_ret. split; [reflexivity|]. intros c. unfold count_of. destruct (decide (z = c)) as [->|Hc]; [rewrite lookup_insert; reflexivity|]. rewrite lookup_insert_ne by exact Hc. apply E.
  - intros m0 hi [-> E0]. wbind. apply wp_for_acc_n with (I := fun i (m : gmap Z Z) hi => hi = h /\ forall c, count_of m c = Z.of_nat (occ c (take i nl) * occ c zs)).
    + split; [reflexivity|]. intros c. rewrite E0. cbn. reflexivity.
    + intros i m hi Hi [-> E]. rewrite Nat2Z.id. destruct (lookup_lt_is_Some_2 nl i Hi) as [b Hbi]. rewrite (nth_lookup_Some _ _ _ _ Hbi).
      assert (Et : forall c, occ c (take (S i) nl) = (occ c (take i nl) + if decide (b = c) then 1 else 0)%nat) by (intros c; rewrite (take_S_r _ _ b Hbi), occ_app, occ_single; reflexivity).
      apply wp_for_acc_n with (I := fun j (m : gmap Z Z) hi => hi = h /\ forall c, count_of m c = Z.of_nat (occ c (take i nl) * occ c zs + if decide (b = c) then occ c (take j zs) else 0)).
      * split; [reflexivity|]. intros c. rewrite E. rewrite take_0. change (occ c []) with 0%nat. destruct (decide (b = c)); rewrite Nat.add_0_r; reflexivity.
      * intros j m' hi Hj [-> E']. destruct (lookup_lt_is_Some_2 zs j Hj) as [z Hz]. wbind. eapply wp_label; [exact W|exact Hy|exact Hp|exact HZ|exact Hz|].
        assert (Ez : forall c, occ c (take (S j) zs) = (occ c (take j zs) + if decide (z = c) then 1 else 0)%nat) by (intros c; rewrite (take_S_r _ _ z Hz), occ_app, occ_single; reflexivity).
        destruct (Z.eqb_spec b z) as [->|Hbz].
        -- wbind. apply wp_chk.
           { rewrite E', decide_True by reflexivity. specialize (Ez z). rewrite decide_True in Ez by reflexivity. specialize (Et z). rewrite decide_True in Et by reflexivity. pose proof (occ_take z zs (S j)). pose proof (occ_take z nl (S i)). specialize (Hb z). unfold votes in Hb. unfold int_max in *.
             assert (occ z (take i nl) * occ z zs + occ z (take (S j) zs) <= occ z nl * occ z zs)%nat by nia. lia. }
           apply wp_ret. split; [reflexivity|]. intros c. unfold count_of at 1. destruct (decide (z = c)) as [<-|Hc].
           ++ rewrite lookup_insert. cbn [default from_option id]. rewrite E', Ez, !decide_True by reflexivity. lia.
           ++ rewrite lookup_insert_ne by exact Hc. fold (count_of m' c). rewrite E', !(decide_False (P := z = c)) by exact Hc. reflexivity.
        -- apply wp_ret. split; [reflexivity|]. intros c. rewrite E'. destruct (decide (b = c)) as [<-|Hc]; [|reflexivity]. rewrite Ez, (decide_False (P := z = b)) by congruence. f_equal. lia.
      * intros m' hi [-> E']. split; [reflexivity|]. intros c. rewrite E', Et. rewrite (take_ge zs) by lia. destruct (decide (b = c)); lia.
    + intros m hi [-> E]. rewrite take_ge in E by lia. destruct zs as [|z0 zs]; [congruence|]. wbind. eapply (wp_label h y ys (z0 :: zs) p 0%nat z0); [exact W|exact Hy|exact Hp|exact HZ|reflexivity|].
      wbind. apply wp_for_acc_n with (I := fun i st hi => hi = h /\ st = foldl (best_step (z0 :: zs) nl) (z0, Z.of_nat (votes (z0 :: zs) nl z0)) (take i (z0 :: zs))).
      * split; [reflexivity|]. rewrite E. reflexivity.
      * intros i st hi Hi [-> ->]. destruct (lookup_lt_is_Some_2 (z0 :: zs) i Hi) as [z Hz]. wbind. eapply wp_label; [exact W|exact Hy|exact Hp|exact HZ|exact Hz|]. apply wp_ret. split; [reflexivity|].
        rewrite (take_S_r _ _ z Hz), foldl_app. cbn [foldl]. unfold best_step at 1. rewrite E. reflexivity.
      * intros st hi [-> ->]. apply wp_ret. rewrite take_ge by lia. exact HQ.
Qed.
(** The result: the first label with the most votes. *)
Lemma best_ok zs nl : zs <> [] -> exists i, zs !! i = Some (best zs nl) /\ forall j c, zs !! j = Some c -> (votes zs nl c <= votes zs nl (best zs nl))%nat /\ ((j < i)%nat -> (votes zs nl c < votes zs nl (best zs nl))%nat).
Proof.
  intros Hne. unfold best. destruct zs as [|z0 zs]; [congruence|]. cbn [nth]. set (l := z0 :: zs). set (f := best_step l nl). set (s0 := (z0, Z.of_nat (votes l nl z0))).
  assert (I : forall n, (0 < n <= length l)%nat -> let st := foldl f s0 (take n l) in snd st = Z.of_nat (votes l nl (fst st)) /\ exists i, l !! i = Some (fst st) /\ (i < n)%nat /\ forall j c, (j < n)%nat -> l !! j = Some c -> (votes l nl c <= votes l nl (fst st))%nat /\ ((j < i)%nat -> (votes l nl c < votes l nl (fst st))%nat)).
  { induction n as [|n IH]; intros Hn; [lia|]. cbv zeta. destruct (decide (n = 0%nat)) as [->|Hn0].
    - assert (Es : foldl f s0 (take 1 l) = s0) by (change (take 1 l) with [z0]; cbn [foldl]; unfold f, best_step, s0; cbn [fst snd]; rewrite Z.ltb_irrefl; reflexivity). rewrite Es. unfold s0. cbn [fst snd]. split; [reflexivity|]. exists 0%nat. split; [reflexivity|]. split; [lia|]. intros j c Hj Hc. replace j with 0%nat in Hc by lia. injection Hc as <-. split; [lia|lia].
    - destruct (IH ltac:(lia)) as (E & i & Hi & Li & Hmax). destruct (lookup_lt_is_Some_2 l n ltac:(lia)) as [c Hc]. rewrite (take_S_r _ _ c Hc), foldl_app. cbn [foldl]. set (st := foldl f s0 (take n l)) in *. unfold f, best_step. rewrite E. destruct (Z.ltb_spec (Z.of_nat (votes l nl (fst st))) (Z.of_nat (votes l nl c))) as [G|G].
      + cbn [fst snd]. split; [reflexivity|]. exists n. split; [exact Hc|]. split; [lia|]. intros j c' Hj Hc'. destruct (decide (j = n)) as [->|Hjn]; [rewrite Hc in Hc'; injection Hc' as <-; split; lia|]. destruct (Hmax j c' ltac:(lia) Hc') as [M1 _]. split; lia.
      + split; [exact E|]. exists i. split; [exact Hi|]. split; [lia|]. intros j c' Hj Hc'. destruct (decide (j = n)) as [->|Hjn]; [rewrite Hc in Hc'; injection Hc' as <-; split; lia|]. apply Hmax; [lia|exact Hc']. }
  destruct (I (length l) ltac:(unfold l; cbn; lia)) as (_ & i & Hi & _ & Hmax). rewrite take_ge in Hi, Hmax by lia. exists i. split; [exact Hi|]. intros j c Hc. apply Hmax; [apply lookup_lt_Some in Hc; exact Hc|exact Hc].
Qed.
End knn.
