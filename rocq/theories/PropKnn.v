(** * C55: k-nearest-neighbour classification. *)
From Verif Require Import Base BaseProofs Vec VecSpec VecProofs VecProofs2 Mat MatSpec MatProofs MatProofs2 MatProofs3 MatProofs4 MatProofs5 Frame StatProofs Act ActProofs ActProofs2 Cost CostProofs Sym Svm Util UtilProofs Knn KnnProofs.

Section knn.
Context {F : Type} `{Scalar F} `{Libm F}.
Implicit Types (h : heap F) (xs ys : list F) (rows : list (list F)) (d : nat -> F) (js : list nat) (zs : list Z).

(** ** Specification *)
(** Euclidean distance as euclidean_distance computes it (0 when the sizes differ). *)
Definition distance xs ys : F :=
  if decide (length xs = length ys) then s_sqrt (foldl (fun c '(x, y) => s_add c (s_mul (s_sub x y) (s_sub x y))) s_zero (zip xs ys)) else s_zero.
Definition distances xs rows (j : nat) : F := distance xs (nth j rows []).
(** Row a comes before row b: strictly nearer, or not farther and earlier. *)
Definition nearer d (a b : nat) : Prop := s_lt (d a) (d b) = true \/ s_lt (d b) (d a) = false /\ (a < b)%nat.
(** [js] are the nearest [length js] of the rows 0 .. n-1, nearest first. *)
Record nearest_rows d (n : nat) js : Prop := {
  nr_distinct : NoDup js;
  nr_rows : Forall (fun a => (a < n)%nat) js;
  nr_order : forall i j a b, (i < j)%nat -> js !! i = Some a -> js !! j = Some b -> nearer d a b;
  nr_all : forall a b, a ∈ js -> (b < n)%nat -> b ∉ js -> nearer d a b }.
(** The number of rows strictly nearer than row 0. *)
Definition nearer_than_row0 d n : nat := length (filter (fun j => s_lt (d j) (d 0%nat) = true) (seq 0 n)).
(** How often c occurs among the labels. *)
Definition frequency zs (c : Z) : nat := length (filter (fun z => z = c) zs).
(** The number the class c gets: its frequency in the training labels if c, read as a row number, is one of the neighbours. *)
Definition row_number_votes zs js (c : Z) : nat := if bool_decide (c ∈ Z.of_nat <$> js) then frequency zs c else 0%nat.
(** c is the first label with the largest number. *)
Definition first_with_most zs (f : Z -> nat) (c : Z) : Prop :=
  exists i, zs !! i = Some c /\ forall j c', zs !! j = Some c' -> (f c' <= f c)%nat /\ ((j < i)%nat -> (f c' < f c)%nat).

(** The classifier [o] holds the training rows and labels; the labels, truncated to int, are [zs]. *)
Record trained h (o : knn) (c : nat) rows (zs : list Z) : Prop := {
  tr_x : exists x, kn_x o = Some x /\ abs h !! x = Some (Rows c rows);
  tr_width : width c rows;
  tr_rows : rows <> [];
  tr_y : exists y ys, kn_y o = Some y /\ abs h !! y = Some (AVec ys) /\ Forall2 (fun v k => m_to_int v = Some k) ys zs;
  tr_labels : zs <> [] }.

(** ** Proofs *)
Lemma neighbours_ok (P : F -> Prop) h o c rows zs p xs : swo_on P -> wf h -> trained h o c rows zs -> abs h !! p = Some (AVec xs) ->
  (forall j, (j < length rows)%nat -> P (distances xs rows j)) ->
  nearest_rows (distances xs rows) (length rows) (nn (rdist xs rows) (length rows) (Z.to_nat (kn_k o))) /\
  length (nn (rdist xs rows) (length rows) (Z.to_nat (kn_k o))) = Nat.min (Z.to_nat (kn_k o)) (S (nearer_than_row0 (distances xs rows) (length rows))).
Proof.
  intros HP W T Hp HPd. assert (Hn : (0 < length rows)%nat) by (pose proof (tr_rows _ _ _ _ _ T); destruct rows; [congruence|cbn; lia]).
  pose proof (nn_nearest P HP (rdist xs rows) (length rows) HPd Hn (Z.to_nat (kn_k o))) as N. split.
  - destruct N as [N1 N2 N3 N4 _ _]. split; assumption.
  - exact (nearest_length P HP (rdist xs rows) (length rows) HPd _ _ Hn N).
Qed.
Lemma nodup_occ c zs : NoDup zs -> occ c zs = if bool_decide (c ∈ zs) then 1%nat else 0%nat.
Proof.
  induction zs as [|z zs IH]; [reflexivity|]. intros [Hz Hn]%list.NoDup_cons. change (z :: zs) with ([z] ++ zs). rewrite occ_app, occ_single, IH by exact Hn. destruct (decide (z = c)) as [->|Hc].
  - rewrite (bool_decide_false (c ∈ zs)) by exact Hz. rewrite bool_decide_true by (apply elem_of_app; left; apply elem_of_list_singleton; reflexivity). reflexivity.
  - rewrite Nat.add_0_l. erewrite bool_decide_ext; [reflexivity|]. rewrite elem_of_app, elem_of_list_singleton. intuition congruence.
Qed.
Lemma votes_spec zs js c : NoDup js -> votes zs (Z.of_nat <$> js) c = row_number_votes zs js c.
Proof.
  intros Hn. unfold votes, row_number_votes. rewrite nodup_occ by (apply NoDup_fmap_2; [intros a b E; lia|exact Hn]).
  destruct (bool_decide _); [apply Nat.mul_1_l|reflexivity].
Qed.
Lemma nn_nodup d n k : NoDup (nn d n k).
Proof.
  induction k as [|k IH]; cbn [nn]; [constructor|]. case_bool_decide as E; [exact IH|]. apply list.NoDup_app. split; [exact IH|]. split; [|apply NoDup_singleton]. intros z Hz Hz'. apply elem_of_list_singleton in Hz'. congruence.
Qed.
Lemma wp_knn_model_test h o c rows zs p xs (Q : Z -> heap F -> Prop) : wf h -> trained h o c rows zs -> abs h !! p = Some (AVec xs) ->
  (forall h', wf h' -> abs h' = abs h -> Q (best zs (Z.of_nat <$> nn (rdist xs rows) (length rows) (Z.to_nat (kn_k o)))) h') -> wp (knn_model_test o (Some p)) h Q.
Proof.
  intros W [(x & Ex & Hx) Hwd Hr (y & ys & Ey & Hy & HZ) Hz] Hp HQ. unfold knn_model_test. wbind. eapply wp_knn_nearest; [exact W|exact Ex|exact Hx|exact Hwd|exact Hp|exact Hr|]. intros h' W' A'.
  eapply wp_knn_class; [exact W'|exact Ey|rewrite A'; exact Hy|exact HZ| |exact Hz|apply HQ; assumption].
  intros z. rewrite votes_spec by apply nn_nodup. unfold row_number_votes. destruct (bool_decide _); [|unfold int_max; lia]. pose proof (avec_len h y ys W Hy) as L. pose proof (Forall2_length _ _ _ HZ) as El.
  assert (frequency zs z <= length zs)%nat by (apply filter_length). unfold int_max in *; lia.
Qed.

(** ** The theorems *)
(** Finding the neighbours: they are the nearest rows, nearest first, ties by row number, each once; but never more than the
    rows strictly nearer than row 0 and row 0 itself. *)
Theorem C55_neighbours (P : F -> Prop) h o c rows zs p xs : swo_on P -> wf h -> trained h o c rows zs -> abs h !! p = Some (AVec xs) ->
  (forall j, (j < length rows)%nat -> P (distances xs rows j)) ->
  runs (knn_nearest o (Some p)) h (fun ns h' => abs h' = abs h /\ exists js, ns = Z.of_nat <$> js /\
    nearest_rows (distances xs rows) (length rows) js /\
    length js = Nat.min (Z.to_nat (kn_k o)) (S (nearer_than_row0 (distances xs rows) (length rows)))).
Proof.
  intros HP W T Hp HPd. destruct (neighbours_ok P h o c rows zs p xs HP W T Hp HPd) as [N L]. destruct T as [(x & Ex & Hx) Hwd Hr _ _]. apply runs_wp. eapply wp_knn_nearest; [exact W|exact Ex|exact Hx|exact Hwd|exact Hp|exact Hr|].
  intros h' W' A'. split; [exact W'|]. split; [exact A'|]. eexists. split; [reflexivity|]. split; [exact N|exact L].
Qed.
(** So the k nearest rows are found exactly when at least k - 1 rows are strictly nearer than row 0. *)
Theorem C55_neighbours_full (P : F -> Prop) h o c rows zs p xs (k : nat) : swo_on P -> wf h -> trained h o c rows zs -> abs h !! p = Some (AVec xs) ->
  (forall j, (j < length rows)%nat -> P (distances xs rows j)) -> kn_k o = Z.of_nat k ->
  runs (knn_nearest o (Some p)) h (fun ns h' => length ns = k <-> (k <= S (nearer_than_row0 (distances xs rows) (length rows)))%nat).
Proof.
  intros HP W T Hp HPd Ek. destruct (C55_neighbours P h o c rows zs p xs HP W T Hp HPd) as (ns & h' & E & W' & A & js & -> & _ & L). exists (Z.of_nat <$> js), h'. split; [exact E|]. split; [exact W'|]. rewrite fmap_length, L, Ek, Nat2Z.id. lia.
Qed.
(** The class returned is not the majority label of the neighbours: a label counts when it is, as a number, the row number of a
    neighbour.  Nothing is changed or leaked. *)
Theorem C55_model_test (P : F -> Prop) h o c rows zs p xs : swo_on P -> wf h -> trained h o c rows zs -> abs h !! p = Some (AVec xs) ->
  (forall j, (j < length rows)%nat -> P (distances xs rows j)) ->
  runs (knn_model_test o (Some p)) h (fun cl h' => abs h' = abs h /\ exists js,
    nearest_rows (distances xs rows) (length rows) js /\
    length js = Nat.min (Z.to_nat (kn_k o)) (S (nearer_than_row0 (distances xs rows) (length rows))) /\
    first_with_most zs (row_number_votes zs js) cl).
Proof.
  intros HP W T Hp HPd. destruct (neighbours_ok P h o c rows zs p xs HP W T Hp HPd) as [N L]. pose proof (tr_labels _ _ _ _ _ T) as Hz. apply runs_wp. eapply wp_knn_model_test; [exact W|exact T|exact Hp|]. intros h' W' A'. split; [exact W'|]. split; [exact A'|].
  eexists. split; [exact N|]. split; [exact L|]. destruct (best_ok zs (Z.of_nat <$> nn (rdist xs rows) (length rows) (Z.to_nat (kn_k o))) Hz) as (i & Hi & Hmax). exists i. split; [exact Hi|]. intros j c' Hc'. specialize (Hmax j c' Hc').
  rewrite <- !votes_spec by apply nn_nodup. exact Hmax.
Qed.
(** With no order on the distances assumed (NaN included): a label of the training set is returned and no object changes. *)
Theorem C55_model_test_label h o c rows zs p xs : wf h -> trained h o c rows zs -> abs h !! p = Some (AVec xs) ->
  runs (knn_model_test o (Some p)) h (fun cl h' => abs h' = abs h /\ cl ∈ zs).
Proof.
  intros W T Hp. pose proof (tr_labels _ _ _ _ _ T) as Hz. apply runs_wp. eapply wp_knn_model_test; [exact W|exact T|exact Hp|]. intros h' W' A'. split; [exact W'|]. split; [exact A'|].
  destruct (best_ok zs (Z.of_nat <$> nn (rdist xs rows) (length rows) (Z.to_nat (kn_k o))) Hz) as (i & Hi & _). apply elem_of_list_lookup_2 in Hi. exact Hi.
Qed.
(** When no label is the number of a training row, every query gets the first label. *)
Theorem C55_constant h o c rows zs z0 p xs : wf h -> trained h o c rows zs -> abs h !! p = Some (AVec xs) ->
  Forall (fun z => z < 0 \/ Z.of_nat (length rows) <= z) zs -> zs !! 0%nat = Some z0 ->
  runs (knn_model_test o (Some p)) h (fun cl h' => abs h' = abs h /\ cl = z0).
Proof.
  intros W T Hp HF H0z. pose proof (tr_labels _ _ _ _ _ T) as Hz. pose proof (tr_rows _ _ _ _ _ T) as Hr. apply runs_wp. eapply wp_knn_model_test; [exact W|exact T|exact Hp|]. intros h' W' A'. split; [exact W'|]. split; [exact A'|].
  set (js := nn (rdist xs rows) (length rows) (Z.to_nat (kn_k o))).
  assert (Hjs : Forall (fun a => (a < length rows)%nat) js).
  { assert (Hb : forall ns m, (m <= length rows)%nat -> (foldl (scan_step (rdist xs rows) ns) 0%nat (seq 0 m) < length rows)%nat).
    { intros ns. induction m as [|m IH]; intros Hm; [destruct rows; [congruence|cbn; lia]|]. rewrite seq_S, foldl_app. cbn [foldl]. unfold scan_step at 1. specialize (IH ltac:(lia)). destruct (bool_decide _); [exact IH|]. destruct (s_lt _ _); [lia|exact IH]. }
    unfold js. generalize (Z.to_nat (kn_k o)) as k. induction k as [|k IH]; cbn [nn]; [constructor|]. case_bool_decide; [exact IH|]. apply Forall_app. split; [exact IH|]. constructor; [|constructor]. apply Hb. lia. }
  destruct (best_ok zs (Z.of_nat <$> js) Hz) as (i & Hi & Hmax). destruct (decide (i = 0%nat)) as [->|Hi0]; [congruence|]. destruct (Hmax 0%nat z0 H0z) as [_ G]. specialize (G ltac:(lia)). exfalso.
  rewrite !votes_spec in G by apply nn_nodup. unfold row_number_votes at 2 in G. case_bool_decide as Ea; [|lia]. apply elem_of_list_fmap in Ea as (a & Ea & Ha). rewrite list.Forall_forall in HF. rewrite list.Forall_forall in Hjs. specialize (Hjs a Ha). apply elem_of_list_lookup_2 in Hi. specialize (HF _ Hi). lia.
Qed.
(** One neighbour: when row i is the unique nearest row, the class is the number i if that is a label at all, and the first
    label otherwise; the label of row i plays no role. *)
Theorem C55_one_neighbour (P : F -> Prop) h o c rows zs z0 p xs i : swo_on P -> wf h -> trained h o c rows zs -> abs h !! p = Some (AVec xs) ->
  (forall j, (j < length rows)%nat -> P (distances xs rows j)) -> kn_k o = 1 -> (i < length rows)%nat ->
  (forall j, (j < length rows)%nat -> j <> i -> s_lt (distances xs rows i) (distances xs rows j) = true) -> zs !! 0%nat = Some z0 ->
  runs (knn_model_test o (Some p)) h (fun cl h' => abs h' = abs h /\ cl = if bool_decide (Z.of_nat i ∈ zs) then Z.of_nat i else z0).
Proof.
  intros HP W T Hp HPd Ek Li Hu Hz0. destruct (C55_model_test P h o c rows zs p xs HP W T Hp HPd) as (cl & h' & E & W' & A & js & [N1 N2 N3 N4] & L & (m & Hm & Hmax)). exists cl, h'. split; [exact E|]. split; [exact W'|]. split; [exact A|].
  rewrite Ek in L. change (Z.to_nat 1) with 1%nat in L. destruct js as [|a [|? ?]]; [cbn in L; lia| |cbn in L; lia].
  assert (a = i) as ->. { destruct (decide (a = i)) as [E0|E0]; [exact E0|]. apply Forall_inv in N2. pose proof (Hu a N2 E0) as G. destruct (N4 a i ltac:(left) Li ltac:(rewrite elem_of_list_singleton; congruence)) as [G'|[G' _]]; [|congruence].
    pose proof (swo_trans P HP _ _ _ (HPd a N2) (HPd i Li) (HPd a N2) G' G) as B. rewrite (swo_irrefl P HP _ (HPd a N2)) in B. discriminate. }
  assert (V : forall z, row_number_votes zs [i] z = if decide (z = Z.of_nat i) then frequency zs z else 0%nat).
  { intros z. unfold row_number_votes. destruct (decide (z = Z.of_nat i)) as [->|Hne]; [rewrite bool_decide_true; [reflexivity|]; cbn; left|]. rewrite bool_decide_false; [reflexivity|]. cbn. rewrite elem_of_list_singleton. congruence. }
  case_bool_decide as Hin.
  - apply elem_of_list_lookup in Hin as [q Hq]. destruct (Hmax q _ Hq) as [G _]. rewrite !V, decide_True in G by reflexivity. destruct (decide (cl = Z.of_nat i)) as [->|Hne]; [reflexivity|]. exfalso.
    assert (0 < frequency zs (Z.of_nat i))%nat; [|lia]. unfold frequency. apply elem_of_list_lookup_2 in Hq. assert (Z.of_nat i ∈ filter (fun z => z = Z.of_nat i) zs) as Hf by (apply elem_of_list_filter; auto). destruct (filter _ zs); [apply elem_of_nil in Hf; tauto|cbn; lia].
  - destruct (decide (m = 0%nat)) as [->|Hm0]; [congruence|]. destruct (Hmax 0%nat _ Hz0) as [_ G]. specialize (G ltac:(lia)). exfalso. rewrite !V in G. destruct (decide (cl = Z.of_nat i)) as [->|Hne]; [|lia]. apply elem_of_list_lookup_2 in Hm. tauto.
Qed.
(** Null references: without input set the first label is returned, without output set 0; without a query the behaviour is
    undefined as soon as there is a row to compare with. *)
Theorem C55_null_output h o r : kn_x o = None -> kn_y o = None -> knn_model_test o r h = Ok 0 h.
Proof. intros E1 E2. unfold knn_model_test, knn_nearest, bind. rewrite E1. cbn. unfold knn_class. rewrite E2. reflexivity. Qed.
Theorem C55_null_output_trained h o x c rows p xs : wf h -> kn_x o = Some x -> abs h !! x = Some (Rows c rows) -> width c rows -> rows <> [] -> abs h !! p = Some (AVec xs) ->
  kn_y o = None -> runs (knn_model_test o (Some p)) h (fun cl h' => cl = 0 /\ abs h' = abs h).
Proof.
  intros W Ex Hx Hwd Hr Hp Ey. apply runs_wp. unfold knn_model_test. wbind. eapply wp_knn_nearest; [exact W|exact Ex|exact Hx|exact Hwd|exact Hp|exact Hr|]. intros h' W' A'. unfold knn_class. rewrite Ey. apply wp_ret. auto.
Qed.
Theorem C55_null_input h o r y ys zs z0 : wf h -> kn_x o = None -> kn_y o = Some y -> abs h !! y = Some (AVec ys) -> Forall2 (fun v k => m_to_int v = Some k) ys zs ->
  zs !! 0%nat = Some z0 -> knn_model_test o r h = Ok z0 h.
Proof.
  intros W Ex Ey Hy HZ Hz. assert (R : wp (knn_model_test o r) h (fun cl h' => cl = z0 /\ h' = h)).
  { unfold knn_model_test, knn_nearest. rewrite Ex. wbind. apply wp_ret. assert (zs <> []) as Hne by (intros ->; discriminate). eapply wp_knn_class; [exact W|exact Ey|exact Hy|exact HZ| |exact Hne|].
    - intros c. unfold votes. cbn. unfold int_max. lia.
    - split; [|reflexivity]. destruct (best_ok zs [] Hne) as (i & Hi & Hmax). destruct (decide (i = 0%nat)) as [->|Hi0]; [congruence|]. destruct (Hmax 0%nat _ Hz) as [_ G]. specialize (G ltac:(lia)). unfold votes in G. cbn in G. lia. }
  apply wp_ok in R as (a & h' & E & -> & ->). exact E.
Qed.
Theorem C55_null_query h o c rows zs : wf h -> trained h o c rows zs -> 0 < kn_k o -> knn_model_test o None h = UB.
Proof.
  intros W [(x & Ex & Hx) Hwd Hr _ _] Hk. pose proof (rows_int h x c rows W Hx Hwd Hr) as Hc. unfold knn_model_test. apply bind_UB_first. unfold knn_nearest. rewrite Ex.
  apply bind_UB. eapply wp_v_new; [exact W|]. intros t1 h1 W1 N1 A1 _. apply bind_UB. eapply wp_v_new; [exact W1|]. intros t2 h2 W2 N2 A2 _. rewrite A1 in N2, A2. split_none N2.
  assert (D1 : x <> t1) by congruence. assert (D2 : x <> t2) by congruence. assert (D : t1 <> t2) by congruence.
  apply bind_UB. eapply wp_m_size; [look; rewrite !lookup_insert_ne by congruence; exact Hx|]. cbn [fst snd]. apply bind_UB_first. unfold for_acc.
  destruct (Z.to_nat (kn_k o - 0)) as [|k] eqn:Ek; [lia|]. cbn [for_nat]. apply bind_UB_first. apply bind_UB_first. unfold knn_scan, for_acc. destruct rows as [|r0 rows]; [congruence|].
  replace (Z.to_nat (Z.of_nat (length (r0 :: rows)) - 0)) with (S (length rows)) by (cbn [length]; lia). cbn [for_nat]. apply bind_UB_first. rewrite bool_decide_false by apply not_elem_of_empty.
  apply bind_UB. eapply wp_m_row_get_into with (row := r0); [exact W2|look; exact Hx|exact Hwd|look|lia|reflexivity|exact Hc|]. intros h3 W3 A3 _. rewrite A2 in A3.
  apply bind_UB. eapply wp_m_row_get_into with (row := r0); [exact W3|look; exact Hx|exact Hwd|look|lia|reflexivity|exact Hc|]. intros h4 W4 A4 _. reflexivity.
Qed.

(** model_set_test classifies every row of X as model_test would classify a vector with that content. *)
Lemma wp_knn_model_set_test h o c rows zs X c' rowsX (Q : list Z -> heap F -> Prop) : wf h -> trained h o c rows zs -> abs h !! X = Some (Rows c' rowsX) -> width c' rowsX ->
  (forall h', wf h' -> abs h' = abs h -> Q ((fun xs => best zs (Z.of_nat <$> nn (rdist xs rows) (length rows) (Z.to_nat (kn_k o)))) <$> rowsX) h') ->
  wp (knn_model_set_test o (Some X)) h Q.
Proof.
  intros W T HX Hwd HQ. set (f := fun xs => best zs (Z.of_nat <$> nn (rdist xs rows) (length rows) (Z.to_nat (kn_k o)))) in *. unfold knn_model_set_test. wbind. eapply wp_v_new; [exact W|]. intros v h1 W1 N1 A1 _.
  assert (Dx : X <> v) by congruence. wbind. eapply wp_m_size; [look; exact HX|]. cbn [fst snd].
  wbind. apply wp_for_acc_n with (I := fun i cs hi => wf hi /\ (exists n0 c0, abs hi = <[v := (SVec n0, c0)]> (abs h)) /\ cs = f <$> take i rowsX).
  - split_and!; [exact W1|do 2 eexists; exact A1|reflexivity].
  - intros i cs hi Hi (Wi & (n0 & c0 & Ai) & ->). destruct (lookup_lt_is_Some_2 rowsX i Hi) as [row Hrow].
    assert (Hc : Z.of_nat c' <= int_max) by (eapply (rows_int h X c' rowsX); [exact W|exact HX|exact Hwd|intros ->; cbn in Hi; lia]).
    wbind. eapply wp_m_row_get_into with (row := row); [exact Wi|look; exact HX|exact Hwd|look|lia|rewrite Nat2Z.id; exact Hrow|exact Hc|]. intros h2 W2 A2 _. rewrite Ai, insert_insert in A2.
    wbind. eapply (wp_knn_model_test h2 o c rows zs v row); [exact W2| |look|].
    + destruct T as [(x & Ex & Hx) Hw' Hr (y & ys & Ey & Hy & HZ) Hz]. split; [|exact Hw'|exact Hr| |exact Hz].
      * exists x. split; [exact Ex|]. look.
      * exists y, ys. split; [exact Ey|]. split; [|exact HZ]. look.
    + intros h3 W3 A3. apply wp_ret. split_and!; [exact W3|do 2 eexists; rewrite A3; exact A2|]. rewrite (take_S_r _ _ row Hrow), fmap_app. reflexivity.
  - intros cs hi (Wi & (n0 & c0 & Ai) & ->). wbind. eapply wp_del; [exact Wi|look|]. intros h2 W2 A2 _. rewrite Ai, delete_insert in A2 by exact N1. apply wp_ret. rewrite take_ge by lia. apply HQ; [exact W2|exact A2].
Qed.
Theorem C55_model_set_test h o c rows zs X c' rowsX : wf h -> trained h o c rows zs -> abs h !! X = Some (Rows c' rowsX) -> width c' rowsX ->
  runs (knn_model_set_test o (Some X)) h (fun cs h' => abs h' = abs h /\ length cs = length rowsX /\
    forall i xs, rowsX !! i = Some xs -> exists cl, cs !! i = Some cl /\
      forall h1 p, wf h1 -> trained h1 o c rows zs -> abs h1 !! p = Some (AVec xs) -> runs (knn_model_test o (Some p)) h1 (fun cl' _ => cl' = cl)).
Proof.
  intros W T HX Hwd. apply runs_wp. eapply wp_knn_model_set_test; [exact W|exact T|exact HX|exact Hwd|]. intros h' W' A'. split; [exact W'|]. split; [exact A'|]. split; [apply fmap_length|].
  intros i xs Hi. eexists. split; [rewrite list_lookup_fmap, Hi; reflexivity|]. intros h1 p W1 T1 Hp. apply runs_wp. eapply wp_knn_model_test; [exact W1|exact T1|exact Hp|]. intros h2 W2 _. split; [exact W2|reflexivity].
Qed.
Theorem C55_model_set_test_null h o : knn_model_set_test o None h = Ok [] h.
Proof. reflexivity. Qed.

Lemma wp_performance_pool rnd h yh y ys (Q : F -> heap F -> Prop) : wf h -> abs h !! y = Some (AVec ys) ->
  Q (s_div (foldl (fun c i => if s_eq (s_of_Z (nth i yh 0)) (rnd (nth i ys s_zero)) then s_add c s_one else c) s_zero (seq 0 (length yh))) (s_of_Z (Z.of_nat (length yh)))) h ->
  wp (performance_pool rnd yh (Some y)) h Q.
Proof.
  intros W Hy HQ. unfold performance_pool. wbind. apply wp_for_acc_n with (I := fun n c hi => hi = h /\ c = foldl (fun c i => if s_eq (s_of_Z (nth i yh 0)) (rnd (nth i ys s_zero)) then s_add c s_one else c) s_zero (seq 0 n)).
  - split; reflexivity.
  - intros i c hi Hi [-> ->]. wbind. eapply wp_v_get; [exact W|exact Hy|]. replace (Z.of_nat i <? 0) with false by lia. apply wp_ret. split; [reflexivity|]. rewrite seq_S, foldl_app. cbn [foldl]. rewrite Nat.add_0_l, Nat2Z.id, <- (nth_lookup ys). reflexivity.
  - intros c hi [-> ->]. apply wp_ret. exact HQ.
Qed.
End knn.

From Verif Require Import LibmR PropAct PropAct2 CostSpec PropUtil.
From Coq Require Import Reals Lra.
From Verif Require Import RInst.
Section score.
Implicit Types (h : heap R) (xs ys : list R) (rows : list (list R)).
Open Scope R_scope.
(** score() is the fraction of the training rows whose predicted class is the rounded label. *)
Theorem C55_score h o c rows zs y ys : wf h -> trained h o c rows zs -> kn_y o = Some y -> abs h !! y = Some (AVec ys) ->
  runs (knn_score Rround o) h (fun s h' => abs h' = abs h /\ exists cs, length cs = length rows /\
    (forall i xs, rows !! i = Some xs -> exists cl, cs !! i = Some cl /\
       forall h1 p, wf h1 -> trained h1 o c rows zs -> abs h1 !! p = Some (AVec xs) -> runs (knn_model_test o (Some p)) h1 (fun cl' _ => cl' = cl)) /\
    s = INR (length (filter (fun i => Reqb (IZR (nth i cs 0%Z)) (Rround (nth i ys 0)) = true) (seq 0 (length rows)))) / INR (length rows)).
Proof.
  intros W T Ey Hy. pose proof T as [(x & Ex & Hx) Hwd Hr _ _].
  destruct (C55_model_set_test h o c rows zs x c rows W T Hx Hwd) as (cs & h1 & E & W1 & A1 & L & Hcs). apply runs_wp. unfold knn_score. rewrite Ex. wbind. apply wp_ok. exists cs, h1. split; [exact E|].
  rewrite Ey. eapply wp_performance_pool; [exact W1|rewrite A1; exact Hy|]. split; [exact W1|]. split; [exact A1|]. exists cs. split; [exact L|]. split; [exact Hcs|]. rewrite L.
  cbn [s_div R_scalar]. change (s_of_Z (F := R) (Z.of_nat (length rows))) with (IZR (Z.of_nat (length rows))). rewrite <- INR_IZR_INZ. f_equal.
  assert (G : forall l a, foldl (fun c i => if s_eq (s_of_Z (nth i cs 0%Z)) (Rround (nth i ys s_zero)) then s_add c s_one else c) a l = a + INR (length (filter (fun i => Reqb (IZR (nth i cs 0%Z)) (Rround (nth i ys 0)) = true) l))).
  { induction l as [|i l IH]; intros a; cbn [foldl]; [cbn; lra|]. rewrite IH, filter_cons. change (s_eq (s_of_Z (nth i cs 0%Z)) (Rround (nth i ys s_zero))) with (Reqb (IZR (nth i cs 0%Z)) (Rround (nth i ys 0))). 
    destruct (Reqb (IZR (nth i cs 0%Z)) (Rround (nth i ys 0))) eqn:Ei; [rewrite decide_True by reflexivity|rewrite decide_False by discriminate; reflexivity]. cbn [length]. rewrite S_INR. change (s_add (F := R) a s_one) with (a + 1). ring. }
  rewrite G. change (s_zero (F := R)) with 0. ring.
Qed.
End score.
