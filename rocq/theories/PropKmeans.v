(** * C56: k-means clustering. *)
From Verif Require Import Base BaseProofs Vec VecSpec VecProofs VecProofs2 Mat MatSpec MatProofs MatProofs2 MatProofs3 MatProofs4 MatProofs5 Frame StatProofs Act ActProofs ActProofs2 Cost CostProofs Sym Svm LinAlg LinAlgProofs Util UtilProofs Knn KnnProofs PropKnn Kmeans KmeansProofs.

Section kmeans.
Context {F : Type} `{Scalar F}.
Implicit Types (h : heap F) (xs : list F) (pts cs : list (list F)) (a : nat -> nat) (pick : Z -> Z).

(** ** Specification *)
(** Distance of a point to centroid j, as euclidean_distance computes it. *)
Definition to_centroid xs cs (j : nat) : F := distances xs cs j.
(** j is the first centroid among the nearest. *)
Definition first_nearest xs cs (j : nat) : Prop := (j < length cs)%nat /\ forall i, (i < length cs)%nat ->
  s_lt (to_centroid xs cs i) (to_centroid xs cs j) = false /\ ((i < j)%nat -> s_lt (to_centroid xs cs j) (to_centroid xs cs i) = true).
(** Some centroid is strictly nearer than centroid 0. *)
Definition beats0 xs cs : Prop := exists j, (j < length cs)%nat /\ s_lt (to_centroid xs cs j) (to_centroid xs cs 0%nat) = true.
(** The rule the program follows: the first nearest centroid if some centroid is strictly nearer than centroid 0; otherwise the
    centroid of the previous point (0 for the first point). *)
Definition stale_rule pts cs a : Prop := forall i, (i < length pts)%nat ->
  (beats0 (nth i pts []) cs -> first_nearest (nth i pts []) cs (a i)) /\
  (~ beats0 (nth i pts []) cs -> a i = match i with O => O | S i' => a i' end).
(** Coordinate t of the new centroid i: (sum over the points j of x_jt * r_ji) * (1 / sum of r_ji), r_ji = 1 for the points of
    cluster i and 0 for the others. *)
Definition member a (i j : nat) : F := if decide (a j = i) then s_one else s_zero.
Definition cluster_mean pts a (i t : nat) : F :=
  s_mul (lsum (length pts) (fun j => s_mul (nth t (nth j pts []) s_zero) (member a i j))) (s_div s_one (lsum (length pts) (member a i))).
(** What one epoch does to k centroids of dimension d: means of the clusters if k = d, nothing otherwise. *)
Definition epoch_update (d : nat) pts cs a cs' : Prop := length cs' = length cs /\ width d cs' /\
  (length cs = d -> forall i t, (i < length cs)%nat -> (t < d)%nat -> nth t (nth i cs' []) s_zero = cluster_mean pts a i t) /\
  (length cs <> d -> cs' = cs).
Inductive epochs (d : nat) pts : nat -> list (list F) -> list (list F) -> Prop :=
| ep_0 cs : epochs d pts 0 cs cs
| ep_S n cs a cs1 cs2 : epochs d pts n cs cs1 -> stale_rule pts cs1 a -> epoch_update d pts cs1 a cs2 -> epochs d pts (S n) cs cs2.
(** The object holds the data set pts (dimension d), its centroids are cs and its assignment matrix has a 1 in row i exactly at
    column a i. *)
Record clustering h (o : kmeans) (d : nat) pts cs a : Prop := {
  cl_wf : wf h;
  cl_data : exists x, km_x o = Some x /\ abs h !! x = Some (Rows d pts) /\ x <> km_mu o /\ x <> km_r o;
  cl_width : width d pts;
  cl_mu : abs h !! km_mu o = Some (Rows d cs);
  cl_mu_width : width d cs;
  cl_some : cs <> [];
  cl_r : abs h !! km_r o = Some (Mat (length cs) (length pts) (fun i j => if decide (a i = j) then s_one else s_zero));
  cl_ne : km_mu o <> km_r o;
  cl_init : km_init o = true;
  cl_k : km_k o = Z.of_nat (length cs) }.
(** The object before training: it has the data and owns two matrices. *)
Record untrained h (o : kmeans) (d k : nat) pts : Prop := {
  un_wf : wf h;
  un_data : exists x, km_x o = Some x /\ abs h !! x = Some (Rows d pts) /\ x <> km_mu o /\ x <> km_r o;
  un_width : width d pts;
  un_mu : exists mx my mc, abs h !! km_mu o = Some (SMat mx my, mc);
  un_r : exists rx ry rc, abs h !! km_r o = Some (SMat rx ry, rc);
  un_ne : km_mu o <> km_r o;
  un_init : km_init o = false;
  un_type : km_type o = Centroid;
  un_k : km_k o = Z.of_nat k;
  un_pos : (0 < k)%nat }.
(** Sizes that fit the integer type. *)
Definition fits (d k n : nat) : Prop := Z.of_nat d <= int_max /\ Z.of_nat k <= int_max /\ Z.of_nat (d * k) <= int_max /\ Z.of_nat (k * n) <= int_max.
Definition ordered (P : F -> Prop) pts : Prop := swo_on P /\ forall i cs j, (i < length pts)%nat -> P (to_centroid (nth i pts []) cs j).

(** ** Proofs *)
Lemma near_run (P : F -> Prop) (d : nat -> F) (n : nat) idx : swo_on P -> (forall j, (j < n)%nat -> P (d j)) -> (0 < n)%nat -> forall m, (m <= n)%nat ->
  let st := foldl (fun (st : F * nat) j => if s_lt (d j) (fst st) then (d j, j) else st) (d 0%nat, idx) (seq 0 m) in
  (forall j, (j < m)%nat -> s_lt (d j) (d 0%nat) = false) /\ st = (d 0%nat, idx) \/
  (snd st < m)%nat /\ fst st = d (snd st) /\ s_lt (d (snd st)) (d 0%nat) = true /\ (forall j, (j < m)%nat -> s_lt (d j) (d (snd st)) = false /\ ((j < snd st)%nat -> s_lt (d (snd st)) (d j) = true)).
Proof.
  intros HP Pd Hn. induction m as [|m IH]; intros Hm; cbv zeta; [left; split; [lia|reflexivity]|]. specialize (IH ltac:(lia)). cbv zeta in IH. rewrite seq_S, foldl_app. cbn [foldl]. rewrite Nat.add_0_l. destruct IH as [[IH1 IH2]|(I1 & I2 & I3 & I4)].
  - rewrite IH2. cbn [fst]. destruct (s_lt (d m) (d 0%nat)) eqn:E; [right|left].
    + cbn [fst snd]. split_and!; [lia|reflexivity|exact E|]. intros j Hj. destruct (decide (j = m)) as [->|Hne]; [split; [apply (swo_irrefl P HP); apply Pd; lia|lia]|]. specialize (IH1 j ltac:(lia)).
      assert (G : s_lt (d m) (d j) = true) by (destruct (swo_cotrans P HP (d m) (d j) (d 0%nat) (Pd m ltac:(lia)) (Pd j ltac:(lia)) (Pd 0%nat Hn) E) as [G|G]; [exact G|congruence]).
      split; [|auto]. destruct (s_lt (d j) (d m)) eqn:E2; [|reflexivity]. pose proof (swo_trans P HP _ _ _ (Pd j ltac:(lia)) (Pd m ltac:(lia)) (Pd 0%nat Hn) E2 E). congruence.
    + split; [|reflexivity]. intros j Hj. destruct (decide (j = m)) as [->|Hne]; [exact E|]. apply IH1. lia.
  - right. rewrite I2. set (s := snd _) in *. destruct (s_lt (d m) (d s)) eqn:E.
    + cbn [fst snd]. split_and!; [lia|reflexivity| |].
      * exact (swo_trans P HP _ _ _ (Pd m ltac:(lia)) (Pd s ltac:(lia)) (Pd 0%nat Hn) E I3).
      * intros j Hj. destruct (decide (j = m)) as [->|Hne]; [split; [apply (swo_irrefl P HP); apply Pd; lia|lia]|]. destruct (I4 j ltac:(lia)) as [J1 _].
        assert (G : s_lt (d m) (d j) = true) by (destruct (swo_cotrans P HP (d m) (d j) (d s) (Pd m ltac:(lia)) (Pd j ltac:(lia)) (Pd s ltac:(lia)) E) as [G|G]; [exact G|congruence]).
        split; [|auto]. destruct (s_lt (d j) (d m)) eqn:E2; [|reflexivity]. pose proof (swo_trans P HP _ _ _ (Pd j ltac:(lia)) (Pd m ltac:(lia)) (Pd s ltac:(lia)) E2 E). congruence.
    + fold s. split_and!; [lia|exact I2|exact I3|]. intros j Hj. destruct (decide (j = m)) as [->|Hne]; [split; [exact E|lia]|]. apply I4. lia.
Qed.
Lemma assign1_rule (P : F -> Prop) xs cs idx : swo_on P -> (forall j, (j < length cs)%nat -> P (to_centroid xs cs j)) -> (0 < length cs)%nat ->
  (beats0 xs cs -> first_nearest xs cs (assign1 xs cs idx)) /\ (~ beats0 xs cs -> assign1 xs cs idx = idx).
Proof.
  intros HP Pd Hn. pose proof (near_run P (to_centroid xs cs) (length cs) idx HP Pd Hn (length cs) ltac:(lia)) as G. cbv zeta in G. unfold assign1.
  replace (foldl (near_step xs cs) (vdist xs (nth 0 cs []), idx) (seq 0 (length cs))) with (foldl (fun (st : F * nat) j => if s_lt (to_centroid xs cs j) (fst st) then (to_centroid xs cs j, j) else st) (to_centroid xs cs 0%nat, idx) (seq 0 (length cs))) by reflexivity.
  destruct G as [[G1 ->]|(G1 & _ & G2 & G3)].
  - split; [intros (j & Hj & E); specialize (G1 j Hj); congruence|reflexivity].
  - split; [intros _; split; [exact G1|exact G3]|]. intros Hb. destruct Hb. eexists. split; [exact G1|exact G2].
Qed.
Lemma assigns_nth pts cs : forall idx i, (i < length pts)%nat -> nth i (assigns pts cs idx) 0%nat = assign1 (nth i pts []) cs (match i with O => idx | S i' => nth i' (assigns pts cs idx) 0%nat end).
Proof.
  induction pts as [|x pts IH]; intros idx i Hi; [cbn in Hi; lia|]. cbn [assigns]. destruct i as [|i]; [reflexivity|]. cbn [nth]. rewrite IH by (cbn in Hi; lia). destruct i; reflexivity.
Qed.
Lemma assignment_rule (P : F -> Prop) pts cs : ordered P pts -> (0 < length cs)%nat -> stale_rule pts cs (fun i => nth i (assignment pts cs) 0%nat).
Proof.
  intros [HP Pd] Hn i Hi. unfold assignment. rewrite assigns_nth by exact Hi. destruct (assign1_rule P (nth i pts []) cs (match i with O => 0%nat | S i' => nth i' (assigns pts cs 0) 0%nat end) HP ltac:(intros; apply Pd; exact Hi) Hn) as [G1 G2].
  split; [exact G1|]. intros Hb. rewrite (G2 Hb). destruct i; reflexivity.
Qed.
Lemma nth_zip_add (l m : list F) t : length l = length m -> (t < length l)%nat -> nth t (zip_with s_add l m) s_zero = s_add (nth t l s_zero) (nth t m s_zero).
Proof.
  intros E Ht. destruct (lookup_lt_is_Some_2 l t Ht) as [x Hx]. destruct (lookup_lt_is_Some_2 m t ltac:(lia)) as [y Hy]. rewrite (nth_lookup_Some _ _ _ _ Hx), (nth_lookup_Some _ _ _ _ Hy). apply nth_lookup_Some. rewrite lookup_zip_with, Hx, Hy. reflexivity.
Qed.
Lemma nth_fmap_F (f : F -> F) (l : list F) t : (t < length l)%nat -> nth t (f <$> l) s_zero = f (nth t l s_zero).
Proof. intros Ht. destruct (lookup_lt_is_Some_2 l t Ht) as [x Hx]. rewrite (nth_lookup_Some _ _ _ _ Hx). apply nth_lookup_Some. rewrite list_lookup_fmap, Hx. reflexivity. Qed.
Lemma cnum_nth w pts (al : list nat) i n t : width w pts -> (n <= length pts)%nat -> (t < w)%nat ->
  nth t (cnum w pts al i n) s_zero = lsum n (fun j => s_mul (nth t (nth j pts []) s_zero) (member (fun j => nth j al 0%nat) i j)).
Proof.
  intros Hw Hn Ht. induction n as [|n IH]; [cbn; apply nth_lookup_Some, lookup_replicate; auto|]. unfold cnum, lsum. rewrite seq_S, !foldl_app. cbn [foldl]. fold (cnum w pts al i n). fold (lsum n (fun j => s_mul (nth t (nth j pts []) s_zero) (member (fun j => nth j al 0%nat) i j))). rewrite Nat.add_0_l.
  pose proof (cnum_length w pts al i n Hw ltac:(lia)) as Lc. pose proof (width_nth w pts n Hw ltac:(lia)) as Lp. rewrite nth_zip_add by (rewrite ?fmap_length; lia). rewrite IH by lia. rewrite nth_fmap_F by lia. reflexivity.
Qed.
Lemma moved_update d pts cs (al : list nat) : width d pts -> width d cs -> epoch_update d pts cs (fun j => nth j al 0%nat) (moved d pts cs al).
Proof.
  intros Hp Hc. split; [apply moved_length|]. split; [apply moved_width; assumption|]. unfold moved. split.
  - intros E i t Hi Ht. rewrite decide_True by exact E. rewrite (nth_lookup_Some _ i _ (centroid d pts al i)) by (unfold vlist; rewrite list_lookup_fmap, lookup_seq_lt by exact Hi; reflexivity).
    unfold centroid. rewrite nth_fmap_F by (rewrite cnum_length by (exact Hp || lia); exact Ht). rewrite cnum_nth by (exact Hp || lia). reflexivity.
  - intros E. rewrite decide_False by exact E. reflexivity.
Qed.
Lemma iter_epochs (P : F -> Prop) d pts cs n : ordered P pts -> width d pts -> width d cs -> (0 < length cs)%nat -> epochs d pts n cs (Nat.iter n (km_step d pts) cs) /\ length (Nat.iter n (km_step d pts) cs) = length cs /\ width d (Nat.iter n (km_step d pts) cs).
Proof.
  intros HP Wp Wc Hc. induction n as [|n (IH & IL & IW)]; [split_and!; [constructor|reflexivity|exact Wc]|]. rewrite Nat.iter_succ. set (c1 := Nat.iter n (km_step d pts) cs) in *. unfold km_step. split_and!.
  - eapply ep_S; [exact IH| |apply moved_update; assumption]. apply (assignment_rule P); [exact HP|lia].
  - rewrite moved_length. exact IL.
  - apply moved_width; assumption.
Qed.
Lemma kmS_clustering b o d pts mus al h : kmS b o d pts mus (Mat (length mus) (length pts) (ind al)) h -> km_init o = true -> km_k o = Z.of_nat (length mus) -> clustering h o d pts mus (fun i => nth i al 0%nat).
Proof.
  intros [W A (x & Ex & Hx & D1 & D2) Dn Wp Wm Hm Hd] Ei Ek. split; try assumption.
  - exists x. split_and!; auto. rewrite A. rewrite !lookup_insert_ne by congruence. exact Hx.
  - rewrite A. apply lookup_insert.
  - destruct mus; [cbn in Hm; lia|congruence].
  - rewrite A, lookup_insert_ne by congruence. rewrite lookup_insert. reflexivity.
Qed.
Lemma kmS_others b o d pts mus ra h q : kmS b o d pts mus ra h -> q <> km_mu o -> q <> km_r o -> abs h !! q = b !! q.
Proof. intros [_ A _ _ _ _ _ _] H1 H2. rewrite A, !lookup_insert_ne by congruence. reflexivity. Qed.
Lemma clustering_kmS h o d pts cs a : clustering h o d pts cs a -> Z.of_nat d <= int_max -> kmS (abs h) o d pts cs (Mat (length cs) (length pts) (fun i j => if decide (a i = j) then s_one else s_zero)) h.
Proof.
  intros [W (x & Ex & Hx & D1 & D2) Wp Hm Wm Hne Hr Dn Ei Ek] Hd. split; try assumption.
  - apply map_eq. intros l. destruct (decide (l = km_mu o)) as [->|Hl]; [rewrite lookup_insert; exact Hm|]. rewrite lookup_insert_ne by congruence. destruct (decide (l = km_r o)) as [->|Hl']; [rewrite lookup_insert; exact Hr|]. rewrite lookup_insert_ne by congruence. reflexivity.
  - exists x. auto.
  - destruct cs; [congruence|cbn; lia].
Qed.
Lemma member_list a n i : (i < n)%nat -> nth i (a <$> seq 0 n) 0%nat = a i.
Proof. intros Hi. apply nth_lookup_Some. rewrite list_lookup_fmap, lookup_seq_lt by exact Hi. reflexivity. Qed.
Lemma clustering_kmS' h o d pts cs a : clustering h o d pts cs a -> Z.of_nat d <= int_max -> kmS (abs h) o d pts cs (Mat (length cs) (length pts) (ind (a <$> seq 0 (length pts)))) h.
Proof. intros C Hd. pose proof (clustering_kmS h o d pts cs a C Hd) as K. erewrite Mat_ext in K; [exact K|]. intros i j Hi _. unfold ind. rewrite member_list by exact Hi. reflexivity. Qed.

(** ** The theorems *)
(** Training an object that has not been initialised: the first centroids are the k rows drawn, max(1, epoch_num) epochs follow,
    and the matrix holds the assignment to the final centroids.  Nothing else changes. *)
Theorem C56_train (P : F -> Prop) h o d k pts pick n ui : untrained h o d k pts -> fits d k (length pts) -> ordered P pts ->
  (forall i, (i < k)%nat -> 0 <= pick (Z.of_nat i) < Z.of_nat (length pts)) ->
  runs (km_train pick n ui o) h (fun o' h' => exists cs a,
    clustering h' o' d pts cs a /\ stale_rule pts cs a /\
    epochs d pts (Z.to_nat (Z.max 1 n)) ((fun i => nth (Z.to_nat (pick (Z.of_nat i))) pts []) <$> seq 0 k) cs /\
    km_mu o' = km_mu o /\ km_r o' = km_r o /\ km_x o' = km_x o /\
    (forall q, q <> km_mu o -> q <> km_r o -> abs h' !! q = abs h !! q)).
Proof.
  intros [W (x & Ex & Hx & D1 & D2) Wp (mx & my & mc & Hm) (rx & ry & rc & Hr) Dn Ei Et Ek Hk] (Hd & Hk' & Hdk & Hkn) HP Hp. apply runs_wp. unfold km_train. rewrite Ex, Ei. wbind. unfold km_initialize. rewrite Ex, Et.
  assert (KI : kmI (abs h) o d pts (SMat mx my, mc) (SMat rx ry, rc) h).
  { split; try assumption; [|exists x; auto]. apply map_eq. intros l. destruct (decide (l = km_mu o)) as [->|Hl]; [rewrite lookup_insert; exact Hm|]. rewrite lookup_insert_ne by congruence. destruct (decide (l = km_r o)) as [->|Hl']; [rewrite lookup_insert; exact Hr|]. rewrite lookup_insert_ne by congruence. reflexivity. }
  wbind. eapply wp_km_centroid_init; [exact KI|exact Ek|exact Hk|exact Hdk|exact Hp|]. intros h1 K1. apply wp_ret. fold (seeds pts k pick).
  set (o' := KM (Some x) (km_mu o) (km_r o) (km_k o) true Centroid). assert (K1' : kmS (abs h) o' d pts (seeds pts k pick) (SMat rx ry, rc) h1) by (destruct K1; split; cbn; auto; exists x; auto).
  pose proof (seeds_length pts k pick) as Ls. pose proof (seeds_width d pts k pick Wp Hp) as Wsd.
  pose proof (wp_km_train_init (abs h) o' d pts (seeds pts k pick) pick n ui rx ry rc h1) as T. unfold km_train in T. cbn [km_x km_init o'] in T. fold o' in T. rewrite Ls in T.
  specialize (T (fun o' h' => wf h' /\ exists cs a, clustering h' o' d pts cs a /\ stale_rule pts cs a /\ epochs d pts (Z.to_nat (Z.max 1 n)) (seeds pts k pick) cs /\ km_mu o' = km_mu o /\ km_r o' = km_r o /\ km_x o' = Some x /\ (forall q, q <> km_mu o -> q <> km_r o -> abs h' !! q = abs h !! q)) K1' eq_refl Ek Hkn Hk').
  refine (T _). cbv zeta. intros h2 K2.
  destruct (iter_epochs P d pts (seeds pts k pick) (Z.to_nat (Z.max 1 n)) HP Wp Wsd ltac:(lia)) as (E1 & E2 & E3).
  split; [exact (ks_wf _ _ _ _ _ _ _ K2)|]. set (sd := seeds pts k pick) in *. rewrite <- Ls, <- E2 in K2. eexists _, _. split; [eapply kmS_clustering; [exact K2|reflexivity|rewrite E2, Ls; exact Ek]|]. split; [apply (assignment_rule P); [exact HP|rewrite E2, Ls; exact Hk]|]. split; [exact E1|].
  split_and!; try reflexivity. intros q Q1 Q2. exact (kmS_others _ _ _ _ _ _ _ q K2 Q1 Q2).
Qed.
(** Training an object that is already initialised goes on from its centroids. *)
Theorem C56_train_more (P : F -> Prop) h o d pts cs a pick n ui : clustering h o d pts cs a -> fits d (length cs) (length pts) -> ordered P pts ->
  runs (km_train pick n ui o) h (fun o' h' => o' = o /\ exists cs' a',
    clustering h' o d pts cs' a' /\ stale_rule pts cs' a' /\ epochs d pts (Z.to_nat (Z.max 1 n)) cs cs' /\
    (forall q, q <> km_mu o -> q <> km_r o -> abs h' !! q = abs h !! q)).
Proof.
  intros C (Hd & Hk' & Hdk & Hkn) HP. pose proof (clustering_kmS' h o d pts cs a C Hd) as K. destruct C as [_ _ Wp _ Wc Hne _ _ Ei Ek]. assert (Hc : (0 < length cs)%nat) by (destruct cs; [congruence|cbn; lia]).
  apply runs_wp. eapply wp_km_train_init; [exact K|exact Ei|exact Ek|exact Hkn|exact Hk'|]. cbv zeta. intros h2 K2. destruct (iter_epochs P d pts cs (Z.to_nat (Z.max 1 n)) HP Wp Wc Hc) as (E1 & E2 & E3).
  split; [exact (ks_wf _ _ _ _ _ _ _ K2)|]. split; [reflexivity|]. rewrite <- E2 in K2. eexists _, _. split; [eapply kmS_clustering; [exact K2|exact Ei|rewrite E2; exact Ek]|]. split; [apply (assignment_rule P); [exact HP|rewrite E2; exact Hc]|]. split; [exact E1|].
  intros q Q1 Q2. exact (kmS_others _ _ _ _ _ _ _ q K2 Q1 Q2).
Qed.
Lemma epochs_stuck d pts n cs cs' : epochs d pts n cs cs' -> length cs <> d -> cs' = cs.
Proof. induction 1 as [|n cs a cs1 cs2 _ IH _ (_ & _ & _ & U)]; intros Hd; [reflexivity|]. rewrite (IH Hd) in U. exact (U Hd). Qed.
(** When the number of clusters differs from the dimension, training never moves a centroid: they stay the rows drawn at the
    start, whatever the data and the number of epochs. *)
Theorem C56_train_learns_nothing_refuted (P : F -> Prop) h o d k pts pick n ui : untrained h o d k pts -> fits d k (length pts) -> ordered P pts ->
  (forall i, (i < k)%nat -> 0 <= pick (Z.of_nat i) < Z.of_nat (length pts)) -> k <> d ->
  runs (km_train pick n ui o) h (fun o' h' => abs h' !! km_mu o = Some (Rows d ((fun i => nth (Z.to_nat (pick (Z.of_nat i))) pts []) <$> seq 0 k))).
Proof.
  intros U Hf HP Hp Hne. destruct (C56_train P h o d k pts pick n ui U Hf HP Hp) as (o' & h' & E & W' & cs & a & C & _ & Ep & Em & _). exists o', h'. split; [exact E|]. split; [exact W'|]. rewrite <- Em, (cl_mu _ _ _ _ _ _ C). f_equal. f_equal. eapply epochs_stuck; [exact Ep|]. rewrite fmap_length, seq_length. exact Hne.
Qed.

Lemma near0_first (P : F -> Prop) xs cs : swo_on P -> (forall j, (j < length cs)%nat -> P (to_centroid xs cs j)) -> (0 < length cs)%nat -> forall m, (0 < m <= length cs)%nat ->
  exists j, (j < m)%nat /\ near0 xs (nth 0 cs []) (take m cs) = nth j cs [] /\ forall i, (i < m)%nat -> s_lt (to_centroid xs cs i) (to_centroid xs cs j) = false /\ ((i < j)%nat -> s_lt (to_centroid xs cs j) (to_centroid xs cs i) = true).
Proof.
  intros HP Pd Hn. change (to_centroid xs cs) with (fun j => vdist xs (nth j cs [])) in *. cbv beta in Pd. induction m as [|m IH]; intros Hm; [lia|]. destruct (lookup_lt_is_Some_2 cs m ltac:(lia)) as [c Hc]. pose proof (nth_lookup_Some _ _ [] _ Hc) as En. rewrite (take_S_r _ _ _ Hc). unfold near0. rewrite foldl_app. cbn [foldl]. fold (near0 xs (nth 0 cs []) (take m cs)). destruct (decide (m = 0%nat)) as [->|Hm0].
  - cbn [take near0 foldl]. exists 0%nat. rewrite En. replace (if s_lt (vdist xs c) (vdist xs c) then c else c) with c by (destruct (s_lt _ _); reflexivity). split_and!; [lia|reflexivity|]. intros i Hi. replace i with 0%nat by lia. split; [cbv beta; rewrite ?En; apply (swo_irrefl P HP); rewrite <- En; apply Pd; lia|lia].
  - destruct IH as (j & Hj & -> & Hmin); [lia|]. rewrite <- En. destruct (s_lt (vdist xs (nth m cs [])) (vdist xs (nth j cs []))) eqn:E.
    + exists m. split_and!; [lia|reflexivity|]. intros i Hi. destruct (decide (i = m)) as [->|Hne]; [split; [apply (swo_irrefl P HP); apply Pd; lia|lia]|]. destruct (Hmin i ltac:(lia)) as [J1 _].
      assert (G : s_lt (vdist xs (nth m cs [])) (vdist xs (nth i cs [])) = true) by (destruct (swo_cotrans P HP _ (vdist xs (nth i cs [])) _ (Pd m ltac:(lia)) (Pd i ltac:(lia)) (Pd j ltac:(lia)) E) as [G|G]; [exact G|congruence]).
      split; [|auto]. destruct (s_lt (vdist xs (nth i cs [])) (vdist xs (nth m cs []))) eqn:E2; [|reflexivity]. pose proof (swo_trans P HP _ _ _ (Pd i ltac:(lia)) (Pd m ltac:(lia)) (Pd j ltac:(lia)) E2 E). congruence.
    + exists j. split_and!; [lia|reflexivity|]. intros i Hi. destruct (decide (i = m)) as [->|Hne]; [split; [exact E|lia]|]. apply Hmin. lia.
Qed.
(** model_test gives back a new vector holding the first nearest centroid; nothing else changes. *)
Theorem C56_model_test (P : F -> Prop) h o d pts cs a p xs : clustering h o d pts cs a -> Z.of_nat d <= int_max -> abs h !! p = Some (AVec xs) -> swo_on P -> (forall j, P (to_centroid xs cs j)) ->
  runs (km_model_test o (Some p)) h (fun r h' => exists t j, r = Some t /\ abs h !! t = None /\ first_nearest xs cs j /\ abs h' = <[t := AVec (nth j cs [])]> (abs h)).
Proof.
  intros [W _ _ Hm Wm Hne _ _ Ei _] Hd Hp HP Pd. assert (Hc : (0 < length cs)%nat) by (destruct cs; [congruence|cbn; lia]). apply runs_wp. eapply wp_km_model_test; [exact W|exact Hm|exact Wm|exact Hc|exact Hd|exact Hp|exact Ei|]. intros t h' W' N' A'. split; [exact W'|].
  destruct (near0_first P xs cs HP (fun j _ => Pd j) Hc (length cs) ltac:(lia)) as (j & Hj & En & Hmin). rewrite take_ge in En by lia. rewrite En in A'. exists t, j. split_and!; auto. split; auto.
Qed.
(** model_set_test on a set with at least as many rows as the training set: a new matrix whose row i is the first centroid nearest
    to row i, but only for as many rows as the training set has. *)
Theorem C56_model_set_test (P : F -> Prop) h o d pts cs a X d' xss : clustering h o d pts cs a -> Z.of_nat d <= int_max -> Z.of_nat d' <= int_max -> Z.of_nat (d * length pts) <= int_max ->
  abs h !! X = Some (Rows d' xss) -> width d' xss -> (length pts <= length xss)%nat -> swo_on P -> (forall i j, P (to_centroid (nth i xss []) cs j)) ->
  runs (km_model_set_test o (Some X)) h (fun r h' => exists t js, r = Some t /\ abs h !! t = None /\ length js = length pts /\
    (forall i, (i < length pts)%nat -> first_nearest (nth i xss []) cs (nth i js 0%nat)) /\ abs h' = <[t := Rows d ((fun j => nth j cs []) <$> js)]> (abs h)).
Proof.
  intros [W (x & Ex & Hx & _) Wp Hm Wm Hne Hr _ Ei _] Hd Hd' Hdn HX WX Hn HP Pd. assert (Hc : (0 < length cs)%nat) by (destruct cs; [congruence|cbn; lia]). apply runs_wp. eapply wp_km_model_set_test with (w := length cs) (n := length pts); [exact W|exact Hm|exact Wm|exact Hc|exact Hd|exact Hd'|exact Ex|exact Hx|exact Hr|lia|exact HX|exact WX|exact Hn|exact Hdn|exact Ei|].
  intros t h' W' N' A'. split; [exact W'|].
  assert (G : forall n, (n <= length xss)%nat -> exists js, length js = n /\ (forall i, (i < n)%nat -> first_nearest (nth i xss []) cs (nth i js 0%nat)) /\ (fun x => near0 x (nth 0 cs []) (take (length cs) cs)) <$> take n xss = (fun j => nth j cs []) <$> js).
  { induction n as [|n IH]; intros Hnn; [exists []; split_and!; [reflexivity|intros; lia|reflexivity]|]. destruct IH as (js & Ljs & Hjs & Ejs); [lia|]. destruct (lookup_lt_is_Some_2 xss n ltac:(lia)) as [xp Hxp]. pose proof (nth_lookup_Some _ _ [] _ Hxp) as En.
    destruct (near0_first P xp cs HP ltac:(rewrite <- En; intros; apply Pd) Hc (length cs) ltac:(lia)) as (j & Hj & E1 & Hmin). exists (js ++ [j]). split_and!.
    - rewrite app_length. cbn. lia.
    - intros i Hi. destruct (decide (i = n)) as [->|Hne']; [|rewrite app_nth1 by lia; apply Hjs; lia]. rewrite app_nth2 by lia. replace (n - length js)%nat with 0%nat by lia. cbn [nth]. rewrite En. split; [exact Hj|exact Hmin].
    - rewrite (take_S_r _ _ _ Hxp), !fmap_app, Ejs. cbn [fmap list_fmap]. rewrite E1. reflexivity. }
  destruct (G (length pts) Hn) as (js & G1 & G2 & G3). rewrite G3 in A'. exists t, js. split_and!; auto.
Qed.
(** After initialize alone (the assignment matrix still has no column) every row gets centroid 0. *)
Theorem C56_model_set_test_before_training_refuted h o d pts cs x X d' xss ry rc : wf h -> km_x o = Some x -> abs h !! x = Some (Rows d pts) -> abs h !! km_mu o = Some (Rows d cs) -> width d cs -> cs <> [] -> km_init o = true ->
  abs h !! km_r o = Some (SMat 0 ry, rc) -> Z.of_nat d <= int_max -> Z.of_nat d' <= int_max -> Z.of_nat (d * length pts) <= int_max ->
  abs h !! X = Some (Rows d' xss) -> width d' xss -> (length pts <= length xss)%nat ->
  runs (km_model_set_test o (Some X)) h (fun r h' => exists t, r = Some t /\ abs h !! t = None /\ abs h' = <[t := Rows d (replicate (length pts) (nth 0 cs []))]> (abs h)).
Proof.
  intros W Ex Hx Hm Wm Hne Ei Hr Hd Hd' Hdn HX WX Hn. assert (Hc : (0 < length cs)%nat) by (destruct cs; [congruence|cbn; lia]). apply runs_wp. eapply wp_km_model_set_test with (w := 0%nat) (n := length pts); [exact W|exact Hm|exact Wm|exact Hc|exact Hd|exact Hd'|exact Ex|exact Hx|exact Hr|lia|exact HX|exact WX|exact Hn|exact Hdn|exact Ei|].
  intros t h' W' N' A'. split; [exact W'|]. exists t. split_and!; auto. rewrite A'. do 2 f_equal. clear - Hn. revert xss Hn. generalize (length pts). induction n as [|n IH]; intros xss Hn; [reflexivity|]. destruct xss as [|y xss]; [cbn in Hn; lia|]. cbn. f_equal. apply IH. cbn in Hn. lia.
Qed.
(** Null arguments, an object that is not initialised, an object without data. *)
(** Reconfiguring a trained object (new data, another number of clusters, the centroid initialisation) makes it untrained again: the next training restarts from fresh centroids. *)
Theorem C56_reconfigure h o d pts cs a : clustering h o d pts cs a ->
  (forall k, (0 < k)%nat -> km_type o = Centroid -> untrained h (km_set_k o (Z.of_nat k)) d k pts) /\
  (forall x' d' pts', km_type o = Centroid -> abs h !! x' = Some (Rows d' pts') -> width d' pts' -> x' <> km_mu o -> x' <> km_r o -> untrained h (km_set_input o (Some x')) d' (length cs) pts') /\
  untrained h (km_set_mean_type o Centroid) d (length cs) pts.
Proof.
  intros [W D Wp Hm Wm Hs Hr Dn Ei Ek]. assert (0 < length cs)%nat by (destruct cs; [congruence|cbn; lia]). split_and!.
  - intros k Hk Et. constructor; cbn; try assumption; try reflexivity; [do 3 eexists; exact Hm|do 3 eexists; exact Hr].
  - intros x' d' pts' Et Hx' Wp' N1 N2. constructor; cbn; try assumption; try reflexivity; [exists x'; auto|do 3 eexists; exact Hm|do 3 eexists; exact Hr].
  - constructor; cbn; try assumption; try reflexivity; [do 3 eexists; exact Hm|do 3 eexists; exact Hr].
Qed.
Theorem C56_null h (o : kmeans) pick n ui : wf h ->
  runs (km_model_test o None) h (fun r h' => r = None /\ h' = h) /\ runs (km_model_set_test o None) h (fun r h' => r = None /\ h' = h) /\
  (km_init o = false -> (forall q, runs (km_model_test o q) h (fun r h' => r = None /\ h' = h) /\ runs (km_model_set_test o q) h (fun r h' => r = None /\ h' = h)) /\ runs (km_score o) h (fun r h' => r = s_zero /\ h' = h)) /\
  (km_x o = None -> runs (km_train pick n ui o) h (fun o' h' => o' = o /\ h' = h)).
Proof.
  intros W. split_and!.
  - apply runs_wp. apply wp_ret. auto.
  - apply runs_wp. apply wp_ret. auto.
  - intros Ei. split; [intros q; split|]; apply runs_wp; [unfold km_model_test|unfold km_model_set_test|unfold km_score, km_cost]; rewrite Ei; [destruct q|destruct q|]; apply wp_ret; auto.
  - intros Ex. apply runs_wp. unfold km_train. rewrite Ex. apply wp_ret. auto.
Qed.
End kmeans.
