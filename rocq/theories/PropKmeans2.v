(** * C56, exact arithmetic: what an epoch of k-means does to the quantisation error; k-means++ initialisation. *)
From Verif Require Import Base BaseProofs Vec VecSpec VecProofs VecProofs2 Mat MatSpec MatProofs MatProofs2 MatProofs3 MatProofs4 MatProofs5 Frame StatProofs Act ActProofs ActProofs2 Cost CostProofs Sym Svm LinAlg LinAlgProofs Util UtilProofs Knn KnnProofs PropKnn Kmeans KmeansProofs PropKmeans.
From Coq Require Import Reals Lra.
From Verif Require Import LibmR PropSvm RSum GlmMath RInst.
Open Scope R_scope.

(** ** Specification *)
Definition sqd (xs ys : list R) : R := Rsum (length xs) (fun t => (nth t xs 0 - nth t ys 0) * (nth t xs 0 - nth t ys 0)).
(** Sum of the squared distances of the points to the centroids they are assigned to. *)
Definition distortion (pts cs : list (list R)) (a : nat -> nat) : R := Rsum (length pts) (fun j => sqd (nth j pts []) (nth (a j) cs [])).
(** Every point is assigned to a nearest centroid. *)
Definition truly_nearest (pts cs : list (list R)) (a : nat -> nat) : Prop :=
  forall j i, (j < length pts)%nat -> (i < length cs)%nat -> (a j < length cs)%nat /\ sqd (nth j pts []) (nth (a j) cs []) <= sqd (nth j pts []) (nth i cs []).

(** ** Proofs *)
Lemma weighted_mean n (w x : nat -> R) m : (forall j, (j < n)%nat -> w j = 0 \/ w j = 1) -> let c := Rsum n (fun j => x j * w j) * (1 / Rsum n w) in
  Rsum n (fun j => w j * ((x j - c) * (x j - c))) <= Rsum n (fun j => w j * ((x j - m) * (x j - m))).
Proof.
  intros Hw c. set (W := Rsum n w). assert (HW : 0 <= W) by (apply Rsum_nonneg; intros j Hj; destruct (Hw j Hj) as [->| ->]; lra).
  assert (E : forall z, Rsum n (fun j => w j * ((x j - z) * (x j - z))) = Rsum n (fun j => w j * (x j * x j)) - 2 * z * Rsum n (fun j => x j * w j) + z * z * W).
  { intros z. unfold W. rewrite <- !Rsum_scal, <- Rsum_minus, <- Rsum_plus. apply Rsum_ext. intros; ring. }
  rewrite !E. set (S1 := Rsum n (fun j => x j * w j)) in *. destruct (Req_dec W 0) as [E0|N0].
  - assert (Z : forall j, (j < n)%nat -> w j = 0).
    { assert (G : Rsum n (fun j => w j * w j) = 0). { rewrite <- E0. unfold W. apply Rsum_ext. intros j Hj. destruct (Hw j Hj) as [->| ->]; ring. } exact (Rsum_sq_zero n w G). }
    assert (S1 = 0) as -> by (unfold S1; rewrite (Rsum_ext n _ (fun _ => 0)); [apply Rsum_zero|intros j Hj; rewrite (Z j Hj); ring]). rewrite E0. lra.
  - assert (Ec : c * W = S1) by (unfold c; fold W; field; exact N0). assert (0 <= W * ((c - m) * (c - m))) by (apply Rmult_le_pos; [exact HW|apply Rle_0_sqr]). replace S1 with (c * W). nra.
Qed.
Lemma distortion_clusters pts cs a : (forall j, (j < length pts)%nat -> (a j < length cs)%nat) ->
  distortion pts cs a = Rsum (length cs) (fun i => Rsum (length pts) (fun j => member a i j * sqd (nth j pts []) (nth i cs []))).
Proof.
  intros Ha. unfold distortion. rewrite Rsum_swap. apply Rsum_ext. intros j Hj. rewrite <- (Rsum_delta (length cs) (a j) (fun i => sqd (nth j pts []) (nth i cs []))) by (apply Ha; exact Hj).
  apply Rsum_ext. intros i _. unfold member. destruct (decide (i = a j)) as [->|Hne]; [rewrite decide_True by reflexivity|rewrite decide_False by congruence]; reflexivity.
Qed.
Lemma vnorm2_R (xs ys : list R) : length xs = length ys -> vnorm2 xs ys = sqd xs ys.
Proof.
  intros E. unfold vnorm2, sqd. change (foldl (fun c x : R => s_add c (s_mul x x)) s_zero) with (foldl (fun c x : R => c + x * x) 0). rewrite foldl_add_acc, Rplus_0_l, rsum_nth, fmap_length, zip_with_length. replace (length xs `min` length ys)%nat with (length xs) by lia.
  apply Rsum_ext. intros t Ht. rewrite nth_fmap by (rewrite zip_with_length; lia). rewrite nth_zip by lia. reflexivity.
Qed.

(** ** The theorems *)
(** k = d: for the assignment it was computed from, the new centroids are as good as any centroids whatever. *)
Theorem C56_update_optimal d pts cs a cs' ms : width d pts -> length cs = d -> epoch_update d pts cs a cs' -> (forall j, (j < length pts)%nat -> (a j < length cs)%nat) ->
  length ms = length cs -> width d ms -> distortion pts cs' a <= distortion pts ms a.
Proof.
  intros Wp Ek (Lc & Wc & U & _) Ha Lm Wm. rewrite !distortion_clusters by (intros; rewrite ?Lm, ?Lc; apply Ha; assumption). rewrite Lm, Lc. apply Rsum_le. intros i Hi.
  assert (E : forall c, Rsum (length pts) (fun j => member a i j * sqd (nth j pts []) c) = Rsum d (fun t => Rsum (length pts) (fun j => member a i j * ((nth t (nth j pts []) 0 - nth t c 0) * (nth t (nth j pts []) 0 - nth t c 0))))).
  { intros c. rewrite Rsum_swap. apply Rsum_ext. intros j Hj. unfold sqd. rewrite width_nth with (d := d) by assumption. rewrite <- Rsum_scal. reflexivity. }
  rewrite !E. apply Rsum_le. intros t Ht. rewrite (U Ek i t Hi Ht : nth t (nth i cs' []) 0 = _). unfold cluster_mean. rewrite !lsum_Rsum. apply (weighted_mean (length pts) (member a i) (fun j => nth t (nth j pts []) 0)).
  intros j _. unfold member. destruct (decide _); [right|left]; reflexivity.
Qed.
(** k = d: if after the epoch every point is assigned to a nearest centroid, the epoch did not increase the error. *)
Theorem C56_epoch_descends d pts cs a cs' a' : width d pts -> width d cs -> length cs = d -> epoch_update d pts cs a cs' -> (forall j, (j < length pts)%nat -> (a j < length cs)%nat) ->
  truly_nearest pts cs' a' -> distortion pts cs' a' <= distortion pts cs a.
Proof.
  intros Wp Wc Ek U Ha T. apply Rle_trans with (distortion pts cs' a); [|eapply C56_update_optimal; eauto]. apply Rsum_le. intros j Hj. destruct U as (Lc & _). apply T; [exact Hj|]. rewrite Lc. apply Ha. exact Hj.
Qed.
(** cost (score) is the sum over the points of the squared distance to their centroid. *)
Theorem C56_score h o d pts cs a : clustering h o d pts cs a -> (Z.of_nat d <= int_max)%Z -> (forall j, (j < length pts)%nat -> (a j < length cs)%nat) ->
  runs (km_score o) h (fun r h' => r = distortion pts cs a /\ abs h' = abs h).
Proof.
  intros C Hd Ha. pose proof (clustering_kmS' h o d pts cs a C Hd) as K. destruct C as [W _ Wp _ Wc _ _ _ Ei _]. apply runs_wp. unfold km_score. eapply wp_km_cost; [exact K|exact Ei|]. intros h' K'. split; [exact (ks_wf _ _ _ _ _ _ _ K')|]. split; [|rewrite (ks_abs _ _ _ _ _ _ _ K'), <- (ks_abs _ _ _ _ _ _ _ K); reflexivity].
  assert (G : forall n acc, (n <= length pts)%nat -> foldl (fun acc i => foldl (fun acc j => s_add acc (s_mul (KmeansProofs.ind (a <$> seq 0 (length pts)) i j) (vnorm2 (nth i pts []) (nth j cs [])))) acc (seq 0 (length cs))) acc (seq 0 n) = acc + Rsum n (fun i => sqd (nth i pts []) (nth (a i) cs []))).
  { induction n as [|n IH]; intros acc Hn; [cbn; unfold Rsum; cbn; lra|]. rewrite seq_S, foldl_app. cbn [foldl]. rewrite Nat.add_0_l, IH by lia. rewrite Rsum_S.
    change (fun (acc : R) (j : nat) => s_add acc (s_mul (KmeansProofs.ind (a <$> seq 0 (length pts)) n j) (vnorm2 (nth n pts []) (nth j cs [])))) with (fun (acc : R) (j : nat) => acc + (KmeansProofs.ind (a <$> seq 0 (length pts)) n j * vnorm2 (nth n pts []) (nth j cs []))). rewrite foldl_add_acc.
    change (rsum ((fun j : nat => KmeansProofs.ind (a <$> seq 0 (length pts)) n j * vnorm2 (nth n pts []) (nth j cs [])) <$> seq 0 (length cs))) with (Rsum (length cs) (fun j : nat => KmeansProofs.ind (a <$> seq 0 (length pts)) n j * vnorm2 (nth n pts []) (nth j cs []))).
    rewrite (Rsum_ext (length cs) _ (fun j => (if decide (j = a n) then 1 else 0) * sqd (nth n pts []) (nth j cs []))); [rewrite Rsum_delta by (apply Ha; lia); lra|].
    intros j Hj. rewrite vnorm2_R by (rewrite !width_nth with (d := d) by (assumption || lia); reflexivity). f_equal. unfold KmeansProofs.ind. rewrite member_list by lia. destruct (decide (j = a n)) as [->|Hne]; [rewrite decide_True by reflexivity|rewrite decide_False by congruence]; reflexivity. }
  unfold km_costv. change (s_zero (F := R)) with 0. rewrite G by lia. unfold distortion. lra.
Qed.

Lemma beats0_dec {F} `{Scalar F} (xs : list F) cs : {beats0 xs cs} + {~ beats0 xs cs}.
Proof.
  destruct (decide (Exists (fun j => s_lt (to_centroid xs cs j) (to_centroid xs cs 0%nat) = true) (seq 0 (length cs)))) as [E|E].
  - left. apply list.Exists_exists in E as (j & Hj & E). exists j. split; [apply elem_of_seq in Hj; lia|exact E].
  - right. intros (j & Hj & G). apply E. apply list.Exists_exists. exists j. split; [apply elem_of_seq; lia|exact G].
Qed.
Lemma stale_lt {F} `{Scalar F} (pts cs : list (list F)) a : stale_rule pts cs a -> (0 < length cs)%nat -> forall i, (i < length pts)%nat -> (a i < length cs)%nat.
Proof.
  intros S Hc. induction i as [|i IH]; intros Hi; destruct (S _ Hi) as [S1 S2].
  - destruct (beats0_dec (nth 0 pts []) cs) as [B|B]; [apply (S1 B)|rewrite (S2 B); exact Hc].
  - destruct (beats0_dec (nth (Datatypes.S i) pts []) cs) as [B|B]; [apply (S1 B)|rewrite (S2 B); apply IH; lia].
Qed.
Lemma first_nearest_unique {F} `{Scalar F} (xs : list F) cs i j : first_nearest xs cs i -> first_nearest xs cs j -> i = j.
Proof.
  intros [Li Hi] [Lj Hj]. destruct (Nat.lt_trichotomy i j) as [L|[E|L]]; [|exact E|].
  - destruct (Hj i Li) as [_ G]. destruct (Hi j Lj) as [G' _]. rewrite (G L) in G'. discriminate.
  - destruct (Hi j Lj) as [_ G]. destruct (Hj i Li) as [G' _]. rewrite (G L) in G'. discriminate.
Qed.
Lemma stale_unique {F} `{Scalar F} (pts cs : list (list F)) a b : stale_rule pts cs a -> stale_rule pts cs b -> forall i, (i < length pts)%nat -> a i = b i.
Proof.
  intros SA SB. induction i as [|i IH]; intros Hi; destruct (SA _ Hi) as [A1 A2]; destruct (SB _ Hi) as [B1 B2].
  - destruct (beats0_dec (nth 0 pts []) cs) as [B|B]; [exact (first_nearest_unique _ _ _ _ (A1 B) (B1 B))|rewrite (A2 B), (B2 B); reflexivity].
  - destruct (beats0_dec (nth (Datatypes.S i) pts []) cs) as [B|B]; [exact (first_nearest_unique _ _ _ _ (A1 B) (B1 B))|rewrite (A2 B), (B2 B); apply IH; lia].
Qed.
Lemma R_ordered pts : ordered (F := R) (fun _ => True) pts.
Proof.
  split; [split|].
  - intros x _. apply Rltb_false. lra.
  - intros x y z _ _ _ E1%Rltb_true E2%Rltb_true. apply Rltb_true. lra.
  - intros x y z _ _ _ E%Rltb_true. destruct (Rlt_dec x y) as [L|L]; [left; apply Rltb_true; exact L|right; apply Rltb_true; lra].
  - auto.
Qed.
(** One more epoch of training, k = d: the error does not increase, provided no point is left with a stale centroid. *)
Theorem C56_train_descends h o d pts cs a pick ui : clustering h o d pts cs a -> fits d (length cs) (length pts) -> stale_rule pts cs a -> length cs = d ->
  runs (km_train pick 1 ui o) h (fun o' h' => exists cs' a', clustering h' o' d pts cs' a' /\ stale_rule pts cs' a' /\
    (truly_nearest pts cs' a' -> distortion pts cs' a' <= distortion pts cs a)).
Proof.
  intros C Hf SR Ek. pose proof C as [_ _ Wp _ Wc Hne _ _ _ _]. assert (Hc : (0 < length cs)%nat) by (destruct cs; [congruence|cbn; lia]).
  destruct (C56_train_more (fun _ => True) h o d pts cs a pick 1 ui C Hf (R_ordered pts)) as (o' & h' & E & W' & -> & cs' & a' & C' & SR' & Ep & _). exists o, h'. split; [exact E|]. split; [exact W'|]. exists cs', a'. split; [exact C'|]. split; [exact SR'|]. intros T.
  change (Z.to_nat (Z.max 1 1)) with 1%nat in Ep. inversion Ep as [|n c0 b cs1 cs2 Ep0 SRb U]; subst. inversion Ep0; subst.
  assert (Ed : distortion pts cs1 a = distortion pts cs1 b) by (apply Rsum_ext; intros j Hj; rewrite (stale_unique pts cs1 a b SR SRb j Hj); reflexivity). rewrite Ed.
  eapply C56_epoch_descends; [exact Wp|exact Wc|reflexivity|exact U| |exact T]. exact (stale_lt pts cs1 b SRb Hc).
Qed.

(** ** A run whose error grows *)
Definition rise_pts : list (list R) := [[0; 0]; [3; 0]; [-1; 0]].
Definition rise_seeds : list (list R) := [[0; 0]; [-1; 0]].
Definition rise_next : list (list R) := [[3/2; 0]; [-1; 0]].
Lemma dist2 (x y : R) cs j u v : nth j cs [] = [u; v] -> to_centroid [x; y] cs j = sqrt ((x - u) * (x - u) + (y - v) * (y - v)).
Proof. intros E. unfold to_centroid, distances, distance. rewrite E. rewrite decide_True by reflexivity. cbn. f_equal. ring. Qed.
Lemma slt_true a b : 0 <= a -> a < b -> s_lt (sqrt a) (sqrt b) = true.
Proof. intros H0 H1. apply Rltb_true. apply sqrt_lt_1; lra. Qed.
Lemma slt_false a b : 0 <= b -> b <= a -> s_lt (sqrt a) (sqrt b) = false.
Proof. intros H0 H1. apply Rltb_false. apply sqrt_le_1; lra. Qed.
Lemma two_rule (xs : list R) cs (d0 d1 : R) (i : nat) : length cs = 2%nat -> to_centroid xs cs 0 = sqrt d0 -> to_centroid xs cs 1 = sqrt d1 -> 0 <= d0 -> 0 <= d1 ->
  (d1 < d0 -> first_nearest xs cs 1 /\ beats0 xs cs) /\ (d0 <= d1 -> ~ beats0 xs cs).
Proof.
  intros Lc E0 E1 P0 P1. split.
  - intros L. split; [|exists 1%nat; rewrite Lc, E0, E1; split; [lia|apply slt_true; assumption]]. split; [lia|]. intros j Hj. rewrite Lc in Hj. destruct j as [|[|j]]; [| |lia]; rewrite ?E0, ?E1.
    + split; [apply slt_false; lra|intros _; apply slt_true; assumption].
    + split; [apply slt_false; lra|lia].
  - intros L (j & Hj & E). rewrite Lc in Hj. destruct j as [|[|j]]; [| |lia]; rewrite ?E0, ?E1 in E.
    + rewrite slt_false in E by lra. discriminate.
    + rewrite slt_false in E by lra. discriminate.
Qed.
Lemma rise_rule0 : stale_rule rise_pts rise_seeds (fun i => nth i [0; 0; 1]%nat 0%nat).
Proof.
  intros i Hi. cbn in Hi. assert (E : forall x y, to_centroid [x; y] rise_seeds 0 = sqrt ((x - 0) * (x - 0) + (y - 0) * (y - 0)) /\ to_centroid [x; y] rise_seeds 1 = sqrt ((x - -1) * (x - -1) + (y - 0) * (y - 0))) by (intros; split; apply dist2; reflexivity).
  destruct i as [|[|[|i]]]; [| | |lia]; cbn [nth rise_pts]; match goal with |- context [beats0 [?x; ?y] _] => destruct (E x y) as [E0 E1]; destruct (two_rule [x; y] rise_seeds _ _ 0 eq_refl E0 E1 ltac:(nra) ltac:(nra)) as [T1 T2] end.
  - split; [intros B; destruct (T2 ltac:(lra) B)|reflexivity].
  - split; [intros B; destruct (T2 ltac:(lra) B)|reflexivity].
  - destruct (T1 ltac:(lra)) as [T3 T4]. split; [intros _; exact T3|intros B; destruct (B T4)].
Qed.
Lemma rise_rule1 : stale_rule rise_pts rise_next (fun i => nth i [1; 1; 1]%nat 0%nat).
Proof.
  intros i Hi. cbn in Hi. assert (E : forall x y, to_centroid [x; y] rise_next 0 = sqrt ((x - 3/2) * (x - 3/2) + (y - 0) * (y - 0)) /\ to_centroid [x; y] rise_next 1 = sqrt ((x - -1) * (x - -1) + (y - 0) * (y - 0))) by (intros; split; apply dist2; reflexivity).
  destruct i as [|[|[|i]]]; [| | |lia]; cbn [nth rise_pts]; match goal with |- context [beats0 [?x; ?y] _] => destruct (E x y) as [E0 E1]; destruct (two_rule [x; y] rise_next _ _ 0 eq_refl E0 E1 ltac:(nra) ltac:(nra)) as [T1 T2] end.
  - destruct (T1 ltac:(lra)) as [T3 T4]. split; [intros _; exact T3|intros B; destruct (B T4)].
  - split; [intros B; destruct (T2 ltac:(lra) B)|reflexivity].
  - destruct (T1 ltac:(lra)) as [T3 T4]. split; [intros _; exact T3|intros B; destruct (B T4)].
Qed.
Lemma rise_update a cs' : (forall i, (i < 3)%nat -> a i = nth i [0; 0; 1]%nat 0%nat) -> epoch_update 2 rise_pts rise_seeds a cs' -> cs' = rise_next.
Proof.
  intros Ha (L & W & U & _). specialize (U eq_refl). assert (A0 : a 0%nat = 0%nat) by (apply (Ha 0%nat); lia). assert (A1 : a 1%nat = 0%nat) by (apply (Ha 1%nat); lia). assert (A2 : a 2%nat = 1%nat) by (apply (Ha 2%nat); lia).
  destruct cs' as [|c0 [|c1 [|? ?]]]; cbn in L; try discriminate. pose proof (width_nth 2 _ 0 W ltac:(cbn; lia)) as W0. pose proof (width_nth 2 _ 1 W ltac:(cbn; lia)) as W1. cbn [nth] in W0, W1. destruct c0 as [|u0 [|u1 [|? ?]]]; cbn in W0; try discriminate. destruct c1 as [|v0 [|v1 [|? ?]]]; cbn in W1; try discriminate.
  pose proof (U 0%nat 0%nat ltac:(cbn; lia) ltac:(lia)) as E00. pose proof (U 0%nat 1%nat ltac:(cbn; lia) ltac:(lia)) as E01. pose proof (U 1%nat 0%nat ltac:(cbn; lia) ltac:(lia)) as E10. pose proof (U 1%nat 1%nat ltac:(cbn; lia) ltac:(lia)) as E11.
  unfold cluster_mean, member, lsum in *. cbn -[decide] in *. rewrite A0, A1, A2 in *. clear U W L A0 A1 A2 Ha. rewrite (decide_True (P := 0%nat = 0%nat)), (decide_False (P := 1%nat = 0%nat)) in E00, E01 by lia. rewrite (decide_True (P := 1%nat = 1%nat)), (decide_False (P := 0%nat = 1%nat)) in E10, E11 by lia. subst. unfold rise_next. repeat f_equal; lra.
Qed.
(** Three points on a line, k = d = 2, rows 0 and 2 drawn: the error goes from 9 (with every point at its nearest seed) to 17 in one
    epoch. *)
Theorem C56_train_raises_error_refuted h o ui pick : untrained h o 2 2 rise_pts -> pick 0%Z = 0%Z -> pick 1%Z = 2%Z ->
  runs (km_train pick 1 ui o) h (fun o' h' => exists cs a, clustering h' o' 2 rise_pts cs a /\ distortion rise_pts cs a = 17) /\
  (exists a0, truly_nearest rise_pts rise_seeds a0 /\ stale_rule rise_pts rise_seeds a0 /\ distortion rise_pts rise_seeds a0 = 9).
Proof.
  intros U P0 P1. split.
  - destruct (C56_train (fun _ => True) h o 2 2 rise_pts pick 1 ui U) as (o' & h' & E & W' & cs & a & C & SR & Ep & _).
    + unfold fits, int_max. cbn. lia.
    + apply R_ordered.
    + intros i Hi. change (Z.of_nat (length rise_pts)) with 3%Z. destruct i as [|[|i]]; [change (Z.of_nat 0) with 0%Z; rewrite P0; lia|change (Z.of_nat 1) with 1%Z; rewrite P1; lia|lia].
    + exists o', h'. split; [exact E|]. split; [exact W'|]. exists cs, a. split; [exact C|]. change (Z.to_nat (Z.max 1 1)) with 1%nat in Ep. inversion Ep as [|n c0 b cs1 cs2 Ep0 SRb Ub]; subst. inversion Ep0; subst.
      assert (Es : (fun i => nth (Z.to_nat (pick (Z.of_nat i))) rise_pts []) <$> seq 0 2 = rise_seeds) by (cbn [seq fmap list_fmap]; change (Z.of_nat 0) with 0%Z; change (Z.of_nat 1) with 1%Z; rewrite P0, P1; reflexivity). rewrite Es in *.
      apply rise_update in Ub; [subst|intros i Hi; apply (stale_unique rise_pts rise_seeds _ _ SRb rise_rule0); exact Hi]. unfold distortion. rewrite (Rsum_ext _ _ (fun j => sqd (nth j rise_pts []) (nth (nth j [1; 1; 1]%nat 0%nat) rise_next []))) by (intros j Hj; rewrite (stale_unique _ _ _ _ SR rise_rule1 j Hj); reflexivity).
      unfold sqd, Rsum. cbn. lra.
  - exists (fun i => nth i [0; 0; 1]%nat 0%nat). split; [|split; [exact rise_rule0|unfold distortion, sqd, Rsum; cbn; lra]].
    intros j i Hj Hi. cbn in Hj, Hi. destruct j as [|[|[|j]]]; [| | |lia]; (destruct i as [|[|i]]; [| |lia]); (split; [cbn; lia|]); unfold sqd, Rsum; cbn; lra.
Qed.
