(** * C48, C49: mini-batches and scores. *)
From Verif Require Import Base BaseProofs Vec VecSpec VecProofs VecProofs2 Mat MatSpec MatProofs MatProofs2 MatProofs3 MatProofs4 MatProofs5 Frame StatProofs Act ActProofs ActProofs2 Cost CostProofs Sym Svm LinAlg LinAlgProofs Util UtilProofs.
From Verif Require Import RErf LibmR PropAct PropAct2 CostSpec.
From Coq Require Import Reals Lra Lia.
From Verif Require Import RInst.

(** ** C48 *)
Section batches.
Context {F : Type} `{Scalar F} `{Libm F}.
Implicit Types (h : heap F) (ys : list F) (X Y : nat -> nat -> F).

(** The matrix of rows [from], ..., [from + m - 1] of X. *)
Definition rows_of (k m : nat) X (from : nat) : aobj F := Mat k m (fun r c => X (from + r)%nat c).

(** Every batch of create_mini_batchesmv holds its own m = n / nb consecutive rows of the input; its labels are always the
    first m labels. *)
Theorem C48_mv_batches h x y k n X ys nb : wf h -> abs h !! x = Some (Mat k n X) -> abs h !! y = Some (AVec ys) ->
  length ys = n -> (0 < nb)%nat -> Z.of_nat n <= int_max -> Z.of_nat k <= int_max ->
  runs (mini_batches_mv (Some x) (Some y) (Z.of_nat nb)) h (fun bs h' => length bs = nb /\
    batches_at (fun i => rows_of k (n / nb) X (n / nb * i)) (fun _ => AVec (take (n / nb) ys)) bs (abs h) (abs h')).
Proof.
  intros Hw Hx Hy El Hnb Hn Hk. apply runs_wp. eapply wp_mini_batches_mv; [exact Hw|exact Hx|exact Hy|exact El|exact Hnb|exact Hn|exact Hk|]. auto.
Qed.
(** The labels that belong to the rows of batch i. *)
Definition labels_of (m : nat) ys (i : nat) : list F := take m (drop (m * i) ys).
(** So a batch is labelled correctly exactly when its labels happen to equal those of batch 0. *)
Theorem C48_mv_labels_refuted h x y k n X ys nb : wf h -> abs h !! x = Some (Mat k n X) -> abs h !! y = Some (AVec ys) ->
  length ys = n -> (0 < nb)%nat -> Z.of_nat n <= int_max -> Z.of_nat k <= int_max ->
  runs (mini_batches_mv (Some x) (Some y) (Z.of_nat nb)) h (fun bs h' => forall i b, bs !! i = Some b ->
    (abs h' !! b.2 = Some (AVec (labels_of (n / nb) ys i)) <-> labels_of (n / nb) ys i = labels_of (n / nb) ys 0)).
Proof.
  intros Hw Hx Hy El Hnb Hn Hk. destruct (C48_mv_batches h x y k n X ys nb Hw Hx Hy El Hnb Hn Hk) as (bs & h' & E & W & L & B). exists bs, h'. split; [exact E|]. split; [exact W|].
  intros i b Hb. destruct (ba_val _ _ _ _ _ B i b Hb) as [_ V]. rewrite V. unfold labels_of at 3. rewrite Nat.mul_0_r, drop_0. split; intros G; [|rewrite G; reflexivity].
  injection G as _ G. symmetry. apply (inj (fmap Some)) in G. exact G.
Qed.
(** With one batch everything is right. *)
Corollary C48_mv_single h x y k n X ys : wf h -> abs h !! x = Some (Mat k n X) -> abs h !! y = Some (AVec ys) ->
  length ys = n -> Z.of_nat n <= int_max -> Z.of_nat k <= int_max ->
  runs (mini_batches_mv (Some x) (Some y) 1) h (fun bs h' => exists bi bo, bs = [(bi, bo)] /\ abs h !! bi = None /\ abs h !! bo = None /\ bi <> bo /\
    abs h' = <[bo := AVec ys]> (<[bi := Mat k n X]> (abs h))).
Proof.
  intros Hw Hx Hy El Hn Hk. destruct (C48_mv_batches h x y k n X ys 1 Hw Hx Hy El ltac:(lia) Hn Hk) as (bs & h' & E & W & L & [Bn Bf Bv Br]). exists bs, h'. split; [exact E|]. split; [exact W|].
  destruct bs as [|[bi bo] [|? ?]]; try discriminate. exists bi, bo. rewrite Nat.div_1_r in *. destruct (Bv 0%nat _ eq_refl) as [V1 V2]. cbn [fst snd] in *.
  change (blocs [(bi, bo)]) with [bi; bo] in *. apply list.NoDup_cons in Bn as [Bn _]. rewrite elem_of_list_singleton in Bn. split; [reflexivity|]. split; [apply Bf; rewrite !elem_of_cons; tauto|]. split; [apply Bf; rewrite !elem_of_cons; tauto|]. split; [exact Bn|].
  apply map_eq. intros l. destruct (decide (bo = l)) as [<-|Ho]; [rewrite lookup_insert, V2, take_ge by lia; reflexivity|]. rewrite lookup_insert_ne by exact Ho.
  destruct (decide (bi = l)) as [<-|Hi]; [rewrite lookup_insert, V1; f_equal; unfold rows_of; apply Mat_ext; intros; f_equal; lia|]. rewrite lookup_insert_ne by exact Hi.
  apply Br. rewrite !elem_of_cons, elem_of_nil. intros [->|[->|[]]]; congruence.
Qed.
(** create_mini_batchesm / mm step by the number of batches, not by the batch size. *)
Theorem C48_m_batches h x k n X nb : wf h -> abs h !! x = Some (Mat k n X) ->
  (0 < nb)%nat -> (nb * (nb - 1) + n / nb <= n)%nat -> Z.of_nat n <= int_max -> Z.of_nat k <= int_max ->
  runs (mini_batches_m (Some x) (Z.of_nat nb)) h (fun bs h' => length bs = nb /\ mats_at (fun i => rows_of k (n / nb) X (nb * i)) bs (abs h) (abs h')).
Proof. intros Hw Hx Hnb Hl Hn Hk. apply runs_wp. eapply wp_mini_batches_m; [exact Hw|exact Hx|exact Hnb|exact Hl|exact Hn|exact Hk|]. auto. Qed.
Theorem C48_mm_batches h x y k k' n X Y nb : wf h -> abs h !! x = Some (Mat k n X) -> abs h !! y = Some (Mat k' n Y) ->
  (0 < nb)%nat -> (nb * (nb - 1) + n / nb <= n)%nat -> Z.of_nat n <= int_max -> Z.of_nat k <= int_max -> Z.of_nat k' <= int_max ->
  runs (mini_batches_mm (Some x) (Some y) (Z.of_nat nb)) h (fun bs h' => length bs = nb /\
    batches_at (fun i => rows_of k (n / nb) X (nb * i)) (fun i => rows_of k' (n / nb) Y (nb * i)) bs (abs h) (abs h')).
Proof. intros Hw Hx Hy Hnb Hl Hn Hk Hk'. apply runs_wp. eapply wp_mini_batches_mm; [exact Hw|exact Hx|exact Hy|exact Hnb|exact Hl|exact Hn|exact Hk|exact Hk'|]. auto. Qed.

(** Row j is in batch i when batch i starts at row [start i] and has m rows. *)
Definition in_batch (start : nat -> nat) (m i j : nat) : Prop := (start i <= j < start i + m)%nat.
(** A split is a partition of the first nb * m rows when each of them is in exactly one of the nb batches. *)
Definition partitions (start : nat -> nat) (m nb : nat) : Prop := forall j, (j < nb * m)%nat -> exists! i, (i < nb)%nat /\ in_batch start m i j.
Theorem C48_mv_inputs_partition m nb : (0 < m)%nat -> partitions (fun i => m * i)%nat m nb.
Proof.
  intros Hm j Hj. exists (j / m)%nat. unfold in_batch. pose proof (Nat.div_mod j m ltac:(lia)) as D. pose proof (Nat.mod_upper_bound j m ltac:(lia)) as U.
  split; [split; nia|]. intros i [Hi Hb]. assert (m * i <= j < m * i + m)%nat by exact Hb. nia.
Qed.
Theorem C48_mm_partition_iff m nb : (0 < m)%nat -> (0 < nb)%nat -> partitions (fun i => nb * i)%nat m nb <-> (nb = 1 \/ nb = m)%nat.
Proof.
  intros Hm Hnb. split.
  - intros P. destruct (decide (nb = 1 \/ nb = m)%nat) as [|C]; [assumption|exfalso]. destruct (decide (nb < m)%nat) as [L|L].
    + destruct (P nb ltac:(nia)) as (i & [Hi Hb] & U). assert (i = 0)%nat by (apply U; split; [lia|]; unfold in_batch; lia). assert (i = 1)%nat by (apply U; split; [lia|]; unfold in_batch; lia). lia.
    + destruct (P m ltac:(nia)) as (i & [Hi Hb] & _). unfold in_batch in Hb. destruct i as [|i]; nia.
  - intros [->| ->] j Hj.
    + exists 0%nat. unfold in_batch. split; [split; lia|]. intros i [Hi _]. lia.
    + apply C48_mv_inputs_partition; [exact Hm|exact Hj].
Qed.
(** With 1 < nb < m the last rows are in no batch, and neighbouring batches overlap. *)
Theorem C48_mm_rows_lost m nb : (1 < nb < m)%nat -> forall j, (nb * (nb - 1) + m <= j < nb * m)%nat -> forall i, (i < nb)%nat -> ~ in_batch (fun i => nb * i)%nat m i j.
Proof. intros Hn j Hj i Hi Hb. unfold in_batch in Hb. assert (nb * i <= nb * (nb - 1))%nat by nia. lia. Qed.
(** Zero batches (a mini-batch larger than the data set): integer division by zero. *)
Theorem C48_no_batches_UB h x ry k n X : abs h !! x = Some (Mat k n X) -> mini_batches_mv (Some x) ry 0 h = UB.
Proof. apply mini_batches_mv_UB. Qed.
End batches.

(** ** C49 *)
Open Scope R_scope.
(** How many elements satisfy f. *)
Definition countb {A} (f : A -> bool) (l : list A) : nat := length (filter (fun x => f x = true) l).
(** Math::round: to the nearest integer, halves away from zero. *)
Definition Rround (x : R) : R := if Rle_dec 0 x then IZR (Int_part (x + / 2)) else - IZR (Int_part (/ 2 - x)).
(** The prediction, rounded, is the label. *)
Definition right_label (p : R * R) : bool := if Req_EM_T (Rround p.1) p.2 then true else false.
(** An integer small enough for the 1e-5 relative tolerance to be below 1. *)
Definition small_int (x : R) : Prop := exists z, x = IZR z /\ (Z.abs z <= 100000)%Z.

Lemma countb_cons {A} (f : A -> bool) a l : countb f (a :: l) = ((if f a then 1 else 0) + countb f l)%nat.
Proof. unfold countb. rewrite filter_cons. destruct (f a); reflexivity. Qed.
Lemma countb_app {A} (f : A -> bool) l l' : countb f (l ++ l') = (countb f l + countb f l')%nat.
Proof. unfold countb. rewrite list.filter_app, app_length. reflexivity. Qed.
Lemma approx_int a b : small_int a -> small_int b -> s_approx (F := R) a b = if Req_EM_T a b then true else false.
Proof.
  intros (x & -> & Hx) (y & -> & Hy). unfold s_approx. cbn [s_eq s_lt s_mul s_sub R_scalar]. unfold Reqb, Rltb. destruct (Req_EM_T (IZR x) (IZR y)) as [E|E]; [reflexivity|].
  assert (Hne : (x <> y)%Z) by congruence. rewrite !s_abs_R. unfold cmp_eps. cbn. rewrite <- minus_IZR, !Rabs_Zabs. assert (G : 1 <= IZR (Z.abs (x - y))) by (apply IZR_le; lia). assert (G' : IZR (Z.abs x) <= 100000) by (apply (IZR_le _ 100000); lia).
  destruct (Rlt_dec _ (1 / 100000)) as [L|L]; (destruct (Rlt_dec _ _) as [L'|L']; [|reflexivity]); lra.
Qed.
Lemma for_count_vec h a b xs ys (rnd : R -> R) : wf h -> abs h !! a = Some (AVec xs) -> abs h !! b = Some (AVec ys) -> length xs = length ys ->
  performance_vec rnd (Some a) (Some b) h = Ok (INR (countb (fun p => s_approx (F := R) (rnd p.1) p.2) (zip xs ys)) / INR (length xs)) h.
Proof.
  intros Hw Ha Hb E. apply wp_eq. unfold performance_vec. wbind. eapply wp_v_size_vec; [exact Ha|].
  wbind. apply wp_for_acc_n with (I := fun i c h' => h' = h /\ c = Z.of_nat (countb (fun p => s_approx (F := R) (rnd p.1) p.2) (zip (take i xs) (take i ys)))).
  - split; reflexivity.
  - intros i c h' Hi [-> ->]. destruct (lookup_lt_is_Some_2 xs i Hi) as [u Hu]. destruct (lookup_lt_is_Some_2 ys i ltac:(lia)) as [v Hv].
    wbind. eapply wp_v_get; [exact Hw|exact Ha|]. replace (Z.of_nat i <? 0)%Z with false by lia. rewrite Nat2Z.id, Hu. wbind. eapply wp_v_get; [exact Hw|exact Hb|]. replace (Z.of_nat i <? 0)%Z with false by lia. rewrite Nat2Z.id, Hv. cbn [default].
    apply wp_ret. split; [reflexivity|]. rewrite (take_S_r xs i u Hu), (take_S_r ys i v Hv), zip_with_app by (rewrite !take_length; lia). rewrite countb_app. cbn [zip_with]. rewrite countb_cons. cbn [fst snd].
    change (countb _ []) with 0%nat. unfold Datatypes.id; destruct (s_approx (rnd u) v); lia.
  - intros c h' [-> ->]. rewrite !take_ge by lia. apply wp_ret. split; [|reflexivity]. cbn [s_div s_of_Z R_scalar]. rewrite <- !INR_IZR_INZ. reflexivity.
Qed.
Lemma Rround_int x : exists z, Rround x = IZR z.
Proof. unfold Rround. destruct (Rle_dec 0 x); [eexists; reflexivity|]. exists (- Int_part (/ 2 - x))%Z. rewrite opp_IZR. reflexivity. Qed.
(** performance_vec / score: the fraction of predictions that round to their label (labels integers up to 100000). *)
Theorem C49_performance_vec h a b xs ys : wf h -> abs h !! a = Some (AVec xs) -> abs h !! b = Some (AVec ys) -> length xs = length ys ->
  Forall (fun x => small_int (Rround x)) xs -> Forall small_int ys ->
  performance_vec Rround (Some a) (Some b) h = Ok (INR (countb right_label (zip xs ys)) / INR (length xs)) h.
Proof.
  intros Hw Ha Hb E Fx Fy. rewrite (for_count_vec h a b xs ys Rround Hw Ha Hb E). do 3 f_equal. clear - E Fx Fy. revert ys E Fy. induction xs as [|x xs IH]; intros [|y ys] E Fy; try discriminate; [reflexivity|].
  inversion Fx; inversion Fy; subst. cbn [zip_with]. rewrite !countb_cons, IH by (auto; cbn in E; lia). f_equal. unfold right_label. cbn [fst snd]. rewrite approx_int by assumption. reflexivity.
Qed.
(** Beyond that the tolerance accepts wrong labels: a prediction off by one counts as right. *)
Theorem C49_performance_large_refuted h a b : wf h -> abs h !! a = Some (AVec [200001]) -> abs h !! b = Some (AVec [200000]) ->
  performance_vec Rround (Some a) (Some b) h = Ok 1 h /\ Rround 200001 <> 200000.
Proof.
  intros Hw Ha Hb. assert (E : Rround 200001 = 200001).
  { unfold Rround. destruct (Rle_dec 0 200001) as [L|L]; [|lra]. f_equal. unfold Int_part. replace (up (200001 + / 2)) with 200002%Z; [reflexivity|]. apply tech_up; lra. }
  rewrite E. split; [|lra]. rewrite (for_count_vec h a b [200001] [200000] Rround Hw Ha Hb eq_refl). f_equal. cbn [zip_with]. rewrite countb_cons. cbn [fst snd]. rewrite E.
  unfold s_approx. cbn [s_eq s_lt s_mul s_sub R_scalar]. unfold Reqb, Rltb. destruct (Req_EM_T 200001 200000); [lra|]. rewrite !s_abs_R. unfold cmp_eps. cbn. rewrite !Rabs_pos_eq by lra.
  destruct (Rlt_dec _ (1 / 100000)); [lra|]. destruct (Rlt_dec _ _); [|lra]. cbn. lra.
Qed.
(** performance_mat: the fraction of rows that are right in every column. *)
Definition right_row (c : nat) (f g : nat -> nat -> R) (i : nat) : bool := forallb (fun j => right_label (f i j, g i j)) (seq 0 c).
Lemma right_row_count c f g i : right_row c f g i = (countb (fun j => right_label (f i j, g i j)) (seq 0 c) =? c)%nat.
Proof.
  unfold right_row. assert (G : forall l, forallb (fun j => right_label (f i j, g i j)) l = (countb (fun j => right_label (f i j, g i j)) l =? length l)%nat /\ (countb (fun j => right_label (f i j, g i j)) l <= length l)%nat).
  { induction l as [|j l [IH1 IH2]]; [split; reflexivity|]. rewrite countb_cons. cbn [forallb length]. destruct (right_label _); cbn [andb]; [rewrite IH1; split; [reflexivity|lia]|]. split; [|lia]. symmetry. apply Nat.eqb_neq. lia. }
  destruct (G (seq 0 c)) as [-> _]. rewrite seq_length. reflexivity.
Qed.
Theorem C49_performance_mat h a b c r f g : wf h -> abs h !! a = Some (Mat c r f) -> abs h !! b = Some (Mat c r g) -> (0 < c)%nat ->
  (forall i j, (i < r)%nat -> (j < c)%nat -> small_int (Rround (f i j)) /\ small_int (g i j)) ->
  performance_mat Rround (Some a) (Some b) h = Ok (INR (countb (right_row c f g) (seq 0 r)) / INR r) h.
Proof.
  intros Hw Ha Hb Hc Hs. apply wp_eq. unfold performance_mat. wbind. eapply wp_m_size; [exact Ha|]. cbn [fst snd].
  wbind. apply wp_for_acc_n with (I := fun i s h' => h' = h /\ s = INR (countb (right_row c f g) (seq 0 i))).
  - split; reflexivity.
  - intros i s h' Hi [-> ->]. rewrite seq_S, countb_app, countb_cons. cbn [plus]. change (countb _ []) with 0%nat. set (N := countb (right_row c f g) (seq 0 i)).
    wbind. apply wp_for_acc_n with (I := fun j p h' => h' = h /\ p = (Z.of_nat (countb (fun j => right_label (f i j, g i j)) (seq 0 j)), INR N + (if decide (j = c) then if right_row c f g i then 1 else 0 else 0))).
    + split; [reflexivity|]. rewrite decide_False by lia. f_equal. lra.
    + intros j p h' Hj [-> ->]. cbn [fst snd]. destruct (Hs i j Hi Hj) as [S1 S2].
      wbind. eapply (wp_m_get_mat h a c r f); [exact Hw|exact Ha|exact Hi|exact Hj|]. wbind. eapply (wp_m_get_mat h b c r g); [exact Hw|exact Hb|exact Hi|exact Hj|].
      apply wp_ret. split; [reflexivity|]. rewrite approx_int by assumption. rewrite (seq_S j 0), countb_app, countb_cons. cbn [plus]. change (countb _ []) with 0%nat.
      rewrite (decide_False (P := (j = c))) by lia. rewrite right_row_count. set (q := countb (fun j => right_label (f i j, g i j)) (seq 0 j)).
      assert (Hq : (q <= j)%nat) by (unfold q, countb; etransitivity; [apply filter_length|]; rewrite seq_length; lia).
      assert (Es : (if if Req_EM_T (Rround (f i j)) (g i j) then true else false then (Z.of_nat q + 1)%Z else Z.of_nat q) = Z.of_nat (q + ((if right_label (f i j, g i j) then 1 else 0) + 0))).
      { unfold right_label. cbn [fst snd]. destruct (Req_EM_T _ _); lia. }
      rewrite Es. f_equal. set (q' := (q + ((if right_label (f i j, g i j) then 1 else 0) + 0))%nat). assert (Hq' : (q' <= S j)%nat) by (unfold q'; destruct (right_label _); lia).
      destruct (decide (S j = c)) as [Ec|Ec].
      * assert (Eq : countb (fun j => right_label (f i j, g i j)) (seq 0 c) = q').
        { rewrite <- Ec, seq_S, countb_app, countb_cons. cbn [plus]. change (countb _ []) with 0%nat. reflexivity. }
        rewrite Eq. destruct (Nat.eqb_spec q' c) as [E|E]; [replace (Z.of_nat q' =? Z.of_nat c)%Z with true by lia; cbn; lra|replace (Z.of_nat q' =? Z.of_nat c)%Z with false by lia; lra].
      * replace (Z.of_nat q' =? Z.of_nat c)%Z with false by lia. reflexivity.
    + intros p h' [-> ->]. apply wp_ret. split; [reflexivity|]. cbn [snd]. rewrite decide_True by reflexivity. rewrite plus_INR. destruct (right_row c f g i); cbn; lra.
  - intros s h' [-> ->]. apply wp_ret. split; [|reflexivity]. cbn [s_div s_of_Z R_scalar]. rewrite <- INR_IZR_INZ. reflexivity.
Qed.

(** accuracy, precision, recall, f1_score of predictions against binary labels. *)
Definition is1 (x : R) : bool := if Req_EM_T x 1 then true else false.
Definition same (p : R * R) : bool := if Req_EM_T p.1 p.2 then true else false.
Definition tp (p : R * R) : bool := is1 p.1 && is1 p.2.
Lemma tf_pn_counts : forall yh y a b c d, length yh = length y ->
  tf_pn (F := R) yh y (a, b, c, d) = Some (a + INR (countb tp (zip yh y)), b + INR (countb (fun p => is1 p.1 && negb (is1 p.2)) (zip yh y)),
    c + INR (countb (fun p => same p && negb (is1 p.1)) (zip yh y)), d + INR (countb (fun p => negb (same p) && negb (is1 p.1)) (zip yh y))).
Proof.
  induction yh as [|u yh IH]; intros [|v y] a b c d E; try discriminate; [cbn; do 2 f_equal; [f_equal; [f_equal|]|]; lra|].
  cbn [tf_pn zip_with]. rewrite !countb_cons, !plus_INR. cbn [s_eq s_one s_add R_scalar]. unfold tp, same, is1, Reqb. cbn [fst snd].
  destruct (Req_EM_T u v) as [<-|Huv]; destruct (Req_EM_T u 1) as [E1|E1]; rewrite IH by (cbn in E; lia); cbn [andb negb]; [| |destruct (Req_EM_T v 1) as [E2|E2]; [lra|]|]; cbn [andb negb INR];
  (do 2 f_equal; [f_equal; [f_equal|]|]); unfold tp, same, is1; lra.
Qed.
Section scores.
Context (yh y : list R) (h : heap R) (E : length yh = length y).
Theorem C49_accuracy : u_accuracy yh y h = Ok (INR (countb same (zip yh y)) / INR (length y)) h.
Proof using E.
  unfold u_accuracy, scores. change (s_zero (F := R)) with 0. rewrite tf_pn_counts by exact E. unfold ret. f_equal. cbn [s_div s_add R_scalar]. f_equal.
  - rewrite !Rplus_0_l, <- plus_INR. f_equal. clear. induction (zip yh y) as [|[u v] l IH]; [reflexivity|]. rewrite !countb_cons. unfold tp, same, is1 in *. cbn [fst snd].
    destruct (Req_EM_T u v) as [<-|Huv]; destruct (Req_EM_T u 1); cbn [andb negb]; [lia|lia| |lia]. destruct (Req_EM_T v 1); [lra|]. cbn [andb]. lia.
  - rewrite !Rplus_0_l, <- !plus_INR. f_equal. assert (L : length y = length (zip yh y)) by (rewrite zip_with_length; lia). rewrite L. clear. induction (zip yh y) as [|[u v] l IH]; [reflexivity|]. rewrite !countb_cons. unfold tp, same, is1 in *. cbn [fst snd length].
    destruct (Req_EM_T u v) as [<-|Huv]; destruct (Req_EM_T u 1); cbn [andb negb]; try lia. destruct (Req_EM_T v 1); [lra|]. cbn [andb negb]. lia.
Qed.
(** precision = of the predicted ones, the fraction that are ones. *)
Theorem C49_precision : u_precision yh y h = Ok (INR (countb tp (zip yh y)) / INR (countb is1 yh)) h.
Proof using E.
  unfold u_precision, scores. change (s_zero (F := R)) with 0. rewrite tf_pn_counts by exact E. unfold ret. f_equal. cbn [s_div s_add R_scalar]. rewrite !Rplus_0_l, <- plus_INR. do 2 f_equal.
  clear h. revert y E. induction yh as [|u yh' IH]; intros [|v y] E; try discriminate; [reflexivity|]. cbn [zip_with]. rewrite !countb_cons. rewrite <- (IH y) by (cbn in E; lia). unfold tp. cbn [fst snd]. destruct (is1 u), (is1 v); cbn [andb negb]; lia.
Qed.
(** recall = of the actual ones, the fraction predicted as ones; needs labels and predictions in {0, 1}. *)
Theorem C49_recall_binary : Forall (fun x => x = 0 \/ x = 1) yh -> Forall (fun x => x = 0 \/ x = 1) y ->
  u_recall yh y h = Ok (INR (countb tp (zip yh y)) / INR (countb is1 y)) h.
Proof using E.
  intros F1 F2. unfold u_recall, scores. change (s_zero (F := R)) with 0. rewrite tf_pn_counts by exact E. unfold ret. f_equal. cbn [s_div s_add R_scalar]. rewrite !Rplus_0_l, <- plus_INR. do 2 f_equal.
  clear h. revert y E F2. induction yh as [|u yh' IH]; intros [|v y] E F2; try discriminate; [reflexivity|]. inversion F1 as [|? ? U1 U2]; inversion F2 as [|? ? V1 V2]; subst. cbn [zip_with]. rewrite !countb_cons. rewrite <- (IH U2 y) by (try assumption; cbn in E; lia).
  unfold tp, same, is1. cbn [fst snd]. destruct U1 as [->| ->], V1 as [->| ->];
  repeat (match goal with |- context [Req_EM_T ?a ?b] => destruct (Req_EM_T a b); try lra end); cbn [andb negb]; lia.
Qed.
Theorem C49_f1 : exists p r, u_precision yh y h = Ok p h /\ u_recall yh y h = Ok r h /\ u_f1 yh y h = Ok (2 * p * r / (p + r)) h.
Proof using E.
  unfold u_f1, u_precision, u_recall, scores. change (s_zero (F := R)) with 0. rewrite tf_pn_counts by exact E. eexists _, _. split; [reflexivity|]. split; [reflexivity|]. unfold bind, ret. cbn. f_equal.
Qed.
End scores.
(** Fewer labels than predictions: the labels are read past their end. *)
Theorem C49_scores_short_UB (yh y : list R) (h : heap R) : (length y < length yh)%nat -> u_accuracy yh y h = UB.
Proof.
  intros L. unfold u_accuracy, scores. assert (G : forall yh y c, (length y < length yh)%nat -> tf_pn (F := R) yh y c = None).
  { clear. induction yh as [|u yh IH]; intros [|v y] [[[a b] c] d] L; cbn in L; try lia; [reflexivity|]. cbn [tf_pn]. apply IH. lia. }
  rewrite G by exact L. reflexivity.
Qed.
(** Three classes: a 0 predicted for a 2 counts against the recall of class 1. *)
Theorem C49_recall_multiclass_refuted (h : heap R) : u_recall [1; 0] [1; 2] h = Ok (1 / 2) h /\ countb tp (zip [1; 0] [1; 2]) = 1%nat /\ countb is1 [1; 2] = 1%nat.
Proof.
  split; [|unfold tp, is1, countb; cbn; repeat (match goal with |- context [Req_EM_T ?a ?b] => destruct (Req_EM_T a b); try lra end); cbn; repeat case_decide; try discriminate; try congruence; auto].
  unfold u_recall, scores. cbn [tf_pn s_eq s_one R_scalar]. unfold Reqb. repeat (match goal with |- context [Req_EM_T ?a ?b] => destruct (Req_EM_T a b); try lra end). unfold ret. f_equal. cbn. lra.
Qed.
