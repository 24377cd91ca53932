(** * Concrete cases for C55 and later. *)
From Verif Require Import Base BaseProofs Vec VecSpec VecProofs VecProofs2 Mat MatSpec MatProofs MatProofs2 MatProofs3 MatProofs4 MatProofs5 Sym Act ActProofs ActProofs2 Cost CostProofs Svm Util UtilProofs Knn KnnProofs PropKnn Kmeans KmeansProofs PropKmeans KmeansProofs2 PropKmeans2 ExBuild.
From Verif Require Import LibmR PropAct PropAct2 CostSpec PropUtil PropGlm5 ExNum.
From Coq Require Import Reals Lra.
From Verif Require Import RInst.
Open Scope R_scope.

Lemma to_int_IZR (z : Z) : (-2147483648 <= z <= 2147483647)%Z -> m_to_int (F := R) (IZR z) = Some z.
Proof.
  intros Hz. assert (G1 : IZR (-2147483648) <= IZR z) by (apply IZR_le; lia). assert (G2 : IZR z <= IZR 2147483647) by (apply IZR_le; lia). rewrite to_int_in by (unfold PropGlm5.in_int; lra). f_equal. unfold Rtrunc.
  assert (E : forall y, Int_part (IZR y) = y). { intros y. unfold Int_part. rewrite <- (tech_up (IZR y) (y + 1)); [lia|rewrite plus_IZR; lra|rewrite plus_IZR; lra]. }
  destruct (Rlt_dec (IZR z) 0); [rewrite <- opp_IZR, E; lia|apply E].
Qed.
(** Two training points, 0 with label 1 and 10 with label 0, one neighbour: the training point 10 is classified as 1, its
    nearest row (itself) having label 0. *)
Example ex_C55_training_point : exists (h : heap R) o p, trained h o 1 [[0];[10]] [1%Z;0%Z] /\ kn_k o = 1%Z /\ abs h !! p = Some (AVec [10]) /\
  runs (knn_model_test o (Some p)) h (fun cl h' => abs h' = abs h /\ cl = 1%Z).
Proof.
  reach [LM 1 [[0];[10]]; LV [1;0]; LV [10]]. exists h, (Knn (Some d) (Some d0) 1), d1.
  assert (T : trained h (Knn (Some d) (Some d0) 1) 1 [[0];[10]] [1%Z;0%Z]).
  { split; [exists d; auto|repeat constructor|discriminate| |discriminate]. exists d0, [1;0]. split; [reflexivity|]. split; [exact Hd0|]. repeat constructor; apply to_int_IZR; lia. }
  split; [exact T|]. split; [reflexivity|]. split; [exact Hd1|].
  assert (D0 : distances [10] [[0];[10]] 0 = 10). { unfold distances, distance. cbn. replace (0 + (10 - 0) * (10 - 0)) with (10 * 10) by ring. apply sqrt_square. lra. }
  assert (D1 : distances [10] [[0];[10]] 1 = 0). { unfold distances, distance. cbn. replace (0 + (10 - 10) * (10 - 10)) with 0 by ring. apply sqrt_0. }
  apply (C55_one_neighbour (fun _ => True) h _ 1 [[0];[10]] [1%Z;0%Z] 1%Z d1 [10] 1 R_order W T Hd1); [auto|reflexivity|cbn; lia| |reflexivity].
  intros j Hj Hne. cbn in Hj. replace j with 0%nat by lia. rewrite D0, D1. apply Rltb_true. lra.
Qed.
(** Three neighbours are asked for, row 0 is the nearest row: one is found. *)
Example ex_C55_neighbours : exists (h : heap R) o p, trained h o 1 [[0];[10];[20]] [0%Z;1%Z;1%Z] /\ kn_k o = 3%Z /\ abs h !! p = Some (AVec [1]) /\
  runs (knn_nearest o (Some p)) h (fun ns h' => abs h' = abs h /\ ns = [0%Z]).
Proof.
  reach [LM 1 [[0];[10];[20]]; LV [0;1;1]; LV [1]]. exists h, (Knn (Some d) (Some d0) 3), d1.
  assert (T : trained h (Knn (Some d) (Some d0) 3) 1 [[0];[10];[20]] [0%Z;1%Z;1%Z]).
  { split; [exists d; auto|repeat constructor|discriminate| |discriminate]. exists d0, [0;1;1]. split; [reflexivity|]. split; [exact Hd0|]. repeat constructor; apply to_int_IZR; lia. }
  split; [exact T|]. split; [reflexivity|]. split; [exact Hd1|].
  assert (D : forall j, (j < 3)%nat -> distances [1] [[0];[10];[20]] j = nth j [1;9;19] 0).
  { intros [|[|[|j]]] Hj; [| | |lia]; unfold distances, distance; cbn; [replace (0 + (1 - 0) * (1 - 0)) with (1 * 1) by ring|replace (0 + (1 - 10) * (1 - 10)) with (9 * 9) by ring|replace (0 + (1 - 20) * (1 - 20)) with (19 * 19) by ring]; apply sqrt_square; lra. }
  destruct (C55_neighbours (fun _ => True) h _ 1 [[0];[10];[20]] [0%Z;1%Z;1%Z] d1 [1] R_order W T Hd1 (fun _ _ => I)) as (ns & h' & E & W' & A & js & -> & [N1 N2 N3 N4] & L). exists (Z.of_nat <$> js), h'. split; [exact E|]. split; [exact W'|]. split; [exact A|].
  assert (C : nearer_than_row0 (distances [1] [[0];[10];[20]]) 3 = 0%nat).
  { unfold nearer_than_row0. apply length_zero_iff_nil. assert (Forall (fun j => s_lt (distances [1] [[0];[10];[20]] j) (distances [1] [[0];[10];[20]] 0) = false) (seq 0 3)) as G.
    { apply list.Forall_forall. intros j [_ Hj]%elem_of_seq. cbn in Hj. rewrite !D by lia. apply Rltb_false. destruct j as [|[|[|j]]]; cbn; try lra; lia. }
    clear - G. induction G as [|j l Hj _ IH]; [reflexivity|]. rewrite filter_cons_False by (rewrite Hj; discriminate). exact IH. }
  cbn [length kn_k] in L. rewrite C in L. clear T E. destruct js as [|a [|? ?]]; [cbn in L; lia| |cbn in L; lia]. clear L C. apply Forall_inv in N2. cbn in N2. cbn. f_equal.
  destruct (decide (a = 0%nat)) as [->|Ha]; [reflexivity|]. exfalso. destruct (N4 a 0%nat ltac:(left) ltac:(cbn; lia) ltac:(rewrite elem_of_list_singleton; congruence)) as [G|[_ G]]; [|lia]. rewrite !D in G by lia. apply Rltb_true in G. destruct a as [|[|[|a]]]; cbn in G; try lra; lia.
Qed.

(** ** C56 *)
Lemma km_new_runs (h : heap R) : wf h -> exists o h', km_new h = Ok o h' /\ wf h' /\ abs h !! km_mu o = None /\ abs h !! km_r o = None /\ km_mu o <> km_r o /\ abs h' = <[km_r o := (SMat 0 0, [])]> (<[km_mu o := (SMat 0 0, [])]> (abs h)) /\ km_init o = false /\ km_type o = Centroid.
Proof.
  intros W. assert (R : runs km_new h (fun o h' => abs h !! km_mu o = None /\ abs h !! km_r o = None /\ km_mu o <> km_r o /\ abs h' = <[km_r o := (SMat 0 0, [])]> (<[km_mu o := (SMat 0 0, [])]> (abs h)) /\ km_init o = false /\ km_type o = Centroid)).
  { apply runs_wp. unfold km_new. wbind. apply wp_m_new; [exact W|]. intros mu h1 W1 N1 A1 _. wbind. apply wp_m_new; [exact W1|]. intros r h2 W2 N2 A2 _. apply wp_ret. rewrite A1 in N2, A2. split_none N2. cbn. split; [exact W2|]. split_and!; auto. }
  destruct R as (o & h' & E & W' & R). exists o, h'. split; [exact E|]. split; [exact W'|exact R].
Qed.
(** The object made by the constructor, the setters and three rows is in the state C56_train asks for, and one epoch of training
    raises the error from 9 to 17. *)
Example ex_C56_rise : exists (h : heap R) o, untrained h o 2 2 rise_pts /\
  runs (km_train (fun i => if (i =? 0)%Z then 0%Z else 2%Z) 1 false o) h (fun o' h' => exists cs a, clustering h' o' 2 rise_pts cs a /\ distortion rise_pts cs a = 17).
Proof.
  reach [LM 2 rise_pts]. destruct (km_new_runs h W) as (o & h' & E & W' & N1 & N2 & Dn & A & Ei & Et). set (o2 := km_set_k (km_set_input o (Some d)) 2). assert (d <> km_mu o) by congruence. assert (d <> km_r o) by congruence.
  assert (U : untrained h' o2 2 2 rise_pts).
  { split; try reflexivity; auto.
    - exists d. split_and!; auto. rewrite A, !lookup_insert_ne by (cbn; congruence). exact Hd.
    - repeat constructor.
    - do 3 eexists. cbn. rewrite A, lookup_insert_ne by congruence. apply lookup_insert.
    - do 3 eexists. cbn. rewrite A. apply lookup_insert. }
  exists h', o2. split; [exact U|]. exact (proj1 (C56_train_raises_error_refuted h' o2 false _ U eq_refl eq_refl)).
Qed.
(** k-means++ with two clusters is undefined behaviour on the same data. *)
Example ex_C56_pp : exists (h : heap R) o, km_type o = KMeansPP /\ km_k o = 2%Z /\ km_train (fun _ => 0%Z) 1 false o h = UB.
Proof.
  reach [LM 2 rise_pts]. destruct (km_new_runs h W) as (o & h' & E & W' & N1 & N2 & Dn & A & Ei & Et). set (o2 := km_set_mean_type (km_set_k (km_set_input o (Some d)) 2) KMeansPP). assert (d <> km_mu o) by congruence. assert (d <> km_r o) by congruence.
  exists h', o2. split; [reflexivity|]. split; [reflexivity|]. apply (C56_kmeanspp_two_clusters_refuted h' o2 2 rise_pts (fun _ => 0%Z) 1 false d []); cbn; auto; try lia; try congruence; try (unfold int_max; lia).
  - rewrite A, !lookup_insert_ne by congruence. exact Hd.
  - repeat constructor.
  - rewrite A, lookup_insert_ne by congruence. apply lookup_insert.
  - do 3 eexists. rewrite A. apply lookup_insert.
Qed.
