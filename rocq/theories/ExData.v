(** * The hypotheses of C81-C84 are met by concrete data. *)
From Verif Require Import Base BaseProofs Vec VecSpec VecProofs VecProofs2 Mat MatSpec MatProofs MatProofs2 MatProofs3 Act Stat StatProofs Inst Data PropData PropData2 RInst LibmR PropStat PropAct2 ExBuild ExAnn ExNb.
From Coq Require Import Reals Lra Permutation.
From Flocq Require Import Core IEEE754.BinarySingleNaN.
Open Scope R_scope.

(** Three examples with two features and one label each. *)
Definition Y31 (i j : nat) : R := match i with O => 2 | 1%nat => 0 | _ => 1 end.
Lemma data3 : exists (h : heap R) x y l b, wf h /\ abs h !! x = Some (Mat 2 3 X32) /\ abs h !! y = Some (Mat 1 3 Y31) /\ abs h !! l = Some (AVec [2;0;1]) /\ abs h !! b = Some (AVec [3000000000; 1]).
Proof.
  reach [LM 2 [[1;2];[3;4];[5;6]]; LM 1 [[2];[0];[1]]; LV [2;0;1]; LV [3000000000;1]]. exists h, d, d0, d1, d2. split; [exact W|].
  split; [eapply Mat_of; [exact Hd|repeat constructor|reflexivity|cells]|]. split; [eapply Mat_of; [exact Hd0|repeat constructor|reflexivity|cells]|]. split; assumption.
Qed.
Lemma int_R (q : nat) : (Z.of_nat q <= int_max)%Z -> m_to_int (INR q) = Some (Z.of_nat q).
Proof.
  intros Hq. destruct (C81_fraction 1 q ltac:(lra) Hq) as (t & E & Ht & B). cbn [s_mul s_of_Z R_scalar] in E. rewrite <- INR_IZR_INZ, Rmult_1_l in *.
  rewrite E. do 2 f_equal. assert (Hlt : INR q < INR (t + 1)) by (rewrite plus_INR; cbn [INR]; lra). apply INR_lt in Hlt. lia.
Qed.
(** Half of three examples: one for testing, two for training. *)
Example ex_C81_split draw : exists (h : heap R) x y, runs (train_test_split draw (Some (Some x, Some y)) (1/2)) h (fun res h' => exists ai ao bi bo XA YA XB YB, res = ((Some ai, Some ao), (Some bi, Some bo)) /\
  abs h' !! bi = Some (Mat 2 1 XB) /\ abs h' !! bo = Some (Mat 1 1 YB) /\ abs h' !! ai = Some (Mat 2 2 XA) /\ abs h' !! ao = Some (Mat 1 2 YA) /\
  examples 2 1 1 XB YB ++ examples 2 1 2 XA YA ≡ₚ [([1;2],[2]); ([3;4],[0]); ([5;6],[1])]).
Proof.
  destruct data3 as (h & x & y & l & b & W & Hx & Hy & _). exists h, x, y. destruct (C81_fraction (1/2) 3 ltac:(lra) (sm 3 ltac:(lia))) as (t & Et & Ht & B).
  assert (t = 1%nat) as ->. { change (INR 3) with (1+1+1) in B. destruct t as [|[|t]]; [cbn in B; lra|reflexivity|]. exfalso. rewrite !S_INR in B. pose proof (pos_INR t). lra. }
  destruct (C81_split draw h x y 2 1 3 3 1 X32 Y31 (1/2) W Hx Hy (sm 2 ltac:(lia)) (sm 1 ltac:(lia)) (sm 3 ltac:(lia)) Et ltac:(cbn; lia)) as (res & h' & E & W' & ai & ao & bi & bo & XA & YA & XB & YB & Er & ND & _ & A' & _ & P).
  exists res, h'. split; [exact E|]. split; [exact W'|]. exists ai, ao, bi, bo, XA, YA, XB, YB. split; [exact Er|]. cbn [Nat.min Nat.sub] in *.
  rewrite !list.NoDup_cons, !not_elem_of_cons in ND. destruct ND as ((N1 & N2 & N3 & _) & (N4 & N5 & _) & (N6 & _) & _). rewrite A'.
  split; [do 2 (rewrite lookup_insert_ne by congruence); apply lookup_insert|]. split; [do 3 (rewrite lookup_insert_ne by congruence); apply lookup_insert|]. split; [apply lookup_insert|]. split; [rewrite lookup_insert_ne by congruence; apply lookup_insert|]. exact P.
Qed.
Example ex_C81_order : exists draw, shuffle draw [0;1;2;3]%Z = [2;0;3;1]%Z.
Proof.
  apply C81_every_order.
  - rewrite !list.NoDup_cons, !not_elem_of_cons. repeat split; try apply not_elem_of_nil; try congruence. apply NoDup_nil_2.
  - apply Permutation_sym. change ([0;1] ++ 2 :: [3] ≡ₚ [2;0;3;1])%Z. rewrite <- Permutation_middle. cbn. do 2 apply perm_skip. apply perm_swap.
Qed.
Example ex_C81_too_large draw : exists (h : heap R) x y, train_test_split draw (Some (Some x, Some y)) 2 h = Crash.
Proof.
  destruct data3 as (h & x & y & l & b & W & Hx & Hy & _). exists h, x, y. eapply (C81_too_large draw h x y 2 1 3 3 6); [exact W|exact Hx|exact Hy|..]; try (apply sm; cbn; lia); [|cbn; lia].
  cbn [s_mul s_of_Z R_scalar Nat.min]. rewrite <- (int_R 6 (sm 6 ltac:(lia))). f_equal. change (Nat.min 3 3) with 3%nat. rewrite <- INR_IZR_INZ. cbn [INR]. cbn. lra.
Qed.
Example ex_C82_range : exists (h : heap R) x, runs (feature_scaling (H := R_with_inf 7) (Some x)) h (fun d h' => exists Y, abs h' !! d = Some (Mat 2 3 Y) /\ (forall i, (i < 3)%nat -> 0 <= Y i 1%nat <= 1) /\ exists i, (i < 3)%nat /\ Y i 1%nat = 1).
Proof.
  destruct data3 as (h & x & y & l & b & W & Hx & _). exists h, x. destruct (C82_range 7 h x 2 3 X32 W Hx (sm 2 ltac:(lia)) (sm 3 ltac:(lia))) as (d & h' & E & W' & Y & _ & A' & G).
  - intros i j Hi Hj. destruct i as [|[|[|i]]]; try lia; destruct j as [|[|j]]; try lia; cbn; lra.
  - exists d, h'. split; [exact E|]. split; [exact W'|]. exists Y. split; [rewrite A'; apply lookup_insert|]. destruct (G 1%nat ltac:(lia)) as (G1 & _ & G2 & _); [exists 0%nat, 1%nat; cbn; split_and!; try lia; lra|]. split; assumption.
Qed.
Example ex_C83 : exists (h : heap R) x, runs (mean_normalization (Some x)) h (fun d h' => exists Y, abs h' !! d = Some (Mat 2 3 Y) /\ mean (map (Y 2%nat) (seq 0 2)) = 0 /\ variance (map (Y 2%nat) (seq 0 2)) = 1) /\
  runs (mean_centering (Some x)) h (fun d h' => exists Y, abs h' !! d = Some (Mat 2 3 Y) /\ mean (map (Y 2%nat) (seq 0 2)) = 0).
Proof.
  destruct data3 as (h & x & y & l & b & W & Hx & _). exists h, x. split.
  - destruct (C83_standardised h x 2 3 X32 W Hx (sm 2 ltac:(lia)) ltac:(lia)) as (d & h' & E & W' & Y & A' & G). exists d, h'. split; [exact E|]. split; [exact W'|]. exists Y. split; [rewrite A'; apply lookup_insert|].
    apply (G 2%nat ltac:(lia)). intros K. cbn in K. specialize (K 5 6). rewrite !elem_of_cons in K. specialize (K ltac:(auto) ltac:(auto)). lra.
  - destruct (C83_centred h x 2 3 X32 W Hx (sm 2 ltac:(lia)) ltac:(lia)) as (d & h' & E & W' & Y & A' & G). exists d, h'. split; [exact E|]. split; [exact W'|]. exists Y. split; [rewrite A'; apply lookup_insert|]. apply (G 2%nat ltac:(lia)).
Qed.
Example ex_C83_erased : exists (h : heap R) x, abs h !! x = Some (Mat 1 3 Y31) /\ runs (mean_centering (Some x)) h (fun d h' => abs h' = <[d := Mat 1 3 (fun _ _ => 0)]> (abs h)).
Proof. destruct data3 as (h & x & y & l & b & W & _ & Hy & _). exists h, y. split; [exact Hy|]. apply C83_features_refuted with (X := Y31); assumption. Qed.
Example ex_C84 : exists (h : heap R) y, runs (one_hot_rep (Some y) 3) h (fun r h' => exists d T, r = Some d /\ abs h' !! d = Some (Mat 3 3 T) /\ T 0%nat 2%nat <> 0 /\ T 0%nat 1%nat = 0 /\ T 2%nat 1%nat <> 0).
Proof.
  destruct data3 as (h & x & y & l & b & W & _ & _ & Hl & _). exists h, l. assert (F2 : Forall2 (fun v q => m_to_int v = Some (Z.of_nat q) /\ (q < 3)%nat) [2;0;1] [2;0;1]%nat).
  { pose proof (int_R 2 (sm 2 ltac:(lia))). pose proof (int_R 1 (sm 1 ltac:(lia))). pose proof (int_R 0 (sm 0 ltac:(lia))). cbn [INR] in *. replace (1 + 1) with 2 in * by lra. repeat constructor; assumption || lia. }
  destruct (C84_recover h l [2;0;1] 3 [2;0;1]%nat W Hl ltac:(unfold int_max; cbn; lia) R1_neq_R0 F2) as (r & h' & E & W' & d & T & Er & A' & G).
  exists r, h'. split; [exact E|]. split; [exact W'|]. exists d, T. split; [exact Er|]. split; [rewrite A'; apply lookup_insert|]. split; [|split].
  - apply (G 0%nat 2%nat eq_refl 2%nat ltac:(lia)). reflexivity.
  - destruct (Req_EM_T (T 0%nat 1%nat) 0) as [|Hn]; [assumption|]. apply (G 0%nat 2%nat eq_refl 1%nat ltac:(lia)) in Hn. discriminate.
  - apply (G 2%nat 1%nat eq_refl 1%nat ltac:(lia)). reflexivity.
Qed.
Example ex_C84_bad : exists (h : heap R) y, one_hot_rep (Some y) 2 h = UB.
Proof.
  destruct data3 as (h & x & y & l & b & W & _ & _ & _ & Hb). exists h, b. apply (C84_bad_label_UB h b 3000000000 [1] 2 W Hb); [lia|unfold int_max; cbn; lia|].
  cbn. unfold Rto_int. destruct (Rlt_dec _ _); [|reflexivity]. destruct (Rlt_dec _ _); [lra|reflexivity].
Qed.
Close Scope R_scope.
(** In binary32: the first column is constant, and becomes NaN. *)
Example ex_C82_constant : exists (h : heap f32) x, runs (feature_scaling (H := S32) (Some x)) h (fun d h' => exists Y, abs h' !! d = Some (Mat 2 2 Y) /\ Y 0%nat 0%nat = B754_nan).
Proof.
  assert (LO : Forall lit_ok [LM 2 [[z32 1; z32 2]; [z32 1; z32 7]]]).
  { apply Forall_cons; [|apply Forall_nil]. cbn [lit_ok]. split; [apply (bool_decide_unpack (Forall (fun r : list f32 => length r = 2%nat) [[z32 1; z32 2]; [z32 1; z32 7]])); vm_compute; exact I|]. split; [lia|]. split; [discriminate|]. vm_compute. discriminate. }
  destruct (@built f32 S32 [LM 2 [[z32 1; z32 2]; [z32 1; z32 7]]] LO) as (ds & h & _ & W & B). inversion B as [|x ? ? ? Hx _]; subst. cbn [lit_obj] in Hx.
  rewrite (@Rows_Mat f32 S32) in Hx by (apply (bool_decide_unpack (Forall (fun r : list f32 => length r = 2%nat) [[z32 1; z32 2]; [z32 1; z32 7]])); vm_compute; exact I). exists h, x.
  destruct (C82_constant_refuted 24 128 lib32 h x 2 2 _ 0 (z32 1) W Hx (sm 2 ltac:(lia)) (sm 2 ltac:(lia)) ltac:(lia)) as (d & h' & E & W' & Y & A' & G).
  - vm_compute. reflexivity.
  - intros i Hi. destruct i as [|[|i]]; [reflexivity|reflexivity|lia].
  - exists d, h'. split; [exact E|]. split; [exact W'|]. exists Y. split; [rewrite A'; apply lookup_insert|apply G; lia].
Qed.
