(** * The hypotheses of C86-C89 are met by concrete images and filters. *)
From Verif Require Import Base BaseProofs Vec VecSpec VecProofs VecProofs2 Mat MatSpec MatProofs MatProofs2 MatProofs3 Act RInst LibmR PropStat PropSvm PropData2 Conv ConvProofs PropConv ExBuild ExAnn.
From Coq Require Import Reals Lra.
Open Scope R_scope.

Definition I22 (i j : nat) : R := match i with O => row2 1 2 j | _ => row2 3 4 j end.
Definition K22 (i j : nat) : R := match i with O => row2 1 0 j | _ => row2 0 1 j end.
Definition K11 (i j : nat) : R := match i with O => match j with O => 1 | _ => 0 end | _ => 0 end.
Definition K12 (i j : nat) : R := match j with O => match i with O => 1 | _ => 2 end | _ => 0 end.
Definition W1 (i j : nat) : R := row2 1 2 j.
Definition W2 (i j : nat) : R := row2 1 3 j.
Definition I55 (i j : nat) : R := match i with 3%nat => match j with 3%nat => 7 | _ => 0 end | 4%nat => match j with 4%nat => 9 | _ => 0 end | _ => 0 end.
Definition J55 (i j : nat) : R := match i with 3%nat => match j with 3%nat => 7 | _ => 0 end | _ => 0 end.
Definition I32 (i j : nat) : R := match i with O => match j with O => 1 | 1%nat => 2 | _ => 5 end | _ => match j with O => 3 | 1%nat => 4 | _ => 6 end end.
Lemma sm (n : nat) : (n <= 100)%nat -> small n. Proof. unfold small, int_max. nia. Qed.
Ltac cells5 := let i := fresh "i" in let j := fresh "j" in intros i j ? ?; destruct i as [|[|[|[|[|i]]]]]; try lia; destruct j as [|[|[|[|[|j]]]]]; try lia; reflexivity.
Lemma images : exists (h : heap R) a k w1 w2 b b2 o n i3, wf h /\ abs h !! a = Some (Mat 2 2 I22) /\ abs h !! k = Some (Mat 2 2 K22) /\ abs h !! w1 = Some (Mat 2 1 W1) /\ abs h !! w2 = Some (Mat 2 1 W2) /\
  abs h !! b = Some (Mat 5 5 I55) /\ abs h !! b2 = Some (Mat 5 5 J55) /\ abs h !! o = Some (Mat 1 1 K11) /\ abs h !! n = Some (Mat 1 2 K12) /\ abs h !! i3 = Some (Mat 3 2 I32).
Proof.
  reach [LM 2 [[1;2];[3;4]]; LM 2 [[1;0];[0;1]]; LM 2 [[1;2]]; LM 2 [[1;3]]; LM 5 [[0;0;0;0;0];[0;0;0;0;0];[0;0;0;0;0];[0;0;0;7;0];[0;0;0;0;9]]; LM 5 [[0;0;0;0;0];[0;0;0;0;0];[0;0;0;0;0];[0;0;0;7;0];[0;0;0;0;0]]; LM 1 [[1]]; LM 1 [[1];[2]]; LM 3 [[1;2;5];[3;4;6]]].
  exists h, d, d0, d1, d2, d3, d4, d5, d6, d7. split; [exact W|]. repeat (split; [eapply Mat_of; [eassumption|repeat constructor|reflexivity|cells5]|]). eapply Mat_of; [eassumption|repeat constructor|reflexivity|cells5].
Qed.

Lemma sm2 (n : nat) : (n <= 100)%nat -> (Z.of_nat n * Z.of_nat n <= int_max)%Z. Proof. apply sm. Qed.
Ltac sums := rewrite ?Rsum_S; unfold Rsum; cbn [seq fmap list_fmap rsum].
Ltac zs := unfold ext; repeat first [rewrite decide_True by lia|rewrite decide_False by lia]; repeat match goal with |- context [Z.to_nat ?e] => let v := eval vm_compute in (Z.to_nat e) in change (Z.to_nat e) with v end.
(** The 2x2 image against the identity: 1 + 4; padded by one, the corner sees 1 * 1. *)
Example ex_C86_textbook : exists (h : heap R) a k, runs (convolve_2d (Some a) (Some k) 1 0) h (fun d h' => exists Y, abs h' !! d = Some (Mat 1 1 Y) /\ Y 0%nat 0%nat = 5) /\
  runs (convolve_2d (Some a) (Some k) 1 1) h (fun d h' => exists Y, abs h' !! d = Some (Mat 3 3 Y) /\ Y 0%nat 0%nat = 1 /\ Y 1%nat 1%nat = 5 /\ Y 0%nat 2%nat = 0).
Proof.
  destruct images as (h & a & k & w1 & w2 & b & b2 & o & n & i3 & W & Ha & Hk & Hw1 & Hw2 & Hb & Hb2 & Ho & Hn & Hi). exists h, a, k. split.
  - destruct (C86_textbook h a k 2 2 2 0 I22 K22 W Ha Hk ltac:(lia) ltac:(lia) (sm 2 ltac:(lia))) as (d & h' & E & W' & N & A'). exists d, h'. split; [exact E|]. split; [exact W'|]. eexists. split; [rewrite A'; apply lookup_insert|]. sums. zs. cbn. lra.
  - destruct (C86_textbook h a k 2 2 2 1 I22 K22 W Ha Hk ltac:(lia) ltac:(lia) (sm 4 ltac:(lia))) as (d & h' & E & W' & N & A'). exists d, h'. split; [exact E|]. split; [exact W'|]. eexists. split; [rewrite A'; apply lookup_insert|]. split; [|split]; sums; zs; cbn; lra.
Qed.
(** Stride 2, 1x1 identity filter: entry (2, 2) is pixel (3, 3) = 7, not pixel (4, 4) = 9. *)
Example ex_C86_stride : exists (h : heap R) b o, runs (convolve_2d (Some b) (Some o) 2 0) h (fun d h' => exists Y, abs h' !! d = Some (Mat 3 3 Y) /\ Y 2%nat 2%nat = 7).
Proof.
  destruct images as (h & a & k & w1 & w2 & b & b2 & o & n & i3 & W & Ha & Hk & Hw1 & Hw2 & Hb & Hb2 & Ho & Hn & Hi). exists h, b, o.
  destruct (C86_stride_refuted h b o 5 I55 K11 2 W Hb Ho ltac:(lia) ltac:(lia) (sm 5 ltac:(lia))) as (d & h' & E & W' & ms & Hm & Y & A' & G). exists d, h'. split; [exact E|]. split; [exact W'|]. exists Y. assert (ms = 3)%nat as -> by (unfold out_size in Hm; cbn in Hm; lia). split; [exact A'|].
  rewrite G by lia. change (Z.to_nat 2) with 2%nat. cbn. lra.
Qed.
Example ex_C86_square : exists (h : heap R) b k, runs (convolve_2d (Some b) (Some k) 2 (Z.of_nat 1)) h (fun d h' => exists ms, out_size 5 2 1 2 ms /\ ms = 3%nat).
Proof.
  destruct images as (h & a & k & w1 & w2 & b & b2 & o & n & i3 & W & Ha & Hk & Hw1 & Hw2 & Hb & Hb2 & Ho & Hn & Hi). exists h, b, k.
  destruct (C86_square h b k 5 2 1 I55 K22 2 W Hb Hk ltac:(lia) ltac:(lia) ltac:(lia) (sm 7 ltac:(lia))) as (d & h' & E & W' & ms & Hm & _). exists d, h'. split; [exact E|]. split; [exact W'|]. exists ms. split; [exact Hm|]. unfold out_size in Hm. cbn in Hm. lia.
Qed.
(** Rows [1 2] and [1 3] give the same result. *)
Example ex_C86_wide : exists (h : heap R) w1 w2 o, abs h !! w1 <> abs h !! w2 /\ runs (convolve_2d (Some w1) (Some o) 1 0) h (fun d h' => exists ob, abs h' !! d = Some ob /\ runs (convolve_2d (Some w2) (Some o) 1 0) h (fun d2 h2' => abs h2' !! d2 = Some ob)).
Proof.
  destruct images as (h & a & k & w1 & w2 & b & b2 & o & n & i3 & W & Ha & Hk & Hw1 & Hw2 & Hb & Hb2 & Ho & Hn & Hi). exists h, w1, w2, o. split; [rewrite Hw1, Hw2; unfold Mat, AMat, mlist; cbn; intros E; injection E as E; lra|].
  apply (C86_wide_refuted h h w1 w2 o o 2 1 1 0 W1 W2 K11 W W Hw1 Hw2 Ho Ho ltac:(lia) ltac:(lia) (sm 1 ltac:(lia))). intros i j Hi' Hj. destruct j; [reflexivity|lia].
Qed.
Example ex_C86_nonsquare : exists (h : heap R) a n, runs (convolve_2d (Some a) (Some n) 1 0) h (fun d h' => abs h' !! d = Some (Mat 1 1 (fun _ _ => 0))) /\ convolve_2d (Some a) (Some n) 0 0 h = UB.
Proof.
  destruct images as (h & a & k & w1 & w2 & b & b2 & o & n & i3 & W & Ha & Hk & Hw1 & Hw2 & Hb & Hb2 & Ho & Hn & Hi). exists h, a, n. split.
  - destruct (C86_nonsquare_refuted h a n 2 2 1 2 0 I22 K12 1 W Ha Hn ltac:(lia) ltac:(lia) ltac:(lia) ltac:(lia) (sm 2 ltac:(lia)) (sm 2 ltac:(lia))) as (d & h' & E & W' & ms & Hm & _ & A'). exists d, h'. split; [exact E|]. split; [exact W'|]. assert (ms = 1)%nat as -> by (unfold out_size in Hm; cbn in Hm; lia). rewrite A'. apply lookup_insert.
  - apply (C86_stride_zero h a n 2 2 1 2 0 _ _ W Ha Hn). unfold int_max. lia.
Qed.
Example ex_C87_average : exists (h : heap R) a, runs (pool_2d (Some a) 2 2 PAverage) h (fun d h' => exists Y, abs h' !! d = Some (Mat 1 1 Y) /\ Y 0%nat 0%nat = 5 / 2) /\ runs (global_pool_2d (Some a) PAverage) h (fun v _ => v = 5 / 2).
Proof.
  destruct images as (h & a & k & w1 & w2 & b & b2 & o & n & i3 & W & Ha & Hk & Hw1 & Hw2 & Hb & Hb2 & Ho & Hn & Hi). exists h, a. split.
  - destruct (C87_average h a 2 2 2 I22 W Ha ltac:(lia) ltac:(lia) ltac:(lia) (sm 2 ltac:(lia))) as (d & h' & E & W' & ms & Hm & _ & A'). exists d, h'. split; [exact E|]. split; [exact W'|]. eexists. assert (ms = 1)%nat as -> by (unfold out_size in Hm; cbn in Hm; lia). split; [rewrite A'; apply lookup_insert|]. sums. cbn. field.
  - destruct (C87_global_average h a 2 2 I22 W Ha) as (v & h' & E & W' & _ & ->). eexists _, h'. split; [exact E|]. split; [exact W'|]. sums. cbn. field.
Qed.
(** Of a 5x5 image pooled with 1x1 windows two apart, row and column 4 are not looked at. *)
Example ex_C87_unread : exists (h : heap R) b b2, abs h !! b <> abs h !! b2 /\ runs (pool_2d (Some b) 1 2 PMax) h (fun d h' => exists ob, abs h' !! d = Some ob /\ runs (pool_2d (Some b2) 1 2 PMax) h (fun d2 h2' => abs h2' !! d2 = Some ob)).
Proof.
  destruct images as (h & a & k & w1 & w2 & b & b2 & o & n & i3 & W & Ha & Hk & Hw1 & Hw2 & Hb & Hb2 & Ho & Hn & Hi). exists h, b, b2. split; [rewrite Hb, Hb2; unfold Mat, AMat, mlist; cbn; intros E; injection E as E; lra|].
  apply (C87_unread_refuted h h b b2 5 1 2 3 I55 J55 PMax W W Hb Hb2 ltac:(lia) ltac:(lia) ltac:(lia) (sm 5 ltac:(lia))); [reflexivity|]. intros i j Hi' Hj. destruct i as [|[|[|[|i]]]]; try lia; destruct j as [|[|[|[|j]]]]; try lia; reflexivity.
Qed.
Example ex_C87_extreme : exists (h : heap R) a, runs (F := R) (pool_2d (H := SMc 10) (Some a) 2 2 PMax) h (fun d h' => exists Y, abs h' !! d = Some (Mat 1 1 Y) /\ Y 0%nat 0%nat = 4) /\ runs (F := R) (global_pool_2d (H := SMc 10) (Some a) PMin) h (fun v _ => v = 1).
Proof.
  destruct images as (h & a & k & w1 & w2 & b & b2 & o & n & i3 & W & Ha & Hk & Hw1 & Hw2 & Hb & Hb2 & Ho & Hn & Hi). exists h, a.
  assert (HM : forall i j, (i < 2)%nat -> (j < 2)%nat -> - (10) < I22 i j < 10) by (intros i j Hi' Hj; destruct i as [|[|i]]; try lia; destruct j as [|[|j]]; try lia; cbn; lra). split.
  - destruct (C87_extreme 10 h a 2 2 2 I22 W Ha ltac:(lia) ltac:(lia) ltac:(lia) (sm 2 ltac:(lia)) HM) as [(d & h' & E & W' & ms & Y & Hm & _ & A' & G) _]. exists d, h'. split; [exact E|]. split; [exact W'|]. exists Y. assert (ms = 1)%nat as -> by (unfold out_size in Hm; cbn in Hm; lia). split; [rewrite A'; apply lookup_insert|].
    destruct (G 0%nat 0%nat ltac:(lia) ltac:(lia)) as [(k1 & p1 & Hk1 & Hp1 & E1) B]. pose proof (B 1%nat 1%nat ltac:(lia) ltac:(lia)) as B1. cbn in B1, E1. destruct k1 as [|[|k1]]; try lia; destruct p1 as [|[|p1]]; try lia; cbn in E1; lra.
  - destruct (C87_global_extreme 10 h a 2 2 I22 W Ha ltac:(lia) ltac:(lia) HM) as [_ (v & h' & E & W' & _ & (k1 & p1 & Hk1 & Hp1 & E1) & B)]. exists v, h'. split; [exact E|]. split; [exact W'|]. pose proof (B 0%nat 0%nat ltac:(lia) ltac:(lia)) as B1. cbn in B1. destruct k1 as [|[|k1]]; try lia; destruct p1 as [|[|p1]]; try lia; cbn in E1; lra.
Qed.
(** Standard deviation 1: the centre weight is 1 / 2 pi.  Standard deviation 2: the corner is not the gaussian. *)
Example ex_C88 : exists (h : heap R), runs (gaussian_filter_2d 3 1) h (fun d h' => exists G, abs h' !! d = Some (Mat 3 3 G) /\ G 0%nat 2%nat = gauss 1 (-1) (-1)) /\
  runs (gaussian_filter_2d 3 2) h (fun d h' => exists G, abs h' !! d = Some (Mat 3 3 G) /\ G 0%nat 2%nat <> gauss 2 (-1) (-1)) /\
  runs (gaussian_filter_2d 3 2) h (fun d h' => exists G, abs h' !! d = Some (Mat 3 3 G) /\ G 2%nat 1%nat = G 1%nat 0%nat).
Proof.
  destruct images as (h & a & k & w1 & w2 & b & b2 & o & n & i3 & W & _). exists h. split; [|split].
  - destruct (C88_unit h 3 1 W (sm2 3 ltac:(lia)) ltac:(lra)) as (d & h' & E & W' & _ & A'). exists d, h'. split; [exact E|]. split; [exact W'|]. eexists. split; [rewrite A'; apply lookup_insert|]. cbv beta. change (centre 3) with 1%nat. f_equal; cbn; lra.
  - destruct (C88_refuted h 3 2 W (sm2 3 ltac:(lia)) ltac:(lra) ltac:(lra)) as (d & h' & E & W' & _ & G & A' & HG). exists d, h'. split; [exact E|]. split; [exact W'|]. exists G. split; [rewrite A'; apply lookup_insert|].
    pose proof (HG 0%nat 2%nat ltac:(lia) ltac:(lia)) as G1. change (centre 3) with 1%nat in G1. replace (-1) with (INR 0 - INR 1) at 1 by (cbn; lra). replace (-1) with (INR 1 - INR 2) by (cbn; lra). apply G1. left. lia.
  - destruct (C88_symmetric h 1 2 W (sm2 3 ltac:(lia))) as (d & h' & E & W' & G & A' & HG). exists d, h'. split; [exact E|]. split; [exact W'|]. exists G. split; [exact A'|]. destruct (HG 1%nat 2%nat ltac:(lia) ltac:(lia)) as (G1 & _ & G3). cbn in G3. rewrite <- G1, <- G3. reflexivity.
Qed.
Example ex_C89 : exists (h : heap R) a i3, runs (conv_dy (Some a)) h (fun d h' => exists D, abs h' !! d = Some (Mat 2 2 D) /\ D 0%nat 0%nat = -3 /\ D 1%nat 1%nat = 2) /\ runs (conv_dx (Some a)) h (fun d h' => exists D, abs h' !! d = Some (Mat 2 2 D) /\ D 0%nat 0%nat = 2 /\ D 1%nat 1%nat = -3) /\
  runs (conv_dx (Some i3)) h (fun d h' => exists D, abs h' !! d = Some (Mat 3 2 D) /\ D 0%nat 1%nat = -1) /\ runs (conv_grad (Some a)) h (fun d h' => exists D, abs h' !! d = Some (Mat 2 2 D) /\ D 1%nat 0%nat = sqrt 17).
Proof.
  destruct images as (h & a & k & w1 & w2 & b & b2 & o & n & i3 & W & Ha & Hk & Hw1 & Hw2 & Hb & Hb2 & Ho & Hn & Hi). exists h, a, i3. split; [|split; [|split]].
  - destruct (C89_dy h a 2 2 I22 W Ha) as (d & h' & E & W' & _ & A'). exists d, h'. split; [exact E|]. split; [exact W'|]. eexists. split; [rewrite A'; apply lookup_insert|]. split; zs; cbn; lra.
  - destruct (C89_dx h a 2 2 I22 W Ha) as (d & h' & E & W' & _ & D & A' & G). exists d, h'. split; [exact E|]. split; [exact W'|]. exists D. split; [rewrite A'; apply lookup_insert|]. split; rewrite G by lia; zs; cbn; lra.
  - destruct (C89_dx_wide_refuted h i3 3 2 I32 W Hi ltac:(lia) ltac:(lia)) as (d & h' & E & W' & D & A' & G). exists d, h'. split; [exact E|]. split; [exact W'|]. exists D. split; [exact A'|]. pose proof (G 0%nat ltac:(lia)) as G0. cbn in G0. lra.
  - destruct (C89_grad h a 2 2 I22 W Ha ltac:(lia)) as (d & h' & E & W' & _ & A'). exists d, h'. split; [exact E|]. split; [exact W'|]. eexists. split; [rewrite A'; apply lookup_insert|]. cbv beta zeta. zs. f_equal. cbn. lra.
Qed.
