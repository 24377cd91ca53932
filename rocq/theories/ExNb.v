(** * The hypotheses of C67 and C68 are met by concrete data. *)
From Verif Require Import Base BaseProofs Vec VecSpec VecProofs VecProofs2 Mat MatSpec MatProofs MatProofs2 Stat StatProofs Act PropStat Outlier PropOutlier Gnb GnbProofs Inst PropGnb MatProofs3 RInst ExBuild.
From Coq Require Import Reals Lra.
From Flocq Require Import Core IEEE754.BinarySingleNaN.
Open Scope R_scope.

(** Ten zeros and one 11: mean 1, standard deviation sqrt 11, z = 10 / sqrt 11 > 3: exactly the last element is reported. *)
Definition spike : list R := [0;0;0;0;0;0;0;0;0;0;11].
Lemma spike_mean : mean spike = 1. Proof. unfold mean, spike. cbn. lra. Qed.
Lemma spike_var : variance spike = 11. Proof. unfold variance. rewrite spike_mean. unfold spike. cbn. lra. Qed.
Lemma spike_out : outliers 3 spike = [11].
Proof.
  assert (S3 : 3 < sqrt 11) by (rewrite <- (sqrt_square 3) by lra; apply sqrt_lt_1; lra).
  assert (S4 : sqrt 11 * 3 < 10) by (assert (sqrt 11 < 10 / 3); [rewrite <- (sqrt_square (10 / 3)) by lra; apply sqrt_lt_1; lra|lra]).
  assert (Z0 : beyond 3 spike 0 = false). { unfold beyond. rewrite spike_mean, spike_var. apply Rltb_false. rewrite Rabs_left by lra. lra. }
  assert (Z1 : beyond 3 spike 11 = true). { unfold beyond. rewrite spike_mean, spike_var. apply Rltb_true. rewrite Rabs_pos_eq by lra. lra. }
  unfold outliers. set (g := beyond 3 spike) in *. clearbody g. unfold spike. rewrite !list.filter_cons, list.filter_nil, !Z0, Z1. repeat (rewrite (decide_False (P := false = true)) by discriminate). rewrite decide_True by reflexivity. reflexivity.
Qed.
Example ex_C67_model_test : exists (h : heap R) x, wf h /\ abs h !! x = Some (AVec spike) /\ of_model_test (of_new 3) (Some x) h = Ok [11] h.
Proof. reach [LV spike]. exists h, d. split; [exact W|]. split; [exact Hd|]. rewrite <- spike_out. apply C67_model_test; [exact W|exact Hd|lra]. Qed.
(** The bound of C67_chebyshev is nearly attained: one element, 1 * 9 <= 10; and nothing can lie beyond 4 deviations. *)
Example ex_C67_small_sample : exists (h : heap R) x, of_model_test (of_new 4) (Some x) h = Ok [] h /\ of_model_test (of_new 3) (Some x) h = Ok [11] h.
Proof.
  reach [LV spike]. exists h, d. split; [|rewrite <- spike_out; apply C67_model_test; [exact W|exact Hd|lra]].
  eapply C67_small_sample; [exact W|exact Hd|lra|cbn; lia|]. cbn [length spike]. rewrite !S_INR. cbn [INR]. lra.
Qed.
Example ex_C67_indices : exists (h : heap R) m, runs (of_model_set_test_indices (of_new 3) (Some m)) h (fun ps h' => (10, 1)%Z ∈ ps /\ ~ (10, 0)%Z ∈ ps).
Proof.
  reach [LM 11 [replicate 11 0; spike]]. rewrite Rows_Mat in Hd by repeat constructor. exists h, d.
  destruct (C67_indices h d _ _ _ 3 W Hd ltac:(unfold int_max; cbn; lia) ltac:(lra)) as (ps & h' & E & W' & _ & _ & I & _). exists ps, h'. split; [exact E|]. split; [exact W'|]. split.
  - apply (proj2 (I 1%nat 10%nat ltac:(cbn; lia) ltac:(lia))). cbn [map seq nth spike replicate]. change [0;0;0;0;0;0;0;0;0;0;11] with spike. unfold beyond. rewrite spike_mean, spike_var. apply Rltb_true. rewrite Rabs_pos_eq by lra.
    assert (sqrt 11 < 10 / 3); [rewrite <- (sqrt_square (10 / 3)) by lra; apply sqrt_lt_1; lra|lra].
  - intros B. apply (proj1 (I 0%nat 10%nat ltac:(cbn; lia) ltac:(lia))) in B. cbn [map seq nth replicate] in B. apply Rltb_true in B.
    replace (0 - mean [0;0;0;0;0;0;0;0;0;0;0]) with 0 in B by (unfold mean; cbn; lra). rewrite Rabs_R0 in B. pose proof (sqrt_pos (variance [0;0;0;0;0;0;0;0;0;0;0])). lra.
Qed.

(** ** Gaussian naive Bayes on binary32 *)
Close Scope R_scope.
Notation f32 := (binary_float 24 128).
#[local] Instance p24 : Prec_gt_0 24 := eq_refl.
#[local] Instance p24m : Prec_lt_emax 24 128 := eq_refl.
(** A C library with the prescribed special values and a crude exponential in between. *)
Definition lib32 : Inst.libm f32 := Inst.Libm f32
  (fun x => match x with B754_zero _ => B754_infinity true | B754_nan => B754_nan | _ => Bone end) (fun x => x)
  (fun x => match x with B754_infinity true => B754_zero false | B754_nan => B754_nan | _ => Bone end) (fun x => x) (fun x => x) (fun x => x) (fun x _ => x).
Definition z32 (z : Z) : f32 := binary_normalize 24 128 p24 p24m mode_NE z 0 false.
Definition act32 : Act.Libm f32 := Act.Build_Libm f32 (fun x => x) (fun x => x) (fun x => x) (fun x _ => x) (z32 3) (fun _ => Some 0%Z).
Lemma conforms : annex_f 24 128 lib32. Proof. constructor; reflexivity. Qed.
Notation S32 := (ieee_scalar 24 128 lib32).

(** Two well separated classes; the point sits on the centre of class 1, the training rows of class 1 are the last two; every
    answer is class 0. *)
Definition rows32 : list (list f32) := [[z32 1; z32 2]; [z32 2; z32 1]; [z32 10; z32 12]; [z32 11; z32 13]].
Definition labels32 : list f32 := [z32 0; z32 0; z32 1; z32 1].
Definition point32 : list f32 := [z32 11; z32 12].
Lemma wid32 : width 2 rows32. Proof. apply (bool_decide_unpack (Forall (fun r : list f32 => length r = 2%nat) rows32)). vm_compute. exact I. Qed.
Lemma ok32 : Forall lit_ok [LM 2 rows32; LV labels32; LV point32].
Proof.
  apply Forall_cons; [|apply Forall_cons; [|apply Forall_cons; [|apply Forall_nil]]].
  - cbn [lit_ok]. split; [exact wid32|]. split; [lia|]. split; [discriminate|]. vm_compute. discriminate.
  - cbn [lit_ok]. vm_compute. discriminate.
  - cbn [lit_ok]. vm_compute. discriminate.
Qed.
Example ex_C68 : exists (h : heap f32) x y p, abs h !! x = Some (Rows 2 rows32) /\ abs h !! y = Some (AVec labels32) /\ abs h !! p = Some (AVec point32) /\
  runs (bind (gn_new (H := S32) (H0 := act32) (Some x) (Some y) 2) (fun o => gn_model_test (H := S32) (H0 := act32) o (Some p))) h (fun c h' => c = z32 0).
Proof.
  destruct (@built f32 S32 [LM 2 rows32; LV labels32; LV point32]) as (ds & h & _ & W & B); [exact ok32|].
  inversion B as [|x ? ? ? Hx B1]; subst. inversion B1 as [|y ? ? ? Hy B2]; subst. inversion B2 as [|p ? ? ? Hp _]; subst. cbn [lit_obj] in Hx, Hy, Hp.
  exists h, x, y, p. split; [exact Hx|]. split; [exact Hy|]. split; [exact Hp|]. rewrite (@Rows_Mat f32 S32) in Hx by exact wid32.
  destruct (C68_new 24 128 lib32 (LM := act32) conforms h x y 2 4 2 _ labels32 W Hx Hy eq_refl ltac:(lia) ltac:(lia) ltac:(unfold int_max; lia) ltac:(repeat constructor; discriminate)) as (o & h' & E & W' & Ft & _ & Fr).
  eexists _, h'. split; [|split; [exact W'|reflexivity]]. unfold bind. change (Z.of_nat 2) with 2%Z in E. unfold SF in E. rewrite E.
  eapply (C68_uses_the_data_refuted 24 128 lib32 (LM:=act32) conforms); [exact W'|exact Ft|rewrite Fr by congruence; exact Hp|].
  intros i Hi. destruct i as [|[|i]]; [vm_compute; reflexivity|vm_compute; reflexivity|lia].
Qed.
