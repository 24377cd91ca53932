(** * The hypotheses of C90 are met by concrete images. *)
From Verif Require Import Base BaseProofs Vec VecSpec VecProofs VecProofs2 Mat MatSpec MatProofs MatProofs2 MatProofs3 Act RInst LibmR PropStat PropSvm Conv ConvProofs PropConv Harris HarrisProofs PropHarris ExBuild ExAnn ExConv.
From Coq Require Import Reals Lra.
Open Scope R_scope.

(** A horizontal edge between rows 2 and 3. *)
Definition E55 (i j : nat) : R := match i with 3%nat | 4%nat => 1 | _ => 0 end.
Definition N22 (i j : nat) : R := match i with O => row2 (-1) (-2) j | _ => row2 (-3) (-4) j end.
Lemma himages : exists (h : heap R) a n e, wf h /\ abs h !! a = Some (Mat 2 2 I22) /\ abs h !! n = Some (Mat 2 2 N22) /\ abs h !! e = Some (Mat 5 5 E55).
Proof.
  reach [LM 2 [[1;2];[3;4]]; LM 2 [[-1;-2];[-3;-4]]; LM 5 [[0;0;0;0;0];[0;0;0;0;0];[0;0;0;0;0];[1;1;1;1;1];[1;1;1;1;1]]].
  exists h, d, d0, d1. split; [exact W|]. repeat (split; [eapply Mat_of; [eassumption|repeat constructor|reflexivity|cells5]|]). eapply Mat_of; [eassumption|repeat constructor|reflexivity|cells5].
Qed.
Example ex_C90_formula : exists (h : heap R) a, runs (harris_corner_detection (Some a)) h (fun out h' => abs h' = abs h /\ length out = 2%nat).
Proof.
  destruct himages as (h & a & n & e & W & Ha & _). exists h, a. destruct (C90_formula h a 2 2 I22 W Ha ltac:(lia) ltac:(lia) (sm 4 ltac:(lia))) as (o & h' & E & W' & A' & ->). eexists _, h'. split; [exact E|]. split; [exact W'|]. split; [exact A'|reflexivity].
Qed.
(** An image and its negative. *)
Example ex_C90_scale : exists (h : heap R) a n, runs (harris_corner_detection (Some a)) h (fun out _ => runs (harris_corner_detection (Some n)) h (fun out2 _ => out2 = out)).
Proof.
  destruct himages as (h & a & n & e & W & Ha & Hn & _). exists h, a, n. apply (C90_scale h h a n 2 2 I22 (-1) W W Ha); [|lra|lia|lia|apply (sm 4); lia].
  rewrite Hn. f_equal. apply Mat_ext. intros i j Hi Hj. destruct i as [|[|i]]; try lia; destruct j as [|[|j]]; try lia; cbn; lra.
Qed.
(** The pixel (2, 2) on the edge. *)
Example ex_C90_straight_edge : exists (h : heap R) e, runs (harris_corner_detection (Some e)) h (fun out _ => exists row k, out !! 2%nat = Some row /\ row !! 2%nat = Some k /\ k <> Corner).
Proof.
  destruct himages as (h & a & n & e & W & _ & _ & He). exists h, e. apply (C90_straight_edge h e 5 5 E55 2 2 W He); [lia|lia|apply (sm 7); lia|lia|lia|]. left. intros y u v Hy Hu Hv. unfold ext. rewrite !decide_True by lia. reflexivity.
Qed.
