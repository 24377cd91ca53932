(** * The hypotheses of C91 are met: the structure tensor of a concrete image, and its pooling. *)
From Verif Require Import Base BaseProofs Vec VecSpec VecProofs VecProofs2 Mat MatSpec MatProofs TenSpec TenProofs Act RInst LibmR PropStat PropSvm RSum Conv ConvProofs PropConv Harris HarrisProofs PropHarris Conv3 Conv3Proofs PropConv3 ExConv ExHarris.
From Coq Require Import Reals Lra.
Open Scope R_scope.

Definition S22 (k : nat) : nat -> nat -> R := match k with O => smooth 2 2 (gx 2 2 I22) (gx 2 2 I22) | 1%nat => smooth 2 2 (gy 2 2 I22) (gy 2 2 I22) | _ => smooth 2 2 (gx 2 2 I22) (gy 2 2 I22) end.
Example ex_C91_structure : exists (h : heap R) a, wf h /\ abs h !! a = Some (Mat 2 2 I22) /\ runs (compute_m (Some a)) h (fun o h' => abs h !! o = None /\ abs h' = <[o := Ten 2 2 3 S22]> (abs h)).
Proof.
  destruct himages as (h & a & n & e & W & Ha & _). exists h, a. split; [exact W|]. split; [exact Ha|].
  destruct (C91_structure h a 2 2 I22 W Ha) as (o & h' & E & W' & N' & A'); [lia|lia|apply (sm 4); lia|unfold int_max; lia|]. exists o, h'. split; [exact E|]. split; [exact W'|]. split; [exact N'|]. exact A'.
Qed.
(** A heap with a 2 x 2 x 3 tensor. *)
Lemma htensor : exists (h : heap R) x, wf h /\ abs h !! x = Some (Ten 2 2 3 S22).
Proof. destruct ex_C91_structure as (h & a & W & Ha & o & h' & _ & W' & _ & A'). exists h', o. split; [exact W'|]. rewrite A'. apply lookup_insert. Qed.
Lemma sm3 : small3 2 2 3. Proof. unfold small3, int_max. lia. Qed.
Example ex_C91_average : exists (h : heap R) x, runs (pool_3d (Some x) 2 2 PAverage) h (fun o h' => exists ms, out_size 2 2 0 2 ms /\ abs h !! o = None /\
    abs h' = <[o := Ten ms ms 3 (fun k i j => Rsum 2 (fun a => Rsum 2 (fun b => S22 k (startn 2 i + a)%nat (startn 2 j + b)%nat)) / (INR 2 * INR 2))]> (abs h)).
Proof. destruct htensor as (h & x & W & Hx). exists h, x. apply (C91_average h x 2 3 2 2 S22 W Hx); [lia|lia|lia|apply sm; lia|apply sm3]. Qed.
Example ex_C91_slices : exists (h : heap R) x, runs (pool_3d (Some x) 2 1 PMax) h (fun o h' => exists ms Y, out_size 2 2 0 1 ms /\ abs h !! o = None /\ abs h' = <[o := Ten ms ms 3 Y]> (abs h) /\
    forall k h2 x2, (k < 3)%nat -> wf h2 -> abs h2 !! x2 = Some (Mat 2 2 (S22 k)) -> runs (pool_2d (Some x2) 2 1 PMax) h2 (fun p h2' => abs h2' !! p = Some (Mat ms ms (Y k)))).
Proof. destruct htensor as (h & x & W & Hx). exists h, x. apply (C91_slices h x 2 3 2 1 S22 PMax W Hx); [lia|lia|lia|apply sm; lia|apply sm3]. Qed.
Example ex_C91_global_slices : exists (h : heap R) x, runs (global_pool_3d (Some x) PMin) h (fun o h' => exists y, abs h !! o = None /\ abs h' = <[o := AVec (y <$> seq 0 3)]> (abs h) /\
    forall k h2 x2, (k < 3)%nat -> wf h2 -> abs h2 !! x2 = Some (Mat 2 2 (S22 k)) -> runs (global_pool_2d (Some x2) PMin) h2 (fun v h2' => abs h2' = abs h2 /\ v = y k)).
Proof. destruct htensor as (h & x & W & Hx). exists h, x. apply (C91_global_slices h x 2 2 3 S22 PMin W Hx sm3). Qed.
Example ex_C91_global_average : exists (h : heap R) x, runs (global_pool_3d (Some x) PAverage) h (fun o h' => abs h !! o = None /\ abs h' = <[o := AVec ((fun k => Rsum 2 (fun i => Rsum 2 (S22 k i)) / (INR 2 * INR 2)) <$> seq 0 3)]> (abs h)).
Proof. destruct htensor as (h & x & W & Hx). exists h, x. apply (C91_global_average h x 2 2 3 S22 W Hx sm3). Qed.
