(** * The hypotheses of C92 are met by concrete tensors. *)
From Verif Require Import Base BaseProofs Vec VecSpec VecProofs VecProofs2 Mat MatSpec MatProofs Ten TenSpec TenProofs TenProofs2 TenProofs6 Act RInst LibmR PropStat PropSvm RSum Conv ConvProofs PropConv Harris HarrisProofs PropHarris Conv3 Conv3Proofs2 PropConv3 PropConv4 ExConv ExHarris ExConv3.
From Coq Require Import Reals Lra.
Open Scope R_scope.

(** A tensor of three channels and one of a single channel holding the image 1 2 / 3 4. *)
Lemma htensors : exists (h : heap R) x y, wf h /\ abs h !! x = Some (Ten 2 2 3 S22) /\ abs h !! y = Some (Ten 2 2 1 (fun _ => I22)).
Proof.
  destruct ex_C91_structure as (h & a & W & Ha & o & h1 & _ & W1 & N1 & A1). assert (a <> o) by (intros ->; congruence).
  assert (G : runs (let! t := t_new in t_set_from_mat t (Some a) ;;; Base.ret t) h1 (fun y h' => abs h' !! o = Some (Ten 2 2 3 S22) /\ abs h' !! y = Some (Ten 2 2 1 (fun _ => I22)))).
  { apply runs_wp. wbind. apply wp_t_new; [exact W1|]. intros t h2 W2 N2 A2. assert (t <> o) by (intros ->; rewrite A1, lookup_insert in N2; discriminate). assert (Hat : abs h2 !! a = Some (Mat 2 2 I22)).
    { rewrite A2, lookup_insert_ne; [rewrite A1, lookup_insert_ne by congruence; exact Ha|]. intros ->. rewrite A1, lookup_insert_ne in N2 by congruence. congruence. }
    wbind. eapply wp_t_set_from_mat; [exact W2|rewrite A2; apply lookup_insert|exact Hat|]. intros h3 W3 A3. apply wp_ret. split; [exact W3|]. split.
    - rewrite A3, lookup_insert_ne, A2, lookup_insert_ne, A1, lookup_insert by congruence. reflexivity.
    - rewrite A3, lookup_insert, (proj1 (Ten_Slices 2 2 1 _)). reflexivity. }
  destruct G as (y & h' & _ & W' & G1 & G2). exists h', o, y. auto.
Qed.
Example ex_C92_bank_refuted : exists (h : heap R) x f, runs (convolve_3d (Some x) (Some f) 1 0) h (fun o h' => exists ms, out_size 2 2 0 1 ms /\ abs h !! o = None /\ abs h' = <[o := Ten ms ms 3 (fun _ _ _ => 0)]> (abs h)).
Proof. destruct htensors as (h & x & y & W & Hx & Hy). exists h, y, x. change 0 with (@s_zero R R_scalar). apply (C92_bank_refuted h y x 2 1 2 3 (fun _ => I22) S22 1 W Hy Hx); try lia. unfold small_bank, int_max. lia. Qed.
Example ex_C92_formula : exists (h : heap R) x f, runs (convolve_3d (Some x) (Some f) 1 0) h (fun o h' => abs h !! o = None /\
    abs h' = <[o := Ten 1 1 1 (fun _ i j => Rsum 3 (fun t => Rsum 2 (fun k => Rsum 2 (fun p => at3 2 3 S22 (i + k) (j + p) t * S22 t k p))))]> (abs h)).
Proof. destruct htensors as (h & x & y & W & Hx & Hy). exists h, x, x. apply (C92_formula h x x 2 3 2 S22 S22 W Hx Hx); try lia. unfold small_bank, int_max. lia. Qed.
(** The image 1 2 / 3 4 with itself as the filter: a convolution gives 30; the code gives 1 * 1 + 3 * 2 = 7, the first column of the image times the first row of the filter. *)
Example ex_C92_one_channel_refuted : exists (h : heap R) x, runs (convolve_3d (Some x) (Some x) 1 0) h (fun o h' => abs h' !! o = Some (Ten 1 1 1 (fun _ _ _ => 7))).
Proof.
  destruct htensors as (h & x & y & W & Hx & Hy). exists h, y. destruct (C92_one_channel_refuted h y y 2 2 (fun _ => I22) (fun _ => I22) W Hy Hy) as (o & h' & E & W' & _ & A'); [lia|lia|unfold small_bank, int_max; lia|].
  exists o, h'. split; [exact E|]. split; [exact W'|]. rewrite A', lookup_insert. f_equal. apply Ten_ext. intros k i j _ Hi Hj. assert (i = 0%nat) as -> by lia. destruct (decide (0 = 0)%nat); [|lia].
  assert (j = 0%nat) as -> by lia. rewrite !Rsum_S. cbn. lra.
Qed.
