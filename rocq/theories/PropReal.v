(** * C12 over exact reals: the reductions are the mathematical ones and obey their laws. *)
From Verif Require Import PropVec RInst.
Open Scope R_scope.

Section c12.
Implicit Types (h : heap R) (xs ys zs : list R) (l a b c : loc).

Definition dotp xs ys : R := rsum ((fun p : R * R => fst p * snd p) <$> zip xs ys).
Definition norm2 xs : R := sqrt (rsum ((fun x => x * x) <$> xs)).
Definition edist xs ys : R := sqrt (rsum ((fun p : R * R => (fst p - snd p) * (fst p - snd p)) <$> zip xs ys)).

Lemma runs_eq {A} (m : M R A) h (v : A) : runs m h (fun y h' => h' = h /\ y = v) -> m h = Ok v h.
Proof. intros (y & h' & E & _ & -> & ->). exact E. Qed.

Theorem C12_dot_real h l b xs ys : wf h -> abs h !! l = Some (AVec xs) -> abs h !! b = Some (AVec ys) ->
  length xs = length ys -> v_dot l (Some b) h = Ok (dotp xs ys) h.
Proof.
  intros Hw Hl Hb E. apply runs_eq. destruct (C12_dot_fold h l b xs ys Hw Hl Hb) as (d & h' & Ed & W & -> & ->).
  exists (dotp xs ys), h. rewrite decide_True in Ed by exact E. rewrite Ed. split; [|auto]. f_equal. unfold dotp. cbn.
  erewrite foldl_ext'. { rewrite (foldl_add_acc (fun p : R * R => fst p * snd p)). apply Rplus_0_l. }
  intros d [x y]. reflexivity.
Qed.

Theorem C12_sum_real h l xs : wf h -> abs h !! l = Some (AVec xs) -> v_sum l h = Ok (rsum xs) h.
Proof.
  intros Hw Hl. apply runs_eq. destruct (C12_sum_fold h l xs Hw Hl) as (d & h' & Ed & W & -> & ->).
  exists (rsum xs), h. rewrite Ed. cbn. rewrite foldl_Rplus. auto.
Qed.

Theorem C12_norm_real h l xs : wf h -> abs h !! l = Some (AVec xs) ->
  v_norm_sq l h = Ok (rsum ((fun x => x * x) <$> xs)) h /\ v_norm_2 l h = Ok (norm2 xs) h.
Proof.
  intros Hw Hl. destruct (C12_norm_sq_fold h l xs Hw Hl) as (d & h' & Ed & W & -> & ->). cbn in Ed.
  rewrite (foldl_add_acc (fun x => x * x)), Rplus_0_l in Ed. split; [exact Ed|].
  unfold v_norm_2, bind. rewrite Ed. reflexivity.
Qed.

Theorem C12_dist_real h l b xs ys : wf h -> abs h !! l = Some (AVec xs) -> abs h !! b = Some (AVec ys) ->
  length xs = length ys -> v_dist l (Some b) h = Ok (edist xs ys) h.
Proof.
  intros Hw Hl Hb E. apply runs_eq. apply runs_wp. eapply wp_v_dist; eauto. split; [exact Hw|]. split; [reflexivity|].
  rewrite decide_True by exact E. unfold edist, dist_sq_fold. cbn. f_equal.
  erewrite foldl_ext'. { rewrite (foldl_add_acc (fun p : R * R => (fst p - snd p) * (fst p - snd p))). apply Rplus_0_l. }
  intros d [x y]. reflexivity.
Qed.

(** Laws of the values just characterised. *)
Lemma dotp_sym xs : forall ys, dotp xs ys = dotp ys xs.
Proof. induction xs as [|x xs IH]; intros [|y ys]; cbn; try reflexivity. unfold dotp in IH. cbn in IH. rewrite IH. lra. Qed.
Lemma dotp_add xs : forall ys zs, length ys = length zs -> dotp xs (zip_with Rplus ys zs) = dotp xs ys + dotp xs zs.
Proof.
  induction xs as [|x xs IH]; intros [|y ys] [|z zs] E; try discriminate; cbn; try lra.
  injection E as E. unfold dotp in IH. cbn in IH. rewrite IH by exact E. lra.
Qed.
Lemma dotp_scal k xs : forall ys, dotp xs ((fun y => y * k) <$> ys) = dotp xs ys * k.
Proof. induction xs as [|x xs IH]; intros [|y ys]; cbn; try lra. unfold dotp in IH. cbn in IH. rewrite IH. lra. Qed.
Lemma zip_sq_l (xs ys : list R) : length xs = length ys -> rsum ((fun p : R * R => fst p * fst p) <$> zip xs ys) = rsum ((fun x => x * x) <$> xs).
Proof. revert ys. induction xs as [|x xs IH]; intros [|y ys] E; try discriminate; cbn; [reflexivity|]. injection E as E. cbn in IH. rewrite IH by exact E. reflexivity. Qed.
Lemma zip_sq_r (xs ys : list R) : length xs = length ys -> rsum ((fun p : R * R => snd p * snd p) <$> zip xs ys) = rsum ((fun x => x * x) <$> ys).
Proof. revert ys. induction xs as [|x xs IH]; intros [|y ys] E; try discriminate; cbn; [reflexivity|]. injection E as E. cbn in IH. rewrite IH by exact E. reflexivity. Qed.

(** dot is symmetric; additive and homogeneous in its argument (through addn / scalar_multiplyn). *)
Theorem C12_dot_symmetric h l b xs ys d : wf h -> abs h !! l = Some (AVec xs) -> abs h !! b = Some (AVec ys) ->
  length xs = length ys -> v_dot l (Some b) h = Ok d h -> v_dot b (Some l) h = Ok d h.
Proof.
  intros Hw Hl Hb E Hd. rewrite (C12_dot_real h l b xs ys) in Hd by auto.
  rewrite (C12_dot_real h b l ys xs) by auto. rewrite dotp_sym. exact Hd.
Qed.

Theorem C12_dot_additive h l b c xs ys zs : wf h -> abs h !! l = Some (AVec xs) -> abs h !! b = Some (AVec ys) ->
  abs h !! c = Some (AVec zs) -> length xs = length ys -> length xs = length zs ->
  exists d1 d2, v_dot l (Some b) h = Ok d1 h /\ v_dot l (Some c) h = Ok d2 h /\
    runs (let! s := v_addn b (Some c) in v_dot l s) h (fun d _ => d = d1 + d2).
Proof.
  intros Hw Hl Hb Hc E1 E2. exists (dotp xs ys), (dotp xs zs).
  split; [apply C12_dot_real; auto|]. split; [apply C12_dot_real; auto|].
  destruct (proj1 (proj2 C07_add) h b Hw) as (_ & Hadd & _).
  destruct (Hadd c ys zs Hb Hc ltac:(congruence)) as (s & h1 & Es & W1 & o & -> & Ho & A1).
  exists (dotp xs (zip_with Rplus ys zs)), h1. unfold bind. rewrite Es. split; [|split; [exact W1|apply dotp_add; congruence]].
  apply C12_dot_real; [exact W1| | |rewrite zip_with_length; lia].
  - rewrite A1, lookup_insert_ne; [exact Hl|congruence].
  - rewrite A1, lookup_insert. reflexivity.
Qed.

Theorem C12_dot_homogeneous h l b xs ys k : wf h -> abs h !! l = Some (AVec xs) -> abs h !! b = Some (AVec ys) ->
  length xs = length ys ->
  exists d, v_dot l (Some b) h = Ok d h /\
    runs (let! s := v_scalar_multiplyn k b in v_dot l (Some s)) h (fun e _ => e = d * k).
Proof.
  intros Hw Hl Hb E. exists (dotp xs ys). split; [apply C12_dot_real; auto|].
  destruct (proj1 (proj2 (C08_scalar_multiply k)) h b ys Hw Hb) as (s & h1 & Es & W1 & Ho & A1).
  exists (dotp xs ((fun y => y * k) <$> ys)), h1. unfold bind. rewrite Es. split; [|split; [exact W1|apply dotp_scal]].
  apply C12_dot_real; [exact W1| | |rewrite fmap_length; exact E].
  - rewrite A1, lookup_insert_ne; [exact Hl|congruence].
  - rewrite A1, lookup_insert. reflexivity.
Qed.

(** Cauchy-Schwarz. *)
Theorem C12_cauchy_schwarz h l b xs ys : wf h -> abs h !! l = Some (AVec xs) -> abs h !! b = Some (AVec ys) ->
  length xs = length ys ->
  exists d n1 n2, v_dot l (Some b) h = Ok d h /\ v_norm_2 l h = Ok n1 h /\ v_norm_2 b h = Ok n2 h /\ Rabs d <= n1 * n2.
Proof.
  intros Hw Hl Hb E. exists (dotp xs ys), (norm2 xs), (norm2 ys).
  split; [apply C12_dot_real; auto|]. split; [apply C12_norm_real; auto|]. split; [apply C12_norm_real; auto|].
  pose proof (rsum_cauchy (fun p : R * R => fst p) (fun p => snd p) (zip xs ys)) as Hc.
  rewrite zip_sq_l, zip_sq_r in Hc by exact E. fold (dotp xs ys) in Hc. unfold norm2.
  rewrite <- sqrt_mult by (apply rsum_map_nonneg; intros; apply Rle_0_sqr).
  rewrite <- sqrt_sq_abs. apply sqrt_le_1_alt. exact Hc.
Qed.

(** euclidean_distance is a metric on the vectors of one length. *)
Lemma edist_zero xs : forall ys, length xs = length ys -> edist xs ys = 0 <-> xs = ys.
Proof.
  intros ys E. split.
  - intros Hd. apply sqrt_eq_0 in Hd; [|apply rsum_map_nonneg; intros; apply Rle_0_sqr].
    pose proof (rsum_map_zero (fun p : R * R => (fst p - snd p) * (fst p - snd p)) (zip xs ys) (fun x => Rle_0_sqr _) Hd) as Hz.
    clear Hd. revert ys E Hz. induction xs as [|x xs IH]; intros [|y ys] E Hz; try discriminate; [reflexivity|].
    injection E as E. f_equal.
    + pose proof (Hz (x, y) ltac:(left)) as Hxy. cbn in Hxy. apply Rsqr_0_uniq in Hxy. lra.
    + apply IH; [exact E|]. intros p Hp. apply Hz. right. exact Hp.
  - intros ->. unfold edist. rewrite (rsum_map_ext _ (fun _ => 0)).
    + rewrite rsum_map_const, Rmult_0_r. apply sqrt_0.
    + intros [x y] Hp. clear E. induction ys as [|z ys IH]; [inversion Hp|]. cbn in Hp.
      apply elem_of_cons in Hp as [Hp|Hp]; [injection Hp as -> ->; cbn; ring|auto].
Qed.
Lemma edist_sym xs ys : edist xs ys = edist ys xs.
Proof.
  unfold edist. f_equal. revert ys. induction xs as [|x xs IH]; intros [|y ys]; cbn; try reflexivity.
  cbn in IH. rewrite IH. lra.
Qed.
Lemma edist_triangle xs ys zs : length xs = length ys -> length ys = length zs -> edist xs zs <= edist xs ys + edist ys zs.
Proof.
  intros E1 E2. unfold edist.
  pose proof (rsum_minkowski (fun p : R * (R * R) => fst p - fst (snd p)) (fun p => fst (snd p) - snd (snd p)) (zip xs (zip ys zs))) as Hm.
  assert (G : forall xs ys zs : list R, length xs = length ys -> length ys = length zs ->
     rsum ((fun p : R * (R * R) => ((fst p - fst (snd p)) + (fst (snd p) - snd (snd p))) * ((fst p - fst (snd p)) + (fst (snd p) - snd (snd p)))) <$> zip xs (zip ys zs))
       = rsum ((fun p : R * R => (fst p - snd p) * (fst p - snd p)) <$> zip xs zs) /\
     rsum ((fun p : R * (R * R) => (fst p - fst (snd p)) * (fst p - fst (snd p))) <$> zip xs (zip ys zs))
       = rsum ((fun p : R * R => (fst p - snd p) * (fst p - snd p)) <$> zip xs ys) /\
     rsum ((fun p : R * (R * R) => (fst (snd p) - snd (snd p)) * (fst (snd p) - snd (snd p))) <$> zip xs (zip ys zs))
       = rsum ((fun p : R * R => (fst p - snd p) * (fst p - snd p)) <$> zip ys zs)).
  { clear. induction xs as [|x xs IH]; intros [|y ys] [|z zs] E1 E2; try discriminate; cbn; [auto|].
    injection E1 as E1. injection E2 as E2. destruct (IH ys zs E1 E2) as (H1 & H2 & H3). cbn in H1, H2, H3.
    rewrite H1, H2, H3. repeat split; lra. }
  destruct (G xs ys zs E1 E2) as (H1 & H2 & H3). cbv beta in Hm. rewrite H1, H2, H3 in Hm. exact Hm.
Qed.

Theorem C12_distance_metric h a b c xs ys zs : wf h -> abs h !! a = Some (AVec xs) -> abs h !! b = Some (AVec ys) ->
  abs h !! c = Some (AVec zs) -> length xs = length ys -> length ys = length zs ->
  exists dab dba dbc dac, v_dist a (Some b) h = Ok dab h /\ v_dist b (Some a) h = Ok dba h /\
    v_dist b (Some c) h = Ok dbc h /\ v_dist a (Some c) h = Ok dac h /\
    0 <= dab /\ (dab = 0 <-> xs = ys) /\ dab = dba /\ dac <= dab + dbc.
Proof.
  intros Hw Ha Hb Hc E1 E2. exists (edist xs ys), (edist ys xs), (edist ys zs), (edist xs zs).
  repeat split; try (apply C12_dist_real; auto; congruence).
  - apply sqrt_pos. - apply edist_zero; exact E1. - apply edist_zero; exact E1. - apply edist_sym. - apply edist_triangle; auto.
Qed.

End c12.
