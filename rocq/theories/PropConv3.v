(** * C91: pooling of tensors and the structure tensor of an image. *)
From Verif Require Import Base BaseProofs Vec VecSpec VecProofs VecProofs2 Mat MatSpec MatProofs Stat StatProofs TenSpec TenProofs Act RInst LibmR PropStat PropSvm RSum Svm Conv ConvProofs PropConv Harris HarrisProofs PropHarris Conv3 Conv3Proofs.
From Coq Require Import Reals Lra.
Local Notation S := Datatypes.S.
Open Scope R_scope.

(** The tensors the operations build have at most as many entries as an int can count. *)
Definition small3 (c r d : nat) : Prop := (Z.of_nat c * Z.of_nat r <= int_max /\ Z.of_nat d * (Z.of_nat r * Z.of_nat r) <= int_max /\ Z.of_nat d <= int_max)%Z.

Section slices.
Context {F : Type} `{Scalar F} `{Act.Libm F}.
Implicit Types (h : heap F).
Lemma Ten_ext x y z (T U : nat -> nat -> nat -> F) : (forall k j i, (k < z)%nat -> (j < y)%nat -> (i < x)%nat -> T k j i = U k j i) -> Ten x y z T = Ten x y z U.
Proof. intros E. unfold Ten. f_equal. apply tlist_ext. exact E. Qed.
(** Pooling a tensor pools each slice: slice [k] of the result is the matrix that pooling the matrix of slice [k] alone gives. *)
Theorem C91_slices h x (n d fs st : nat) X ty : wf h -> abs h !! x = Some (Ten n n d X) -> (0 < st)%nat -> (1 <= fs)%nat -> (fs <= n)%nat -> small n -> small3 n n d ->
  runs (pool_3d (Some x) (Z.of_nat fs) (Z.of_nat st) ty) h (fun o h' => exists ms Y, out_size n fs 0 (Z.of_nat st) ms /\ abs h !! o = None /\ abs h' = <[o := Ten ms ms d Y]> (abs h) /\
    forall k h2 x2, (k < d)%nat -> wf h2 -> abs h2 !! x2 = Some (Mat n n (X k)) -> runs (pool_2d (Some x2) (Z.of_nat fs) (Z.of_nat st) ty) h2 (fun p h2' => abs h2' !! p = Some (Mat ms ms (Y k)))).
Proof.
  intros W Ax Hst H1 Hf HS (HC & HD & _). pose proof HS as [HB HL]. apply runs_wp. eapply wp_pool_3d; [exact W|exact Ax|lia|exact H1|exact Hf|exact HB|exact HC|exact HD|]. intros o h' ms Hms W' N' A'. split; [exact W'|].
  assert (Ho : out_size n fs 0 (Z.of_nat st) ms) by (unfold out_size; rewrite Hms; f_equal; f_equal; lia).
  exists ms. eexists. split; [exact Ho|]. split; [exact N'|]. split; [exact A'|]. intros k h2 x2 _ W2 A2. apply runs_wp. eapply wp_pool_2d; [exact W2|exact A2|lia|exact H1|exact Hf|exact HB|]. intros p h2' ms2 Hms2 W2' _ A2'. assert (ms2 = ms) as -> by lia. split; [exact W2'|]. rewrite A2'. apply lookup_insert.
Qed.
(** Global pooling gives the vector of the values of the slices. *)
Theorem C91_global_slices h x (c r d : nat) X ty : wf h -> abs h !! x = Some (Ten c r d X) -> small3 c r d ->
  runs (global_pool_3d (Some x) ty) h (fun o h' => exists y, abs h !! o = None /\ abs h' = <[o := AVec (y <$> seq 0 d)]> (abs h) /\
    forall k h2 x2, (k < d)%nat -> wf h2 -> abs h2 !! x2 = Some (Mat c r (X k)) -> runs (global_pool_2d (Some x2) ty) h2 (fun v h2' => abs h2' = abs h2 /\ v = y k)).
Proof.
  intros W Ax (HC & _ & HD). apply runs_wp. eapply wp_global_pool_3d; [exact W|exact Ax|exact HC|exact HD|]. intros o h' W' N' A'. split; [exact W'|]. eexists. split; [exact N'|]. split; [exact A'|].
  intros k h2 x2 _ W2 A2. apply runs_wp. eapply wp_global_pool; [exact W2|exact A2|]. intros h2' W2' A2'. split; [exact W2'|]. split; [exact A2'|reflexivity].
Qed.
Theorem C91_null h (fs st : Z) ty : pool_3d None fs st ty h = UB /\ global_pool_3d None ty h = UB /\ compute_m None h = UB.
Proof. split_and!; reflexivity. Qed.
End slices.

(** Average pooling in real numbers. *)
Theorem C91_average (h : heap R) x (n d fs st : nat) X : wf h -> abs h !! x = Some (Ten n n d X) -> (0 < st)%nat -> (1 <= fs)%nat -> (fs <= n)%nat -> small n -> small3 n n d ->
  runs (pool_3d (Some x) (Z.of_nat fs) (Z.of_nat st) PAverage) h (fun o h' => exists ms, out_size n fs 0 (Z.of_nat st) ms /\ abs h !! o = None /\
    abs h' = <[o := Ten ms ms d (fun k i j => Rsum fs (fun a => Rsum fs (fun b => X k (startn st i + a)%nat (startn st j + b)%nat)) / (INR fs * INR fs))]> (abs h)).
Proof.
  intros W Ax Hst H1 Hf HS (HC & HD & _). pose proof HS as [HB HL]. apply runs_wp. eapply wp_pool_3d; [exact W|exact Ax|lia|exact H1|exact Hf|exact HB|exact HC|exact HD|]. intros o h' ms Hms W' N' A'. split; [exact W'|].
  exists ms. split; [unfold out_size; rewrite Hms; f_equal; f_equal; lia|]. split; [exact N'|]. rewrite A'. f_equal. apply Ten_ext. intros k i j _ Hi Hj. rewrite (pool_at_window n fs st ms) by assumption.
  cbn [pooled]. unfold f_mean. cbn [s_div s_add s_zero s_of_Z R_scalar]. rewrite foldl_add_rsum, Rplus_0_l. unfold window. rewrite fmap_length, seq_length, <- INR_IZR_INZ, mult_INR. f_equal. apply (rsum_flat_map fs fs (fun a b => X k (startn st i + a)%nat (startn st j + b)%nat)).
Qed.
Theorem C91_global_average (h : heap R) x (c r d : nat) X : wf h -> abs h !! x = Some (Ten c r d X) -> small3 c r d ->
  runs (global_pool_3d (Some x) PAverage) h (fun o h' => abs h !! o = None /\ abs h' = <[o := AVec ((fun k => Rsum r (fun i => Rsum c (X k i)) / (INR r * INR c)) <$> seq 0 d)]> (abs h)).
Proof.
  intros W Ax (HC & _ & HD). apply runs_wp. eapply wp_global_pool_3d; [exact W|exact Ax|exact HC|exact HD|]. intros o h' W' N' A'. split; [exact W'|]. split; [exact N'|]. rewrite A'. f_equal. f_equal. apply list_fmap_ext. intros k0 k _.
  cbn [pooled]. unfold f_mean. cbn [s_div s_add s_zero s_of_Z R_scalar]. rewrite foldl_add_rsum, Rplus_0_l, mlist_length, <- INR_IZR_INZ, mult_INR. f_equal. apply (rsum_flat_map r c (X k)).
Qed.
(** The structure tensor: slices 0, 1, 2 are the smoothed products xx, yy, xy of the derivatives. *)
Theorem C91_structure (h : heap R) x (c r : nat) X : wf h -> abs h !! x = Some (Mat c r X) -> (1 <= r)%nat -> (c <= r)%nat -> small (r + 2) -> (3 * (Z.of_nat r * Z.of_nat r) <= int_max)%Z ->
  runs (compute_m (Some x)) h (fun o h' => abs h !! o = None /\ abs h' = <[o := Ten r r 3 (fun k => match k with
    | O => smooth c r (gx c r X) (gx c r X) | 1%nat => smooth c r (gy c r X) (gy c r X) | _ => smooth c r (gx c r X) (gy c r X) end)]> (abs h)).
Proof.
  intros W A Hr Hcr [HB HL] H3. apply runs_wp. eapply wp_compute_m; [exact W|exact A|exact Hr|lia|exact HL|exact H3|apply pad_R|]. intros o h' W' N' A'. split; [exact W'|]. split; [exact N'|]. rewrite A'. f_equal. apply Ten_ext. intros k i j Hk Hi Hj.
  assert (G : forall A A' B B', (forall i j, (i < r)%nat -> (j < c)%nat -> A i j = A' i j) -> (forall i j, (i < r)%nat -> (j < c)%nat -> B i j = B' i j) -> smooth_at (F := R) c r (had A B) i j = smooth c r A' B' i j).
  { intros. rewrite smooth_at_R by assumption. apply smooth_agree; assumption. }
  destruct k as [|[|k]]; [apply (G (dx_at c r X) _ (dx_at c r X) _)|apply (G (dy_at c r X) _ (dy_at c r X) _)|apply (G (dx_at c r X) _ (dy_at c r X) _)]; intros; first [apply dx_gx|apply dy_gy]; lia.
Qed.
