(** * C92: convolution of tensors. *)
From Verif Require Import Base BaseProofs Vec VecSpec VecProofs VecProofs2 Mat MatSpec MatProofs TenSpec TenProofs Act RInst PropDct LibmR PropStat PropSvm RSum Svm Conv ConvProofs PropConv Conv3 Conv3Proofs2 PropConv3.
From Coq Require Import Reals Lra.
Local Notation S := Datatypes.S.
Open Scope Z_scope.

(** Sizes that fit an int: an n x n x d image and [m] filters of side [fs] and depth [d], stacked along z. *)
Definition small_bank (n d fs m : nat) : Prop := Z.of_nat (m * d * fs * fs) <= int_max /\ Z.of_nat (m * d) <= int_max /\ Z.of_nat m * (Z.of_nat n * Z.of_nat n) <= int_max /\ Z.of_nat n * Z.of_nat n <= int_max.
Section bank.
Context {F : Type} `{Scalar F} `{Act.Libm F}.
(** A bank of two or more filters gives the zero map: the flattened bank is never as long as one window. *)
Theorem C92_bank_refuted (h : heap F) x f (n d fs m : nat) X K st : wf h -> abs h !! x = Some (Ten n n d X) -> abs h !! f = Some (Ten fs fs (m * d) K) -> (2 <= m)%nat -> 0 < st -> (1 <= d)%nat -> (1 <= fs)%nat -> (fs <= n)%nat -> small_bank n d fs m ->
  runs (convolve_3d (Some x) (Some f) st 0) h (fun o h' => exists ms, out_size n fs 0 st ms /\ abs h !! o = None /\ abs h' = <[o := Ten ms ms m (fun _ _ _ => s_zero)]> (abs h)).
Proof.
  intros W Ax Af Hm Hst Hd Hf Hn (B1 & B2 & B3 & B4). assert (E : (m * d / d = m)%nat) by (apply Nat.div_mul; lia). apply runs_wp.
  eapply wp_convolve3; [exact W|exact Ax|exact Af|exact Hst|exact Hf|exact Hn|exact Hd|unfold fits; nia|nia|exact B4|rewrite E; exact B3|exact B2|]. rewrite E.
  intros o h' ms Hms W' N' A'. split; [exact W'|]. exists ms. split; [unfold out_size; rewrite Hms; f_equal; f_equal; lia|]. split; [exact N'|]. rewrite A'. f_equal. apply Ten_ext. intros k i j _ _ _.
  unfold conv3_value. cbv zeta. rewrite win3_length, tlist_length, decide_False; [reflexivity|]. intros G. assert (0 < d * fs * fs)%nat by nia. nia.
Qed.
Theorem C92_null (h : heap F) x f st pd : convolve_3d None (Some f) st pd h = UB /\ (forall s, t_size x h = Ok s h -> convolve_3d (Some x) None st pd h = UB).
Proof. split; [reflexivity|]. intros s E. unfold convolve_3d, bind. cbn [deref]. unfold Base.ret. rewrite E. reflexivity. Qed.
End bank.

Open Scope R_scope.
(** The entry of slice [z], row [y] and column [x] of an n x n x d tensor; zero outside. *)
Definition at3 (n d : nat) (X : nat -> nat -> nat -> R) (z y x : nat) : R := if decide (z < d /\ y < n /\ x < n)%nat then X z y x else 0.
(** One filter, stride 1: the value computed.  A convolution reads the image at slice t, row i + k, column j + p; the code reads it at
    slice i + k, row j + p, column t. *)
Lemma conv3_value_R (n d fs : nat) X K i j : conv3_value (F := R) n n d X 1 fs (tlist fs fs d K) i j =
  Rsum d (fun t => Rsum fs (fun k => Rsum fs (fun p => at3 n d X (i + k) (j + p) t * K t k p))).
Proof.
  unfold conv3_value. cbv zeta. rewrite win3_length, tlist_length, decide_True by lia. unfold win3, tlist, mlist. rewrite Nat.mul_assoc, fold_zip_map. cbn [s_add s_mul s_zero R_scalar].
  rewrite PropDct.foldl_plus_Rsum, Rplus_0_l. destruct fs as [|fs']; [rewrite Nat.mul_0_r; symmetry; apply Rsum_zero|]. set (fs := S fs') in *. assert (Hfs : (0 < fs)%nat) by (unfold fs; lia). clearbody fs.
  rewrite <- Nat.mul_assoc.
  transitivity (Rsum (d * (fs * fs)) (fun u => at3 n d X (i + (u mod (fs * fs)) / fs) (j + (u mod (fs * fs)) mod fs) (u / (fs * fs)) * K (u / (fs * fs))%nat ((u mod (fs * fs)) / fs)%nat ((u mod (fs * fs)) mod fs)%nat)).
  - apply Rsum_ext. intros u Hu. f_equal. set (t := (u / (fs * fs))%nat). set (q := (u mod (fs * fs))%nat). assert (Hq : (q < fs * fs)%nat) by (apply Nat.mod_upper_bound; nia).
    assert (Eu : u = (t * (fs * fs) + q)%nat) by (unfold t, q; rewrite (Nat.mul_comm (u / _)); apply Nat.div_mod; nia). destruct (mat_div fs q Hq) as [H1 H2].
    assert (Eq : q = (fs * (q / fs) + q mod fs)%nat) by (apply Nat.div_mod; lia). set (k := (q / fs)%nat) in *. set (p := (q mod fs)%nat) in *.
    replace u with ((t * fs + k) * fs + p)%nat by nia. rewrite win3_index by assumption. unfold zat3, at3, in3.
    assert (Eo : forall a, conv_off 1 (Z.of_nat a) = Z.of_nat a) by (intros [|a]; [reflexivity|]; unfold conv_off; destruct (Z.eqb_spec (Z.of_nat (S a)) 0); lia). rewrite !Eo, <- !Nat2Z.inj_add.
    destruct (decide _) as [G|G]; destruct (decide _) as [G'|G']; [rewrite !Nat2Z.id; reflexivity|exfalso; apply G'; lia|exfalso; apply G; lia|reflexivity].
  - rewrite (Rsum_flat d (fs * fs) (fun t q => at3 n d X (i + q / fs) (j + q mod fs) t * K t (q / fs)%nat (q mod fs)%nat)) by nia. apply Rsum_ext. intros t _. apply (Rsum_flat fs fs (fun k p => at3 n d X (i + k) (j + p) t * K t k p)). exact Hfs.
Qed.
Theorem C92_formula (h : heap R) x f (n d fs : nat) X K : wf h -> abs h !! x = Some (Ten n n d X) -> abs h !! f = Some (Ten fs fs d K) -> (1 <= d)%nat -> (1 <= fs)%nat -> (fs <= n)%nat -> small_bank n d fs 1 ->
  runs (convolve_3d (Some x) (Some f) 1 0) h (fun o h' => abs h !! o = None /\
    abs h' = <[o := Ten (n - fs + 1) (n - fs + 1) 1 (fun _ i j => Rsum d (fun t => Rsum fs (fun k => Rsum fs (fun p => at3 n d X (i + k) (j + p) t * K t k p))))]> (abs h)).
Proof.
  intros W Ax Af Hd Hf Hn (B1 & B2 & B3 & B4). assert (E : (d / d = 1)%nat) by (apply Nat.div_same; lia). apply runs_wp.
  eapply wp_convolve3; [exact W|exact Ax|exact Af|lia|exact Hf|exact Hn|exact Hd|unfold fits; nia|nia|exact B4|rewrite E; lia|lia|]. rewrite E.
  intros o h' ms Hms W' N' A'. rewrite Z.div_1_r in Hms. assert (ms = n - fs + 1)%nat as -> by lia. split; [exact W'|]. split; [exact N'|]. rewrite A'. f_equal. apply Ten_ext. intros k i j _ _ _. apply conv3_value_R.
Qed.
(** An image of one channel: the result looks only at the first column of the image, and all its rows but the first are zero. *)
Theorem C92_one_channel_refuted (h : heap R) x f (n fs : nat) X K : wf h -> abs h !! x = Some (Ten n n 1 X) -> abs h !! f = Some (Ten fs fs 1 K) -> (1 <= fs)%nat -> (fs <= n)%nat -> small_bank n 1 fs 1 ->
  runs (convolve_3d (Some x) (Some f) 1 0) h (fun o h' => abs h !! o = None /\
    abs h' = <[o := Ten (n - fs + 1) (n - fs + 1) 1 (fun _ i j => if decide (i = 0)%nat then Rsum fs (fun p => X 0%nat (j + p)%nat 0%nat * K 0%nat 0%nat p) else 0)]> (abs h)).
Proof.
  intros W Ax Af Hf Hn HB. destruct (C92_formula h x f n 1 fs X K W Ax Af ltac:(lia) Hf Hn HB) as (o & h' & E & W' & N' & A'). exists o, h'. split; [exact E|]. split; [exact W'|]. split; [exact N'|]. rewrite A'. f_equal. apply Ten_ext.
  intros c i j _ Hi Hj. rewrite Rsum_S. replace (Rsum 0 _) with 0 by reflexivity. rewrite Rplus_0_l.
  assert (Z : forall k, (i + k <> 0)%nat -> Rsum fs (fun p => at3 n 1 X (i + k) (j + p) 0 * K 0%nat k p) = 0).
  { intros k Hk. rewrite (Rsum_ext fs _ (fun _ => 0)), Rsum_zero; [reflexivity|]. intros p _. unfold at3. rewrite decide_False by lia. ring. }
  destruct (decide (i = 0)%nat) as [->|Hi0].
  - rewrite (Rsum_head fs 1) by (try lia; intros k Hk; apply Z; lia). rewrite Rsum_S. replace (Rsum 0 _) with 0 by reflexivity. rewrite Rplus_0_l. apply Rsum_ext. intros p Hp. unfold at3. rewrite decide_True by lia. reflexivity.
  - rewrite (Rsum_ext fs _ (fun _ => 0)), Rsum_zero; [reflexivity|]. intros k Hk. apply Z. lia.
Qed.
