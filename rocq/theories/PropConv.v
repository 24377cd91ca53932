(** * C86-C89: convolution, pooling, the gaussian filter and the image derivatives. *)
From Verif Require Import Base BaseProofs Vec VecSpec VecProofs VecProofs2 Mat MatSpec MatProofs Act Stat StatProofs Svm MatProofs5 Conv ConvProofs.
Local Notation S := Datatypes.S.

(** ** Specification *)
Section spec.
Context {F : Type} `{Scalar F}.
(** The image of [r] rows and [c] columns, extended by zeros in every direction. *)
Definition ext (c r : nat) (X : nat -> nat -> F) (y x : Z) : F := if decide (0 <= y < Z.of_nat r /\ 0 <= x < Z.of_nat c) then X (Z.to_nat y) (Z.to_nat x) else s_zero.
(** Where the window of output index [i] starts for stride [st]: at 0 for the first, then at [i + st - 1]. *)
Definition start (st : Z) (i : nat) : Z := match i with O => 0 | _ => Z.of_nat i + st - 1 end.
(** The sum of products of a window with the filter, row by row, as computed from left to right. *)
Definition correlate (fs : nat) (w K : nat -> nat -> F) : F := foldl (fun a (t : nat) => s_add a (s_mul (w (t / fs)%nat (t mod fs)%nat) (K (t / fs)%nat (t mod fs)%nat))) s_zero (seq 0 (fs * fs)).
Definition out_size (n fs pd : nat) (st : Z) (ms : nat) : Prop := Z.of_nat ms = (Z.of_nat n + 2 * Z.of_nat pd - Z.of_nat fs) / st + 1.
Definition small (n : nat) : Prop := Z.of_nat n * Z.of_nat n <= int_max /\ Z.of_nat n < int_max.
End spec.

Section props.
Context {F : Type} `{Scalar F} `{Libm F}.
Implicit Types (h : heap F) (X K : nat -> nat -> F).

Lemma conv_off_start st i : conv_off st (Z.of_nat i) = start st i.
Proof. unfold conv_off, start. destruct i; [reflexivity|]. replace (Z.of_nat (S i) =? 0) with false by lia. lia. Qed.
Lemma fold_zip_map (w : nat -> F) (ks : nat -> F) l a : foldl (fun a '(u, v) => s_add a (s_mul u v)) a (zip (w <$> l) (ks <$> l)) = foldl (fun a (t : nat) => s_add a (s_mul (w t) (ks t))) a l.
Proof. revert a. induction l as [|t l IH]; intros a; [reflexivity|]. cbn. apply IH. Qed.
Lemma mat_div fs t : (t < fs * fs)%nat -> ((t / fs)%nat < fs)%nat /\ ((t mod fs)%nat < fs)%nat.
Proof. intros Ht. assert (fs <> 0)%nat by nia. split; [apply Nat.div_lt_upper_bound; lia|apply Nat.mod_upper_bound; assumption]. Qed.
Lemma conv_value_square (c r : nat) X pd st fs K i j : conv_value c r X pd st fs (mlist fs fs K) i j =
  let s := src c r X pd in correlate fs (fun k p => zat s.1.1 s.1.2 s.2 (start st i + Z.of_nat k) (start st j + Z.of_nat p)) K.
Proof.
  unfold conv_value. cbv zeta. rewrite win_length, mlist_length, decide_True by lia. rewrite !conv_off_start. unfold win, mlist. rewrite fold_zip_map. reflexivity.
Qed.
Lemma correlate_ext fs (w w' K : nat -> nat -> F) : (forall k p, (k < fs)%nat -> (p < fs)%nat -> w k p = w' k p) -> correlate fs w K = correlate fs w' K.
Proof.
  intros E. unfold correlate. assert (G : forall l a, (forall t, t ∈ l -> (t < fs * fs)%nat) -> foldl (fun a (t : nat) => s_add a (s_mul (w (t / fs)%nat (t mod fs)%nat) (K (t / fs)%nat (t mod fs)%nat))) a l = foldl (fun a (t : nat) => s_add a (s_mul (w' (t / fs)%nat (t mod fs)%nat) (K (t / fs)%nat (t mod fs)%nat))) a l).
  { induction l as [|t l IH]; intros a Hl; [reflexivity|]. cbn. destruct (mat_div fs t ltac:(apply Hl; left)). rewrite E by assumption. apply IH. intros t' Ht'. apply Hl. right. exact Ht'. }
  apply G. intros t Ht. apply elem_of_seq in Ht. lia.
Qed.
(** Reading the padded copy is reading the zero-extended image, shifted; always for rows, and for the columns inside the padded square. *)
Lemma src_ext (c r : nat) X pd y x : 0 <= y -> 0 <= x -> (x < Z.of_nat (r + 2 * pd) \/ pd = 0%nat \/ c = r) ->
  (let s := src c r X pd in zat s.1.1 s.1.2 s.2 y x) = ext c r X (y - Z.of_nat pd) (x - Z.of_nat pd).
Proof.
  intros Hy Hx HC. destruct pd as [|pd]; cbn [src fst snd].
  - rewrite !Z.sub_0_r. reflexivity.
  - unfold zat at 1. destruct (decide (0 <= y < Z.of_nat (r + 2 * S pd) /\ 0 <= x < Z.of_nat (r + 2 * S pd))) as [Hin|Hout].
    + unfold padded. rewrite !Z2Nat.id by lia. reflexivity.
    + unfold ext. rewrite decide_False; [reflexivity|]. destruct HC as [HC|[HC|HC]]; lia.
Qed.

(** *** C86: convolve_2d *)
(** Square image, any stride and padding: a new square matrix; entry (i, j) multiplies the filter with the window starting at
    [start i - P, start j - P] of the zero-extended image. *)
Theorem C86_square h x f (n fs pd : nat) X K st : wf h -> abs h !! x = Some (Mat n n X) -> abs h !! f = Some (Mat fs fs K) -> 0 < st -> (1 <= fs)%nat -> (fs <= n + 2 * pd)%nat -> small (n + 2 * pd) ->
  runs (convolve_2d (Some x) (Some f) st (Z.of_nat pd)) h (fun d h' => exists ms, out_size n fs pd st ms /\ abs h !! d = None /\
    abs h' = <[d := Mat ms ms (fun i j => correlate fs (fun k p => ext n n X (start st i + Z.of_nat k - Z.of_nat pd) (start st j + Z.of_nat p - Z.of_nat pd)) K)]> (abs h)).
Proof.
  intros W Ax Af Hst H1 Hf [HB HL]. destruct (amat_len _ _ _ _ _ W Af) as [_ HF]. apply runs_wp.
  eapply wp_convolve; [exact W|exact Ax|exact Af|exact Hst|exact H1|exact Hf|lia|lia|exact HL|]. intros d h' ms Hms W' N' A'.
  split; [exact W'|]. exists ms. split; [unfold out_size; rewrite Hms; f_equal; f_equal; lia|]. split; [exact N'|]. rewrite A'. f_equal. apply Mat_ext. intros i j Hi Hj. rewrite conv_value_square. cbv zeta. apply correlate_ext. intros k p Hk Hp.
  apply src_ext; [destruct i; cbn; lia|destruct j; cbn; lia|tauto].
Qed.
(** Stride 1, an image of any shape: the textbook zero-padded cross-correlation, on a square output of side rows + 2P - fs + 1. *)
Theorem C86_stride_one h x f (c r fs pd : nat) X K : wf h -> abs h !! x = Some (Mat c r X) -> abs h !! f = Some (Mat fs fs K) -> (1 <= fs)%nat -> (fs <= r + 2 * pd)%nat -> small (r + 2 * pd) ->
  runs (convolve_2d (Some x) (Some f) 1 (Z.of_nat pd)) h (fun d h' => abs h !! d = None /\
    abs h' = <[d := Mat (r + 2 * pd - fs + 1) (r + 2 * pd - fs + 1) (fun i j => correlate fs (fun k p => ext c r X (Z.of_nat (i + k) - Z.of_nat pd) (Z.of_nat (j + p) - Z.of_nat pd)) K)]> (abs h)).
Proof.
  intros W Ax Af H1 Hf [HB HL]. destruct (amat_len _ _ _ _ _ W Af) as [_ HF]. apply runs_wp.
  eapply wp_convolve; [exact W|exact Ax|exact Af|lia|exact H1|exact Hf|lia|lia|exact HL|]. intros d h' ms Hms W' N' A'. rewrite Z.div_1_r in Hms.
  split; [exact W'|]. split; [exact N'|]. rewrite A'. f_equal. replace (r + 2 * pd - fs + 1)%nat with ms by lia. apply Mat_ext. intros i j Hi Hj. rewrite conv_value_square. cbv zeta. apply correlate_ext. intros k p Hk Hp.
  assert (Es : forall i, start 1 i = Z.of_nat i) by (intros [|?]; cbn; lia). rewrite !Es, !Nat2Z.inj_add. apply src_ext; [lia|lia|left; lia].
Qed.
(** So for a wide image the columns from rows + P on are never used. *)
Theorem C86_wide_refuted h h2 x x2 f f2 (c r fs pd : nat) X X2 K : wf h -> wf h2 -> abs h !! x = Some (Mat c r X) -> abs h2 !! x2 = Some (Mat c r X2) -> abs h !! f = Some (Mat fs fs K) -> abs h2 !! f2 = Some (Mat fs fs K) ->
  (1 <= fs)%nat -> (fs <= r + 2 * pd)%nat -> small (r + 2 * pd) -> (forall i j, (i < r)%nat -> (j < r + pd)%nat -> X i j = X2 i j) ->
  runs (convolve_2d (Some x) (Some f) 1 (Z.of_nat pd)) h (fun d h' => exists o, abs h' !! d = Some o /\
    runs (convolve_2d (Some x2) (Some f2) 1 (Z.of_nat pd)) h2 (fun d2 h2' => abs h2' !! d2 = Some o)).
Proof.
  intros W W2 Ax Ax2 Af Af2 H1 Hf HS E. destruct (C86_stride_one h x f c r fs pd X K) as (d & h' & R1 & W' & _ & A'); try assumption.
  destruct (C86_stride_one h2 x2 f2 c r fs pd X2 K) as (d2 & h2' & R2 & W2' & _ & A2'); try assumption.
  exists d, h'. split; [exact R1|]. split; [exact W'|]. eexists. split; [rewrite A'; apply lookup_insert|]. exists d2, h2'. split; [exact R2|]. split; [exact W2'|]. rewrite A2', lookup_insert. f_equal. apply Mat_ext. intros i j Hi Hj.
  apply correlate_ext. intros k p Hk Hp. unfold ext. destruct (decide _) as [[? ?]|]; [|reflexivity]. symmetry. apply E; lia.
Qed.
(** A filter that is not square yields an all-zero result. *)
Theorem C86_nonsquare_refuted h x f (c r fc fs pd : nat) X K st : wf h -> abs h !! x = Some (Mat c r X) -> abs h !! f = Some (Mat fc fs K) -> fc <> fs -> 0 < st -> (1 <= fs)%nat -> (fs <= r + 2 * pd)%nat -> small (r + 2 * pd) -> small fs ->
  runs (convolve_2d (Some x) (Some f) st (Z.of_nat pd)) h (fun d h' => exists ms, out_size r fs pd st ms /\ abs h !! d = None /\ abs h' = <[d := Mat ms ms (fun _ _ => s_zero)]> (abs h)).
Proof.
  intros W Ax Af Hne Hst H1 Hf [HB HL] [HF _]. apply runs_wp.
  eapply wp_convolve; [exact W|exact Ax|exact Af|exact Hst|exact H1|exact Hf|exact HF|lia|exact HL|]. intros d h' ms Hms W' N' A'.
  split; [exact W'|]. exists ms. split; [unfold out_size; rewrite Hms; f_equal; f_equal; lia|]. split; [exact N'|]. rewrite A'. f_equal. apply Mat_ext. intros i j _ _. unfold conv_value. rewrite win_length, mlist_length, decide_False by nia. reflexivity.
Qed.
(** With stride 2 or more the windows are not [st] apart: with a 1x1 filter, unpadded, entry (i, j), i, j >= 1, is pixel
    (i + st - 1, j + st - 1) instead of (i st, j st). *)
Theorem C86_stride_refuted h x f (n : nat) X K st : wf h -> abs h !! x = Some (Mat n n X) -> abs h !! f = Some (Mat 1 1 K) -> 0 < st -> (1 <= n)%nat -> small n ->
  runs (convolve_2d (Some x) (Some f) st 0) h (fun d h' => exists ms, out_size n 1 0 st ms /\ exists Y, abs h' !! d = Some (Mat ms ms Y) /\
    forall i j, (1 <= i < ms)%nat -> (1 <= j < ms)%nat -> Y i j = s_add s_zero (s_mul (X (i + Z.to_nat st - 1)%nat (j + Z.to_nat st - 1)%nat) (K 0%nat 0%nat))).
Proof.
  intros W Ax Af Hst H1 HS. destruct (C86_square h x f n 1 0 X K st) as (d & h' & R1 & W' & ms & Hms & _ & A'); try assumption; try lia; [replace (n + 2 * 0)%nat with n by lia; exact HS|].
  exists d, h'. split; [exact R1|]. split; [exact W'|]. exists ms. split; [exact Hms|]. eexists. split; [rewrite A'; apply lookup_insert|]. intros i j Hi Hj. cbn.
  unfold out_size in Hms. set (a := Z.of_nat n + 2 * Z.of_nat 0 - Z.of_nat 1) in *. pose proof (Z.mul_div_le a st Hst) as HD. assert (Hq : Z.of_nat ms - 1 = a / st) by lia. rewrite <- Hq in HD.
  assert (HB : forall i, (1 <= i < ms)%nat -> Z.of_nat i + st - 1 < Z.of_nat n) by (intros k Hk; nia).
  pose proof (HB i Hi). pose proof (HB j Hj). destruct i as [|i]; [lia|]. destruct j as [|j]; [lia|]. cbn [start]. unfold ext. rewrite decide_True by lia. f_equal. f_equal. f_equal; lia.
Qed.
(** Stride 0 divides by zero. *)
Theorem C86_stride_zero h x f (c r fc fs pd : nat) xs ys : wf h -> abs h !! x = Some (AMat c r xs) -> abs h !! f = Some (AMat fc fs ys) -> Z.of_nat (r + fs + 2 * pd) <= int_max -> convolve_2d (Some x) (Some f) 0 (Z.of_nat pd) h = UB.
Proof.
  intros W Ax Af HB. assert (HM : 0 < int_max) by (unfold int_max; lia). unfold convolve_2d. apply bind_UB. apply wp_deref_Some. apply bind_UB. eapply wp_m_size; [exact Ax|]. apply bind_UB. apply wp_deref_Some. apply bind_UB. eapply wp_m_size; [exact Af|]. cbn [fst snd].
  apply bind_UB_first. unfold conv_size. apply bind_UB. apply wp_chk; [lia|]. apply bind_UB. apply wp_chk; [lia|]. apply bind_UB. apply wp_chk; [lia|]. apply bind_UB_first. reflexivity.
Qed.
End props.

(** ** Over exact reals *)
From Verif Require Import Inst PropVec PropData Data DataProofs PropData2 RInst LibmR PropStat PropSvm RSum PropDct.
From Coq Require Import Reals Lra.
Open Scope R_scope.

Lemma Rsum_flat a b (g : nat -> nat -> R) : (0 < b)%nat -> Rsum (a * b) (fun t => g (t / b)%nat (t mod b)%nat) = Rsum a (fun k => Rsum b (g k)).
Proof.
  intros Hb. induction a as [|a IH]; [reflexivity|]. rewrite (Rsum_split _ (a * b)) by lia. rewrite IH, Rsum_S. f_equal. replace (S a * b - a * b)%nat with b by lia. apply Rsum_ext. intros k Hk.
  rewrite (Nat.add_comm (a * b)), Nat.div_add, Nat.mod_add, Nat.div_small, Nat.mod_small by lia. reflexivity.
Qed.
Lemma correlate_R fs (w K : nat -> nat -> R) : correlate fs w K = Rsum fs (fun k => Rsum fs (fun p => w k p * K k p)).
Proof. unfold correlate. cbn [s_add s_mul s_zero R_scalar]. rewrite (foldl_plus_Rsum (fun t => w (t / fs)%nat (t mod fs)%nat * K (t / fs)%nat (t mod fs)%nat)), Rplus_0_l. destruct fs as [|fs]; [reflexivity|]. apply (Rsum_flat (S fs) (S fs) (fun k p => w k p * K k p)). lia. Qed.
Lemma foldl_add_rsum (xs : list R) a : foldl Rplus a xs = a + rsum xs.
Proof. revert a. induction xs as [|v xs IH]; intros a; cbn; [lra|]. rewrite IH. lra. Qed.

(** Stride 1: Y(i, j) = sum over k, p of X(i + k - P, j + p - P) K(k, p), zero outside the image. *)
Theorem C86_textbook (h : heap R) x f (c r fs pd : nat) X K : wf h -> abs h !! x = Some (Mat c r X) -> abs h !! f = Some (Mat fs fs K) -> (1 <= fs)%nat -> (fs <= r + 2 * pd)%nat -> small (r + 2 * pd) ->
  runs (convolve_2d (Some x) (Some f) 1 (Z.of_nat pd)) h (fun d h' => abs h !! d = None /\
    abs h' = <[d := Mat (r + 2 * pd - fs + 1) (r + 2 * pd - fs + 1) (fun i j => Rsum fs (fun k => Rsum fs (fun p => ext c r X (Z.of_nat (i + k) - Z.of_nat pd) (Z.of_nat (j + p) - Z.of_nat pd) * K k p)))]> (abs h)).
Proof.
  intros W Ax Af H1 Hf HS. destruct (C86_stride_one h x f c r fs pd X K) as (d & h' & R1 & W' & N' & A'); try assumption. exists d, h'. split; [exact R1|]. split; [exact W'|]. split; [exact N'|]. rewrite A'. f_equal. apply Mat_ext. intros i j _ _. apply correlate_R.
Qed.

(** ** C87: pooling *)
Section pool.
Context {F : Type} `{Scalar F} `{Act.Libm F}.
(** The window of output index [i] for stride [st] starts here. *)
Definition startn (st i : nat) : nat := match i with O => O | _ => (i + st - 1)%nat end.
Definition window (fs st : nat) (X : nat -> nat -> F) (i j : nat) : list F := (fun t => X (startn st i + t / fs)%nat (startn st j + t mod fs)%nat) <$> seq 0 (fs * fs).
Lemma startn_bound n fs st ms i : (0 < st)%nat -> (fs <= n)%nat -> Z.of_nat ms = ((Z.of_nat n - Z.of_nat fs) / Z.of_nat st + 1)%Z -> (i < ms)%nat -> (startn st i + fs <= n)%nat.
Proof.
  intros Hs Hf Hm Hi. destruct i as [|i]; [cbn; lia|]. cbn [startn]. pose proof (Z.mul_div_le (Z.of_nat n - Z.of_nat fs) (Z.of_nat st) ltac:(lia)) as HD. set (q := ((Z.of_nat n - Z.of_nat fs) / Z.of_nat st)%Z) in *. assert (1 <= q)%Z by lia. nia.
Qed.
Lemma pool_at_window n fs st ms ty X i j : (0 < st)%nat -> (1 <= fs)%nat -> (fs <= n)%nat -> Z.of_nat ms = ((Z.of_nat n - Z.of_nat fs) / Z.of_nat st + 1)%Z -> (i < ms)%nat -> (j < ms)%nat ->
  pool_at n n X (Z.of_nat st) fs ty i j = pooled ty (window fs st X i j).
Proof.
  intros Hs H1 Hf Hm Hi Hj. unfold pool_at. f_equal. unfold win, window. apply list_eq. intros t. rewrite !list_lookup_fmap. destruct (decide (t < fs * fs)%nat) as [Ht|Ht].
  - rewrite lookup_seq_lt by exact Ht. cbn [fmap option_fmap option_map]. f_equal. rewrite !conv_off_start. destruct (mat_div fs t Ht). pose proof (startn_bound n fs st ms i Hs Hf Hm Hi). pose proof (startn_bound n fs st ms j Hs Hf Hm Hj).
    assert (E : forall i, start (Z.of_nat st) i = Z.of_nat (startn st i)) by (intros [|?]; cbn [start startn]; lia). rewrite !E. unfold zat.
    rewrite !Nat.add_0_l. set (a := (t / fs)%nat) in *. set (b := (t mod fs)%nat) in *. clearbody a b. clear Hm Ht. rewrite decide_True by lia.
    rewrite !Z2Nat.inj_add, !Nat2Z.id by lia. reflexivity.
  - rewrite !(lookup_ge_None_2 (seq 0 (fs * fs))) by (rewrite seq_length; lia). reflexivity.
Qed.
(** Pooling a square image: each entry summarises the fs x fs window starting at (startn i, startn j), which lies in the image. *)
Lemma pool_runs (h : heap F) x (n fs st : nat) X ty : wf h -> abs h !! x = Some (Mat n n X) -> (0 < st)%nat -> (1 <= fs)%nat -> (fs <= n)%nat -> small n ->
  runs (pool_2d (Some x) (Z.of_nat fs) (Z.of_nat st) ty) h (fun d h' => exists ms, out_size n fs 0 (Z.of_nat st) ms /\ abs h !! d = None /\ abs h' = <[d := Mat ms ms (fun i j => pooled ty (window fs st X i j))]> (abs h)).
Proof.
  intros W Ax Hst H1 Hf [HB HL]. apply runs_wp. eapply wp_pool_2d; [exact W|exact Ax|lia|exact H1|exact Hf|exact HB|]. intros d h' ms Hms W' N' A'. split; [exact W'|]. exists ms. split; [unfold out_size; rewrite Hms; f_equal; f_equal; lia|]. split; [exact N'|].
  rewrite A'. f_equal. apply Mat_ext. intros i j Hi Hj. eapply pool_at_window; eassumption.
Qed.
(** Pixels in the rows and columns from ms + st + fs - 2 on are never read; with windows that should tile the image (stride = size = s)
    that leaves out all but the first ms + 2s - 2 of the rows. *)
Theorem C87_unread_refuted (h h2 : heap F) x x2 (n fs st ms : nat) X X2 ty : wf h -> wf h2 -> abs h !! x = Some (Mat n n X) -> abs h2 !! x2 = Some (Mat n n X2) -> (0 < st)%nat -> (1 <= fs)%nat -> (fs <= n)%nat -> small n ->
  out_size n fs 0 (Z.of_nat st) ms -> (forall i j, (i < ms + st + fs - 2)%nat -> (j < ms + st + fs - 2)%nat -> X i j = X2 i j) ->
  runs (pool_2d (Some x) (Z.of_nat fs) (Z.of_nat st) ty) h (fun d h' => exists o, abs h' !! d = Some o /\
    runs (pool_2d (Some x2) (Z.of_nat fs) (Z.of_nat st) ty) h2 (fun d2 h2' => abs h2' !! d2 = Some o)).
Proof.
  intros W W2 Ax Ax2 Hst H1 Hf HS Hms E. destruct (pool_runs h x n fs st X ty) as (d & h' & R1 & W' & ms1 & Hm1 & _ & A'); try assumption. destruct (pool_runs h2 x2 n fs st X2 ty) as (d2 & h2' & R2 & W2' & ms2 & Hm2 & _ & A2'); try assumption.
  unfold out_size in *. assert (ms1 = ms) as -> by lia. assert (ms2 = ms) as -> by lia.
  exists d, h'. split; [exact R1|]. split; [exact W'|]. eexists. split; [rewrite A'; apply lookup_insert|]. exists d2, h2'. split; [exact R2|]. split; [exact W2'|]. rewrite A2', lookup_insert. f_equal. apply Mat_ext. intros i j Hi Hj. f_equal.
  unfold window. apply list_fmap_ext. intros k t Ht. apply lookup_seq in Ht as [-> Ht]. rewrite Nat.add_0_l. destruct (mat_div fs k Ht). symmetry. apply E; [destruct i|destruct j]; cbn [startn]; lia.
Qed.
Lemma elem_window fs st X i j v : v ∈ window fs st X i j <-> exists k p, (k < fs)%nat /\ (p < fs)%nat /\ v = X (startn st i + k)%nat (startn st j + p)%nat.
Proof.
  unfold window. rewrite elem_of_list_fmap. split.
  - intros (t & -> & Ht). apply elem_of_seq in Ht. destruct (mat_div fs t ltac:(lia)). eauto 6.
  - intros (k & p & Hk & Hp & ->). exists (k * fs + p)%nat. split; [|apply elem_of_seq; nia]. rewrite (Nat.add_comm (k * fs)), Nat.div_add, Nat.mod_add, Nat.div_small, Nat.mod_small by lia. f_equal; lia.
Qed.
Lemma elem_mlist c r (X : nat -> nat -> F) v : v ∈ mlist c r X <-> exists i j, (i < r)%nat /\ (j < c)%nat /\ v = X i j.
Proof.
  unfold mlist. rewrite elem_of_list_fmap. split.
  - intros (t & -> & Ht). apply elem_of_seq in Ht. assert (c <> 0)%nat by nia. exists (t / c)%nat, (t mod c)%nat. split; [apply Nat.div_lt_upper_bound; nia|]. split; [apply Nat.mod_upper_bound; assumption|reflexivity].
  - intros (k & p & Hk & Hp & ->). exists (k * c + p)%nat. split; [|apply elem_of_seq; nia]. rewrite (Nat.add_comm (k * c)), Nat.div_add, Nat.mod_add, Nat.div_small, Nat.mod_small by lia. f_equal; lia.
Qed.
End pool.

Lemma rsum_flat_map a b (g : nat -> nat -> R) : rsum ((fun t => g (t / b)%nat (t mod b)%nat) <$> seq 0 (a * b)) = Rsum a (fun k => Rsum b (g k)).
Proof.
  destruct b as [|b].
  - rewrite Nat.mul_0_r. symmetry. apply Rsum_zero.
  - apply (Rsum_flat a (S b) g). lia.
Qed.
Theorem C87_average (h : heap R) x (n fs st : nat) X : wf h -> abs h !! x = Some (Mat n n X) -> (0 < st)%nat -> (1 <= fs)%nat -> (fs <= n)%nat -> small n ->
  runs (pool_2d (Some x) (Z.of_nat fs) (Z.of_nat st) PAverage) h (fun d h' => exists ms, out_size n fs 0 (Z.of_nat st) ms /\ abs h !! d = None /\
    abs h' = <[d := Mat ms ms (fun i j => Rsum fs (fun k => Rsum fs (fun p => X (startn st i + k)%nat (startn st j + p)%nat)) / (INR fs * INR fs))]> (abs h)).
Proof.
  intros W Ax Hst H1 Hf HS. destruct (pool_runs h x n fs st X PAverage) as (d & h' & R1 & W' & ms & Hm & N' & A'); try assumption. exists d, h'. split; [exact R1|]. split; [exact W'|]. exists ms. split; [exact Hm|]. split; [exact N'|].
  rewrite A'. f_equal. apply Mat_ext. intros i j _ _. cbn [pooled]. unfold f_mean. cbn [s_div s_add s_zero s_of_Z R_scalar]. rewrite foldl_add_rsum, Rplus_0_l. unfold window. rewrite fmap_length, seq_length, <- INR_IZR_INZ, mult_INR. f_equal. apply (rsum_flat_map fs fs (fun k p => X (startn st i + k)%nat (startn st j + p)%nat)).
Qed.
Theorem C87_global_average (h : heap R) x (c r : nat) X : wf h -> abs h !! x = Some (Mat c r X) ->
  runs (global_pool_2d (Some x) PAverage) h (fun v h' => abs h' = abs h /\ v = Rsum r (fun i => Rsum c (X i)) / (INR r * INR c)).
Proof.
  intros W Ax. apply runs_wp. eapply wp_global_pool; [exact W|exact Ax|]. intros h' W' A'. split; [exact W'|]. split; [exact A'|]. cbn [pooled]. unfold f_mean. cbn [s_div s_add s_zero s_of_Z R_scalar]. rewrite foldl_add_rsum, Rplus_0_l, mlist_length, <- INR_IZR_INZ, mult_INR. f_equal. apply (rsum_flat_map r c X).
Qed.
(** The code's "infinity" is a number M exceeding every pixel in size. *)
Section extremes.
Context (M : R).
Local Instance SMc : Scalar R := R_with_inf M.
Lemma pooled_max xs : xs <> [] -> (forall v, v ∈ xs -> - M < v < M) -> (pooled (F := R) PMax xs) ∈ xs /\ forall y, y ∈ xs -> y <= pooled (F := R) PMax xs.
Proof.
  intros Hne HM. destruct (f_max_spec (F := R) _ xs (SM_swo M) (Forall_true _ _ (fun _ => I)) Hne) as [I1 B1]; [intros v Hv; apply Rltb_true; apply (HM v Hv)|]. split; [exact I1|]. intros y Hy. apply Rltb_false. exact (B1 y Hy).
Qed.
Lemma pooled_min xs : xs <> [] -> (forall v, v ∈ xs -> - M < v < M) -> (pooled (F := R) PMin xs) ∈ xs /\ forall y, y ∈ xs -> pooled (F := R) PMin xs <= y.
Proof.
  intros Hne HM. destruct (f_min_spec (F := R) _ xs (SM_swo M) (Forall_true _ _ (fun _ => I)) Hne) as [I1 B1]; [intros v Hv; apply Rltb_true; apply (HM v Hv)|]. split; [exact I1|]. intros y Hy. apply Rltb_false. exact (B1 y Hy).
Qed.
Theorem C87_extreme (h : heap R) x (n fs st : nat) X : wf h -> abs h !! x = Some (Mat n n X) -> (0 < st)%nat -> (1 <= fs)%nat -> (fs <= n)%nat -> small n -> (forall i j, (i < n)%nat -> (j < n)%nat -> - M < X i j < M) ->
  runs (pool_2d (Some x) (Z.of_nat fs) (Z.of_nat st) PMax) h (fun d h' => exists ms Y, out_size n fs 0 (Z.of_nat st) ms /\ abs h !! d = None /\ abs h' = <[d := Mat ms ms Y]> (abs h) /\
    forall i j, (i < ms)%nat -> (j < ms)%nat -> (exists k p, (k < fs)%nat /\ (p < fs)%nat /\ Y i j = X (startn st i + k)%nat (startn st j + p)%nat) /\ (forall k p, (k < fs)%nat -> (p < fs)%nat -> X (startn st i + k)%nat (startn st j + p)%nat <= Y i j)) /\
  runs (pool_2d (Some x) (Z.of_nat fs) (Z.of_nat st) PMin) h (fun d h' => exists ms Y, out_size n fs 0 (Z.of_nat st) ms /\ abs h !! d = None /\ abs h' = <[d := Mat ms ms Y]> (abs h) /\
    forall i j, (i < ms)%nat -> (j < ms)%nat -> (exists k p, (k < fs)%nat /\ (p < fs)%nat /\ Y i j = X (startn st i + k)%nat (startn st j + p)%nat) /\ (forall k p, (k < fs)%nat -> (p < fs)%nat -> Y i j <= X (startn st i + k)%nat (startn st j + p)%nat)).
Proof.
  intros W Ax Hst H1 Hf HS HM.
  assert (HW : forall ms i j, out_size n fs 0 (Z.of_nat st) ms -> (i < ms)%nat -> (j < ms)%nat -> window fs st X i j <> [] /\ forall v, v ∈ window fs st X i j -> - M < v < M).
  { intros ms i j Hm Hi Hj. assert (Hm' : Z.of_nat ms = ((Z.of_nat n - Z.of_nat fs) / Z.of_nat st + 1)%Z) by (unfold out_size in Hm; rewrite Hm; f_equal; f_equal; lia).
    pose proof (startn_bound n fs st ms i Hst Hf Hm' Hi). pose proof (startn_bound n fs st ms j Hst Hf Hm' Hj). split.
    - intros E. assert (G : X (startn st i + 0)%nat (startn st j + 0)%nat ∈ window fs st X i j) by (apply elem_window; exists 0%nat, 0%nat; repeat split; lia). rewrite E in G. apply elem_of_nil in G. exact G.
    - intros v Hv. apply elem_window in Hv as (k & p & Hk & Hp & ->). apply HM; lia. }
  split.
  - destruct (pool_runs h x n fs st X PMax) as (d & h' & R1 & W' & ms & Hm & N' & A'); try assumption. exists d, h'. split; [exact R1|]. split; [exact W'|]. exists ms. eexists. split; [exact Hm|]. split; [exact N'|]. split; [exact A'|].
    intros i j Hi Hj. destruct (HW ms i j Hm Hi Hj) as [Hne HB]. destruct (pooled_max _ Hne HB) as [I1 B1]. split; [apply elem_window; exact I1|]. intros k p Hk Hp. apply B1. apply elem_window. eauto 6.
  - destruct (pool_runs h x n fs st X PMin) as (d & h' & R1 & W' & ms & Hm & N' & A'); try assumption. exists d, h'. split; [exact R1|]. split; [exact W'|]. exists ms. eexists. split; [exact Hm|]. split; [exact N'|]. split; [exact A'|].
    intros i j Hi Hj. destruct (HW ms i j Hm Hi Hj) as [Hne HB]. destruct (pooled_min _ Hne HB) as [I1 B1]. split; [apply elem_window; exact I1|]. intros k p Hk Hp. apply B1. apply elem_window. eauto 6.
Qed.
Theorem C87_global_extreme (h : heap R) x (c r : nat) X : wf h -> abs h !! x = Some (Mat c r X) -> (1 <= c)%nat -> (1 <= r)%nat -> (forall i j, (i < r)%nat -> (j < c)%nat -> - M < X i j < M) ->
  runs (global_pool_2d (Some x) PMax) h (fun v h' => abs h' = abs h /\ (exists i j, (i < r)%nat /\ (j < c)%nat /\ v = X i j) /\ (forall i j, (i < r)%nat -> (j < c)%nat -> X i j <= v)) /\
  runs (global_pool_2d (Some x) PMin) h (fun v h' => abs h' = abs h /\ (exists i j, (i < r)%nat /\ (j < c)%nat /\ v = X i j) /\ (forall i j, (i < r)%nat -> (j < c)%nat -> v <= X i j)).
Proof.
  intros W Ax Hc Hr HM. assert (Hne : mlist c r X <> []). { intros E. assert (G : X 0%nat 0%nat ∈ mlist c r X) by (apply elem_mlist; exists 0%nat, 0%nat; repeat split; lia). rewrite E in G. apply elem_of_nil in G. exact G. }
  assert (HB : forall v, v ∈ mlist c r X -> - M < v < M) by (intros v Hv; apply elem_mlist in Hv as (i & j & Hi & Hj & ->); apply HM; assumption).
  split; apply runs_wp; (eapply wp_global_pool; [exact W|exact Ax|]); intros h' W' A'; (split; [exact W'|]); (split; [exact A'|]).
  - destruct (pooled_max _ Hne HB) as [I1 B1]. split; [apply elem_mlist; exact I1|]. intros i j Hi Hj. apply B1. apply elem_mlist. eauto 6.
  - destruct (pooled_min _ Hne HB) as [I1 B1]. split; [apply elem_mlist; exact I1|]. intros i j Hi Hj. apply B1. apply elem_mlist. eauto 6.
Qed.
End extremes.

(** ** C88: the gaussian filter *)
Definition gauss (sd x y : R) : R := 1 / (2 * PI * (sd * sd)) * exp (- (x * x + y * y) / (2 * (sd * sd))).
Definition centre (size : nat) : nat := ((size - 1) / 2)%nat.
(** The result is a new size x size matrix; nothing else changes.  The exponent is MULTIPLIED by the variance. *)
Theorem C88_formula (h : heap R) (size : nat) sd : wf h -> (Z.of_nat size * Z.of_nat size <= int_max)%Z ->
  runs (gaussian_filter_2d (Z.of_nat size) sd) h (fun d h' => abs h !! d = None /\
    abs h' = <[d := Mat size size (fun i j => let x := INR i - INR (centre size) in let y := INR (centre size) - INR j in 1 / (2 * PI * (sd * sd)) * exp (- (x * x + y * y) / 2 * (sd * sd)))]> (abs h)).
Proof.
  intros W HB. apply runs_wp. eapply wp_gaussian_filter; [exact W|exact HB|]. intros d h' W' N' A'. split; [exact W'|]. split; [exact N'|]. rewrite A'. f_equal. apply Mat_ext. intros i j Hi _. cbv zeta.
  assert (Ec : Z.quot (Z.of_nat size - 1) 2 = Z.of_nat (centre size)). { unfold centre. replace (Z.of_nat size - 1)%Z with (Z.of_nat (size - 1)) by lia. rewrite Z.quot_div_nonneg by lia. rewrite Nat2Z.inj_div. reflexivity. }
  unfold gauss_at, gaussian_2d. rewrite Ec. cbn [s_mul s_div s_one s_exp s_opp s_add s_of_Z m_pi R_scalar R_libm]. unfold s_two. cbn [s_of_Z R_scalar]. rewrite !minus_IZR, <- !INR_IZR_INZ. reflexivity.
Qed.
(** For standard deviation 1 it is the gaussian. *)
Theorem C88_unit (h : heap R) (size : nat) sd : wf h -> (Z.of_nat size * Z.of_nat size <= int_max)%Z -> sd * sd = 1 ->
  runs (gaussian_filter_2d (Z.of_nat size) sd) h (fun d h' => abs h !! d = None /\ abs h' = <[d := Mat size size (fun i j => gauss sd (INR i - INR (centre size)) (INR (centre size) - INR j))]> (abs h)).
Proof.
  intros W HB E. destruct (C88_formula h size sd W HB) as (d & h' & R1 & W' & N' & A'). exists d, h'. split; [exact R1|]. split; [exact W'|]. split; [exact N'|]. rewrite A'. f_equal. apply Mat_ext. intros i j _ _. cbv zeta. unfold gauss. rewrite E. f_equal. f_equal. field.
Qed.
(** For any other (nonzero) standard deviation every entry off the centre differs from the gaussian. *)
Theorem C88_refuted (h : heap R) (size : nat) sd : wf h -> (Z.of_nat size * Z.of_nat size <= int_max)%Z -> sd <> 0 -> sd * sd <> 1 ->
  runs (gaussian_filter_2d (Z.of_nat size) sd) h (fun d h' => abs h !! d = None /\ exists G, abs h' = <[d := Mat size size G]> (abs h) /\
    forall i j, (i < size)%nat -> (j < size)%nat -> i <> centre size \/ j <> centre size -> G i j <> gauss sd (INR i - INR (centre size)) (INR (centre size) - INR j)).
Proof.
  intros W HB E0 E1. destruct (C88_formula h size sd W HB) as (d & h' & R1 & W' & N' & A'). exists d, h'. split; [exact R1|]. split; [exact W'|]. split; [exact N'|]. eexists. split; [exact A'|]. intros i j _ _ Hij. cbv zeta.
  set (x := INR i - INR (centre size)). set (y := INR (centre size) - INR j). set (q := sd * sd) in *. assert (Hq : 0 < q) by (unfold q; pose proof (Rsqr_pos_lt sd E0) as G; unfold Rsqr in G; exact G).
  assert (Hr : 0 < x * x + y * y).
  { pose proof (Rle_0_sqr x) as Gx. pose proof (Rle_0_sqr y) as Gy. unfold Rsqr in *. destruct Hij as [Hn|Hn].
    - assert (x <> 0) as Nx by (unfold x; intros G; apply Hn; apply INR_eq; lra). pose proof (Rsqr_pos_lt x Nx) as G. unfold Rsqr in G. lra.
    - assert (y <> 0) as Ny by (unfold y; intros G; apply Hn; apply INR_eq; lra). pose proof (Rsqr_pos_lt y Ny) as G. unfold Rsqr in G. lra. }
  unfold gauss. fold q. pose proof PI_RGT_0 as HP. intros G. apply Rmult_eq_reg_l in G; [|apply Rgt_not_eq; apply Rlt_gt; apply Rdiv_lt_0_compat; nra]. apply exp_inv in G.
  set (s := x * x + y * y) in *. assert (G2 : s * (q * q) = s). { assert (G1 : - s / 2 * q * (2 * q) = - s / (2 * q) * (2 * q)) by (f_equal; exact G). assert (G0 : - s / (2 * q) * (2 * q) = - s) by (field; lra). rewrite G0 in G1. lra. }
  assert (G3 : q * q = 1) by nra. apply E1. nra.
Qed.
(** An odd filter is symmetric. *)
Theorem C88_symmetric (h : heap R) (m : nat) sd : wf h -> (Z.of_nat (2 * m + 1) * Z.of_nat (2 * m + 1) <= int_max)%Z ->
  runs (gaussian_filter_2d (Z.of_nat (2 * m + 1)) sd) h (fun d h' => exists G, abs h' !! d = Some (Mat (2 * m + 1) (2 * m + 1) G) /\
    forall i j, (i <= 2 * m)%nat -> (j <= 2 * m)%nat -> G i j = G j i /\ G (2 * m - i)%nat j = G i j /\ G i (2 * m - j)%nat = G i j).
Proof.
  intros W HB. destruct (C88_formula h (2 * m + 1) sd W HB) as (d & h' & R1 & W' & N' & A'). exists d, h'. split; [exact R1|]. split; [exact W'|]. eexists. split; [rewrite A'; apply lookup_insert|]. intros i j Hi Hj.
  assert (Ec : centre (2 * m + 1) = m) by (unfold centre; replace (2 * m + 1 - 1)%nat with (m * 2)%nat by lia; apply Nat.div_mul; lia). cbv beta zeta. rewrite Ec.
  split; [|split]; f_equal; f_equal; f_equal; f_equal; f_equal; rewrite ?minus_INR, ?mult_INR by lia; cbn [INR]; ring.
Qed.

(** ** C89: the derivatives *)
Lemma ext_out (c r : nat) (X : nat -> nat -> R) y x : ~ (0 <= y < Z.of_nat r /\ 0 <= x < Z.of_nat c)%Z -> ext c r X y x = 0.
Proof. intros Hn. unfold ext. rewrite decide_False by exact Hn. reflexivity. Qed.
Theorem C89_dy (h : heap R) x (c r : nat) X : wf h -> abs h !! x = Some (Mat c r X) ->
  runs (conv_dy (Some x)) h (fun d h' => abs h !! d = None /\ abs h' = <[d := Mat c r (fun i j => ext c r X (Z.of_nat i - 1) (Z.of_nat j) - ext c r X (Z.of_nat i + 1) (Z.of_nat j))]> (abs h)).
Proof.
  intros W A. apply runs_wp. eapply wp_conv_dy; [exact W|exact A|]. intros d h' W' N' A'. split; [exact W'|]. split; [exact N'|]. rewrite A'. f_equal. apply Mat_ext. intros i j Hi Hj. unfold dy_at. cbn [s_opp s_sub R_scalar]. change (@zat R R_scalar) with (@ext R R_scalar).
  destruct (decide (i = 0)%nat) as [->|H0]; [|destruct (decide (i = r - 1)%nat) as [->|H1]].
  - rewrite (ext_out c r X (Z.of_nat 0 - 1)) by lia. change (Z.of_nat 0 + 1)%Z with 1%Z. lra.
  - rewrite (ext_out c r X (Z.of_nat (r - 1) + 1)) by lia. lra.
  - reflexivity.
Qed.
(** The horizontal derivative is right except in column rows - 1 of an image with 2 <= rows < columns. *)
Theorem C89_dx (h : heap R) x (c r : nat) X : wf h -> abs h !! x = Some (Mat c r X) ->
  runs (conv_dx (Some x)) h (fun d h' => abs h !! d = None /\ exists D, abs h' = <[d := Mat c r D]> (abs h) /\
    forall i j, (i < r)%nat -> (j < c)%nat -> (j = (r - 1)%nat -> (r = 1 \/ c <= r)%nat) -> D i j = ext c r X (Z.of_nat i) (Z.of_nat j + 1) - ext c r X (Z.of_nat i) (Z.of_nat j - 1)).
Proof.
  intros W A. apply runs_wp. eapply wp_conv_dx; [exact W|exact A|]. intros d h' W' N' A'. split; [exact W'|]. split; [exact N'|]. eexists. split; [exact A'|]. intros i j Hi Hj HG. unfold dx_at. cbn [s_opp s_sub R_scalar]. change (@zat R R_scalar) with (@ext R R_scalar).
  destruct (decide (j = 0)%nat) as [->|H0]; [|destruct (decide (j = r - 1)%nat) as [E|H1]].
  - rewrite (ext_out c r X _ (Z.of_nat 0 - 1)) by lia. change (Z.of_nat 0 + 1)%Z with 1%Z. lra.
  - assert (c <= r)%nat by (destruct (HG E); lia). rewrite (ext_out c r X _ (Z.of_nat j + 1)) by lia. lra.
  - reflexivity.
Qed.
Theorem C89_dx_wide_refuted (h : heap R) x (c r : nat) X : wf h -> abs h !! x = Some (Mat c r X) -> (2 <= r)%nat -> (r < c)%nat ->
  runs (conv_dx (Some x)) h (fun d h' => exists D, abs h' !! d = Some (Mat c r D) /\ forall i, (i < r)%nat -> D i (r - 1)%nat = - X i (r - 2)%nat).
Proof.
  intros W A Hr Hc. apply runs_wp. eapply wp_conv_dx; [exact W|exact A|]. intros d h' W' N' A'. split; [exact W'|]. eexists. split; [rewrite A'; apply lookup_insert|]. intros i Hi. unfold dx_at. rewrite decide_False, decide_True by lia. unfold zat. rewrite decide_True by lia. cbn [s_opp R_scalar]. f_equal. f_equal; lia.
Qed.
(** The gradient magnitude of an image at least as high as it is wide; the temporaries are gone. *)
Theorem C89_grad (h : heap R) x (c r : nat) X : wf h -> abs h !! x = Some (Mat c r X) -> (c <= r)%nat ->
  runs (conv_grad (Some x)) h (fun d h' => abs h !! d = None /\ abs h' = <[d := Mat c r (fun i j => let gx := ext c r X (Z.of_nat i) (Z.of_nat j + 1) - ext c r X (Z.of_nat i) (Z.of_nat j - 1) in
      let gy := ext c r X (Z.of_nat i - 1) (Z.of_nat j) - ext c r X (Z.of_nat i + 1) (Z.of_nat j) in sqrt (gx * gx + gy * gy))]> (abs h)).
Proof.
  intros W A Hcr. apply runs_wp. eapply wp_conv_grad; [exact W|exact A|]. intros d h' W' N' A'. split; [exact W'|]. split; [exact N'|]. rewrite A'. f_equal. apply Mat_ext. intros i j Hi Hj. unfold grad_at. cbn [s_sqrt s_add s_mul R_scalar]. cbv zeta.
  assert (E1 : dx_at c r X i j = ext c r X (Z.of_nat i) (Z.of_nat j + 1) - ext c r X (Z.of_nat i) (Z.of_nat j - 1)).
  { unfold dx_at. cbn [s_opp s_sub R_scalar]. change (@zat R R_scalar) with (@ext R R_scalar). destruct (decide (j = 0)%nat) as [->|H0]; [|destruct (decide (j = r - 1)%nat) as [E|H1]].
    - rewrite (ext_out c r X _ (Z.of_nat 0 - 1)) by lia. change (Z.of_nat 0 + 1)%Z with 1%Z. lra.
    - rewrite (ext_out c r X _ (Z.of_nat j + 1)) by lia. lra.
    - reflexivity. }
  assert (E2 : dy_at c r X i j = ext c r X (Z.of_nat i - 1) (Z.of_nat j) - ext c r X (Z.of_nat i + 1) (Z.of_nat j)).
  { unfold dy_at. cbn [s_opp s_sub R_scalar]. change (@zat R R_scalar) with (@ext R R_scalar). destruct (decide (i = 0)%nat) as [->|H0]; [|destruct (decide (i = r - 1)%nat) as [->|H1]].
    - rewrite (ext_out c r X (Z.of_nat 0 - 1)) by lia. change (Z.of_nat 0 + 1)%Z with 1%Z. lra.
    - rewrite (ext_out c r X (Z.of_nat (r - 1) + 1)) by lia. lra.
    - reflexivity. }
  rewrite E1, E2. reflexivity.
Qed.
