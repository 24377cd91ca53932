(** * C81-C83 over exact reals, and the scaling of a constant column in IEEE-754 arithmetic. *)
From Verif Require Import Base BaseProofs Vec VecSpec VecProofs VecProofs2 Mat MatSpec MatProofs Act Stat StatProofs Inst PropVec Data DataProofs DataProofs2 PropData RInst LibmR PropStat PropAct2.
From Flocq Require IEEE754.BinarySingleNaN.

Local Notation S := Datatypes.S.

(** ** The extremes reported by the scans *)
Section scans.
Context {F : Type} `{Scalar F}.
Lemma f_min_spec (P : F -> Prop) xs : swo_on P -> Forall P xs -> xs <> [] -> (forall x, x ∈ xs -> s_lt x s_inf = true) -> f_min xs ∈ xs /\ forall y, y ∈ xs -> s_lt y (f_min xs) = false.
Proof.
  intros HP HF Hne Hinf. destruct (scan_spec P (fun x m => s_lt x m) s_inf) with (xs := xs) as (m & k & E & HI).
  - exact (swo_irrefl P HP).
  - intros x y z Px Py Pz Hxz. exact (swo_cotrans P HP x y z Px Py Pz Hxz).
  - intros x y z Px Py Pz H1 H2. exact (swo_trans P HP x y z Px Py Pz H1 H2).
  - exact HF.
  - exact Hinf.
  - unfold f_min, scan_fold. rewrite E. cbn [fst snd]. destruct HI as [(-> & _)|(Hk & Em & Hall & _)]; [congruence|].
    split; [eapply elem_of_list_lookup_2; exact Em|]. intros y Hy. apply elem_of_list_lookup in Hy as [j Hj]. exact (Hall j y Hj).
Qed.
Lemma f_max_spec (P : F -> Prop) xs : swo_on P -> Forall P xs -> xs <> [] -> (forall x, x ∈ xs -> s_lt (s_opp s_inf) x = true) -> f_max xs ∈ xs /\ forall y, y ∈ xs -> s_lt (f_max xs) y = false.
Proof.
  intros HP HF Hne Hinf. destruct (scan_spec P (fun x m => s_lt m x) (s_opp s_inf)) with (xs := xs) as (m & k & E & HI).
  - exact (swo_irrefl P HP).
  - intros x y z Px Py Pz Hxz. destruct (swo_cotrans P HP z y x Pz Py Px Hxz) as [Hc|Hc]; [right|left]; exact Hc.
  - intros x y z Px Py Pz H1 H2. exact (swo_trans P HP z y x Pz Py Px H2 H1).
  - exact HF.
  - exact Hinf.
  - unfold f_max, scan_fold. rewrite E. cbn [fst snd]. destruct HI as [(-> & _)|(Hk & Em & Hall & _)]; [congruence|].
    split; [eapply elem_of_list_lookup_2; exact Em|]. intros y Hy. apply elem_of_list_lookup in Hy as [j Hj]. exact (Hall j y Hj).
Qed.
Lemma elem_of_col n (X : nat -> nat -> F) j v : v ∈ row n (mat_tr X) j <-> exists i, (i < n)%nat /\ v = X i j.
Proof.
  unfold row. rewrite elem_of_list_In, in_map_iff. split.
  - intros (i & E & Hi). apply in_seq in Hi. exists i. split; [lia|]. symmetry. exact E.
  - intros (i & Hi & ->). exists i. split; [reflexivity|]. apply in_seq. lia.
Qed.
End scans.

Local Open Scope R_scope.

(** ** feature_scaling over the reals; the code's "infinity" is a number M exceeding every entry in size *)
Definition R_with_inf (M : R) : Scalar R := {|
  s_zero := 0; s_one := 1; s_inf := M;
  s_add := Rplus; s_sub := Rminus; s_mul := Rmult; s_div := Rdiv; s_opp := Ropp;
  s_lt := Rltb; s_eq := Reqb; s_of_Z := IZR;
  s_log := ln; s_log10 := (fun x => ln x / ln 10); s_exp := exp; s_erf := RErf.Rerf; s_sqrt := sqrt;
  s_sin := sin; s_cos := cos; s_pow := Rpow |}.
Section range.
Context (M : R).
Local Instance SM : Scalar R := R_with_inf M.
Lemma SM_swo : swo_on (F := R) (fun _ => True).
Proof.
  constructor.
  - intros x _. apply Rltb_false. lra.
  - intros x y z _ _ _ Hxy Hyz. apply Rltb_true in Hxy, Hyz. apply Rltb_true. lra.
  - intros x y z _ _ _ Hxz. apply Rltb_true in Hxz. destruct (Rlt_dec x y); [left|right]; apply Rltb_true; lra.
Qed.
Lemma scaled_R (n : nat) (X : nat -> nat -> R) j : (forall i, (i < n)%nat -> - M < X i j < M) -> (exists i i', (i < n)%nat /\ (i' < n)%nat /\ X i j <> X i' j) ->
  exists lo hi, lo < hi /\ (exists i, (i < n)%nat /\ X i j = lo) /\ (exists i, (i < n)%nat /\ X i j = hi) /\ (forall i, (i < n)%nat -> lo <= X i j <= hi) /\ (forall i, scaled n X i j = (X i j - lo) / (hi - lo)).
Proof.
  intros HM (i1 & i2 & L1 & L2 & Hne). set (col := row n (mat_tr X) j).
  assert (Hcol : forall i, (i < n)%nat -> X i j ∈ col) by (intros i Hi; apply elem_of_col; eauto).
  assert (Hnil : col <> []). { intros E. pose proof (Hcol i1 L1) as G. rewrite E in G. apply elem_of_nil in G. exact G. }
  assert (HT : Forall (fun _ : R => True) col) by (apply Forall_true; auto).
  destruct (f_min_spec _ col SM_swo HT Hnil) as [I1 B1]. { intros x Hx. apply elem_of_col in Hx as (i & Hi & ->). apply Rltb_true. apply (HM i Hi). }
  destruct (f_max_spec _ col SM_swo HT Hnil) as [I2 B2]. { intros x Hx. apply elem_of_col in Hx as (i & Hi & ->). apply Rltb_true. apply (HM i Hi). }
  assert (Lo : forall i, (i < n)%nat -> f_min col <= X i j) by (intros i Hi; apply Rltb_false, (B1 _ (Hcol i Hi))).
  assert (Hi : forall i, (i < n)%nat -> X i j <= f_max col) by (intros i Li; apply Rltb_false, (B2 _ (Hcol i Li))).
  exists (f_min col), (f_max col). split; [|split; [|split; [|split]]].
  - pose proof (Lo i1 L1). pose proof (Lo i2 L2). pose proof (Hi i1 L1). pose proof (Hi i2 L2). lra.
  - apply elem_of_col in I1 as (i & Li & E). eauto.
  - apply elem_of_col in I2 as (i & Li & E). eauto.
  - intros i Li. split; [apply Lo|apply Hi]; exact Li.
  - intros i. reflexivity.
Qed.
(** A column that is not constant is mapped onto [0, 1]: both ends are attained, and the map is an increasing affine function. *)
Theorem C82_range (h : heap R) x (c n : nat) (X : nat -> nat -> R) : wf h -> abs h !! x = Some (Mat c n X) -> (Z.of_nat c <= int_max)%Z -> (Z.of_nat n <= int_max)%Z ->
  (forall i j, (i < n)%nat -> (j < c)%nat -> - M < X i j < M) ->
  runs (feature_scaling (Some x)) h (fun d h' => exists Y, abs h !! d = None /\ abs h' = <[d := Mat c n Y]> (abs h) /\
    forall j, (j < c)%nat -> (exists i i', (i < n)%nat /\ (i' < n)%nat /\ X i j <> X i' j) ->
      (forall i, (i < n)%nat -> 0 <= Y i j <= 1) /\ (exists i, (i < n)%nat /\ Y i j = 0) /\ (exists i, (i < n)%nat /\ Y i j = 1) /\
      (exists a b, 0 < a /\ forall i, Y i j = a * X i j + b)).
Proof.
  intros W A Hc Hn HM. apply runs_wp. eapply wp_feature_scaling; [exact W|exact A|exact Hc|exact Hn|]. intros d h' W' N' A'. split; [exact W'|]. exists (scaled n X). split; [exact N'|]. split; [exact A'|].
  intros j Hj Hne. destruct (scaled_R n X j (fun i Hi => HM i j Hi Hj) Hne) as (lo & hi & Hlt & (i0 & L0 & E0) & (i1 & L1 & E1) & HB & HS). assert (Hp : 0 < / (hi - lo)) by (apply Rinv_0_lt_compat; lra).
  split; [|split; [|split]].
  - intros i Hi. rewrite HS. pose proof (HB i Hi) as [Bl Bh]. unfold Rdiv. split.
    + apply Rmult_le_pos; lra.
    + apply (Rmult_le_reg_r (hi - lo)); [lra|]. rewrite Rmult_assoc, Rinv_l, Rmult_1_r by lra. lra.
  - exists i0. split; [exact L0|]. rewrite HS, E0. unfold Rdiv. rewrite Rminus_diag_eq by reflexivity. ring.
  - exists i1. split; [exact L1|]. rewrite HS, E1. field. lra.
  - exists (/ (hi - lo)), (- lo / (hi - lo)). split; [exact Hp|]. intros i. rewrite HS. unfold Rdiv. ring.
Qed.
End range.

(** ** mean_centering and mean_normalization over the reals *)
Local Notation rowR X c i := (map (X i) (seq 0 c)).
Lemma map_nonempty c (X : nat -> nat -> R) i : (0 < c)%nat -> rowR X c i <> [].
Proof. intros Hc E. apply (f_equal length) in E. rewrite map_length, seq_length in E. cbn in E. lia. Qed.
Lemma centre_map c (X : nat -> nat -> R) (i : nat) mu : map (fun j => X i j - mu) (seq 0 c) = (fun a => a - mu) <$> rowR X c i.
Proof. unfold fmap. symmetry. exact (map_map (X i) (fun a => a - mu) (seq 0 c)). Qed.
(** Every row of the result has mean zero; rows and differences within a row are otherwise kept. *)
Theorem C83_centred (h : heap R) x (c n : nat) X : wf h -> abs h !! x = Some (Mat c n X) -> (Z.of_nat c <= int_max)%Z -> (0 < c)%nat ->
  runs (mean_centering (Some x)) h (fun d h' => exists Y, abs h' = <[d := Mat c n Y]> (abs h) /\
    forall i, (i < n)%nat -> mean (rowR Y c i) = 0 /\ forall j j', (j < c)%nat -> (j' < c)%nat -> Y i j - Y i j' = X i j - X i j').
Proof.
  intros W A Hc Hp. destruct (C83_mean_centering h x c n X W A Hc) as (d & h' & E & W' & _ & A'). exists d, h'. split; [exact E|]. split; [exact W'|].
  eexists. split; [exact A'|]. intros i Hi. split.
  - cbv beta. cbn [s_sub R_scalar]. rewrite f_mean_R, centre_map. unfold mean at 1. rewrite rsum_center by (apply map_nonempty; exact Hp). unfold Rdiv. apply Rmult_0_l.
  - intros j j' _ _. cbn. ring.
Qed.
(** With two or more columns, every row that is not constant gets mean zero and variance one. *)
Theorem C83_standardised (h : heap R) x (c n : nat) X : wf h -> abs h !! x = Some (Mat c n X) -> (Z.of_nat c <= int_max)%Z -> (2 <= c)%nat ->
  runs (mean_normalization (Some x)) h (fun d h' => exists Y, abs h' = <[d := Mat c n Y]> (abs h) /\
    forall i, (i < n)%nat -> ~ constant (rowR X c i) -> mean (rowR Y c i) = 0 /\ variance (rowR Y c i) = 1).
Proof.
  intros W A Hc Hp. destruct (C83_mean_normalization h x c n X W A Hc) as (d & h' & E & W' & _ & Y & A' & HY). exists d, h'. split; [exact E|]. split; [exact W'|].
  exists Y. split; [exact A'|]. intros i Hi Hnc. set (xs := rowR X c i) in *. assert (Lx : length xs = c) by (unfold xs; rewrite map_length, seq_length; reflexivity).
  assert (Nx : xs <> []) by (apply map_nonempty; lia). set (mu := mean xs). set (zs := (fun a => a - mu) <$> xs).
  assert (Lz : length zs = c) by (unfold zs; rewrite fmap_length; exact Lx). assert (Nz : zs <> []) by (intros Ez; rewrite Ez in Lz; cbn in Lz; lia).
  assert (Mz : mean zs = 0). { unfold mean. unfold zs, mu. rewrite rsum_center by exact Nx. unfold Rdiv. apply Rmult_0_l. }
  assert (Vz : variance zs = variance xs). { unfold variance at 1. rewrite Mz, Lz, <- Lx. unfold variance. f_equal. f_equal. unfold zs. rewrite <- list_fmap_compose. apply list_fmap_ext. intros q a _. unfold compose, mu. ring. }
  set (k := / sqrt (variance zs)).
  assert (EY : rowR Y c i = (fun a => a * k) <$> zs).
  { unfold zs. rewrite <- list_fmap_compose. unfold xs. unfold fmap. transitivity (map (fun j => compose (fun a => a * k) (fun a => a - mu) (X i j)) (seq 0 c)); [|symmetry; exact (map_map (X i) _ (seq 0 c))].
    apply map_ext_in. intros j Hj. apply in_seq in Hj. rewrite (HY i j Hi) by lia. cbv zeta. rewrite f_mean_R. change (rowR X c i) with xs. fold mu. unfold compose. cbn [s_sub s_mul s_div s_one s_sqrt R_scalar].
    rewrite centre_map. change (rowR X c i) with xs. fold zs. rewrite f_variance_R. unfold k. unfold Rdiv. rewrite Rmult_1_l. reflexivity. }
  assert (Pv : 0 < variance zs). { rewrite Vz. pose proof (variance_nonneg xs ltac:(lia)) as [G|G]; [exact G|]. destruct Hnc. apply variance_zero; [lia|]. symmetry. exact G. }
  rewrite EY. split.
  - rewrite mean_scal, Mz. ring.
  - rewrite <- cov_diag, cov_scal. rewrite cov_sym by (rewrite fmap_length; reflexivity). rewrite cov_scal, cov_diag. unfold k.
    assert (Es : sqrt (variance zs) * sqrt (variance zs) = variance zs) by (apply sqrt_sqrt; lra). assert (Np : sqrt (variance zs) <> 0) by (apply Rgt_not_eq, sqrt_lt_R0; exact Pv).
    rewrite <- Es at 1. field. exact Np.
Qed.
(** Refuted: "(X_j - mu_j) for every feature j".  A data set with a single feature is erased: every entry becomes zero. *)
Theorem C83_features_refuted (h : heap R) x (n : nat) X : wf h -> abs h !! x = Some (Mat 1 n X) ->
  runs (mean_centering (Some x)) h (fun d h' => abs h' = <[d := Mat 1 n (fun _ _ => 0)]> (abs h)).
Proof.
  intros W A. destruct (C83_mean_centering h x 1 n X W A ltac:(unfold int_max; lia)) as (d & h' & E & W' & _ & A'). exists d, h'. split; [exact E|]. split; [exact W'|]. rewrite A'. f_equal.
  rewrite !Mat_MatP. apply MatP_ext. intros i j _ Hj. assert (j = 0%nat) as -> by lia. f_equal. cbn. unfold f_mean. cbn. field.
Qed.

(** ** The size of the test set over the reals *)
(** For a fraction between 0 and 1 the test set has the fraction of the N examples rounded down: the hypotheses of C81_split hold. *)
Theorem C81_fraction (ts : R) (N : nat) : 0 <= ts <= 1 -> (Z.of_nat N <= int_max)%Z ->
  exists t : nat, m_to_int (s_mul ts (s_of_Z (Z.of_nat N))) = Some (Z.of_nat t) /\ (t <= N)%nat /\ INR t <= ts * INR N < INR t + 1.
Proof.
  intros [H0 H1] HN. cbn [s_mul s_of_Z R_scalar m_to_int R_libm]. rewrite <- INR_IZR_INZ. pose proof (pos_INR N) as Hp. set (v := ts * INR N).
  assert (V0 : 0 <= v) by (apply Rmult_le_pos; assumption). assert (V1 : v <= INR N). { unfold v. rewrite <- (Rmult_1_l (INR N)) at 2. apply Rmult_le_compat_r; assumption. }
  assert (BN : INR N <= 2147483647). { rewrite INR_IZR_INZ. apply IZR_le. exact HN. }
  unfold Rto_int. destruct (Rlt_dec _ _); [|lra]. destruct (Rlt_dec _ _); [|lra]. unfold Rtrunc. destruct (Rlt_dec v 0); [lra|].
  destruct (base_Int_part v) as [G1 G2]. assert (Hz : (0 <= Int_part v)%Z). { apply Z.lt_succ_r. apply lt_IZR. rewrite succ_IZR. lra. }
  exists (Z.to_nat (Int_part v)). rewrite Z2Nat.id by exact Hz. split; [reflexivity|]. assert (EI : INR (Z.to_nat (Int_part v)) = IZR (Int_part v)) by (rewrite INR_IZR_INZ, Z2Nat.id by exact Hz; reflexivity).
  split; [|rewrite EI; lra]. apply INR_le. rewrite EI. lra.
Qed.
Close Scope R_scope.

(** ** A constant column in IEEE-754 arithmetic *)
Section ieee.
Import IEEE754.BinarySingleNaN.
Context (prec emax : Z) {Hprec : FLX.Prec_gt_0 prec} {Hmax : Prec_lt_emax prec emax}.
Notation flt := (binary_float prec emax).
Context (m : Inst.libm flt).
Local Instance SF : Scalar flt := ieee_scalar prec emax m.
Lemma minus_self (v : flt) : is_finite v = true -> exists s, Bminus mode_NE v v = B754_zero s.
Proof.
  intros Fv. pose proof (Bminus_correct prec emax Hprec Hmax mode_NE v v Fv Fv) as C.
  rewrite Rminus_diag_eq, Generic_fmt.round_0 in C by (reflexivity || typeclasses eauto). rewrite Raux.Rlt_bool_true in C by (rewrite Rabs_R0; apply Raux.bpow_gt_0). destruct C as (C1 & C2 & _).
  destruct (Bminus mode_NE v v) as [s|s| |s mx ex pf]; try discriminate C2; [eauto|]. exfalso. cbn in C1.
  apply Float_prop.eq_0_F2R in C1. destruct s; discriminate C1.
Qed.
(** Refuted: "a constant column is mapped into [0, 1]".  It is mapped to NaN. *)
Theorem C82_constant_refuted (h : heap flt) x (c n : nat) X j v : wf h -> abs h !! x = Some (Mat c n X) -> (Z.of_nat c <= int_max)%Z -> (Z.of_nat n <= int_max)%Z ->
  (j < c)%nat -> is_finite v = true -> (forall i, (i < n)%nat -> X i j = v) ->
  runs (feature_scaling (Some x)) h (fun d h' => exists Y, abs h' = <[d := Mat c n Y]> (abs h) /\ forall i, (i < n)%nat -> Y i j = B754_nan).
Proof.
  intros W A Hc Hn Hj Fv HX. apply runs_wp. eapply wp_feature_scaling; [exact W|exact A|exact Hc|exact Hn|]. intros d h' W' N' A'. split; [exact W'|]. exists (scaled n X). split; [exact A'|].
  intros i Hi. unfold scaled. set (col := row n (mat_tr X) j). cbv zeta.
  assert (Hcol : forall y, y ∈ col -> y = v) by (intros y Hy; apply elem_of_col in Hy as (q & Hq & ->); apply HX; exact Hq).
  assert (Hnil : col <> []). { intros E. assert (G : X i j ∈ col) by (apply elem_of_col; eauto). rewrite E in G. apply elem_of_nil in G. exact G. }
  assert (HF : Forall (fun y : flt => is_finite y = true) col) by (apply Forall_forall; intros y Hy; apply elem_of_list_In in Hy; rewrite (Hcol y Hy); exact Fv).
  destruct (f_min_spec (H := SF) _ col (ieee_finite_swo prec emax m) HF Hnil) as [I1 _]. { intros y Hy. rewrite (Hcol y Hy). apply (ieee_inf prec emax v Fv). }
  destruct (f_max_spec (H := SF) _ col (ieee_finite_swo prec emax m) HF Hnil) as [I2 _]. { intros y Hy. rewrite (Hcol y Hy). apply (ieee_inf prec emax v Fv). }
  rewrite (Hcol _ I1), (Hcol _ I2), (HX i Hi). cbn [s_sub s_div SF ieee_scalar]. destruct (minus_self v Fv) as [s ->]. reflexivity.
Qed.
End ieee.
