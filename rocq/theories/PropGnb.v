(** * C68: Gaussian naive Bayes, on IEEE-754 floats of any format. *)
From Verif Require Import Base BaseProofs Vec VecSpec VecProofs VecProofs2 Mat MatSpec MatProofs MatProofs2 Frame Stat StatProofs Act Util UtilProofs Gnb GnbProofs Inst.
From Coq Require Import Reals Lra.
From Flocq Require Import Core IEEE754.BinarySingleNaN.
Close Scope R_scope.
Open Scope Z_scope.

Section ieee.
Context (prec emax : Z) {Hprec : Prec_gt_0 prec} {Hmax : Prec_lt_emax prec emax}.
Notation flt := (binary_float prec emax).
Context (m : Inst.libm flt) {LM : Act.Libm flt}.
Local Instance SF : Scalar flt := ieee_scalar prec emax m.
Notation minf := (B754_infinity true : flt).
Notation zero := (B754_zero false : flt).
Notation nan := (B754_nan : flt).

(** The values the C standard (Annex F) prescribes for log and exp at zero, minus infinity and NaN. *)
Record annex_f : Prop := { af_log_zero : forall s, m_log m (B754_zero s) = minf; af_log_nan : m_log m nan = nan; af_exp_minf : m_exp m minf = zero; af_exp_nan : m_exp m nan = nan }.

(** The class has a finite, non-degenerate bell curve at v: neither factor of the density is infinite or NaN. *)
Definition usable (mu sg v : flt) : bool :=
  let '(mul, div) := (Bmult mode_NE, Bdiv mode_NE) in
  is_finite (div s_one (Bsqrt mode_NE (mul (mul (mul s_two m_pi) sg) sg))) &&
  is_finite (m_exp m (div (mul (Bopp (mul v mu)) (mul v mu)) (mul (mul s_two sg) sg))).

Section facts.
Context (AF : annex_f).
Lemma mul_zero_fin s (x : flt) : is_finite x = true -> exists s', Bmult mode_NE (B754_zero s) x = B754_zero s'.
Proof. destruct x; try discriminate; intros _; cbn; eauto. Qed.
Lemma mul_zero_inf s (x : flt) : is_finite x = false -> Bmult mode_NE (B754_zero s) x = nan.
Proof. destruct x; try discriminate; reflexivity. Qed.
Lemma mul_nan (x : flt) : Bmult mode_NE nan x = nan.
Proof. destruct x; reflexivity. Qed.
Lemma usable_eq mu sg v : usable mu sg v = is_finite (gn_norm (H := SF) sg) && is_finite (gn_bell (H := SF) mu sg v).
Proof. reflexivity. Qed.
Lemma term_usable s mu sg v : usable mu sg v = true -> gn_term (H := SF) (B754_zero s) mu sg v = minf.
Proof using AF.
  rewrite usable_eq. intros E. apply andb_prop in E as [E1 E2]. unfold gn_term. cbn [s_log s_mul SF ieee_scalar].
  destruct (mul_zero_fin s _ E1) as [s1 ->]. destruct (mul_zero_fin s1 _ E2) as [s2 ->]. apply (af_log_zero AF).
Qed.
Lemma term_unusable s mu sg v : usable mu sg v = false -> gn_term (H := SF) (B754_zero s) mu sg v = nan.
Proof using AF.
  rewrite usable_eq. intros E. unfold gn_term. cbn [s_log s_mul SF ieee_scalar]. destruct (is_finite (gn_norm sg)) eqn:E1.
  - destruct (mul_zero_fin s _ E1) as [s1 ->]. rewrite mul_zero_inf by exact E. apply (af_log_nan AF).
  - rewrite (mul_zero_inf s) by exact E1. rewrite mul_nan. apply (af_log_nan AF).
Qed.
Definition live (y : flt) : Prop := y = Bone \/ y = minf.
Lemma one_fin : is_finite (Bone : flt) = true. Proof. apply is_finite_Bone. Qed.
Lemma add_live y : live y -> Bplus mode_NE y minf = minf.
Proof. intros [->| ->]; [|reflexivity]. pose proof one_fin as E. destruct (Bone : flt); try discriminate; reflexivity. Qed.
Lemma add_nan_r (y : flt) : Bplus mode_NE y nan = nan. Proof. destruct y; reflexivity. Qed.
Lemma add_nan_l (y : flt) : Bplus mode_NE nan y = nan. Proof. destruct y; reflexivity. Qed.

(** A chain of updates each of which sends a live sum to -inf (usable class) or NaN. *)
Section chain.
Context (upd : nat -> flt -> flt) (U : nat -> bool) (k : nat).
Context (U1 : forall i y, (i < k)%nat -> U i = true -> live y -> upd i y = minf) (U2 : forall i y, (i < k)%nat -> U i = false -> upd i y = nan) (U3 : forall i, (i < k)%nat -> upd i nan = nan).
Lemma chain_shape t : (t <= k)%nat -> exists b, (b <= t)%nat /\ (forall i, (k - b <= i < k)%nat -> U i = true) /\ (b = t \/ U (k - 1 - b)%nat = false) /\
  (if decide (b = t) then live (chain (H := SF) upd k t).1 /\ (t <> 0%nat -> (chain (H := SF) upd k t).1 = minf) else (chain (H := SF) upd k t).1 = nan) /\ (chain (H := SF) upd k t).2 = replicate (t - b) nan ++ replicate b zero.
Proof using AF U1 U2 U3.
  induction t as [|t IH]; intros Ht.
  - exists 0%nat. split_and!; [lia|intros; lia|left; reflexivity| |reflexivity]. rewrite decide_True by reflexivity. split; [left; reflexivity|congruence].
  - destruct IH as (b & Hb & HU & Hc & Hy & Hs); [lia|]. cbn [chain fst snd]. set (i := (k - 1 - t)%nat). assert (Hi : (i < k)%nat) by (unfold i; lia). destruct (decide (b = t)) as [->|D].
    + destruct Hy as [Hy _]. destruct (U i) eqn:Ei.
      * exists (S t). split_and!; [lia| |left; reflexivity| |].
        -- intros j Hj. destruct (decide (j = i)) as [->|Dj]; [exact Ei|]. apply HU. unfold i in *. lia.
        -- rewrite decide_True by reflexivity. rewrite U1 by assumption. split; [right; reflexivity|reflexivity].
        -- rewrite Hs, U1 by assumption. rewrite !Nat.sub_diag. cbn [replicate app]. f_equal. apply (af_exp_minf AF).
      * exists t. split_and!; [lia|exact HU|right; exact Ei| |].
        -- rewrite decide_False by lia. apply U2; assumption.
        -- rewrite Hs, U2 by assumption. rewrite Nat.sub_diag. replace (S t - t)%nat with 1%nat by lia. cbn [replicate app]. f_equal. apply (af_exp_nan AF).
    + exists b. split_and!; [lia|exact HU|right; destruct Hc; [lia|assumption]| |].
      * rewrite decide_False by lia. rewrite Hy. apply U3, Hi.
      * rewrite Hs, Hy, U3 by exact Hi. replace (S t - b)%nat with (S (t - b))%nat by lia. cbn [replicate app]. f_equal. apply (af_exp_nan AF).
Qed.
End chain.

Lemma argmax_shape a b : gn_argmax (H := SF) (replicate a nan ++ replicate b zero) = if decide (b = 0%nat) then 0 else Z.of_nat a.
Proof.
  unfold gn_argmax. rewrite foldl_app.
  assert (G1 : forall a i (best : flt) at_, foldl (fun '(i, best, at_) s => if s_lt (Scalar := SF) best s then (i + 1, s, i) else (i + 1, best, at_)) (i, best, at_) (replicate a nan) = (i + Z.of_nat a, best, at_)).
  { clear. induction a as [|a IH]; intros i best at_; cbn [replicate foldl]; [rewrite Z.add_0_r; reflexivity|]. assert (E : s_lt (Scalar := SF) best nan = false) by (destruct best; reflexivity). rewrite E, IH. do 2 f_equal. lia. }
  rewrite G1. destruct b as [|b]; [reflexivity|]. cbn [replicate foldl].
  assert (E : s_lt (Scalar := SF) (s_opp s_inf) zero = true) by reflexivity. rewrite E.
  assert (G2 : forall b i (at_ : Z), foldl (fun '(i, best, at_) s => if s_lt (Scalar := SF) best s then (i + 1, s, i) else (i + 1, best, at_)) (i, zero, at_) (replicate b zero) = (i + Z.of_nat b, zero, at_)).
  { clear. induction b as [|b IH]; intros i at_; cbn [replicate foldl]; [rewrite Z.add_0_r; reflexivity|]. assert (E : s_lt (Scalar := SF) zero zero = false) by reflexivity. rewrite E, IH. do 2 f_equal. lia. }
  rewrite G2. rewrite decide_False by discriminate. reflexivity.
Qed.
End facts.

Lemma nth_replicate_lt {A} i k (a d : A) : (i < k)%nat -> nth i (replicate k a) d = a.
Proof. intros Hi. apply nth_lookup_Some. apply lookup_replicate_2, Hi. Qed.
(** ** Specification *)
(** Which class comes out when only "usable" is looked at: the class after the last unusable one, class 0 when there is none
    (or when the last class itself is unusable). *)
Definition blind_class (U : nat -> bool) (k c : nat) : Prop :=
  (c = 0%nat /\ ((forall i, (i < k)%nat -> U i = true) \/ U (k - 1)%nat = false)) \/
  ((0 < c < k)%nat /\ U (c - 1)%nat = false /\ forall i, (c <= i < k)%nat -> U i = true).

Lemma chain_class (AF : annex_f) upd U k : (forall i y, (i < k)%nat -> U i = true -> live y -> upd i y = minf) -> (forall i y, (i < k)%nat -> U i = false -> upd i y = nan) -> (forall i, (i < k)%nat -> upd i nan = nan) ->
  exists c, blind_class U k c /\ gn_argmax (H := SF) (chain (H := SF) upd k k).2 = Z.of_nat c.
Proof.
  intros U1 U2 U3. destruct (chain_shape AF upd U k U1 U2 U3 k (le_n k)) as (b & Hb & HU & Hc & _ & ->). rewrite argmax_shape. case_decide as D.
  - exists 0%nat. split; [|reflexivity]. left. split; [reflexivity|]. subst b. destruct Hc as [<-|Hc]; [left; intros; lia|]. right. rewrite Nat.sub_0_r in Hc. exact Hc.
  - exists (k - b)%nat. split; [|reflexivity]. destruct (decide (b = k)) as [->|Dk]; [left; split; [lia|]; left; intros i Hi; apply HU; lia|]. right. split; [lia|]. destruct Hc as [Hc|Hc]; [congruence|]. split; [replace (k - b - 1)%nat with (k - 1 - b)%nat by lia; exact Hc|exact HU].
Qed.

Implicit Types (h : heap flt) (xs ys mus sgs : list flt).
(** A trained classifier: k classes, the given means and deviations, and the priors the constructor computes: all zero. *)
Definition fitted h (o : gnb) (k : nat) mus sgs : Prop := exists s, gstate (F := flt) h o k (replicate k (B754_zero s)) mus sgs /\ length mus = k /\ length sgs = k.
Definition usable_at mus sgs xs (i : nat) : bool := usable (nth i mus zero) (nth i sgs zero) (nth i xs zero).

Lemma point_class (AF : annex_f) s k mus sgs v : exists c, blind_class (fun i => usable (nth i mus zero) (nth i sgs zero) (v i)) k c /\ gn_argmax (H := SF) (chain (H := SF) (upd_point (H := SF) (replicate k (B754_zero s)) mus sgs v) k k).2 = Z.of_nat c.
Proof.
  apply chain_class; [exact AF| | |].
  - intros i y Hi E L. unfold upd_point. rewrite nth_replicate_lt by exact Hi. rewrite (term_usable AF) by exact E. apply add_live, L.
  - intros i y Hi E. unfold upd_point. rewrite nth_replicate_lt by exact Hi. rewrite (term_unusable AF) by exact E. apply add_nan_r.
  - intros i Hi. unfold upd_point. apply add_nan_l.
Qed.

Lemma row_class (AF : annex_f) s k mus sgs (c : nat) v : (1 <= c)%nat -> exists q, blind_class (fun i => forallb (fun t => usable (nth i mus zero) (nth i sgs zero) (v t)) (seq 0 c)) k q /\ gn_argmax (H := SF) (chain (H := SF) (upd_row (H := SF) (replicate k (B754_zero s)) mus sgs c v) k k).2 = Z.of_nat q.
Proof.
  intros Hc. set (W := fun i t => usable (nth i mus zero) (nth i sgs zero) (v t)).
  assert (N : forall i ts, foldl (fun y t => s_add (Scalar := SF) y (gn_term (H := SF) (nth i (replicate k (B754_zero s)) zero) (nth i mus zero) (nth i sgs zero) (v t))) nan ts = nan). { intros i ts. induction ts as [|t ts IH]; [reflexivity|]. cbn [foldl]. change (s_add (Scalar := SF)) with (Bplus (prec := prec) (emax := emax) mode_NE). rewrite add_nan_l. exact IH. }
  assert (G : forall i ts y, (i < k)%nat -> forallb (W i) ts = true -> live y -> ts <> [] -> foldl (fun y t => s_add (Scalar := SF) y (gn_term (H := SF) (nth i (replicate k (B754_zero s)) zero) (nth i mus zero) (nth i sgs zero) (v t))) y ts = minf).
  { intros i ts. induction ts as [|t ts IH]; intros y Hi E L Hn; [congruence|]. cbn [foldl forallb] in *. apply andb_prop in E as [E1 E2]. rewrite nth_replicate_lt by exact Hi. rewrite (term_usable AF) by exact E1. change (s_add (Scalar := SF) y minf) with (Bplus mode_NE y minf). rewrite add_live by exact L.
    destruct ts as [|t' ts]; [reflexivity|]. rewrite nth_replicate_lt in IH by exact Hi. apply IH; [exact Hi|exact E2|right; reflexivity|discriminate]. }
  assert (B : forall i ts y, (i < k)%nat -> forallb (W i) ts = false -> foldl (fun y t => s_add (Scalar := SF) y (gn_term (H := SF) (nth i (replicate k (B754_zero s)) zero) (nth i mus zero) (nth i sgs zero) (v t))) y ts = nan).
  { intros i ts. induction ts as [|t ts IH]; intros y Hi E; [discriminate|]. cbn [foldl forallb] in *. destruct (W i t) eqn:Et; [apply IH; assumption|]. rewrite nth_replicate_lt by exact Hi. rewrite (term_unusable AF) by exact Et. change (s_add (Scalar := SF) y nan) with (Bplus mode_NE y nan). rewrite add_nan_r. rewrite <- (nth_replicate_lt i k (B754_zero s) zero Hi). apply N. }
  apply chain_class; [exact AF| | |].
  - intros i y Hi E L. apply G; [exact Hi|exact E|exact L|]. destruct c; [lia|discriminate].
  - intros i y Hi E. apply B; assumption.
  - intros i Hi. apply N.
Qed.
(** 1 / n is a finite number for every count n >= 1, in every format. *)
Lemma inv_finite (n : nat) : (1 <= n)%nat -> is_finite (s_div (Scalar := SF) s_one (s_of_Z (Z.of_nat n))) = true.
Proof.
  intros Hn. cbn [s_div s_one s_of_Z SF ieee_scalar]. pose proof (binary_normalize_correct prec emax Hprec Hmax mode_NE (Z.of_nat n) 0 false) as C. cbv zeta in C. set (x := binary_normalize _ _ _ _ _ _ _ _) in *.
  assert (Fx : F2R (Float radix2 (Z.of_nat n) 0) = IZR (Z.of_nat n)) by (unfold F2R; cbn; ring). rewrite Fx in C.
  assert (G1 : generic_format radix2 (SpecFloat.fexp prec emax) 1). { rewrite <- (Bone_correct prec emax Hprec Hmax). apply generic_format_B2R. }
  assert (one_lt : (1 < bpow radix2 emax)%R). { change 1%R with (bpow radix2 0). apply bpow_lt. unfold Prec_gt_0, Prec_lt_emax in *. lia. }
  destruct (Rlt_bool_spec (Rabs (round radix2 (SpecFloat.fexp prec emax) (round_mode mode_NE) (IZR (Z.of_nat n)))) (bpow radix2 emax)) as [L|L].
  - destruct C as (Ex & _ & _).
    assert (Hx : (1 <= B2R x)%R). { rewrite Ex. apply round_ge_generic; [apply fexp_correct; exact Hprec|apply valid_rnd_N|exact G1|]. apply IZR_le. lia. }
    pose proof (Bdiv_correct prec emax Hprec Hmax mode_NE Bone x) as D. specialize (D ltac:(lra)). rewrite Rlt_bool_true in D.
    + destruct D as (_ & D & _). rewrite D. apply is_finite_Bone.
    + rewrite Bone_correct. apply (Rle_lt_trans _ 1); [|exact one_lt]. apply abs_round_le_generic; [apply fexp_correct; exact Hprec|apply valid_rnd_N|exact G1|]. rewrite Rabs_pos_eq.
      * apply (Rmult_le_reg_r (B2R x)); [lra|]. unfold Rdiv. rewrite Rmult_assoc, Rinv_l by lra. lra.
      * apply Rlt_le, Rdiv_lt_0_compat; lra.
  - assert (exists s, x = B754_infinity s) as [s ->]. { unfold binary_overflow in C. cbn in C. destruct x; try discriminate. eauto. }
    pose proof (is_finite_Bone prec emax Hprec Hmax) as F1. destruct (Bone : flt) eqn:E; try discriminate; reflexivity.
Qed.
Lemma prior_zero (n : nat) : (1 <= n)%nat -> exists s, prior_cell (F := flt) (H := SF) n = B754_zero s.
Proof. intros Hn. unfold prior_cell. apply (mul_zero_fin false), inv_finite, Hn. Qed.

(** ** Theorems *)
(** Training: means and deviations are those of all values in the rows of a class, the priors stay zero, and the stored
    predictions do not depend on the likelihoods: only on which classes are degenerate. *)
Theorem C68_new (AF : annex_f) h x y (k n c : nat) X ys : wf h -> abs h !! x = Some (Mat c n X) -> abs h !! y = Some (AVec ys) -> length ys = n -> (1 <= n)%nat -> (1 <= c)%nat -> (Z.of_nat k <= int_max) -> Forall (fun v => m_to_int v <> None) ys ->
  runs (gn_new (H := SF) (Some x) (Some y) (Z.of_nat k)) h (fun o h' => 
    let class i := concat (map (fun j => if Beqb (nth j ys zero) (s_of_Z (Scalar := SF) (Z.of_nat i)) then map (X j) (seq 0 c) else []) (seq 0 n)) in
    let mus := map (fun i => f_mean (H := SF) (class i)) (seq 0 k) in let sgs := map (fun i => Bsqrt mode_NE (f_variance (H := SF) (class i))) (seq 0 k) in
    fitted h' o k mus sgs /\ (exists yh, abs h' !! gn_yh o = Some (AVec yh) /\ length yh = n /\ forall i, (i < n)%nat -> exists q, blind_class (fun j => forallb (fun t => usable (nth j mus zero) (nth j sgs zero) (X i t)) (seq 0 c)) k q /\ nth i yh zero = s_of_Z (Scalar := SF) (Z.of_nat q)) /\
    forall l, abs h !! l <> None -> abs h' !! l = abs h !! l).
Proof.
  intros W Hx Hy Ln Hn Hc Hk Hl. apply runs_wp. eapply (wp_gn_new (H := SF)) with (k := k) (N := n); [exact W|exact Hx|exact Hy|exact Ln|lia|exact Hk|exact Hl|]. intros o h' W' G Ey Ex Ei Hyh Fr. split; [exact W'|]. cbv zeta.
  destruct (prior_zero n Hn) as [s Es]. rewrite Es in G, Hyh. split; [|split].
  - exists s. split; [exact G|]. rewrite !map_length, !seq_length. split; reflexivity.
  - eexists. split; [exact Hyh|]. split; [apply vlist_length|]. intros i Hi. rewrite (nth_lookup_Some _ _ _ _ (vlist_lookup _ _ _ Hi)).
    destruct (row_class AF s k (vlist k (mu_of n c X ys)) (vlist k (sg_of n c X ys)) c (X i) Hc) as (q & B & E). exists q. split; [exact B|]. f_equal. exact E.
  - exact Fr.
Qed.
(** Prediction for one point. *)
Theorem C68_model_test (AF : annex_f) h o k mus sgs x xs : wf h -> fitted h o k mus sgs -> abs h !! x = Some (AVec xs) ->
  exists c, blind_class (usable_at mus sgs xs) k c /\ gn_model_test (H := SF) o (Some x) h = Ok (s_of_Z (Scalar := SF) (Z.of_nat c)) h.
Proof.
  intros W (s & G & _) Hx. destruct (point_class AF s k mus sgs (fun i => nth i xs zero)) as (c & B & E). exists c. split; [exact B|]. rewrite (gn_model_test_eq (H := SF) h o k _ mus sgs x xs W G Hx). do 2 f_equal. exact E.
Qed.
(** Whatever the data and the point, if every class has a non-degenerate density the answer is class 0. *)
Theorem C68_uses_the_data_refuted (AF : annex_f) h o k mus sgs x xs : wf h -> fitted h o k mus sgs -> abs h !! x = Some (AVec xs) -> (forall i, (i < k)%nat -> usable_at mus sgs xs i = true) ->
  gn_model_test (H := SF) o (Some x) h = Ok zero h.
Proof.
  intros W Ft Hx HU. destruct (C68_model_test AF h o k mus sgs x xs W Ft Hx) as (c & B & E). rewrite E. destruct B as [[-> _]|(Hc & E' & _)]; [reflexivity|]. rewrite HU in E' by lia. discriminate.
Qed.
(** model_set_test is model_test on every row. *)
Theorem C68_model_set_test (AF : annex_f) h o k mus sgs p (c n : nat) X : wf h -> fitted h o k mus sgs -> abs h !! p = Some (Mat c n X) -> (Z.of_nat c <= int_max) -> (Z.of_nat n <= int_max) ->
  runs (gn_model_set_test (H := SF) o (Some p)) h (fun r h' => exists yh ps, r = Some yh /\ abs h !! yh = None /\ abs h' = <[yh := AVec ps]> (abs h) /\ length ps = n /\
    forall i h1 x, (i < n)%nat -> wf h1 -> fitted h1 o k mus sgs -> abs h1 !! x = Some (AVec (map (X i) (seq 0 c))) -> gn_model_test (H := SF) o (Some x) h1 = Ok (nth i ps zero) h1).
Proof.
  intros W (s & G & L1 & L2) Hp Hc Hn. apply runs_wp. eapply (wp_gn_set_test (H := SF)); [exact W|exact G|exact Hp|exact Hc|exact Hn|]. intros yh h' W' N' A'. split; [exact W'|]. eexists yh, _. split; [reflexivity|]. split; [exact N'|]. split; [exact A'|]. split; [apply vlist_length|].
  intros i h1 x Hi W1 (s1 & G1 & _) Hx. rewrite (gn_model_test_eq (H := SF) h1 o k _ mus sgs x _ W1 G1 Hx). rewrite (nth_lookup_Some _ _ _ _ (vlist_lookup _ _ _ Hi)). do 2 f_equal.
  destruct (decide (k = 0)%nat) as [->|Dk]; [reflexivity|].
  destruct (point_class AF s k mus sgs (fun t => nth t (vlist c (X i)) zero)) as (q & B & E). destruct (point_class AF s1 k mus sgs (fun t => nth t (vlist c (X i)) zero)) as (q1 & B1 & E1). etransitivity; [exact E1|]. etransitivity; [|symmetry; exact E]. f_equal.
  destruct B as [[-> B]|(Hq & B & B')], B1 as [[-> B1]|(Hq1 & B1 & B1')]; try reflexivity.
  - exfalso. destruct B as [B|B]; [rewrite B in B1 by lia; discriminate|]. rewrite B1' in B by lia. discriminate.
  - exfalso. destruct B1 as [B1|B1]; [rewrite B1 in B by lia; discriminate|]. rewrite B' in B1 by lia. discriminate.
  - destruct (lt_eq_lt_dec q q1) as [[L|L]|L]; [|congruence|]; exfalso; [rewrite B' in B1 by lia; discriminate|rewrite B1' in B by lia; discriminate].
Qed.
(** Null references are dereferenced unchecked. *)
Theorem C68_null_UB h o ry k : gn_model_set_test (H := SF) o None h = UB /\ gn_new (H := SF) ry None k h = UB.
Proof. split; reflexivity. Qed.
End ieee.
