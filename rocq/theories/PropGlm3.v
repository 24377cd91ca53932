(** * C52: closed-form and Newton training of linear regression (normal_equation, newton_raphson). *)
From Verif Require Import Base BaseProofs Vec VecSpec VecProofs VecProofs2 Mat MatSpec MatProofs2 DetProofs Stat StatProofs Act Cost Glm GlmProofs GlmProofs2 GlmProofs3 CostSpec GdMath GlmSpec GlmMath GlmMath3 LibmR.
From Coq Require Import Reals Lra.
From Verif Require Import PropAct PropSvm PropStat PropGlm PropGlm2 RSum LsqMath RInst.

(** ** Any arithmetic *)
(** normal_equation computes (X^T X)^-1 X^T y (plus lambda I inside the inverse for ridge) and mean(y) - w . means(X); when the first
    weight of the unregularised solution is NaN (differs from itself) it changes nothing. *)
Theorem C52_normal_equation_run {F : Type} `{Scalar F} `{Libm F} base x y k n (X : nat -> nat -> F) ys reg la al s Yh o h :
  base !! x = Some (Mat k n X) -> base !! y = Some (AVec ys) -> length ys = n -> Z.of_nat n <= int_max -> Z.of_nat (k * k) <= int_max ->
  glmS base x y k n reg la al s Yh o h ->
  runs (normal_equation o) h (fun o' h' =>
    let t0 := nth 0 (normal_pure n k X ys None) s_zero in
    let w := normal_pure n k X ys (match reg with RRidge => Some la | _ => None end) in
    let b := s_sub (f_mean ys) (dotl w (col_means n k X)) in
    if s_eq t0 t0 then glmS base x y k n reg la al (w, b) (AVec (preds Lin n k X w b)) o' h' else o' = o /\ abs h' = abs h).
Proof.
  intros Hx Hy El Hn Hk HS. apply runs_wp. eapply (wp_normal_equation base x y k n X ys reg la al Hx Hy El Hn Hk); [exact HS|]. intros o' h'. cbv zeta.
  destruct (s_eq _ _); [|intros (-> & W & E); auto]. intros HS'. split; [apply HS'|]. exact HS'.
Qed.

Open Scope R_scope.
Lemma mean_R (xs : list R) : f_mean xs = Rsum (length xs) (fun i => nth i xs 0) / INR (length xs).
Proof. rewrite f_mean_R. unfold mean. rewrite <- rsum_nth. reflexivity. Qed.
Lemma bias_centres n k X ys ws : (0 < n)%nat -> length ws = k -> length ys = n ->
  let b := s_sub (f_mean ys) (dotl ws (col_means (F := R) n k X)) in Rsum n (fun i => score k X ws b i - nth i ys 0) = 0.
Proof.
  intros Hn El Ey b. assert (0 < INR n) by (apply lt_0_INR; exact Hn).
  assert (Eb : INR n * b = Rsum n (fun i => nth i ys 0) - Rsum n (fun i => Rsum k (fun j => X i j * nth j ws 0))).
  { unfold b. rewrite mean_R, Ey. rewrite dotl_R by (unfold col_means; rewrite vlist_length; exact El). unfold col_means at 1. rewrite vlist_length. cbn [s_sub R_scalar].
    rewrite (Rsum_ext k _ (fun j => Rsum n (fun i => X i j * nth j ws 0) * / INR n)).
    - rewrite Rsum_scal_r, Rsum_swap. field. lra.
    - intros j Hj. unfold col_means. rewrite nth_vlist by exact Hj. rewrite mean_R, vlist_length. rewrite (Rsum_ext n (fun i => nth i (vlist n (fun i0 => X i0 j)) 0) (fun i => X i j)) by (intros; rewrite nth_vlist by assumption; reflexivity). rewrite Rsum_scal_r. unfold Rdiv. ring. }
  unfold score. rewrite (Rsum_ext n _ (fun i => Rsum k (fun j => X i j * nth j ws 0) + b * 1 - nth i ys 0)) by (intros; ring). rewrite Rsum_minus, Rsum_plus, Rsum_scal.
  assert (E1 : Rsum n (fun _ => 1) = INR n). { clear. induction n as [|n IH]; [reflexivity|]. rewrite Rsum_S, IH, S_INR. reflexivity. }
  rewrite E1. lra.
Qed.
Lemma indep_pos n k X : (0 < k)%nat -> independent n k X -> (0 < n)%nat.
Proof. intros Hk In. destruct n; [|lia]. exfalso. assert (E : 1 = 0) by (apply (In (fun _ => 1) ltac:(intros; lia) 0%nat Hk)). lra. Qed.
(** Joint minimum of the mean squared error over weights and bias: zero gradient. *)
Lemma lin_min_iff n k X ys ws b : (0 < n)%nat -> length ws = k -> length ys = n ->
  (forall us u, length us = k -> J_lin n k X ys ws b <= J_lin n k X ys us u) <->
  (forall j, (j < k)%nat -> Rsum n (fun i => (score k X ws b i - nth i ys 0) * X i j) = 0) /\ Rsum n (fun i => score k X ws b i - nth i ys 0) = 0.
Proof.
  intros Hn El Ey. assert (Hi : 0 < INR n) by (apply lt_0_INR; exact Hn). assert (Hi' : 0 < / INR n) by (apply Rinv_0_lt_compat; exact Hi).
  set (G := fun i => lossd Lin (nth i ys 0)). set (L := fun i => loss Lin (nth i ys 0)).
  assert (Gw : forall j, (j < k)%nat -> grad n (S k) (ext k X) G (par k (ws, b)) j = / INR n * Rsum n (fun i => (score k X ws b i - nth i ys 0) * X i j)).
  { intros j Hj. unfold grad. f_equal. apply Rsum_ext. intros i _. rewrite ext_par. unfold ext. rewrite decide_True by exact Hj. reflexivity. }
  assert (Gb : grad n (S k) (ext k X) G (par k (ws, b)) k = / INR n * Rsum n (fun i => score k X ws b i - nth i ys 0)).
  { unfold grad. f_equal. apply Rsum_ext. intros i _. rewrite ext_par. unfold ext. rewrite decide_False by lia. unfold G, lossd. cbn [fst snd]. ring. }
  split.
  - intros Mn. set (ll := lips n (S k) (ext k X) 1). assert (Pl : 0 < ll).
    { unfold ll. replace 1 with (cst Lin) by reflexivity. rewrite lips_power. unfold cst, row_power. rewrite Rmult_1_l. apply Rmult_lt_0_compat; [exact Hi'|]. destruct n as [|m]; [lia|].
      rewrite Rsum_S. assert (0 <= Rsum m (fun i => Rsum k (fun j => X i j ^ 2) + 1)) by (apply Rsum_nonneg; intros i _; assert (0 <= Rsum k (fun j => X i j ^ 2)) by (apply Rsum_nonneg; intros; apply pow2_ge_0); lra).
      assert (0 <= Rsum k (fun j => X m j ^ 2)) by (apply Rsum_nonneg; intros; apply pow2_ge_0). lra. }
    pose proof (gd_decrease n (S k) (ext k X) L G 1 Hn ltac:(lra) ltac:(intros i _; apply (loss_smooth Lin)) (/ ll) (par k (ws, b))) as D.
    set (s' := gd_pure Lin (/ ll) n k X ys RNone 0 0 (ws, b)). specialize (Mn s'.1 s'.2 ltac:(apply gd_pure_length; exact El)).
    change (J Lin n k X ys (ws, b).1 (ws, b).2 <= J Lin n k X ys s'.1 s'.2) in Mn. rewrite !J_risk in Mn. fold L in Mn.
    assert (Er : risk n (S k) (ext k X) L (par k s') = risk n (S k) (ext k X) L (gdstep n (S k) (ext k X) G (/ ll) (par k (ws, b)))).
    { apply (risk_ext Lin n k X ys). intros j Hj. apply par_gd; assumption. }
    rewrite Er in Mn. fold ll in D. assert (E1 : / ll * (1 - / ll * ll / 2) = / (2 * ll)) by (field; lra). rewrite E1 in D.
    assert (Z : sqn (S k) (grad n (S k) (ext k X) G (par k (ws, b))) = 0).
    { pose proof (sqn_nonneg (S k) (grad n (S k) (ext k X) G (par k (ws, b)))) as [P|P]; [|congruence]. exfalso.
      assert (0 < / (2 * ll)) by (apply Rinv_0_lt_compat; lra). assert (0 < / (2 * ll) * sqn (S k) (grad n (S k) (ext k X) G (par k (ws, b)))) by (apply Rmult_lt_0_compat; assumption). lra. }
    unfold sqn in Z. pose proof (Rsum_sq_zero _ _ Z) as Z0. split.
    + intros j Hj. specialize (Z0 j ltac:(lia)). rewrite Gw in Z0 by exact Hj. apply Rmult_integral in Z0 as [?|?]; [lra|assumption].
    + specialize (Z0 k ltac:(lia)). rewrite Gb in Z0. apply Rmult_integral in Z0 as [?|?]; [lra|assumption].
  - intros [Zw Zb] us u Eu. change (J Lin n k X ys (ws, b).1 (ws, b).2 <= J Lin n k X ys (us, u).1 (us, u).2). rewrite !J_risk.
    apply (gd_critical n (S k) (ext k X) _ G Hn); [intros i _; apply (loss_convex Lin)|]. intros j Hj.
    destruct (decide (j = k)) as [->|D]; [rewrite Gb, Zb; ring|rewrite Gw, Zw by lia; ring].
Qed.

(** ** Over the reals *)
Section real.
Context (base : gmap loc (aobj R)) (x y : loc) (k n : nat) (X : nat -> nat -> R) (ys : list R) (reg : regtype) (la al : R).
Context (Hx : base !! x = Some (Mat k n X)) (Hy : base !! y = Some (AVec ys)) (El : length ys = n) (Hn : (Z.of_nat n <= int_max)%Z) (Hk : (Z.of_nat (k * k) <= int_max)%Z).
Context (H2 : (2 <= k)%nat) (In : independent n k X).
Notation obj s Yh o h := (glmS base x y k n reg la al s Yh o h).
Notation pen := (match reg with RRidge => la | _ => 0 end).
Notation lab := (fun i => nth i ys 0).

(** The weights are the unique minimiser of |X u - y|^2 (+ lambda |u|^2 for ridge), the bias makes the mean residual 0. *)
Theorem C52_normal_equation s Yh o h : 0 <= pen -> obj s Yh o h ->
  runs (normal_equation o) h (fun o' h' => exists ws b, obj (ws, b) (AVec (preds Lin n k X ws b)) o' h' /\
    (forall us, length us = k -> rss n k X lab pen (fun j => nth j ws 0) <= rss n k X lab pen (fun j => nth j us 0)) /\
    (forall us, length us = k -> rss n k X lab pen (fun j => nth j us 0) = rss n k X lab pen (fun j => nth j ws 0) -> us = ws) /\
    Rsum n (fun i => score k X ws b i - nth i ys 0) = 0).
Proof using Hx Hy El Hn Hk H2 In.
  intros Hp HS. destruct (C52_normal_equation_run base x y k n X ys reg la al s Yh o h Hx Hy El Hn Hk HS) as (o' & h' & E & W & HS'). cbv zeta in HS'.
  replace (s_eq (nth 0 (normal_pure n k X ys None) s_zero) (nth 0 (normal_pure n k X ys None) s_zero)) with true in HS' by (symmetry; apply bool_decide_eq_true; reflexivity).
  exists o', h'. split; [exact E|]. split; [exact W|]. set (r := match reg with RRidge => Some la | _ => None end) in *. set (w := normal_pure n k X ys r) in *. eexists w, _. split; [exact HS'|].
  assert (Lw : length w = k) by apply vlist_length. assert (Er : default 0 r = pen) by (unfold r; destruct reg; reflexivity).
  assert (Wp : well_posed n k X (default 0 r)) by (right; rewrite Er; auto). pose proof (normal_solves n k X ys r H2 Wp) as Ns. rewrite Er in Ns. fold w in Ns.
  assert (Sp := fun us => rss_split n k X pen lab (fun j => nth j w 0) us Ns). 
  assert (P : forall us, 0 <= Rsum n (fun i => Rsum k (fun q => X i q * (us q - nth q w 0)) ^ 2) /\ 0 <= pen * Rsum k (fun j => (us j - nth j w 0) ^ 2)).
  { intros us. split; [apply Rsum_nonneg; intros; apply pow2_ge_0|apply Rmult_le_pos; [exact Hp|apply Rsum_nonneg; intros; apply pow2_ge_0]]. }
  split; [|split].
  - intros us _. rewrite (Sp (fun j => nth j us 0)). destruct (P (fun j => nth j us 0)). lra.
  - intros us Lu Eq. rewrite (Sp (fun j => nth j us 0)) in Eq. destruct (P (fun j => nth j us 0)) as [P1 P2]. assert (Z : Rsum n (fun i => apply k X (fun q => nth q us 0 - nth q w 0) i * apply k X (fun q => nth q us 0 - nth q w 0) i) = 0).
    { rewrite (Rsum_ext n _ (fun i => Rsum k (fun q => X i q * (nth q us 0 - nth q w 0)) ^ 2)) by (intros; unfold apply; ring). lra. }
    pose proof (In _ (Rsum_sq_zero n _ Z)) as Z0. cbn beta in Z0. apply list_eq. intros j. destruct (decide (j < k)%nat) as [D|D].
    + specialize (Z0 j D). destruct (lookup_lt_is_Some_2 us j) as [a Ha]; [lia|]. destruct (lookup_lt_is_Some_2 w j) as [c Hc]; [lia|]. rewrite Ha, Hc. rewrite (nth_lookup_Some us j 0 a Ha), (nth_lookup_Some w j 0 c Hc) in Z0. f_equal. lra.
    + rewrite !lookup_ge_None_2 by lia. reflexivity.
  - apply bias_centres; [apply (indep_pos n k X); [lia|exact In]|exact Lw|exact El].
Qed.
(** Defect: X is not centred before the weights are computed, so (unregularised) the result is the least-squares model over weights AND
    bias only if the bias comes out 0 or all columns have mean 0. *)
Theorem C52_normal_equation_joint_iff s Yh o h : reg <> RRidge -> obj s Yh o h ->
  runs (normal_equation o) h (fun o' h' => exists ws b, obj (ws, b) (AVec (preds Lin n k X ws b)) o' h' /\
    ((forall us u, length us = k -> J_lin n k X ys ws b <= J_lin n k X ys us u) <-> b = 0 \/ forall j, (j < k)%nat -> Rsum n (fun i => X i j) = 0)).
Proof using Hx Hy El Hn Hk H2 In.
  intros Hr HS. destruct (C52_normal_equation_run base x y k n X ys reg la al s Yh o h Hx Hy El Hn Hk HS) as (o' & h' & E & W & HS'). cbv zeta in HS'.
  replace (s_eq (nth 0 (normal_pure n k X ys None) s_zero) (nth 0 (normal_pure n k X ys None) s_zero)) with true in HS' by (symmetry; apply bool_decide_eq_true; reflexivity).
  replace (match reg with RRidge => Some la | _ => None end) with (@None R) in HS' by (destruct reg; try reflexivity; congruence).
  exists o', h'. split; [exact E|]. split; [exact W|]. set (w := normal_pure n k X ys None) in *. assert (Lw : length w = k) by apply vlist_length. assert (Pn : (0 < n)%nat) by (apply (indep_pos n k X); [lia|exact In]).
  pose proof (bias_centres n k X ys w Pn Lw El) as Bc. cbv zeta in Bc. set (b := s_sub (f_mean ys) (dotl w (col_means n k X))) in *. exists w, b. split; [exact HS'|].
  rewrite lin_min_iff by assumption. assert (Wp : well_posed n k X (default 0 None)) by (right; cbn; split; [lra|exact In]). pose proof (normal_solves n k X ys None H2 Wp) as Ns. cbn [default] in Ns. fold w in Ns.
  assert (G : forall j, (j < k)%nat -> Rsum n (fun i => (score k X w b i - nth i ys 0) * X i j) = b * Rsum n (fun i => X i j)).
  { intros j Hj. specialize (Ns j Hj). change (default 0 None) with 0 in Ns. rewrite rg_apply in Ns by exact Hj. unfold score.
    rewrite (Rsum_ext n _ (fun i => X i j * Rsum k (fun q => X i q * nth q w 0) - X i j * nth i ys 0 + b * X i j)) by (intros; ring). rewrite Rsum_plus, Rsum_minus, Rsum_scal. lra. }
  split.
  - intros [Z _]. destruct (Req_dec b 0) as [|D]; [left; assumption|right]. intros j Hj. specialize (Z j Hj). rewrite G in Z by exact Hj. apply Rmult_integral in Z as [?|?]; [contradiction|assumption].
  - intros [Z|Z]; (split; [|exact Bc]); intros j Hj; rewrite G by exact Hj; [rewrite Z|rewrite Z by exact Hj]; ring.
Qed.
(** newton_raphson with learning rate n (the code divides it by n): after every epoch the weights are the least-squares weights for the bias of the previous
    epoch, whatever the starting weights. *)
Theorem C52_newton_full_step ws b Yh o h : reg = RNone -> obj (ws, b) Yh o h ->
  runs (newton_raphson (INR n) 1 o) h (fun o' h' => exists ws' b', obj (ws', b') (AVec (preds Lin n k X ws' b')) o' h' /\
    (forall us, length us = k -> J_lin n k X ys ws' b <= J_lin n k X ys us b) /\ b' = b - Rsum n (fun i => score k X ws b i - nth i ys 0)).
Proof using Hx Hy El Hn Hk H2 In.
  intros Hr HS. assert (Pn : (0 < n)%nat) by (apply (indep_pos n k X); [lia|exact In]). assert (0 < INR n) by (apply lt_0_INR; exact Pn). assert (0 < / INR n) by (apply Rinv_0_lt_compat; assumption).
  apply runs_wp. eapply (wp_newton base x y k n X ys reg la al Hx Hy El Hn Hk); [unfold int_max; lia|exact HS|]. intros o' h'. cbv zeta. replace (Z.to_nat (Z.max 1 1)) with 1%nat by lia. cbn [Nat.iter nat_rect]. intros HS'.
  split; [apply HS'|]. assert (Lw : length ws = k) by apply HS. set (s' := newton_pure k n X ys reg la al (INR n) (ws, b)) in *. exists s'.1, s'.2. split; [destruct s'; exact HS'|].
  set (es := errs Lin n k X ys ws b). assert (Le : length es = n) by (apply errs_length; exact El).
  assert (Wp : well_posed n k X 0) by (right; split; [lra|exact In]). pose proof (rg_inv n k X 0 H2 Wp) as IV.
  assert (Eg : inv_entry k (gramF n X) = inv_entry (F := R) k (rg n X 0)) by apply (inv_ridge n k X None). set (V := inv_entry (F := R) k (rg n X 0)) in *.
  (* the inverse of the symmetric matrix is symmetric *)
  assert (Vs : forall i j, (i < k)%nat -> (j < k)%nat -> V i j = V j i).
  { intros i j Hi Hj. rewrite <- (Rsum_delta k j (fun q => V i q) Hj). rewrite (Rsum_ext k _ (fun q => Rsum k (fun p => V i q * rg n X 0 q p * V j p))).
    - rewrite Rsum_swap. rewrite (Rsum_ext k _ (fun p => (if decide (p = i) then 1 else 0) * V j p)); [apply Rsum_delta; exact Hi|]. intros p Hp. rewrite Rsum_scal_r. f_equal. destruct (IV i p Hi Hp) as [_ ->]. destruct (decide (i = p)), (decide (p = i)); congruence.
    - intros q Hq. rewrite (Rsum_ext k _ (fun p => V i q * (V j p * rg n X 0 p q))). 2:{ intros p _. replace (rg n X 0 q p) with (rg n X 0 p q); [ring|]. unfold rg, gram. f_equal; [apply Rsum_ext; intros; ring|destruct (decide (p = q)), (decide (q = p)); congruence]. }
      rewrite Rsum_scal. destruct (IV j q Hj Hq) as [_ ->]. destruct (decide (q = j)), (decide (j = q)); try congruence; ring. }
  assert (Ws : forall j, (j < k)%nat -> nth j s'.1 0 = nth j ws 0 - Rsum k (fun p => V j p * nth p (xt_e n k X es) 0)).
  { intros j Hj. unfold s', newton_pure. cbv zeta. cbn [fst snd]. rewrite Hr, rw1_none_map. rewrite nth_zip by (rewrite ?fmap_length, ?vlist_length; lia). rewrite nth_fmap by (rewrite vlist_length; lia). rewrite nth_vlist by exact Hj. rewrite mv_row_R, Eg. fold es.
    change (s_of_Z (F := R) (Z.of_nat n)) with (IZR (Z.of_nat n)). rewrite <- INR_IZR_INZ. cbn [s_sub s_mul s_div R_scalar]. f_equal. rewrite (Rsum_ext k (fun p => mat_tr V j p * nth p (xt_e n k X es) 0) (fun p => V j p * nth p (xt_e n k X es) 0)) by (intros p Hp; unfold mat_tr; rewrite (Vs p j) by assumption; reflexivity). unfold Rdiv. field. lra. }
  split.
  - set (yy := fun i => nth i ys 0 - b). assert (Ns : forall j, (j < k)%nat -> Rsum k (fun q => rg n X 0 j q * nth q s'.1 0) = Rsum n (fun i => X i j * yy i)).
    { intros j Hj. rewrite (Rsum_ext k _ (fun q => rg n X 0 j q * nth q ws 0 - Rsum k (fun p => rg n X 0 j q * V q p * nth p (xt_e n k X es) 0))).
      2:{ intros q Hq. rewrite Ws by exact Hq. rewrite Rmult_minus_distr_l. f_equal. rewrite <- Rsum_scal. apply Rsum_ext. intros; ring. }
      rewrite Rsum_minus, rg_apply by exact Hj. rewrite Rsum_swap. rewrite (Rsum_ext k (fun j0 => Rsum k (fun i => rg n X 0 j i * V i j0 * nth j0 (xt_e n k X es) 0)) (fun p => (if decide (p = j) then 1 else 0) * nth p (xt_e n k X es) 0)).
      2:{ intros p Hp. rewrite Rsum_scal_r. f_equal. destruct (IV j p Hj Hp) as [-> _]. destruct (decide (j = p)), (decide (p = j)); congruence. }
      rewrite Rsum_delta by exact Hj. rewrite xt_e_R by exact Hj. rewrite Rmult_0_l, Rplus_0_r, <- Rsum_minus. apply Rsum_ext. intros i Hi. unfold es. rewrite errs_R by assumption. unfold lossd, score, yy. ring. }
    intros us Lu. unfold J_lin. apply Rmult_le_compat_l; [lra|]. rewrite !Rsum_scal. apply Rmult_le_compat_l; [lra|].
    pose proof (rss_split n k X 0 yy (fun j => nth j s'.1 0) (fun j => nth j us 0) Ns) as Sp. unfold rss in Sp.
    rewrite (Rsum_ext n (fun i => (score k X s'.1 b i - nth i ys 0) ^ 2) (fun i => (Rsum k (fun j => X i j * nth j s'.1 0) - yy i) ^ 2)) by (intros; unfold score, yy; f_equal; ring).
    rewrite (Rsum_ext n (fun i => (score k X us b i - nth i ys 0) ^ 2) (fun i => (Rsum k (fun j => X i j * nth j us 0) - yy i) ^ 2)) by (intros; unfold score, yy; f_equal; ring).
    assert (0 <= Rsum n (fun i => Rsum k (fun q => X i q * (nth q us 0 - nth q s'.1 0)) ^ 2)) by (apply Rsum_nonneg; intros; apply pow2_ge_0). lra.
  - unfold s', newton_pure. cbv zeta. cbn [fst snd]. fold es. rewrite sumv_R, rsum_nth, Le. change (s_of_Z (F := R) (Z.of_nat n)) with (IZR (Z.of_nat n)). rewrite <- INR_IZR_INZ. cbn [s_sub s_mul s_div R_scalar].
    rewrite (Rsum_ext n (fun i => nth i es 0) (fun i => score k X ws b i - nth i ys 0)) by (intros i Hi; unfold es; rewrite errs_R by assumption; reflexivity). field. lra.
Qed.
End real.
