(** * Derivatives and inequalities of the specified costs. *)
From Verif Require Import Base RInst CostSpec PropAct.
From Coquelicot Require Import Coquelicot.
From Coq Require Import Reals Lra Lia.
Open Scope R_scope.
Implicit Types (xs ys ws gs : list R).
Local Notation D := derivable_pt_lim (only parsing).

Lemma sum2_insert f : forall xs ys i x y t, xs !! i = Some x -> ys !! i = Some y ->
  sum2 f (<[i := t]> xs) ys = (sum2 f xs ys - f x y) + f t y.
Proof.
  unfold sum2. induction xs as [|a xs IH]; intros ys i x y t Hx Hy; [discriminate|]. destruct ys as [|b ys]; [destruct i; discriminate|].
  destruct i as [|i]; [cbn in *; injection Hx as ->; injection Hy as ->; lra|]. change (<[S i := t]> (a :: xs)) with (a :: <[i := t]> xs). cbn [zip_with rsum].
  rewrite (IH ys i x y t) by assumption. lra.
Qed.
Lemma rsum_insert f : forall xs i x t, xs !! i = Some x -> rsum (f <$> <[i := t]> xs) = (rsum (f <$> xs) - f x) + f t.
Proof.
  induction xs as [|a xs IH]; intros i x t Hx; [discriminate|].
  destruct i as [|i]; [cbn in *; injection Hx as ->; lra|]. change (<[S i := t]> (a :: xs)) with (a :: <[i := t]> xs). rewrite !fmap_cons. cbn [rsum].
  rewrite (IH i x t) by assumption. lra.
Qed.
Lemma D_shift f c x d : D f x d -> D (fun t => c + f t) x d.
Proof. intros H. replace d with (0 + d) by lra. apply (derivable_pt_lim_plus (fun _ => c) f); [apply derivable_pt_lim_const|exact H]. Qed.
Lemma len_insert i t xs : len (<[i := t]> xs) = len xs.
Proof. unfold len. rewrite insert_length. reflexivity. Qed.

Lemma grad_sum2 f g xs ys : length xs = length ys ->
  (forall i x y, xs !! i = Some x -> ys !! i = Some y -> D (fun t => f t y) x (g x y)) ->
  gradient (fun v => sum2 f v ys) xs (zip_with g xs ys).
Proof.
  intros E Hd. split; [rewrite zip_with_length; lia|]. intros i x d Hx Hg. apply lookup_zip_with_Some in Hg as (x' & y & -> & Hx' & Hy).
  rewrite Hx in Hx'. injection Hx' as <-. eapply D_ext; [|reflexivity|apply (D_shift (fun t => f t y) (sum2 f xs ys - f x y)), (Hd i x y); assumption].
  intros t. cbv beta. symmetry. apply sum2_insert; assumption.
Qed.
Lemma grad_sum1 f g xs : (forall x, x ∈ xs -> D f x (g x)) -> gradient (fun v => rsum (f <$> v)) xs (g <$> xs).
Proof.
  intros Hd. split; [rewrite fmap_length; reflexivity|]. intros i x d Hx Hg. rewrite list_lookup_fmap, Hx in Hg. injection Hg as <-.
  eapply D_ext; [|reflexivity|apply (D_shift f (rsum (f <$> xs) - f x)), Hd; eapply elem_of_list_lookup_2, Hx].
  intros t. cbv beta. symmetry. apply rsum_insert. assumption.
Qed.
Lemma grad_scal C C' k xs gs : gradient C xs gs -> (forall v, length v = length xs -> C' v = k * C v) -> gradient C' xs (times k gs).
Proof.
  intros [L G] E. split; [unfold times; rewrite fmap_length; exact L|]. intros i x d Hx Hg. unfold times in Hg. rewrite list_lookup_fmap in Hg.
  destruct (gs !! i) as [g|] eqn:Eg; [|discriminate]. injection Hg as <-.
  eapply D_ext; [|reflexivity|apply derivable_pt_lim_scal, (G i x g); assumption]. intros t. unfold mult_real_fct. symmetry. apply E. apply insert_length.
Qed.
Lemma grad_plus C C' xs gs gs' : gradient C xs gs -> gradient C' xs gs' -> gradient (fun v => C v + C' v) xs (zip_with Rplus gs gs').
Proof.
  intros [L G] [L' G']. split; [rewrite zip_with_length; lia|]. intros i x d Hx Hg. apply lookup_zip_with_Some in Hg as (g & g' & -> & Hg & Hg').
  apply (derivable_pt_lim_plus (fun t => C (<[i := t]> xs))); eauto.
Qed.
Lemma grad_ext C C' xs gs : gradient C xs gs -> (forall v, length v = length xs -> C' v = C v) -> gradient C' xs gs.
Proof.
  intros G E. replace gs with (times 1 gs); [eapply grad_scal; [exact G|]; intros; rewrite E by assumption; lra|].
  unfold times. clear. induction gs as [|g gs IH]; cbn; [reflexivity|]. f_equal; [lra|exact IH].
Qed.
(** Outer function. *)
Lemma grad_comp phi phi' C xs gs : gradient C xs gs -> D phi (C xs) phi' -> gradient (fun v => phi (C v)) xs (times phi' gs).
Proof.
  intros [L G] Hp. split; [unfold times; rewrite fmap_length; exact L|]. intros i x d Hx Hg. unfold times in Hg. rewrite list_lookup_fmap in Hg.
  destruct (gs !! i) as [g|] eqn:Eg; [|discriminate]. injection Hg as <-.
  apply (derivable_pt_lim_comp (fun t => C (<[i := t]> xs)) phi); [apply (G i x g); assumption|]. rewrite list_insert_id by assumption. exact Hp.
Qed.
Lemma times_times a b gs : times a (times b gs) = times (a * b) gs.
Proof. unfold times. rewrite <- list_fmap_compose. apply list_fmap_ext. intros. cbn. lra. Qed.
Lemma times_zip k g xs : forall ys, times k (zip_with g xs ys) = zip_with (fun x y => k * g x y) xs ys.
Proof. unfold times. induction xs as [|x xs IH]; intros [|y ys]; cbn; try reflexivity. f_equal. apply IH. Qed.
Lemma zip_with_ext2 {A B C} (f g : A -> B -> C) : forall (xs : list A) (ys : list B), (forall i x y, xs !! i = Some x -> ys !! i = Some y -> f x y = g x y) -> zip_with f xs ys = zip_with g xs ys.
Proof.
  induction xs as [|x xs IH]; intros [|y ys] E; cbn; try reflexivity. f_equal; [apply (E 0%nat); reflexivity|]. apply IH. intros i. apply (E (S i)).
Qed.
Lemma len_pos xs : xs <> [] -> 0 < len xs.
Proof. intros H. unfold len. apply lt_0_INR. destruct xs; [congruence|cbn; lia]. Qed.

(** ** The gradients *)
Lemma grad_sqsum xs ys : length xs = length ys -> gradient (fun v => sqsum v ys) xs (times 2 (zip_with Rminus xs ys)).
Proof.
  intros E. rewrite times_zip. apply grad_sum2; [exact E|]. intros i x y _ _. apply is_derive_Reals. auto_derive; [auto|]. ring.
Qed.
Lemma sqsum_nonneg xs : forall ys, 0 <= sqsum xs ys.
Proof. unfold sqsum, sum2. induction xs as [|x xs IH]; intros [|y ys]; cbn; try lra. pose proof (IH ys). pose proof (Rle_0_sqr (x - y)). unfold Rsqr in *. lra. Qed.
Lemma sqsum_zero xs : forall ys, length xs = length ys -> (sqsum xs ys = 0 <-> xs = ys).
Proof.
  unfold sqsum, sum2. induction xs as [|x xs IH]; intros [|y ys] E; try discriminate; cbn; [tauto|]. injection E as E.
  pose proof (sqsum_nonneg xs ys) as N. unfold sqsum, sum2 in N. pose proof (Rle_0_sqr (x - y)) as S. unfold Rsqr in S. specialize (IH ys E). split.
  - intros Z. assert ((x - y) * (x - y) = 0) as Z1 by lra. f_equal; [apply Rsqr_0_uniq in Z1; lra|apply IH; lra].
  - intros [= -> ->]. assert (rsum (zip_with (fun x y => (x - y) * (x - y)) ys ys) = 0) by (apply IH; reflexivity). lra.
Qed.
(** sqrt (K * sqsum) for K > 0. *)
Lemma grad_sqrt_sqsum K xs ys : length xs = length ys -> 0 < K -> xs <> ys ->
  gradient (fun v => sqrt (K * sqsum v ys)) xs (times (K / sqrt (K * sqsum xs ys)) (zip_with Rminus xs ys)).
Proof.
  intros E HK Hne. assert (HS : 0 < sqsum xs ys) by (pose proof (sqsum_nonneg xs ys); pose proof (sqsum_zero xs ys E); destruct (Req_dec (sqsum xs ys) 0); [tauto|lra]).
  assert (HKS : 0 < K * sqsum xs ys) by (apply Rmult_lt_0_compat; assumption).
  assert (0 < sqrt (K * sqsum xs ys)) by (apply sqrt_lt_R0; assumption).
  replace (times (K / sqrt (K * sqsum xs ys)) (zip_with Rminus xs ys)) with (times (/ (2 * sqrt (K * sqsum xs ys))) (times K (times 2 (zip_with Rminus xs ys)))).
  2:{ rewrite !times_times. f_equal. field. lra. }
  apply (grad_comp sqrt _ (fun v => K * sqsum v ys)); [|apply derivable_pt_lim_sqrt; assumption].
  eapply grad_scal; [apply grad_sqsum, E|]. reflexivity.
Qed.
Lemma D_abs x : x <> 0 -> D Rabs x (if Rlt_dec 0 x then 1 else -1).
Proof.
  intros Hx. destruct (Rlt_dec 0 x) as [Hp|Hp].
  - apply (D_pos (fun t => t)); [exact Hp|intros; rewrite Rabs_right; lra|]. apply derivable_pt_lim_id.
  - apply (D_neg (fun t => - t)); [lra|intros; rewrite Rabs_left; lra|]. apply is_derive_Reals. auto_derive; auto; lra.
Qed.
(** Derivative of Rmax 0 (1 - y x) away from the kink. *)
Lemma D_hinge1 x y : 1 - y * x <> 0 -> D (fun t => Rmax 0 (1 - y * t)) x (if Rlt_dec 0 (1 - y * x) then - y else 0).
Proof.
  intros Hne.
  assert (C : continuous (fun t => 1 - y * t) x) by (apply (ex_derive_continuous (V := R_NormedModule)); auto_derive; auto).
  destruct (Rlt_dec 0 (1 - y * x)) as [Hp|Hp].
  - eapply D_loc; [|reflexivity|].
    + eapply filter_imp; [|apply (C (fun u => 0 < u)); apply (open_gt 0); exact Hp]. cbv beta. intros t Ht. symmetry. apply Rmax_right. lra.
    + apply is_derive_Reals. auto_derive; [auto|]. lra.
  - eapply D_loc; [|reflexivity|].
    + eapply filter_imp; [|apply (C (fun u => u < 0)); apply (open_lt 0); lra]. cbv beta. intros t Ht. symmetry. apply Rmax_left. lra.
    + apply derivable_pt_lim_const.
Qed.
(** Huber: strictly inside, strictly outside. *)
Lemma D_huber1 d x y : Rabs (y - x) <> d ->
  D (fun t => huber1_spec d t y) x (if Rlt_dec (Rabs (y - x)) d then 2 * (x - y) else if Rlt_dec 0 (y - x) then - (2 * d) else if Rlt_dec (y - x) 0 then 2 * d else 0) \/ (y - x = 0 /\ d < 0).
Proof.
  intros Hne. assert (C : continuous (fun t => Rabs (y - t)) x).
  { apply (continuous_comp (fun t => y - t) Rabs); [apply (ex_derive_continuous (V := R_NormedModule)); auto_derive; auto|apply continuous_Rabs]. }
  destruct (Rlt_dec (Rabs (y - x)) d) as [Hi|Ho].
  - left. eapply D_loc; [|reflexivity|].
    + eapply filter_imp; [|apply (C (fun u => u < d)); apply (open_lt d); exact Hi]. cbv beta. intros t Ht. unfold huber1_spec. destruct (Rle_dec (Rabs (y - t)) d); [reflexivity|lra].
    + apply is_derive_Reals. auto_derive; [auto|]. ring.
  - assert (G : forall s, (s = 1 \/ s = -1) -> 0 < s * (y - x) -> D (fun t => huber1_spec d t y) x (- (2 * d) * s)).
    { intros s Hs Hp. assert (C2 : continuous (fun t => s * (y - t)) x) by (apply (ex_derive_continuous (V := R_NormedModule)); auto_derive; auto).
      eapply D_loc with (f := fun t => 2 * d * (s * (y - t)) - d * d) (d := - (2 * d) * s); [|reflexivity|].
      - eapply filter_imp; [|apply filter_and; [apply (C (fun u => d < u)); apply (open_gt d); lra|apply (C2 (fun u => 0 < u)); apply (open_gt 0); exact Hp]].
        cbv beta. intros t [Ht Hp']. unfold huber1_spec. destruct (Rle_dec (Rabs (y - t)) d); [lra|]. f_equal. f_equal.
        destruct Hs as [-> | ->]; [rewrite Rabs_right; lra|rewrite Rabs_left; lra].
      - apply is_derive_Reals. auto_derive; [auto|]. ring. }
    destruct (Rlt_dec 0 (y - x)).
    + left. replace (- (2 * d)) with (- (2 * d) * 1) by ring. apply G; [tauto|lra].
    + destruct (Rlt_dec (y - x) 0).
      * left. replace (2 * d) with (- (2 * d) * -1) by ring. apply G; [tauto|lra].
      * right. assert (y - x = 0) as Z by lra. split; [exact Z|]. rewrite Z, Rabs_R0 in *. lra.
Qed.

(** Gibbs' inequality: cross entropy against q is least at q itself. *)
Lemma ln_le_m1 x : 0 < x -> ln x <= x - 1.
Proof.
  intros Hx. destruct (Req_dec x 1) as [->|Hne]; [rewrite ln_1; lra|].
  pose proof (exp_ineq1 (ln x)) as G. rewrite exp_ln in G by assumption. assert (ln x <> 0) as N.
  { intros Z. apply Hne. rewrite <- (exp_ln x), Z, exp_0 by assumption. reflexivity. }
  specialize (G N). lra.
Qed.
Lemma gibbs xs : forall ys, length xs = length ys -> List.Forall (fun x => 0 < x) xs -> List.Forall (fun y => 0 < y) ys ->
  sum2 (fun x y => y * ln x) xs ys <= sum2 (fun x y => y * ln x) ys ys + (rsum xs - rsum ys).
Proof.
  unfold sum2. induction xs as [|x xs IH]; intros [|y ys] E Hx Hy; try discriminate; cbn; [lra|]. injection E as E.
  apply Forall_cons_1 in Hx as [Hx Hxs]. apply Forall_cons_1 in Hy as [Hy Hys]. specialize (IH ys E Hxs Hys).
  assert (y * ln x <= y * ln y + (x - y)); [|lra].
  pose proof (ln_le_m1 (x / y) ltac:(apply Rdiv_lt_0_compat; assumption)) as G. unfold Rdiv in G. rewrite ln_mult, ln_Rinv in G by (try apply Rinv_0_lt_compat; assumption).
  apply Rmult_le_compat_l with (r := y) in G; [|lra]. replace (y * (x * / y - 1)) with (x - y) in G by (field; lra). lra.
Qed.
(** Huber lies between 0 and the square. *)
Lemma huber1_range d x y : 0 <= d -> 0 <= huber1_spec d x y <= (y - x) * (y - x).
Proof.
  intros Hd. unfold huber1_spec. pose proof (Rle_0_sqr (y - x)) as S. unfold Rsqr in S. destruct (Rle_dec (Rabs (y - x)) d); [lra|].
  assert ((y - x) * (y - x) = Rabs (y - x) * Rabs (y - x)) as -> by (rewrite <- Rabs_mult, Rabs_right; lra).
  split; nra.
Qed.

Lemma D_logloss1 x y : 0 < x < 1 -> D (fun t => - (y * ln (t + 0) + (1 - y) * ln (1 - t + 0))) x (y / x * -1 + (y + -1) * -1 / ((x + -1) * -1)).
Proof. intros Hx. apply is_derive_Reals. auto_derive; [lra|]. field. lra. Qed.
