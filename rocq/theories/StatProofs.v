(** * Statistics code = folds over the element lists, for any scalar arithmetic. *)
From Verif Require Import Base BaseProofs Vec VecSpec VecProofs VecProofs2 Sort SortProofs Stat.

Section statp.
Context {F : Type} `{Scalar F}.
Implicit Types (h : heap F) (xs ys : list F).

Lemma wp_eq {A} (m : M F A) h v : wp m h (fun y h' => y = v /\ h' = h) -> m h = Ok v h.
Proof. unfold wp. destruct (m h); try contradiction. intros [-> ->]. reflexivity. Qed.

Lemma v_size_eq h x xs : abs h !! x = Some (AVec xs) -> v_size x h = Ok (Z.of_nat (length xs)) h.
Proof. intros Hx. apply wp_eq. eapply wp_v_size_vec; [exact Hx|]. auto. Qed.

Lemma acc1_eq {A} h x xs (a : A) f : wf h -> abs h !! x = Some (AVec xs) -> acc1 x a f h = Ok (foldl f a xs) h.
Proof.
  intros Hw Hx. apply wp_eq. unfold acc1. wbind. eapply wp_v_size_vec; [exact Hx|].
  wbind. eapply wp_data_ptr; [exact Hx|]. intros p Hp.
  eapply wp_fold1 with (f := fun _ c v => f c v); [exact Hw|exact Hx|exact Hp| |].
  - intros i c v h' _ Q' Hl HQ'. wbind. eapply wp_mono; [exact Hl|]. intros y h1 [-> ->]. exact HQ'.
  - rewrite foldl_index. auto.
Qed.

Lemma acc2_eq {A} h x y xs ys (a : A) f : wf h -> abs h !! x = Some (AVec xs) -> abs h !! y = Some (AVec ys) ->
  length xs = length ys -> acc2 x y a f h = Ok (foldl (fun c '(v, w) => f c v w) a (zip xs ys)) h.
Proof.
  intros Hw Hx Hy Hlen. apply wp_eq. unfold acc2. wbind. eapply wp_v_size_vec; [exact Hx|].
  wbind. eapply wp_data_ptr; [exact Hx|]. intros p Hp. wbind. eapply wp_data_ptr; [exact Hy|]. intros q Hq.
  apply wp_for_acc with (I := fun i c hi => hi = h /\ c = foldl (fun c '(v, w) => f c v w) a (take (Z.to_nat i) (zip xs ys))).
  - split; reflexivity.
  - intros i c hi Hi [-> ->].
    destruct (lookup_lt_is_Some_2 xs (Z.to_nat i)) as [v Hv]; [lia|]. destruct (lookup_lt_is_Some_2 ys (Z.to_nat i)) as [w Hw']; [lia|].
    wbind. eapply wp_load with (l := x); [exact Hw|exact Hp|exact Hx|lia|apply fmap_Some_lookup, Hv|].
    wbind. eapply wp_load with (l := y); [exact Hw|exact Hq|exact Hy|lia|apply fmap_Some_lookup, Hw'|].
    apply wp_ret. split; [reflexivity|]. replace (Z.to_nat (i + 1)) with (S (Z.to_nat i)) by lia.
    rewrite (take_S_r _ _ (v, w)); [rewrite foldl_app; reflexivity|]. apply lookup_zip_with_Some. eauto.
  - intros c hi [-> ->]. rewrite take_ge; [auto|]. rewrite zip_with_length. lia.
Qed.

(** The list-level values. *)
Definition f_mean xs : F := s_div (foldl s_add s_zero xs) (s_of_Z (Z.of_nat (length xs))).
Definition f_variance xs : F :=
  s_div (foldl (fun s a => s_add s (s_mul (s_sub a (f_mean xs)) (s_sub a (f_mean xs)))) s_zero xs) (s_of_Z (Z.of_nat (length xs) - 1)).
Definition f_cov xs ys : F :=
  s_div (foldl (fun s '(a, b) => s_add s (s_mul (s_sub a (f_mean xs)) (s_sub b (f_mean ys)))) s_zero (zip xs ys)) (s_of_Z (Z.of_nat (length xs) - 1)).

Section one.
Context (h : heap F) (x : loc) (xs : list F) (Hw : wf h) (Hx : abs h !! x = Some (AVec xs)).

Lemma st_mean_eq : st_mean (Some x) h = Ok (f_mean xs) h.
Proof using Hw Hx. unfold st_mean, bind. rewrite (v_size_eq h x xs), (acc1_eq h x xs) by assumption. reflexivity. Qed.
Lemma st_variance_eq : st_variance (Some x) h = Ok (f_variance xs) h.
Proof using Hw Hx. unfold st_variance, bind. rewrite st_mean_eq, (v_size_eq h x xs), (acc1_eq h x xs) by assumption. reflexivity. Qed.
Lemma st_sd_eq : st_sd (Some x) h = Ok (s_sqrt (f_variance xs)) h.
Proof using Hw Hx. unfold st_sd, bind. rewrite st_variance_eq. reflexivity. Qed.
Lemma la_maxvr_eq : la_maxvr (Some x) h = Ok (foldl (fun m v => if s_lt m v then v else m) (s_opp s_inf) xs) h.
Proof using Hw Hx. unfold la_maxvr. apply acc1_eq; assumption. Qed.
Lemma la_minvr_eq : la_minvr (Some x) h = Ok (foldl (fun m v => if s_lt v m then v else m) s_inf xs) h.
Proof using Hw Hx. unfold la_minvr. apply acc1_eq; assumption. Qed.
Lemma st_abs_avg_deviation_eq : st_abs_avg_deviation (Some x) h =
  Ok (s_div (foldl (fun s a => s_add s (s_abs (s_sub a (f_mean xs)))) s_zero xs) (s_of_Z (Z.of_nat (length xs)))) h.
Proof using Hw Hx. unfold st_abs_avg_deviation, bind. rewrite st_mean_eq, (v_size_eq h x xs), (acc1_eq h x xs) by assumption. reflexivity. Qed.
Lemma st_geometric_mean_eq : st_geometric_mean (Some x) h =
  Ok (s_pow (foldl s_mul s_one xs) (s_div s_one (s_of_Z (Z.of_nat (length xs))))) h.
Proof using Hw Hx. unfold st_geometric_mean, bind. rewrite (v_size_eq h x xs), (acc1_eq h x xs) by assumption. reflexivity. Qed.
Lemma st_harmonic_mean_eq : st_harmonic_mean (Some x) h =
  Ok (s_div (s_of_Z (Z.of_nat (length xs))) (foldl (fun s a => s_add s (s_div s_one a)) s_zero xs)) h.
Proof using Hw Hx. unfold st_harmonic_mean, bind. rewrite (v_size_eq h x xs), (acc1_eq h x xs) by assumption. reflexivity. Qed.
Lemma st_rms_eq : st_rms (Some x) h =
  Ok (s_sqrt (s_div (foldl (fun s a => s_add s (s_mul a a)) s_zero xs) (s_of_Z (Z.of_nat (length xs))))) h.
Proof using Hw Hx. unfold st_rms, bind. rewrite (v_size_eq h x xs), (acc1_eq h x xs) by assumption. reflexivity. Qed.
Lemma st_power_mean_eq p : st_power_mean (Some x) p h =
  Ok (s_pow (s_div (foldl (fun s a => s_add s (s_pow a p)) s_zero xs) (s_of_Z (Z.of_nat (length xs)))) (s_div s_one p)) h.
Proof using Hw Hx. unfold st_power_mean, bind. rewrite (v_size_eq h x xs), (acc1_eq h x xs) by assumption. reflexivity. Qed.
Lemma st_lehmer_mean_eq p : st_lehmer_mean (Some x) p h =
  Ok (s_div (foldl (fun s a => s_add s (s_pow a p)) s_zero xs) (foldl (fun s a => s_add s (s_pow a (s_sub p s_one))) s_zero xs)) h.
Proof using Hw Hx.
  unfold st_lehmer_mean, bind. rewrite (acc1_eq h x xs) by assumption. unfold ret. f_equal.
  assert (G : forall a b, foldl (fun s xi => (s_add (fst s) (s_pow xi p), s_add (snd s) (s_pow xi (s_sub p s_one)))) (a, b) xs =
     (foldl (fun s a => s_add s (s_pow a p)) a xs, foldl (fun s a => s_add s (s_pow a (s_sub p s_one))) b xs)).
  { clear. induction xs as [|v ys IH]; intros a b; [reflexivity|]. cbn. apply IH. }
  rewrite G. reflexivity.
Qed.
End one.

Section two.
Context (h : heap F) (x y : loc) (xs ys : list F) (Hw : wf h) (Hx : abs h !! x = Some (AVec xs)) (Hy : abs h !! y = Some (AVec ys)).
Lemma st_covariance_mismatch : length xs <> length ys -> st_covariance (Some x) (Some y) h = Ok s_zero h.
Proof using Hw Hx Hy.
  intros E. unfold st_covariance, bind. rewrite (v_size_eq h x xs), (v_size_eq h y ys) by assumption.
  destruct (Z.eqb_spec (Z.of_nat (length xs)) (Z.of_nat (length ys))); [lia|reflexivity].
Qed.
Lemma st_covariance_eq : length xs = length ys -> st_covariance (Some x) (Some y) h = Ok (f_cov xs ys) h.
Proof using Hw Hx Hy.
  intros E. unfold st_covariance, bind. rewrite (v_size_eq h x xs), (v_size_eq h y ys) by assumption.
  destruct (Z.eqb_spec (Z.of_nat (length xs)) (Z.of_nat (length ys))); [|lia]. cbn [negb].
  rewrite (st_mean_eq h x xs), (st_mean_eq h y ys), (acc2_eq h x y xs ys) by assumption. reflexivity.
Qed.
Lemma st_b1_eq : length xs = length ys -> st_b1 (Some x) (Some y) h = Ok (s_div (f_cov xs ys) (f_variance xs)) h.
Proof using Hw Hx Hy. intros E. unfold st_b1, bind. rewrite st_covariance_eq, (st_variance_eq h x xs) by assumption. reflexivity. Qed.
Lemma st_b0_eq : length xs = length ys ->
  st_b0 (Some x) (Some y) h = Ok (s_sub (f_mean ys) (s_mul (s_div (f_cov xs ys) (f_variance xs)) (f_mean xs))) h.
Proof using Hw Hx Hy.
  intros E. unfold st_b0, bind. rewrite (st_mean_eq h y ys), st_b1_eq, (st_mean_eq h x xs) by assumption. reflexivity.
Qed.
Lemma st_correlation_eq : length xs = length ys -> st_correlation (Some x) (Some y) h =
  Ok (s_div (f_cov xs ys) (s_mul (s_sqrt (f_variance xs)) (s_sqrt (f_variance ys)))) h.
Proof using Hw Hx Hy.
  intros E. unfold st_correlation, bind. rewrite st_covariance_eq, (st_sd_eq h x xs), (st_sd_eq h y ys) by assumption. reflexivity.
Qed.
Lemma st_weighted_mean_eq : length xs = length ys -> st_weighted_mean (Some x) (Some y) h =
  Ok (s_div (foldl (fun s '(a, b) => s_add s (s_mul a b)) s_zero (zip xs ys)) (foldl s_add s_zero ys)) h.
Proof using Hw Hx Hy.
  intros E. unfold st_weighted_mean, bind. rewrite (v_size_eq h x xs), (v_size_eq h y ys) by assumption.
  destruct (Z.eqb_spec (Z.of_nat (length xs)) (Z.of_nat (length ys))); [|lia]. cbn [negb].
  rewrite (acc2_eq h x y xs ys) by assumption. unfold ret. f_equal.
  assert (G : forall (us vs : list F) c d, length us = length vs ->
     foldl (fun s '(v, w) => (s_add (fst s) (s_mul v w), s_add (snd s) w)) (c, d) (zip us vs) =
     (foldl (fun s '(a, b) => s_add s (s_mul a b)) c (zip us vs), foldl s_add d vs)).
  { clear. induction us as [|v us IH]; intros [|w vs] c d E; try discriminate; [reflexivity|]. cbn. apply IH. injection E as E. exact E. }
  rewrite G by exact E. reflexivity.
Qed.
Lemma st_weighted_lehmer_mean_eq p : length xs = length ys -> st_weighted_lehmer_mean (Some x) (Some y) p h =
  Ok (s_div (foldl (fun s '(a, b) => s_add s (s_mul b (s_pow a p))) s_zero (zip xs ys))
            (foldl (fun s '(a, b) => s_add s (s_mul b (s_pow a (s_sub p s_one)))) s_zero (zip xs ys))) h.
Proof using Hw Hx Hy.
  intros E. unfold st_weighted_lehmer_mean, bind. rewrite (v_size_eq h x xs), (v_size_eq h y ys) by assumption.
  destruct (Z.eqb_spec (Z.of_nat (length xs)) (Z.of_nat (length ys))); [|lia]. cbn [negb].
  rewrite (acc2_eq h x y xs ys) by assumption. unfold ret. f_equal.
  assert (G : forall (us vs : list F) c d, length us = length vs ->
     foldl (fun s '(v, w) => (s_add (fst s) (s_mul w (s_pow v p)), s_add (snd s) (s_mul w (s_pow v (s_sub p s_one))))) (c, d) (zip us vs) =
     (foldl (fun s '(a, b) => s_add s (s_mul b (s_pow a p))) c (zip us vs),
      foldl (fun s '(a, b) => s_add s (s_mul b (s_pow a (s_sub p s_one)))) d (zip us vs))).
  { clear. induction us as [|v us IH]; intros [|w vs] c d E; try discriminate; [reflexivity|]. cbn. apply IH. injection E as E. exact E. }
  rewrite G by exact E. reflexivity.
Qed.
End two.

(** median *)
Lemma wp_st_median (P : F -> Prop) vd h x xs (Q : F -> heap F -> Prop) : swo_on P -> wf h -> abs h !! x = Some (AVec xs) -> Forall P xs ->
  (forall ys h', wf h' -> abs h' = abs h -> ys ≡ₚ xs -> non_decreasing ys ->
     Q (let c := Z.quot (Z.of_nat (length xs)) 2 in
        let at_ i := if i <? 0 then s_zero else default s_zero (ys !! Z.to_nat i) in
        if Z.rem (Z.of_nat (length xs)) 2 =? 0 then s_div (s_add (at_ (c - 1)) (at_ c)) (s_of_Z 2) else at_ (c - 1)) h') ->
  wp (st_median vd (Some x)) h Q.
Proof.
  intros HP Hw Hx HF HQ. unfold st_median. wbind. eapply wp_v_duplicate; [exact Hw|exact Hx|]. intros c h1 W1 N1 A1.
  wbind. eapply wp_v_size_vec; [rewrite A1; apply lookup_insert|].
  wbind. eapply wp_v_sort; [exact HP|exact W1|rewrite A1; apply lookup_insert|exact HF|]. intros ys h2 W2 A2 Py Sy.
  assert (Hc : abs h2 !! c = Some (AVec ys)) by (rewrite A2; apply lookup_insert).
  assert (Hlen : length ys = length xs) by (apply Permutation_length; exact Py).
  wbind. eapply wp_v_size_vec; [exact Hc|]. rewrite Hlen. wbind.
  assert (Hend : forall v, v = (let c := Z.quot (Z.of_nat (length xs)) 2 in
        let at_ i := if i <? 0 then s_zero else default s_zero (ys !! Z.to_nat i) in
        if Z.rem (Z.of_nat (length xs)) 2 =? 0 then s_div (s_add (at_ (c - 1)) (at_ c)) (s_of_Z 2) else at_ (c - 1)) ->
     wp (let! _ := del_obj c in ret v) h2 Q).
  { intros v ->. wbind. eapply wp_del; [exact W2|exact Hc|]. intros h3 W3 A3 _. apply wp_ret. apply (HQ ys h3 W3); auto.
    rewrite A3, A2, A1, insert_insert. apply delete_insert. exact N1. }
  cbv zeta in Hend. destruct (Z.rem (Z.of_nat (length xs)) 2 =? 0).
  - wbind. eapply wp_v_get; [exact W2|exact Hc|]. wbind. eapply wp_v_get; [exact W2|exact Hc|]. apply wp_ret. apply Hend. reflexivity.
  - eapply wp_v_get; [exact W2|exact Hc|]. apply Hend. reflexivity.
Qed.
End statp.
