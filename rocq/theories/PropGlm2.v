(** * C51: stochastic (sgd) and mini-batch (mbgd) training of linear and logistic regression. *)
From Verif Require Import Base BaseProofs Vec VecSpec VecProofs Mat MatSpec MatProofs MatProofs2 MatProofs5 Act Cost Util UtilProofs Glm GlmProofs GlmProofs2 CostSpec GdMath GlmSpec GlmMath LibmR PropGlm.
From Coq Require Import Reals Lra.
From Verif Require Import PropAct PropSvm RSum RInst.

(** ** Any arithmetic *)
Section any.
Context {F : Type} `{Scalar F} `{Libm F}.
(** sgd, for every sequence of drawn rows [ix 0, ix 1, ...]. *)
Theorem C51_sgd_run c (lr : F) max (idx : Z -> Z) (ix : nat -> nat) base x y k n X ys reg la al s Yh o h :
  base !! x = Some (Mat k n X) -> base !! y = Some (AVec ys) -> length ys = n -> Z.of_nat n <= int_max -> Z.of_nat k <= int_max -> max < int_max ->
  (forall e, Z.of_nat e < Z.max 1 max -> idx (Z.of_nat e + 1) = Z.of_nat (ix e) /\ (ix e < n)%nat) ->
  glmS base x y k n reg la al s Yh o h ->
  runs (sgd c lr max idx o) h (fun o' h' =>
    let s' := foldl (fun s i => sgd_pure c lr k X ys reg la al i s) s (ix <$> seq 0 (Z.to_nat (Z.max 1 max))) in
    glmS base x y k n reg la al s' (AVec (preds c n k X s'.1 s'.2)) o' h').
Proof.
  intros Hx Hy El Hn Hk Hm Hi HS. apply runs_wp. eapply (wp_sgd base x y k n X ys reg la al); [exact Hx|exact Hy|exact El|exact Hn|exact Hk|exact Hm|exact Hi|exact HS|]. intros o' h'. cbv zeta. intros HS'. split; [apply HS'|exact HS'].
Qed.
(** mbgd with batches of m rows requested: nb = n / m batches of n / nb consecutive rows, each with the first n / nb labels. *)
Theorem C51_mbgd_run c (lr : F) max m base x y k n X ys reg la al s Yh o h :
  base !! x = Some (Mat k n X) -> base !! y = Some (AVec ys) -> length ys = n -> Z.of_nat n <= int_max -> Z.of_nat k <= int_max -> max < int_max ->
  (0 < m <= n)%nat -> glmS base x y k n reg la al s Yh o h ->
  runs (mbgd c lr max (Z.of_nat m) o) h (fun o' h' =>
    let nb := (n / m)%nat in
    let s' := Nat.iter (Z.to_nat (Z.max 1 max)) (mbgd_pure c lr (n / nb) nb k X ys reg la al) s in
    glmS base x y k n reg la al s' (AVec (preds c n k X s'.1 s'.2)) o' h').
Proof.
  intros Hx Hy El Hn Hk Hm Hi HS. apply runs_wp. eapply (wp_mbgd base x y k n X ys reg la al); [exact Hx|exact Hy|exact El|exact Hn|exact Hk|exact Hm|exact Hi|exact HS|]. intros o' h'. cbv zeta. intros HS'. split; [apply HS'|exact HS'].
Qed.
Lemma mv_row_ext X Y ws k i : (forall j, (j < k)%nat -> X i j = Y i j) -> mv_row X ws k i = mv_row Y ws k i.
Proof. intros E. unfold mv_row. apply lsum_ext. intros j Hj. rewrite E by exact Hj. reflexivity. Qed.
Lemma gd_pure_ext c (lr : F) n k X Y ys reg la al s : (forall i j, (i < n)%nat -> X i j = Y i j) -> gd_pure c lr n k X ys reg la al s = gd_pure c lr n k Y ys reg la al s.
Proof.
  intros E. assert (Ep : errs c n k X ys s.1 s.2 = errs c n k Y ys s.1 s.2).
  { unfold errs, preds. do 2 f_equal. apply list_fmap_ext. intros q i Hi. apply lookup_seq in Hi as [-> Hi]. apply mv_row_ext. intros j _. apply E. lia. }
  unfold gd_pure. cbv zeta. rewrite Ep. assert (Ex : xt_e n k X (errs c n k Y ys s.1 s.2) = xt_e n k Y (errs c n k Y ys s.1 s.2)); [|rewrite Ex; reflexivity].
  unfold xt_e. apply list_fmap_ext. intros q i Hi. apply mv_row_ext. intros j Hj. unfold mat_tr. apply E. exact Hj.
Qed.
(** A single batch (m > n / 2): exactly gradient_descent. *)
Theorem C51_mbgd_one_batch c (lr : F) max m base x y k n X ys reg la al s Yh o h :
  base !! x = Some (Mat k n X) -> base !! y = Some (AVec ys) -> length ys = n -> Z.of_nat n <= int_max -> Z.of_nat k <= int_max -> max < int_max ->
  (n < 2 * m)%nat -> (m <= n)%nat -> glmS base x y k n reg la al s Yh o h ->
  exists s', runs (mbgd c lr max (Z.of_nat m) o) h (fun o' h' => glmS base x y k n reg la al s' (AVec (preds c n k X s'.1 s'.2)) o' h') /\
             runs (gradient_descent c lr max o) h (fun o' h' => glmS base x y k n reg la al s' (AVec (preds c n k X s'.1 s'.2)) o' h').
Proof.
  intros Hx Hy El Hn Hk Hm M1 M2 HS. exists (Nat.iter (Z.to_nat (Z.max 1 max)) (gd_pure c lr n k X ys reg la al) s). split.
  - destruct (C51_mbgd_run c lr max m base x y k n X ys reg la al s Yh o h Hx Hy El Hn Hk Hm ltac:(lia) HS) as (o' & h' & E & W & HS'). exists o', h'. split; [exact E|]. split; [exact W|]. cbv zeta in HS'.
    assert (E1 : (n / m)%nat = 1%nat) by (symmetry; apply (Nat.div_unique n m 1 (n - m)); lia). rewrite E1, Nat.div_1_r in HS'.
    replace (Nat.iter (Z.to_nat (Z.max 1 max)) (gd_pure c lr n k X ys reg la al) s) with (Nat.iter (Z.to_nat (Z.max 1 max)) (mbgd_pure c lr n 1 k X ys reg la al) s); [exact HS'|].
    clear - El. generalize (Z.to_nat (Z.max 1 max)). intros T. rewrite !iter_foldl. generalize (seq 0 T). intros l. revert s. induction l as [|a l IH]; intros s; [reflexivity|]. cbn [foldl]. rewrite IH. f_equal. unfold mbgd_pure. cbn [seq foldl].
    rewrite take_ge by lia. apply gd_pure_ext. intros i j _. f_equal. lia.
  - apply (C50_gd_run c lr max base x y k n X ys reg la al s Yh o h Hx Hy El Hn Hk Hm HS).
Qed.
(** Several batches (defect): labels after the first n / nb are never looked at, so two label vectors that agree on those train
    the same model, although every row of the first nb * (n / nb) is used. *)
Theorem C51_mbgd_ignores_labels_refuted c (lr : F) max m base base' x y k n X ys ys' reg la al s Yh o o' h h' :
  base !! x = Some (Mat k n X) -> base !! y = Some (AVec ys) -> length ys = n -> base' !! x = Some (Mat k n X) -> base' !! y = Some (AVec ys') -> length ys' = n ->
  Z.of_nat n <= int_max -> Z.of_nat k <= int_max -> max < int_max -> (0 < m <= n)%nat ->
  take (n / (n / m)) ys = take (n / (n / m)) ys' ->
  glmS base x y k n reg la al s Yh o h -> glmS base' x y k n reg la al s Yh o' h' ->
  exists s', runs (mbgd c lr max (Z.of_nat m) o) h (fun o1 h1 => glmS base x y k n reg la al s' (AVec (preds c n k X s'.1 s'.2)) o1 h1) /\
             runs (mbgd c lr max (Z.of_nat m) o') h' (fun o1 h1 => glmS base' x y k n reg la al s' (AVec (preds c n k X s'.1 s'.2)) o1 h1).
Proof.
  intros Hx Hy El Hx' Hy' El' Hn Hk Hm M1 Et HS HS'. eexists. split; [apply (C51_mbgd_run c lr max m base x y k n X ys reg la al s Yh o h); assumption|].
  destruct (C51_mbgd_run c lr max m base' x y k n X ys' reg la al s Yh o' h' Hx' Hy' El' Hn Hk Hm M1 HS') as (o1 & h1 & E & W & HS1). exists o1, h1. split; [exact E|]. split; [exact W|]. cbv zeta in HS1.
  replace (mbgd_pure c lr (n / (n / m)) (n / m) k X ys reg la al) with (mbgd_pure c lr (n / (n / m)) (n / m) k X ys' reg la al); [exact HS1|]. unfold mbgd_pure. rewrite Et. reflexivity.
Qed.
(** A batch size larger than the data set, or zero: undefined behaviour. *)
Theorem C51_mbgd_bad_size_UB c (lr : F) max (size : Z) base x y k n X reg la al s Yh o h :
  base !! x = Some (Mat k n X) -> glmS base x y k n reg la al s Yh o h -> (size = 0 \/ Z.of_nat n < size) -> mbgd c lr max size o h = UB.
Proof.
  intros Hx (W & Ls & lw & ly & -> & D & N1 & N2 & A) Hs. assert (x <> lw) by congruence. assert (x <> ly) by congruence. unfold mbgd. cbn [g_init mkglm negb]. apply bind_UB_first. unfold with_batches. cbn [g_n mkglm].
  destruct Hs as [->|Hs]; [apply bind_UB_first; reflexivity|]. assert (Eq : idiv (F := F) (Z.of_nat n) size h = Ok 0 h).
  { unfold idiv. destruct (Z.eqb_spec size 0); [lia|]. rewrite Z.quot_small by lia. reflexivity. }
  unfold bind at 1. rewrite Eq. apply bind_UB_first. cbn [g_x g_y mkglm]. eapply mini_batches_mv_UB. rewrite A, !lookup_insert_ne by congruence. exact Hx.
Qed.
End any.

Open Scope R_scope.
(** ** Guarantees over the reals, for every sequence of drawn rows *)
(** Loss of example i under a model. *)
Definition ex_loss (c : cls) (k : nat) X ys (s : list R * R) (i : nat) : R :=
  let z := score k X s.1 s.2 i in match c with
  | Lin => / 2 * (z - nth i ys 0) ^ 2
  | Log => - (nth i ys 0 * ln (logistic z) + (1 - nth i ys 0) * ln (1 - logistic z)) end.
Definition ex_err (c : cls) (k : nat) X ys (s : list R * R) (i : nat) : R :=
  let z := score k X s.1 s.2 i in match c with Lin => z - nth i ys 0 | Log => logistic z - nth i ys 0 end.
Definition row_sq (k : nat) X (i : nat) : R := Rsum k (fun j => X i j ^ 2) + 1.
(** The model after the draws [l]. *)
Definition sgd_state (c : cls) (lr : R) k X ys la al (s : list R * R) (l : list nat) : list R * R := foldl (fun s i => sgd_pure c lr k X ys RNone la al i s) s l.

Lemma dotl_R ws xs : length ws = length xs -> dotl ws xs = Rsum (length xs) (fun j => nth j xs 0 * nth j ws 0).
Proof.
  intros E. unfold dotl. 
  assert (G : forall c, foldl (fun c '(x, y) => s_add c (s_mul x y)) c (zip ws xs) = c + rsum (zip_with Rmult ws xs)).
  { revert xs E. induction ws as [|w ws IH]; intros [|x xs] E c; try discriminate; [cbn; ring|]. cbn [zip_with foldl rsum]. rewrite IH by (cbn in E; lia). cbn. ring. }
  rewrite G. change (s_zero (F := R)) with 0. rewrite Rplus_0_l, rsum_nth, zip_with_length. replace (length ws `min` length xs)%nat with (length xs) by lia. apply Rsum_ext. intros j Hj. rewrite nth_zip by lia. ring.
Qed.
Lemma pred1_R c k X s i : length s.1 = k -> pred1 c (vlist k (X i)) s = match c with Lin => score k X s.1 s.2 i | Log => logistic (score k X s.1 s.2 i) end.
Proof.
  intros E. assert (Es : s_add (dotl s.1 (vlist k (X i))) s.2 = score k X s.1 s.2 i).
  { rewrite dotl_R by (rewrite vlist_length; exact E). rewrite vlist_length. unfold score. cbn [s_add R_scalar]. f_equal. apply Rsum_ext. intros j Hj. rewrite nth_vlist by exact Hj. reflexivity. }
  unfold pred1. rewrite Es. destruct c; [reflexivity|]. unfold logistic. scal. reflexivity.
Qed.
Lemma par_sgd c lr k X ys la al s i : length s.1 = k -> forall j, (j < S k)%nat ->
  par k (sgd_pure c lr k X ys RNone la al i s) j = sgstep (S k) (ext k X) (fun i => lossd c (nth i ys 0)) lr i (par k s) j.
Proof.
  intros E j Hj. unfold sgstep. rewrite ext_par. unfold sgd_pure. cbv zeta. rewrite rw1_none_map, pred1_R by exact E. change (s_zero (F := R)) with 0.
  set (e := s_sub _ _). assert (Ee : e = lossd c (nth i ys 0) (score k X s.1 s.2 i)) by (unfold e; destruct c; reflexivity). rewrite <- Ee. unfold par, ext. cbn [fst snd].
  destruct (decide (j < k)%nat) as [D|D].
  - rewrite nth_zip by (rewrite ?fmap_length, ?vlist_length; lia). rewrite nth_fmap by (rewrite vlist_length; exact D). rewrite nth_vlist by exact D. cbn [s_sub s_mul R_scalar]. ring.
  - cbn [s_sub s_mul R_scalar]. ring.
Qed.
Lemma ex_loss_eq c k X ys s i : ex_loss c k X ys s i = loss c (nth i ys 0) (score k X s.1 s.2 i).
Proof. unfold ex_loss. destruct c; [reflexivity|]. apply log_loss_eq. Qed.
Lemma ex_err_eq c k X ys s i : ex_err c k X ys s i = lossd c (nth i ys 0) (score k X s.1 s.2 i).
Proof. destruct c; reflexivity. Qed.
Lemma dist2_ext d u v u' v' : (forall j, (j < d)%nat -> u j = u' j) -> (forall j, (j < d)%nat -> v j = v' j) -> dist2 d u v = dist2 d u' v'.
Proof. intros E1 E2. unfold dist2, sqn. apply Rsum_ext. intros j Hj. rewrite E1, E2 by exact Hj. reflexivity. Qed.
Lemma sgd_dist c lr k X ys la al s u i : length s.1 = k -> let s' := sgd_pure c lr k X ys RNone la al i s in
  model_dist2 k s'.1 s'.2 u.1 u.2 = model_dist2 k s.1 s.2 u.1 u.2 - 2 * lr * (ex_err c k X ys s i * (score k X s.1 s.2 i - score k X u.1 u.2 i)) + lr * lr * (ex_err c k X ys s i ^ 2 * row_sq k X i).
Proof.
  intros E. cbv zeta. rewrite <- !dist_par. rewrite (dist2_ext (S k) _ (par k u) _ (par k u) (par_sgd c lr k X ys la al s i E) (fun _ _ => eq_refl)).
  rewrite sg_dist, !ext_par, ext_sq. rewrite ex_err_eq. unfold row_sq. ring.
Qed.
Lemma sgd_state_length c lr k X ys la al s l : length s.1 = k -> length (sgd_state c lr k X ys la al s l).1 = k.
Proof. unfold sgd_state. revert s. induction l as [|i l IH]; intros s E; [exact E|]. cbn [foldl]. apply IH. apply sgd_pure_length, E. Qed.

(** Regret: against any fixed model u, the losses suffered on the drawn rows exceed those of u by at most
    |v0 - u|^2 / (2 lr) + lr / 2 * (sum of squared gradient norms). *)
Theorem C51_sgd_regret c lr k X ys la al (l : list nat) ws b us u : length ws = k -> 0 < lr ->
  Rsum (length l) (fun t => ex_loss c k X ys (sgd_state c lr k X ys la al (ws, b) (take t l)) (nth t l 0%nat) - ex_loss c k X ys (us, u) (nth t l 0%nat))
  <= model_dist2 k ws b us u / (2 * lr) + lr / 2 * Rsum (length l) (fun t => ex_err c k X ys (sgd_state c lr k X ys la al (ws, b) (take t l)) (nth t l 0%nat) ^ 2 * row_sq k X (nth t l 0%nat)).
Proof.
  intros E Hl. set (st := fun t => sgd_state c lr k X ys la al (ws, b) (take t l)).
  assert (G : forall T, (T <= length l)%nat -> 2 * lr * Rsum T (fun t => ex_loss c k X ys (st t) (nth t l 0%nat) - ex_loss c k X ys (us, u) (nth t l 0%nat)) <=
     model_dist2 k ws b us u - model_dist2 k (st T).1 (st T).2 us u + lr * lr * Rsum T (fun t => ex_err c k X ys (st t) (nth t l 0%nat) ^ 2 * row_sq k X (nth t l 0%nat))).
  { induction T as [|T IH]; intros HT; [unfold st; rewrite take_0; cbn; lra|]. specialize (IH ltac:(lia)). rewrite !Rsum_S.
    destruct (lookup_lt_is_Some_2 l T) as [i Hi]; [lia|]. assert (Ei : nth T l 0%nat = i) by (apply nth_lookup_Some; exact Hi). rewrite Ei.
    assert (Est : st (S T) = sgd_pure c lr k X ys RNone la al i (st T)) by (unfold st, sgd_state; rewrite (take_S_r l T i Hi), foldl_app; reflexivity).
    assert (LT : length (st T).1 = k) by (apply sgd_state_length; exact E). pose proof (sgd_dist c lr k X ys la al (st T) (us, u) i LT) as Dd. cbv zeta in Dd. rewrite <- Est in Dd. cbn [fst snd] in Dd.
    assert (Cv := loss_convex c (nth i ys 0) (score k X (st T).1 (st T).2 i) (score k X us u i)). rewrite <- (ex_loss_eq c k X ys (st T) i), <- (ex_err_eq c k X ys (st T) i) in Cv.
    pose proof (ex_loss_eq c k X ys (us, u) i) as Eu. cbn [fst snd] in Eu. rewrite <- Eu in Cv.
    set (a := ex_err c k X ys (st T) i) in *. set (z := score k X (st T).1 (st T).2 i) in *. set (zu := score k X us u i) in *. set (p := ex_loss c k X ys (st T) i) in *. set (q := ex_loss c k X ys (us, u) i) in *.
    assert (2 * lr * (p - q) <= 2 * lr * (a * (z - zu))) by (apply Rmult_le_compat_l; lra). lra. }
  specialize (G (length l) ltac:(lia)). assert (0 <= model_dist2 k (st (length l)).1 (st (length l)).2 us u).
  { unfold model_dist2. assert (0 <= ((st (length l)).2 - u) ^ 2) by apply pow2_ge_0. assert (0 <= Rsum k (fun j => (nth j (st (length l)).1 0 - nth j us 0) ^ 2)) by (apply Rsum_nonneg; intros; apply pow2_ge_0). lra. }
  fold st. apply (Rmult_le_reg_l (2 * lr)); [lra|]. eapply Rle_trans; [exact G|]. rewrite Rmult_plus_distr_l. replace (2 * lr * (model_dist2 k ws b us u / (2 * lr))) with (model_dist2 k ws b us u) by (field; lra).
  change (fun t => ex_err c k X ys (sgd_state c lr k X ys la al (ws, b) (take t l)) (nth t l 0%nat) ^ 2 * row_sq k X (nth t l 0%nat)) with (fun t => ex_err c k X ys (st t) (nth t l 0%nat) ^ 2 * row_sq k X (nth t l 0%nat)). lra.
Qed.
(** Linear regression on data that some model fits exactly: no draw takes the weights further from that model,
    when lr times the squared norm of every (extended) row is at most 2. *)
Theorem C51_sgd_lin_contracts lr max (idx : Z -> Z) (ix : nat -> nat) base x y k n X ys la al ws b us u Yh o h :
  base !! x = Some (Mat k n X) -> base !! y = Some (AVec ys) -> length ys = n -> (Z.of_nat n <= int_max)%Z -> (Z.of_nat k <= int_max)%Z -> (max < int_max)%Z ->
  (forall e, (Z.of_nat e < Z.max 1 max)%Z -> idx (Z.of_nat e + 1)%Z = Z.of_nat (ix e) /\ (ix e < n)%nat) ->
  glmS base x y k n RNone la al (ws, b) Yh o h ->
  (forall i, (i < n)%nat -> score k X us u i = nth i ys 0) -> 0 <= lr -> (forall i, (i < n)%nat -> lr * row_sq k X i <= 2) ->
  runs (sgd Lin lr max idx o) h (fun o' h' => exists ws' b', glmS base x y k n RNone la al (ws', b') (AVec (preds Lin n k X ws' b')) o' h' /\
    model_dist2 k ws' b' us u <= model_dist2 k ws b us u).
Proof.
  intros Hx Hy El Hn Hk Hm Hi HS Hfit Hlr Hrow. destruct (C51_sgd_run Lin lr max idx ix base x y k n X ys RNone la al (ws, b) Yh o h Hx Hy El Hn Hk Hm Hi HS) as (o' & h' & E & W & HS'). cbv zeta in HS'.
  set (s' := foldl _ (ws, b) _) in *. exists o', h'. split; [exact E|]. split; [exact W|]. exists s'.1, s'.2. split; [destruct s'; exact HS'|].
  assert (Lw : length ws = k) by apply HS. assert (G : forall l s, length s.1 = k -> Forall (fun i => (i < n)%nat) l -> let t := foldl (fun s i => sgd_pure Lin lr k X ys RNone la al i s) s l in model_dist2 k t.1 t.2 us u <= model_dist2 k s.1 s.2 us u).
  { clear - Hfit Hlr Hrow. induction l as [|i l IH]; intros s Es Fl; [apply Rle_refl|]. apply Forall_cons_1 in Fl as [Hi Fl]. cbn [foldl]. cbv zeta. eapply Rle_trans; [apply IH; [apply sgd_pure_length, Es|exact Fl]|].
    pose proof (sgd_dist Lin lr k X ys la al s (us, u) i Es) as Dd. cbv zeta in Dd. cbn [fst snd] in Dd. rewrite Dd. unfold ex_err. rewrite Hfit by exact Hi. specialize (Hrow i Hi). set (e := score k X s.1 s.2 i - nth i ys 0).
    assert (0 <= e ^ 2) by apply pow2_ge_0. assert (lr * e ^ 2 * (lr * row_sq k X i) <= lr * e ^ 2 * 2) by (apply Rmult_le_compat_l; [apply Rmult_le_pos; lra|lra]). unfold pow in *. lra. }
  apply (G (ix <$> seq 0 (Z.to_nat (Z.max 1 max))) (ws, b) Lw). apply list.Forall_forall. intros i Hin. apply elem_of_list_fmap in Hin as (e & -> & He). apply elem_of_seq in He. apply Hi. lia.
Qed.

(** The regret bound, for the program: there is a sequence of models, the t-th being the one that sgd holds after t epochs,
    whose losses on the rows drawn satisfy the bound. *)
Theorem C51_sgd_regret_run c lr (idx : Z -> Z) (ix : nat -> nat) T base x y k n X ys la al ws b Yh o h :
  base !! x = Some (Mat k n X) -> base !! y = Some (AVec ys) -> length ys = n -> (Z.of_nat n <= int_max)%Z -> (Z.of_nat k <= int_max)%Z -> (Z.of_nat T < int_max)%Z ->
  (forall e, (e < T)%nat -> idx (Z.of_nat e + 1)%Z = Z.of_nat (ix e) /\ (ix e < n)%nat) ->
  glmS base x y k n RNone la al (ws, b) Yh o h -> 0 < lr ->
  exists st : nat -> list R * R, st 0%nat = (ws, b) /\
    (forall t, (0 < t <= T)%nat -> runs (sgd c lr (Z.of_nat t) idx o) h (fun o' h' => glmS base x y k n RNone la al (st t) (AVec (preds c n k X (st t).1 (st t).2)) o' h')) /\
    forall us u, Rsum T (fun t => ex_loss c k X ys (st t) (ix t) - ex_loss c k X ys (us, u) (ix t))
      <= model_dist2 k ws b us u / (2 * lr) + lr / 2 * Rsum T (fun t => ex_err c k X ys (st t) (ix t) ^ 2 * row_sq k X (ix t)).
Proof.
  intros Hx Hy El Hn Hk HT Hix HS Hlr. pose (l := ix <$> seq 0 T). exists (fun t => sgd_state c lr k X ys la al (ws, b) (take t l)). split; [reflexivity|]. split.
  - intros t Ht. assert (E : take t l = ix <$> seq 0 (Z.to_nat (Z.max 1 (Z.of_nat t)))).
    { unfold l. rewrite <- fmap_take. f_equal. replace (Z.to_nat (Z.max 1 (Z.of_nat t))) with t by lia. replace T with (t + (T - t))%nat by lia. rewrite seq_app. rewrite take_app_alt by (rewrite seq_length; reflexivity). reflexivity. }
    rewrite E. unfold sgd_state. apply (C51_sgd_run c lr (Z.of_nat t) idx ix base x y k n X ys RNone la al (ws, b) Yh o h); try assumption; [lia|]. intros e He. apply Hix. lia.
  - intros us u. assert (Lw : length ws = k) by apply HS. pose proof (C51_sgd_regret c lr k X ys la al l ws b us u Lw Hlr) as G. assert (El' : length l = T) by (unfold l; rewrite fmap_length, seq_length; reflexivity). rewrite El' in G.
    assert (En : forall t, (t < T)%nat -> nth t l 0%nat = ix t). { intros t Ht. unfold l. rewrite (nth_indep _ 0%nat (ix 0%nat)) by (rewrite fmap_length, seq_length; exact Ht). change (nth t (map ix (seq 0 T)) (ix 0%nat) = ix t). rewrite map_nth, seq_nth by exact Ht. reflexivity. }
    eapply Rle_trans; [|eapply Rle_trans; [exact G|]]; apply Req_le.
    + apply Rsum_ext. intros t Ht. rewrite En by exact Ht. reflexivity.
    + f_equal. f_equal. apply Rsum_ext. intros t Ht. rewrite En by exact Ht. reflexivity.
Qed.
