(** * Convolutions, symbolically executed. *)
From Verif Require Import Base BaseProofs Vec VecSpec VecProofs VecProofs2 Mat MatSpec MatProofs MatProofs2 MatProofs3 MatProofs4 MatProofs5 Act Stat StatProofs Util UtilProofs Glm GlmMath GlmProofs3 KmeansProofs2 Sym Svm PropMode Data DataProofs Conv.

Local Notation S := Datatypes.S.
Section convproofs.
Context {F : Type} `{Scalar F} `{Libm F}.
Implicit Types (h : heap F).

(** A matrix computed cell by cell; the cells may work on objects other than [d], described by [J]. *)
Lemma wp_fill d (c r : nat) val G (J : gmap loc (aobj F) -> Prop) (cell : Z -> Z -> M F F) h (Q : unit -> heap F -> Prop) : wf h ->
  (exists m, J m /\ abs h = <[d := MatP c r G]> m) ->
  (forall (i j : nat) G' m hj (Q' : F -> heap F -> Prop), (i < r)%nat -> (j < c)%nat -> wf hj -> J m -> abs hj = <[d := MatP c r G']> m ->
    (forall h' m', wf h' -> J m' -> abs h' = <[d := MatP c r G']> m' -> Q' (val i j) h') -> wp (cell (Z.of_nat i) (Z.of_nat j)) hj Q') ->
  (forall h' m, wf h' -> J m -> abs h' = <[d := Mat c r val]> m -> Q tt h') ->
  wp (for_ 0 (Z.of_nat r) (fun i => for_ 0 (Z.of_nat c) (fun j => let! v := cell i j in m_set d i j v))) h Q.
Proof.
  intros W (m0 & J0 & A) HC HQ. eapply (wp_for_n (fun i hi => wf hi /\ exists m, J m /\ abs hi = <[d := MatP c r (filled val i 0 G)]> m)).
  - split; [exact W|]. exists m0. split; [exact J0|]. rewrite A, filled_start. reflexivity.
  - intros i hi Hi (Wi & mi & Ji & Ai). eapply (wp_for_n (fun j hj => wf hj /\ exists m, J m /\ abs hj = <[d := MatP c r (filled val i j G)]> m)).
    + split; [exact Wi|]. exists mi. split; assumption.
    + intros j hj Hj (Wj & mj & Jj & Aj). wbind. eapply HC; [exact Hi|exact Hj|exact Wj|exact Jj|exact Aj|]. intros hk mk Wk Jk Ak.
      eapply wp_m_set; [exact Wk|rewrite Ak; apply lookup_insert|]. intros hl Wl _ Al. rewrite decide_True in Al by lia. split; [exact Wl|]. exists mk. split; [exact Jk|].
      rewrite Al, Ak, insert_insert, !Nat2Z.id. f_equal. apply filled_upd; assumption.
    + intros hj (Wj & mj & Jj & Aj). split; [exact Wj|]. exists mj. split; [exact Jj|]. rewrite Aj. f_equal. apply filled_next.
  - intros hi (Wi & mi & Ji & Ai). rewrite filled_all in Ai. eapply HQ; [exact Wi|exact Ji|exact Ai].
Qed.
(** ** Reading a matrix at any position; outside it the value is zero. *)
Definition zat (c r : nat) (X : nat -> nat -> F) (y x : Z) : F := if decide (0 <= y < Z.of_nat r /\ 0 <= x < Z.of_nat c) then X (Z.to_nat y) (Z.to_nat x) else s_zero.
Lemma wp_m_zat h l c r X y x (Q : F -> heap F -> Prop) : wf h -> abs h !! l = Some (Mat c r X) -> Q (zat c r X y x) h -> wp (m_get l y x) h Q.
Proof. intros W A HQ. eapply wp_m_get; [exact W|exact A|exact HQ]. Qed.

(** ** The padded copy *)
Definition padded (c r : nat) X (pd : nat) (i j : nat) : F := zat c r X (Z.of_nat i - Z.of_nat pd) (Z.of_nat j - Z.of_nat pd).
Lemma wp_conv_pad h x (c r pd : nat) X (Q : loc -> heap F -> Prop) : wf h -> abs h !! x = Some (Mat c r X) -> (Z.of_nat r + 2 * Z.of_nat pd) * (Z.of_nat r + 2 * Z.of_nat pd) <= int_max ->
  (forall p h', wf h' -> abs h !! p = None -> abs h' = <[p := Mat (r + 2 * pd) (r + 2 * pd) (padded c r X pd)]> (abs h) -> Q p h') ->
  wp (conv_pad x (Z.of_nat c, Z.of_nat r) (Z.of_nat pd)) h Q.
Proof.
  intros W A HB HQ. unfold conv_pad. cbn [fst snd]. set (w := (r + 2 * pd)%nat). replace (Z.of_nat r + 2 * Z.of_nat pd) with (Z.of_nat w) in * by lia.
  wbind. apply wp_chk; [unfold int_max in *; nia|]. wbind. apply wp_m_new; [exact W|]. intros p h1 W1 N1 A1 _. wbind. eapply wp_m_resize; [exact W1|rewrite A1; apply lookup_insert|nia|]. intros h2 W2 A2 _.
  destruct (cells_MatP h2 p w w _ W2 ltac:(rewrite A2; apply lookup_insert)) as [G HG]. rewrite A1, insert_insert in A2. rewrite A2, lookup_insert in HG. apply Some_inj in HG. rewrite HG in A2. clear HG.
  wbind. eapply (wp_fill p w w (padded c r X pd) G (fun m => m = abs h)); [exact W2|exists (abs h); split; [reflexivity|exact A2]| |].
  - intros i j G' m hj Q' Hi Hj Wj -> Aj HQ'. destruct (_ || _)%bool eqn:Eo.
    + apply wp_ret. replace s_zero with (padded c r X pd i j); [eapply HQ'; [exact Wj|reflexivity|exact Aj]|]. unfold padded, zat. rewrite decide_False; [reflexivity|]. rewrite !Bool.orb_true_iff, !Z.ltb_lt in Eo. lia.
    + eapply wp_m_zat; [exact Wj|look|]. eapply HQ'; [exact Wj|reflexivity|exact Aj].
  - intros h' m W' -> A'. apply wp_ret. apply HQ; [exact W'|exact N1|exact A'].
Qed.

(** ** The window *)
Definition win (c r : nat) X (fs : nat) (y x : Z) : list F := (fun t => zat c r X (y + Z.of_nat (t / fs)) (x + Z.of_nat (t mod fs))) <$> seq 0 (fs * fs).
Lemma win_length c r X fs y x : length (win c r X fs y x) = (fs * fs)%nat.
Proof. unfold win. rewrite fmap_length, seq_length. reflexivity. Qed.
Lemma wp_window h inp ci (c r fs : nat) X (st i j : Z) cs (Q : unit -> heap F -> Prop) : wf h -> abs h !! inp = Some (Mat c r X) -> abs h !! ci = Some (SVec (Z.of_nat (fs * fs)), cs) -> inp <> ci ->
  (forall h', wf h' -> abs h' = <[ci := AVec (win c r X fs (conv_off st i) (conv_off st j))]> (abs h) -> Q tt h') ->
  wp (conv_window inp ci (Z.of_nat fs) st i j) h Q.
Proof.
  intros W Ai Ac Hne HQ. set (y := conv_off st i) in *. set (x := conv_off st j) in *. set (val := fun t => zat c r X (y + Z.of_nat (t / fs)) (x + Z.of_nat (t mod fs))).
  assert (Lc : length cs = (fs * fs)%nat) by (destruct (vec_len _ _ _ _ W Ac); lia).
  unfold conv_window. fold y x.
  eapply (wp_for_n (fun k hk => wf hk /\ exists cs, abs hk = <[ci := (SVec (Z.of_nat (fs * fs)), cs)]> (abs h) /\ length cs = (fs * fs)%nat /\ forall t, (t < k * fs)%nat -> cs !! t = Some (Some (val t)))).
  - split; [exact W|]. exists cs. split; [symmetry; apply insert_id; exact Ac|]. split; [exact Lc|]. intros t Ht. lia.
  - intros k hk Hk (Wk & ck & Ak & Lk & Gk). eapply (wp_for_n (fun p hp => wf hp /\ exists cs, abs hp = <[ci := (SVec (Z.of_nat (fs * fs)), cs)]> (abs h) /\ length cs = (fs * fs)%nat /\ forall t, (t < k * fs + p)%nat -> cs !! t = Some (Some (val t)))).
    + split; [exact Wk|]. exists ck. split; [exact Ak|]. split; [exact Lk|]. intros t Ht. apply Gk. lia.
    + intros p hp Hp (Wp & cp & Ap & Lp & Gp). wbind. eapply wp_m_zat; [exact Wp|rewrite Ap, lookup_insert_ne by congruence; exact Ai|].
      eapply wp_v_set; [exact Wp|rewrite Ap; apply lookup_insert|]. intros h' W' _ A'. replace (Z.of_nat k * Z.of_nat fs + Z.of_nat p) with (Z.of_nat (k * fs + p)) in A' by lia.
      replace (Z.of_nat (k * fs + p) <? 0) with false in A' by lia. rewrite Nat2Z.id in A'. split; [exact W'|]. eexists. split; [rewrite A', Ap, insert_insert; reflexivity|]. split; [rewrite insert_length; exact Lp|].
      intros t Ht. assert (Hb : (k * fs + p < fs * fs)%nat) by nia. destruct (decide (t = k * fs + p)%nat) as [->|Hn].
      * rewrite list_lookup_insert by lia. unfold val. rewrite Nat.add_comm, Nat.div_add, Nat.mod_add, Nat.div_small, Nat.mod_small by lia. rewrite Nat.add_0_l. reflexivity.
      * rewrite list_lookup_insert_ne by congruence. apply Gp. lia.
    + intros hp (Wp & cp & Ap & Lp & Gp). split; [exact Wp|]. exists cp. split; [exact Ap|]. split; [exact Lp|]. intros t Ht. apply Gp. lia.
  - intros hk (Wk & ck & Ak & Lk & Gk). apply HQ; [exact Wk|]. rewrite Ak. f_equal. unfold AVec. rewrite win_length. f_equal. apply list_eq. intros t. rewrite list_lookup_fmap.
    destruct (decide (t < fs * fs)%nat) as [Ht|Ht].
    + rewrite Gk by exact Ht. unfold win. rewrite list_lookup_fmap, lookup_seq_lt by exact Ht. reflexivity.
    + rewrite !lookup_ge_None_2; [reflexivity|rewrite win_length; lia|lia].
Qed.

(** ** Sizes *)
Lemma wp_conv_size (n fs pd : nat) (st : Z) h (Q : Z -> heap F -> Prop) : 0 < st -> (fs <= n + 2 * pd)%nat -> Z.of_nat (n + 2 * pd) < int_max ->
  (forall ms : nat, Z.of_nat ms = (Z.of_nat n - Z.of_nat fs + 2 * Z.of_nat pd) / st + 1 -> (ms <= n + 2 * pd - fs + 1)%nat -> Q (Z.of_nat ms) h) -> wp (conv_size (Z.of_nat n) (Z.of_nat fs) (Z.of_nat pd) st) h Q.
Proof.
  intros Hst Hf HB HQ. set (a := Z.of_nat n - Z.of_nat fs + 2 * Z.of_nat pd) in *. assert (Ha : 0 <= a <= Z.of_nat (n + 2 * pd) - Z.of_nat fs) by lia. 
  assert (Hl : Z.of_nat fs <= Z.of_nat n + 2 * Z.of_nat pd) by lia.
  assert (Hge : -2147483648 <= Z.of_nat n - Z.of_nat fs) by (unfold int_max in *; lia).
  pose proof (Z.div_pos a st ltac:(lia) ltac:(lia)) as D1. assert (D2 : a / st <= a) by (apply Z.div_le_upper_bound; nia).
  unfold conv_size. wbind. apply wp_chk; [lia|]. wbind. apply wp_chk; [lia|]. wbind. fold a. apply wp_chk; [lia|]. wbind.
  assert (Eq : Z.quot a st = a / st) by (apply Z.quot_div_nonneg; lia). apply wp_idiv; [lia|rewrite Eq; lia|]. rewrite Eq. apply wp_chk; [lia|].
  replace (a / st + 1) with (Z.of_nat (Z.to_nat (a / st + 1))) by lia. apply HQ; lia.
Qed.

(** ** Convolution *)
Definition src (c r : nat) X (pd : nat) : nat * nat * (nat -> nat -> F) := match pd with O => (c, r, X) | _ => ((r + 2 * pd)%nat, (r + 2 * pd)%nat, padded c r X pd) end.
Definition conv_value (c r : nat) X (pd : nat) (st : Z) (fs : nat) ys (i j : nat) : F :=
  let s := src c r X pd in let xs := win s.1.1 s.1.2 s.2 fs (conv_off st (Z.of_nat i)) (conv_off st (Z.of_nat j)) in
  if decide (length xs = length ys) then foldl (fun a '(u, v) => s_add a (s_mul u v)) s_zero (zip xs ys) else s_zero.
Lemma wp_convolve h x f (c r fc fs pd : nat) X ys st (Q : loc -> heap F -> Prop) : wf h -> abs h !! x = Some (Mat c r X) -> abs h !! f = Some (AMat fc fs ys) -> 0 < st -> (1 <= fs)%nat -> (fs <= r + 2 * pd)%nat ->
  Z.of_nat fs * Z.of_nat fs <= int_max -> (Z.of_nat r + 2 * Z.of_nat pd) * (Z.of_nat r + 2 * Z.of_nat pd) <= int_max -> Z.of_nat (r + 2 * pd) < int_max ->
  (forall d h' (ms : nat), Z.of_nat ms = (Z.of_nat r - Z.of_nat fs + 2 * Z.of_nat pd) / st + 1 -> wf h' -> abs h !! d = None -> abs h' = <[d := Mat ms ms (conv_value c r X pd st fs ys)]> (abs h) -> Q d h') ->
  wp (convolve_2d (Some x) (Some f) st (Z.of_nat pd)) h Q.
Proof.
  intros W Ax Af Hst Hf1 Hfr HF HB Hlt HQ. unfold convolve_2d. wbind. apply wp_deref_Some. wbind. eapply wp_m_size; [exact Ax|]. wbind. apply wp_deref_Some. wbind. eapply wp_m_size; [exact Af|]. cbn [fst snd].
  wbind. apply wp_conv_size; [exact Hst|exact Hfr|exact Hlt|]. intros ms Hms Lms.
  assert (HS : exists s, src c r X pd = s) by eauto. destruct HS as [[[c' r'] X'] Es].
  wbind. apply wp_mono with (Q := fun inp h1 => wf h1 /\ abs h1 !! inp = Some (Mat c' r' X') /\ (if decide (pd = 0)%nat then inp = x /\ abs h1 = abs h else abs h !! inp = None /\ abs h1 = <[inp := Mat c' r' X']> (abs h))).
  { destruct pd as [|pd].
    - cbn in Es. injection Es as <- <- <-. cbn [Z.of_nat Z.eqb]. apply wp_ret. split; [exact W|]. split; [exact Ax|]. rewrite decide_True by reflexivity. split; reflexivity.
    - cbn [src] in Es. injection Es as <- <- <-. replace (Z.of_nat (S pd) =? 0) with false by lia. eapply wp_conv_pad; [exact W|exact Ax|exact HB|]. intros p h' W' N' A'. split; [exact W'|].
      split; [rewrite A'; apply lookup_insert|]. rewrite decide_False by lia. split; [exact N'|exact A']. }
  intros inp h1 (W1 & Ai & Hi).
  assert (Hx1 : abs h1 !! f = Some (AMat fc fs ys)). { destruct (decide (pd = 0)%nat); destruct Hi as [E1 ->]; [exact Af|]. rewrite lookup_insert_ne by congruence. exact Af. }
  wbind. apply wp_m_new; [exact W1|]. intros o h2 W2 N2 A2 _. wbind. eapply wp_m_resize; [exact W2|rewrite A2; apply lookup_insert|clear - HB Lms Hf1 Hfr; nia|]. intros h3 W3 A3 _.
  destruct (cells_MatP h3 o ms ms _ W3 ltac:(rewrite A3; apply lookup_insert)) as [G HG]. rewrite A2, insert_insert in A3. rewrite A3, lookup_insert in HG. apply Some_inj in HG. rewrite HG in A3. clear HG.
  wbind. eapply wp_m_flatten; [exact W3|rewrite A3, lookup_insert_ne by congruence; exact Hx1|]. intros ff h4 W4 N4 A4. rewrite A3 in N4, A4. apply lookup_insert_None in N4 as [N4 N4'].
  wbind. apply wp_v_new; [exact W4|]. intros ci h5 W5 N5 A5 _. rewrite A4 in N5, A5. apply lookup_insert_None in N5 as [N5 N5']. apply lookup_insert_None in N5 as [N5 N5''].
  wbind. apply wp_chk; [split; [unfold int_max; lia|exact HF]|]. wbind. eapply wp_v_resize; [exact W5|rewrite A5; apply lookup_insert|lia|]. intros h6 W6 A6 _. rewrite A5, insert_insert in A6.
  replace (Z.of_nat fs * Z.of_nat fs) with (Z.of_nat (fs * fs)) in A6 by lia.
  assert (ND : inp <> o /\ inp <> ff /\ inp <> ci) by (repeat split; intros ->; congruence). destruct ND as (D1 & D2 & D3).
  wbind. unfold conv_cells. eapply (wp_fill o ms ms (conv_value c r X pd st fs ys) G (fun m => exists cs, m = <[ci := (SVec (Z.of_nat (fs * fs)), cs)]> (<[ff := AVec ys]> (abs h1)))); [exact W6| | |].
  - eexists. split; [eexists; reflexivity|]. rewrite A6. rewrite (insert_commute _ o ci) by congruence. rewrite (insert_commute _ o ff) by congruence. reflexivity.
  - intros i j G' m hj Q' Hi' Hj Wj (cs & ->) Aj HQ'.
    wbind. eapply wp_window; [exact Wj|rewrite Aj, !lookup_insert_ne by congruence; exact Ai|rewrite Aj, lookup_insert_ne, lookup_insert by congruence; reflexivity|exact D3|]. intros hk Wk Ak.
    rewrite Aj in Ak. rewrite (insert_commute _ ci o), insert_insert in Ak by congruence.
    eapply wp_v_dot; [exact Wk|rewrite Ak, lookup_insert_ne, lookup_insert by congruence; reflexivity|rewrite Ak, !lookup_insert_ne, lookup_insert by congruence; reflexivity|].
    lazymatch goal with |- Q' ?v _ => replace v with (conv_value c r X pd st fs ys i j) by (unfold conv_value; rewrite Es; reflexivity) end.
    eapply HQ'; [exact Wk| |exact Ak || (rewrite Ak; reflexivity)]. exists (Some <$> win c' r' X' fs (conv_off st (Z.of_nat i)) (conv_off st (Z.of_nat j))). unfold AVec. rewrite win_length. reflexivity.
  - intros h7 m W7 (cs & ->) A7. rewrite (insert_commute _ o ci) in A7 by congruence. rewrite (insert_commute _ o ff) in A7 by congruence.
    assert (F1 : abs h1 !! ff = None /\ abs h1 !! ci = None /\ abs h1 !! o = None) by (repeat split; assumption). destruct F1 as (F1 & F2 & F3).
    wbind. eapply wp_del; [exact W7|rewrite A7; apply lookup_insert|]. intros h8 W8 A8 _. rewrite A7, delete_insert in A8 by (rewrite !lookup_insert_ne by congruence; exact F2).
    wbind. eapply wp_del; [exact W8|rewrite A8; apply lookup_insert|]. intros h9 W9 A9 _. rewrite A8, delete_insert in A9 by (rewrite !lookup_insert_ne by congruence; exact F1).
    assert (HV : forall h', wf h' -> abs h' = <[o := Mat ms ms (conv_value c r X pd st fs ys)]> (abs h) -> Q o h').
    { intros h' W' A'. eapply HQ; [exact Hms|exact W'| |exact A']. destruct (decide (pd = 0)%nat); destruct Hi as [E1 E2]; rewrite E2 in F3; [exact F3|]. apply lookup_insert_None in F3. tauto. }
    destruct (decide (pd = 0)%nat) as [->|Hpd]; destruct Hi as [E1 E2].
    + cbn [Z.of_nat Z.eqb]. wbind. apply wp_ret. apply wp_ret. apply HV; [exact W9|]. rewrite A9, E2. reflexivity.
    + replace (Z.of_nat pd =? 0) with false by lia. rewrite E2 in A9. rewrite (insert_commute _ o inp) in A9 by congruence. rewrite E2 in F3. apply lookup_insert_None in F3 as [F3 _].
      wbind. eapply wp_del; [exact W9|rewrite A9; apply lookup_insert|]. intros h10 W10 A10 _. rewrite A9, delete_insert in A10 by (rewrite lookup_insert_ne by congruence; exact E1).
      apply wp_ret. apply HV; [exact W10|exact A10].
Qed.

(** ** Pooling *)
Definition pooled (ty : pool_type) (xs : list F) : F := match ty with PAverage => f_mean xs | PMin => f_min xs | PMax => f_max xs end.
Lemma wp_pool_value ty h v xs (Q : F -> heap F -> Prop) : wf h -> abs h !! v = Some (AVec xs) -> Q (pooled ty xs) h -> wp (pool_value ty v) h Q.
Proof.
  intros W A HQ. destruct ty; cbn [pool_value].
  - eapply wp_st_mean; [exact W|exact A|exact HQ].
  - unfold wp. rewrite (la_minvr_eq h v xs) by assumption. rewrite (fold_scan (fun v m => s_lt v m)). exact HQ.
  - unfold wp. rewrite (la_maxvr_eq h v xs) by assumption. rewrite (fold_scan (fun v m => s_lt m v)). exact HQ.
Qed.
Definition pool_at (c r : nat) X (st : Z) (fs : nat) ty (i j : nat) : F := pooled ty (win c r X fs (conv_off st (Z.of_nat i)) (conv_off st (Z.of_nat j))).
Lemma wp_pool_2d h x (c r fs : nat) X st ty (Q : loc -> heap F -> Prop) : wf h -> abs h !! x = Some (Mat c r X) -> 0 < st -> (1 <= fs)%nat -> (fs <= r)%nat ->
  Z.of_nat r * Z.of_nat r <= int_max ->
  (forall d h' (ms : nat), Z.of_nat ms = (Z.of_nat r - Z.of_nat fs) / st + 1 -> wf h' -> abs h !! d = None -> abs h' = <[d := Mat ms ms (pool_at c r X st fs ty)]> (abs h) -> Q d h') ->
  wp (pool_2d (Some x) (Z.of_nat fs) st ty) h Q.
Proof.
  intros W Ax Hst Hf1 Hfr HB HQ. unfold pool_2d. wbind. apply wp_deref_Some. wbind. eapply wp_m_size; [exact Ax|]. cbn [fst snd].
  wbind. change 0 with (Z.of_nat 0) at 1. apply wp_conv_size; [exact Hst|lia|unfold int_max in *; nia|]. intros ms Hms Lms. rewrite Z.mul_0_r, Z.add_0_r in Hms.
  wbind. apply wp_m_new; [exact W|]. intros o h2 W2 N2 A2 _. wbind. eapply wp_m_resize; [exact W2|rewrite A2; apply lookup_insert|clear - HB Lms Hf1 Hfr; nia|]. intros h3 W3 A3 _.
  destruct (cells_MatP h3 o ms ms _ W3 ltac:(rewrite A3; apply lookup_insert)) as [G HG]. rewrite A2, insert_insert in A3. rewrite A3, lookup_insert in HG. apply Some_inj in HG. rewrite HG in A3. clear HG.
  wbind. apply wp_v_new; [exact W3|]. intros ci h5 W5 N5 A5 _. rewrite A3 in N5, A5. apply lookup_insert_None in N5 as [N5 N5'].
  assert (HF : Z.of_nat fs * Z.of_nat fs <= int_max) by nia.
  wbind. apply wp_chk; [split; [unfold int_max; lia|exact HF]|]. wbind. eapply wp_v_resize; [exact W5|rewrite A5; apply lookup_insert|lia|]. intros h6 W6 A6 _. rewrite A5, insert_insert in A6.
  replace (Z.of_nat fs * Z.of_nat fs) with (Z.of_nat (fs * fs)) in A6 by lia.
  assert (ND : x <> o /\ x <> ci) by (split; intros ->; congruence). destruct ND as (D1 & D3).
  wbind. unfold conv_cells. eapply (wp_fill o ms ms (pool_at c r X st fs ty) G (fun m => exists cs, m = <[ci := (SVec (Z.of_nat (fs * fs)), cs)]> (abs h))); [exact W6| | |].
  - eexists. split; [eexists; reflexivity|]. rewrite A6. rewrite (insert_commute _ o ci) by congruence. reflexivity.
  - intros i j G' m hj Q' Hi' Hj Wj (cs & ->) Aj HQ'.
    wbind. eapply wp_window; [exact Wj|rewrite Aj, !lookup_insert_ne by congruence; exact Ax|rewrite Aj, lookup_insert_ne, lookup_insert by congruence; reflexivity|exact D3|]. intros hk Wk Ak.
    rewrite Aj in Ak. rewrite (insert_commute _ ci o), insert_insert in Ak by congruence.
    eapply wp_pool_value; [exact Wk|rewrite Ak, lookup_insert_ne, lookup_insert by congruence; reflexivity|].
    eapply (HQ' hk); [exact Wk| |rewrite Ak; reflexivity]. eexists. unfold AVec. rewrite win_length. reflexivity.
  - intros h7 m W7 (cs & ->) A7. rewrite (insert_commute _ o ci) in A7 by congruence.
    wbind. eapply wp_del; [exact W7|rewrite A7; apply lookup_insert|]. intros h8 W8 A8 _. rewrite A7, delete_insert in A8 by (rewrite lookup_insert_ne by congruence; exact N5).
    apply wp_ret. eapply HQ; [exact Hms|exact W8|exact N2|exact A8].
Qed.
Lemma wp_global_pool h x (c r : nat) xs ty (Q : F -> heap F -> Prop) : wf h -> abs h !! x = Some (AMat c r xs) ->
  (forall h', wf h' -> abs h' = abs h -> Q (pooled ty xs) h') -> wp (global_pool_2d (Some x) ty) h Q.
Proof.
  intros W Ax HQ. unfold global_pool_2d. wbind. apply wp_deref_Some. wbind. eapply wp_m_flatten; [exact W|exact Ax|]. intros f h1 W1 N1 A1.
  wbind. eapply wp_pool_value; [exact W1|rewrite A1; apply lookup_insert|]. wbind. eapply wp_del; [exact W1|rewrite A1; apply lookup_insert|]. intros h2 W2 A2 _. rewrite A1, delete_insert in A2 by exact N1.
  apply wp_ret. apply HQ; assumption.
Qed.

(** ** The gaussian filter *)
Definition gauss_at (size : nat) (sd : F) (i j : nat) : F := gaussian_2d (s_of_Z (Z.of_nat i - Z.quot (Z.of_nat size - 1) 2)) (s_of_Z (Z.quot (Z.of_nat size - 1) 2 - Z.of_nat j)) sd.
Lemma wp_gaussian_filter h (size : nat) sd (Q : loc -> heap F -> Prop) : wf h -> Z.of_nat size * Z.of_nat size <= int_max ->
  (forall d h', wf h' -> abs h !! d = None -> abs h' = <[d := Mat size size (gauss_at size sd)]> (abs h) -> Q d h') -> wp (gaussian_filter_2d (Z.of_nat size) sd) h Q.
Proof.
  intros W HB HQ. unfold gaussian_filter_2d. wbind. apply wp_m_new; [exact W|]. intros o h2 W2 N2 A2 _. wbind. eapply wp_m_resize; [exact W2|rewrite A2; apply lookup_insert|lia|]. intros h3 W3 A3 _.
  destruct (cells_MatP h3 o size size _ W3 ltac:(rewrite A3; apply lookup_insert)) as [G HG]. rewrite A2, insert_insert in A3. rewrite A3, lookup_insert in HG. apply Some_inj in HG. rewrite HG in A3. clear HG.
  cbv zeta. wbind. unfold conv_cells. eapply (wp_fill o size size (gauss_at size sd) G (fun m => m = abs h)); [exact W3|exists (abs h); split; [reflexivity|exact A3]| |].
  - intros i j G' m hj Q' Hi Hj Wj -> Aj HQ'. apply wp_ret. eapply HQ'; [exact Wj|reflexivity|exact Aj].
  - intros h' m W' -> A'. apply wp_ret. apply HQ; assumption.
Qed.

(** ** Derivatives *)
Definition dx_at (c r : nat) X (i j : nat) : F :=
  if decide (j = 0)%nat then zat c r X (Z.of_nat i) 1 else if decide (j = r - 1)%nat then s_opp (zat c r X (Z.of_nat i) (Z.of_nat j - 1)) else s_sub (zat c r X (Z.of_nat i) (Z.of_nat j + 1)) (zat c r X (Z.of_nat i) (Z.of_nat j - 1)).
Definition dy_at (c r : nat) X (i j : nat) : F :=
  if decide (i = 0)%nat then s_opp (zat c r X 1 (Z.of_nat j)) else if decide (i = r - 1)%nat then zat c r X (Z.of_nat i - 1) (Z.of_nat j) else s_sub (zat c r X (Z.of_nat i - 1) (Z.of_nat j)) (zat c r X (Z.of_nat i + 1) (Z.of_nat j)).
Ltac deriv_cases j r :=
  destruct (Z.eqb_spec (Z.of_nat j) 0); destruct (Z.eqb_spec (Z.of_nat j) (Z.of_nat r - 1)); cbn [negb andb];
  [rewrite decide_True by lia|rewrite decide_True by lia|rewrite decide_False, decide_True by lia|rewrite decide_False, decide_False by lia].
Lemma wp_conv_dx h x (c r : nat) X (Q : loc -> heap F -> Prop) : wf h -> abs h !! x = Some (Mat c r X) ->
  (forall d h', wf h' -> abs h !! d = None -> abs h' = <[d := Mat c r (dx_at c r X)]> (abs h) -> Q d h') -> wp (conv_dx (Some x)) h Q.
Proof.
  intros W A HQ. destruct (amat_len _ _ _ _ _ W A) as [_ Hle]. unfold conv_dx. wbind. apply wp_deref_Some. wbind. eapply wp_m_size; [exact A|]. cbn [fst snd].
  wbind. apply wp_m_new; [exact W|]. intros o h2 W2 N2 A2 _. wbind. eapply wp_m_resize; [exact W2|rewrite A2; apply lookup_insert|lia|]. intros h3 W3 A3 _.
  destruct (cells_MatP h3 o c r _ W3 ltac:(rewrite A3; apply lookup_insert)) as [G HG]. rewrite A2, insert_insert in A3. rewrite A3, lookup_insert in HG. apply Some_inj in HG. rewrite HG in A3. clear HG.
  wbind. eapply (wp_fill o c r (dx_at c r X) G (fun m => m = abs h)); [exact W3|exists (abs h); split; [reflexivity|exact A3]| |].
  - intros i j G' m hj Q' Hi Hj Wj -> Aj HQ'. assert (Hx : abs hj !! x = Some (Mat c r X)) by (rewrite Aj, lookup_insert_ne by congruence; exact A).
    assert (HV : Q' (dx_at c r X i j) hj) by (eapply HQ'; [exact Wj|reflexivity|exact Aj]). unfold dx_at in HV. revert HV. deriv_cases j r; intros HV.
    + eapply wp_m_zat; [exact Wj|exact Hx|]. replace (Z.of_nat j + 1) with 1 by lia. exact HV.
    + eapply wp_m_zat; [exact Wj|exact Hx|]. replace (Z.of_nat j + 1) with 1 by lia. exact HV.
    + wbind. eapply wp_m_zat; [exact Wj|exact Hx|]. apply wp_ret. exact HV.
    + wbind. eapply wp_m_zat; [exact Wj|exact Hx|]. wbind. eapply wp_m_zat; [exact Wj|exact Hx|]. apply wp_ret. exact HV.
  - intros h' m W' -> A'. apply wp_ret. apply HQ; assumption.
Qed.
Lemma wp_conv_dy h x (c r : nat) X (Q : loc -> heap F -> Prop) : wf h -> abs h !! x = Some (Mat c r X) ->
  (forall d h', wf h' -> abs h !! d = None -> abs h' = <[d := Mat c r (dy_at c r X)]> (abs h) -> Q d h') -> wp (conv_dy (Some x)) h Q.
Proof.
  intros W A HQ. destruct (amat_len _ _ _ _ _ W A) as [_ Hle]. unfold conv_dy. wbind. apply wp_deref_Some. wbind. eapply wp_m_size; [exact A|]. cbn [fst snd].
  wbind. apply wp_m_new; [exact W|]. intros o h2 W2 N2 A2 _. wbind. eapply wp_m_resize; [exact W2|rewrite A2; apply lookup_insert|lia|]. intros h3 W3 A3 _.
  destruct (cells_MatP h3 o c r _ W3 ltac:(rewrite A3; apply lookup_insert)) as [G HG]. rewrite A2, insert_insert in A3. rewrite A3, lookup_insert in HG. apply Some_inj in HG. rewrite HG in A3. clear HG.
  wbind. eapply (wp_fill o c r (dy_at c r X) G (fun m => m = abs h)); [exact W3|exists (abs h); split; [reflexivity|exact A3]| |].
  - intros i j G' m hj Q' Hi Hj Wj -> Aj HQ'. assert (Hx : abs hj !! x = Some (Mat c r X)) by (rewrite Aj, lookup_insert_ne by congruence; exact A).
    assert (HV : Q' (dy_at c r X i j) hj) by (eapply HQ'; [exact Wj|reflexivity|exact Aj]). unfold dy_at in HV. revert HV. deriv_cases i r; intros HV.
    + wbind. eapply wp_m_zat; [exact Wj|exact Hx|]. apply wp_ret. replace (Z.of_nat i + 1) with 1 by lia. exact HV.
    + wbind. eapply wp_m_zat; [exact Wj|exact Hx|]. apply wp_ret. replace (Z.of_nat i + 1) with 1 by lia. exact HV.
    + eapply wp_m_zat; [exact Wj|exact Hx|]. exact HV.
    + wbind. eapply wp_m_zat; [exact Wj|exact Hx|]. wbind. eapply wp_m_zat; [exact Wj|exact Hx|]. apply wp_ret. exact HV.
  - intros h' m W' -> A'. apply wp_ret. apply HQ; assumption.
Qed.
Definition grad_at (c r : nat) X (i j : nat) : F := s_sqrt (s_add (s_mul (dx_at c r X i j) (dx_at c r X i j)) (s_mul (dy_at c r X i j) (dy_at c r X i j))).
Lemma wp_conv_grad h x (c r : nat) X (Q : loc -> heap F -> Prop) : wf h -> abs h !! x = Some (Mat c r X) ->
  (forall d h', wf h' -> abs h !! d = None -> abs h' = <[d := Mat c r (grad_at c r X)]> (abs h) -> Q d h') -> wp (conv_grad (Some x)) h Q.
Proof.
  intros W A HQ. unfold conv_grad.
  wbind. eapply wp_conv_dx; [exact W|exact A|]. new_as a1 h1 W1 N1 A1.
  wbind. eapply wp_conv_dx; [exact W1|look|]. new_as a2 h2 W2 N2 A2.
  wbind. unfold m_hadamardn. eapply wp_m_op2n; [exact W2|look|look|]. new_as x2 h3 W3 N3 A3. rewrite mlist_zip in A3.
  wbind. eapply wp_conv_dy; [exact W3|look|]. new_as b1 h4 W4 N4 A4.
  wbind. eapply wp_conv_dy; [exact W4|look|]. new_as b2 h5 W5 N5 A5.
  wbind. eapply wp_m_op2n; [exact W5|look|look|]. new_as y2 h6 W6 N6 A6. rewrite mlist_zip in A6.
  wbind. apply wp_deref_Some. wbind. unfold m_addn. eapply wp_m_op2n; [exact W6|look|look|]. new_as t h7 W7 N7 A7. rewrite mlist_zip in A7.
  wbind. apply wp_deref_Some. wbind. unfold m_sqrtn. eapply wp_m_mapn; [exact W7|look|]. new_as g h8 W8 N8 A8. rewrite mlist_fmap in A8.
  wbind. apply wp_deref_Some.
  wbind. dele h9 W9 A9. wbind. dele h10 W10 A10. wbind. dele h11 W11 A11. wbind. dele h12 W12 A12. wbind. dele h13 W13 A13. wbind. dele h14 W14 A14. wbind. dele h15 W15 A15.
  apply wp_ret. apply HQ; [exact W15|exact N8|exact A15].
Qed.
End convproofs.
