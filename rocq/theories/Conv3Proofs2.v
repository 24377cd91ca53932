(** * Convolution of tensors without padding, symbolically executed. *)
From Verif Require Import Base BaseProofs Vec VecSpec VecProofs VecProofs2 Mat MatSpec MatProofs MatProofs2 MatProofs3 MatProofs4 MatProofs5 Ten TenSpec TenProofs TenProofs2 TenProofs3 TenProofs6 Act Stat StatProofs Util UtilProofs Sym Svm Data DataProofs Conv ConvProofs Conv3.

Local Notation S := Datatypes.S.
Local Notation S3 x y z := (STen (Z.of_nat x) (Z.of_nat y) (Z.of_nat z)).
Section conv3proofs2.
Context {F : Type} `{Scalar F} `{Libm F}.
Implicit Types (h : heap F).

(** Reading a tensor at any position; outside it the value is zero. *)
Definition zat3 (c r d : nat) (X : nat -> nat -> nat -> F) (z y x : Z) : F := if decide (in3 c r d z y x) then X (Z.to_nat z) (Z.to_nat y) (Z.to_nat x) else s_zero.
(** What entry [u] of the window is read from. *)
Definition win3_at (c r d : nat) X (fs : nat) (y x : Z) (u : nat) : F := zat3 c r d X (y + Z.of_nat ((u / fs) mod fs)) (x + Z.of_nat (u mod fs)) (Z.of_nat (u / fs / fs)).
Definition win3 (c r d : nat) X (fs : nat) (y x : Z) : list F := win3_at c r d X fs y x <$> seq 0 (d * fs * fs).
Lemma win3_length c r d X fs y x : length (win3 c r d X fs y x) = (d * fs * fs)%nat.
Proof. unfold win3. rewrite fmap_length, seq_length. reflexivity. Qed.
Lemma win3_index c r d X fs y x t k p : (k < fs)%nat -> (p < fs)%nat -> win3_at c r d X fs y x ((t * fs + k) * fs + p) = zat3 c r d X (y + Z.of_nat k) (x + Z.of_nat p) (Z.of_nat t).
Proof.
  intros Hk Hp. unfold win3_at. assert (E1 : (((t * fs + k) * fs + p) / fs = t * fs + k)%nat) by (rewrite Nat.add_comm, Nat.div_add, (Nat.div_small p) by lia; lia).
  assert (E2 : (((t * fs + k) * fs + p) mod fs = p)%nat) by (rewrite Nat.add_comm, Nat.mod_add, Nat.mod_small by lia; reflexivity).
  assert (E3 : ((t * fs + k) / fs = t)%nat) by (rewrite Nat.add_comm, Nat.div_add, (Nat.div_small k) by lia; lia).
  assert (E4 : ((t * fs + k) mod fs = k)%nat) by (rewrite Nat.add_comm, Nat.mod_add, Nat.mod_small by lia; reflexivity).
  rewrite E1, E2, E3, E4. reflexivity.
Qed.
Lemma wp_window3 h inp ci (c r d fs : nat) X (st i j : Z) cs (Q : unit -> heap F -> Prop) : wf h -> abs h !! inp = Some (Ten c r d X) -> abs h !! ci = Some (SVec (Z.of_nat (d * fs * fs)), cs) -> inp <> ci ->
  (forall h', wf h' -> abs h' = <[ci := AVec (win3 c r d X fs (conv_off st i) (conv_off st j))]> (abs h) -> Q tt h') ->
  wp (conv3_window inp ci (Z.of_nat d) (Z.of_nat fs) st i j) h Q.
Proof.
  intros W Ai Ac Hne HQ. set (y := conv_off st i) in *. set (x := conv_off st j) in *. set (val := win3_at c r d X fs y x).
  assert (Lc : length cs = (d * fs * fs)%nat) by (destruct (vec_len _ _ _ _ W Ac); lia).
  unfold conv3_window. fold y x. set (P := fun (n : nat) hk => wf hk /\ exists cs, abs hk = <[ci := (SVec (Z.of_nat (d * fs * fs)), cs)]> (abs h) /\ length cs = (d * fs * fs)%nat /\ forall t, (t < n)%nat -> cs !! t = Some (Some (val t))).
  assert (P0 : P 0%nat h) by (split; [exact W|]; exists cs; split; [symmetry; apply insert_id; exact Ac|]; split; [exact Lc|]; intros t Ht; lia).
  eapply (wp_for_n (fun t => P (t * fs * fs)%nat)); [exact P0| |].
  - intros t ht Ht Pt. eapply (wp_for_n (fun k => P ((t * fs + k) * fs)%nat)); [rewrite Nat.add_0_r; exact Pt| |].
    + intros k hk Hk Pk. eapply (wp_for_n (fun p => P ((t * fs + k) * fs + p)%nat)); [rewrite Nat.add_0_r; exact Pk| |].
      * intros p hp Hp (Wp & cp & Ap & Lp & Gp). wbind. eapply wp_t_get; [exact Wp|rewrite Ap, lookup_insert_ne by congruence; exact Ai|].
        eapply wp_v_set; [exact Wp|rewrite Ap; apply lookup_insert|]. intros h' W' _ A'. set (u := ((t * fs + k) * fs + p)%nat).
        replace ((Z.of_nat t * Z.of_nat fs + Z.of_nat k) * Z.of_nat fs + Z.of_nat p) with (Z.of_nat u) in A' by (unfold u; lia).
        replace (Z.of_nat u <? 0) with false in A' by lia. rewrite Nat2Z.id in A'. split; [exact W'|]. eexists. split; [rewrite A', Ap, insert_insert; reflexivity|]. split; [rewrite insert_length; exact Lp|].
        assert (Hu : (u < d * fs * fs)%nat). { unfold u. assert (t * fs + k < d * fs)%nat by nia. nia. }
        intros v Hv. destruct (decide (v = u)) as [->|Hn].
        -- rewrite list_lookup_insert by lia. f_equal. f_equal. unfold val, u. rewrite win3_index by assumption. reflexivity.
        -- rewrite list_lookup_insert_ne by congruence. apply Gp. unfold u in *. lia.
      * intros hp Pp. replace ((t * fs + S k) * fs)%nat with ((t * fs + k) * fs + fs)%nat by lia. exact Pp.
    + intros hk Pk. replace (S t * fs * fs)%nat with ((t * fs + fs) * fs)%nat by lia. exact Pk.
  - intros hk (Wk & ck & Ak & Lk & Gk). apply HQ; [exact Wk|]. rewrite Ak. f_equal. unfold AVec. rewrite win3_length. f_equal. apply list_eq. intros t. rewrite list_lookup_fmap.
    destruct (decide (t < d * fs * fs)%nat) as [Ht|Ht].
    + rewrite Gk by exact Ht. unfold win3. rewrite list_lookup_fmap, lookup_seq_lt by exact Ht. reflexivity.
    + rewrite !lookup_ge_None_2; [reflexivity|rewrite win3_length; lia|lia].
Qed.

(** The products are summed up if the window and the filter have the same number of entries; otherwise [dot] reports an error and gives 0.
    The value does not depend on the channel of the result. *)
Definition conv3_value (c r d : nat) X (st : Z) (fs : nat) ys (i j : nat) : F :=
  let xs := win3 c r d X fs (conv_off st (Z.of_nat i)) (conv_off st (Z.of_nat j)) in
  if decide (length xs = length ys) then foldl (fun a '(u, v) => s_add a (s_mul u v)) s_zero (zip xs ys) else s_zero.
Lemma wp_convolve3 h x f (c r d fc fs fd : nat) X ys st (Q : loc -> heap F -> Prop) : wf h -> abs h !! x = Some (Ten c r d X) -> abs h !! f = Some (ATen fc fs fd ys) -> 0 < st -> (1 <= fs)%nat -> (fs <= r)%nat -> (1 <= d)%nat ->
  fits fc fs -> Z.of_nat (d * fs * fs) <= int_max -> Z.of_nat r * Z.of_nat r <= int_max -> Z.of_nat (fd / d) * (Z.of_nat r * Z.of_nat r) <= int_max -> Z.of_nat fd <= int_max ->
  (forall o h' (ms : nat), Z.of_nat ms = (Z.of_nat r - Z.of_nat fs) / st + 1 -> wf h' -> abs h !! o = None -> abs h' = <[o := Ten ms ms (fd / d) (fun _ => conv3_value c r d X st fs ys)]> (abs h) -> Q o h') ->
  wp (convolve_3d (Some x) (Some f) st 0) h Q.
Proof.
  intros W Ax Af Hst Hf1 Hfr Hd Hff HF HB HD HFD HQ. unfold convolve_3d. wbind. apply wp_deref_Some. wbind. eapply wp_t_size; [exact Ax|]. wbind. apply wp_deref_Some. wbind. eapply wp_t_size; [exact Af|]. cbn [fst snd].
  set (ch := (fd / d)%nat) in *. assert (Ech : Z.quot (Z.of_nat fd) (Z.of_nat d) = Z.of_nat ch) by (unfold ch; rewrite Z.quot_div_nonneg by lia; symmetry; apply Nat2Z.inj_div).
  assert (Lch : (ch <= fd)%nat) by (unfold ch; apply Nat.div_le_upper_bound; nia).
  wbind. apply wp_idiv; [lia|rewrite Ech; lia|]. rewrite Ech.
  wbind. change 0 with (Z.of_nat 0) at 1. apply wp_conv_size; [exact Hst|lia|unfold int_max in *; nia|]. intros ms Hms Lms. rewrite Z.mul_0_r, Z.add_0_r in Hms. assert (Lm : (ms <= r)%nat) by lia.
  wbind. cbn [Z.eqb]. apply wp_ret. wbind. apply wp_t_new; [exact W|]. intros o h1 W1 N1 A1.
  assert (Hq : Z.of_nat ms * Z.of_nat ms <= Z.of_nat r * Z.of_nat r) by nia.
  wbind. eapply wp_t_resize; [exact W1|rewrite A1; apply lookup_insert|unfold fits; nia|nia|]. intros h2 W2 A2. rewrite A1, insert_insert in A2.
  set (cs0 := list.resize _ _ _) in A2. assert (Lc0 : length cs0 = (ch * (ms * ms))%nat) by (unfold cs0; apply resize_length).
  wbind. eapply wp_t_flatten; [exact W2|rewrite A2, lookup_insert_ne by congruence; exact Af|exact Hff|]. intros ff h3 W3 N3 A3. rewrite A2 in N3, A3. apply lookup_insert_None in N3 as [N3 D3].
  wbind. apply wp_v_new; [exact W3|]. intros ci h4 W4 N4 A4 _. rewrite A3 in N4, A4. apply lookup_insert_None in N4 as [N4 D4]. apply lookup_insert_None in N4 as [N4 D4'].
  assert (Hdf : Z.of_nat d * Z.of_nat fs <= Z.of_nat (d * fs * fs)) by nia.
  wbind. apply wp_chk; [unfold int_max in *; lia|]. wbind. apply wp_chk; [unfold int_max in *; lia|].
  wbind. eapply wp_v_resize; [exact W4|rewrite A4; apply lookup_insert|lia|]. intros h5 W5 A5 _. rewrite A4, insert_insert in A5. replace (Z.of_nat d * Z.of_nat fs * Z.of_nat fs) with (Z.of_nat (d * fs * fs)) in A5 by lia.
  assert (x <> o /\ x <> ff /\ x <> ci) as (X1 & X2 & X3) by (repeat split; intros ->; congruence).
  set (val := conv3_value c r d X st fs ys). set (J := fun done hk => wf hk /\ exists vc T, abs hk = <[o := TenP ms ms ch T]> (<[ci := (SVec (Z.of_nat (d * fs * fs)), vc)]> (<[ff := AVec ys]> (abs h))) /\
    forall k i j, (k < ch)%nat -> (i < ms)%nat -> (j < ms)%nat -> done k i j -> T k i j = Some (val i j)).
  assert (J0 : J (fun k i j => (k < 0)%nat) h5).
  { split; [exact W5|]. eexists _, _. split; [|intros; lia]. rewrite A5, (insert_commute _ ff o), (insert_commute _ ci o) by congruence. unfold TenP. rewrite (tlist_eta None ms ms ch cs0 Lc0) at 1. reflexivity. }
  assert (Jm : forall (p q : nat -> nat -> nat -> Prop) hk, (forall k i j, (i < ms)%nat -> (j < ms)%nat -> q k i j -> p k i j) -> J p hk -> J q hk) by (intros p q hk E (Wk & vc & T & Ak & G); split; [exact Wk|]; exists vc, T; split; [exact Ak|]; intros; apply G; auto).
  wbind. eapply (wp_for_n (fun n => J (fun k i j => (k < n)%nat))); [exact J0| |].
  - intros n hn Hn Jn. eapply (wp_for_n (fun a => J (fun k i j => (k < n)%nat \/ (k = n /\ (i < a)%nat)))); [eapply Jm; [|exact Jn]; cbv beta; intros; lia| |].
    + intros a ha Ha Ja. eapply (wp_for_n (fun b => J (fun k i j => (k < n)%nat \/ (k = n /\ ((i < a)%nat \/ (i = a /\ (j < b)%nat)))))); [eapply Jm; [|exact Ja]; cbv beta; intros; lia| |].
      * intros b hb Hb (Wb & vc & T & Ab & G). wbind. eapply wp_window3; [exact Wb|rewrite Ab, !lookup_insert_ne by congruence; exact Ax|rewrite Ab, lookup_insert_ne, lookup_insert by congruence; reflexivity|exact X3|]. intros hc Wc Ac.
        rewrite Ab, (insert_commute _ ci o), insert_insert in Ac by congruence.
        wbind. eapply wp_v_dot; [exact Wc|rewrite Ac, lookup_insert_ne, lookup_insert by congruence; reflexivity|rewrite Ac, !lookup_insert_ne, lookup_insert by congruence; reflexivity|].
        eapply wp_t_set; [exact Wc|rewrite Ac; apply lookup_insert|]. intros hd Wd _ Ad. rewrite Ac, insert_insert in Ad.
        split; [exact Wd|]. eexists _, _. split; [rewrite Ad; unfold AVec; rewrite win3_length; reflexivity|]. cbv beta. intros k i j Hk Hi Hj Hdone. destruct (decide (Z.of_nat k = Z.of_nat n /\ Z.of_nat i = Z.of_nat a /\ Z.of_nat j = Z.of_nat b)) as [E|E]; [|apply G; [assumption|assumption|assumption|lia]].
        assert (i = a) as -> by lia. assert (j = b) as -> by lia. unfold val, conv3_value. cbv zeta. rewrite win3_length. reflexivity.
      * intros hb Jb. eapply Jm; [|exact Jb]. cbv beta. intros. lia.
    + intros ha Ja. eapply Jm; [|exact Ja]. cbv beta. intros. lia.
  - intros h6 (W6 & vc & T & A6 & G). assert (ET : TenP ms ms ch T = Ten ms ms ch (fun _ => val)).
    { unfold TenP, Ten, ATen. f_equal. rewrite tlist_fmap. apply tlist_ext. intros k i j Hk Hi Hj. apply G; assumption. }
    rewrite ET, (insert_commute _ o ci) in A6 by congruence. wbind. eapply wp_del; [exact W6|rewrite A6; apply lookup_insert|]. intros h7 W7 A7 _. rewrite A6, delete_insert in A7 by (rewrite !lookup_insert_ne by congruence; exact N4).
    rewrite (insert_commute _ o ff) in A7 by congruence. wbind. eapply wp_del; [exact W7|rewrite A7; apply lookup_insert|]. intros h8 W8 A8 _. rewrite A7, delete_insert in A8 by (rewrite !lookup_insert_ne by congruence; exact N3).
    wbind. cbn [Z.eqb]. apply wp_ret. apply wp_ret. eapply HQ; [exact Hms|exact W8|exact N1|exact A8].
Qed.
End conv3proofs2.
