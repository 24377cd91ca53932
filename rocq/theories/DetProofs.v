(** * The heap model of det / cofactor / adjoint / inverse computes the recursion of DetCode.v. *)
From Verif Require Export MatProofs6 DetCode.
From Coq Require Import ZifyBool ZifyNat.
Ltac Zify.zify_post_hook ::= Z.to_euclidean_division_equations.

Section proofs.
Context {F : Type} `{Scalar F}.
Implicit Types (h : heap F) (l a b : loc) (f : nat -> nat -> F) (g : nat -> nat -> cell F).

(** Math::pow(static_cast<real_t>(-1), static_cast<real_t>(i)) *)
Definition pow_sign (i : nat) : F := s_pow (s_opp s_one) (s_of_Z (Z.of_nat i)).
Notation detF := (det_code s_zero s_add s_sub s_mul pow_sign).
Notation adjF := (adj_code s_zero s_one s_add s_sub s_mul s_opp pow_sign).

Lemma fsum_lsum n (u : nat -> F) : fsum s_zero s_add n u = lsum n u.
Proof.
  unfold fsum, lsum. generalize (@s_zero F _) as acc. generalize (seq 0 n) as ks. induction ks as [|k ks IH]; intros acc; [reflexivity|].
  apply IH.
Qed.

Lemma det_code_ext d : forall f f', (forall i j, (i < d)%nat -> (j < d)%nat -> f i j = f' i j) -> detF d f = detF d f'.
Proof.
  induction d as [|d IH]; intros f f' E; [reflexivity|]. cbn [det_code].
  destruct (Nat.eqb_spec d 1) as [->|Hd].
  - rewrite !E by lia. reflexivity.
  - rewrite !fsum_lsum. apply lsum_ext. intros k Hk. rewrite E by lia. f_equal. apply IH. intros i j Hi Hj. unfold minor. apply E.
    + unfold skip. destruct (i <? 0)%nat; lia.
    + unfold skip. destruct (j <? k)%nat; lia.
Qed.

Lemma wp_m_getP h l c r g (y x : nat) v (Q : F -> heap F -> Prop) : wf h -> abs h !! l = Some (MatP c r g) ->
  (y < r)%nat -> (x < c)%nat -> g y x = Some v -> Q v h -> wp (m_get l (Z.of_nat y) (Z.of_nat x)) h Q.
Proof.
  intros Hwf Ha Hy Hx Hg HQ. unfold m_get. wbind. eapply wp_m_size; [exact Ha|]. cbv beta iota.
  replace ((Z.of_nat x <? 0) || (Z.of_nat c <=? Z.of_nat x)) with false by lia.
  replace ((Z.of_nat y <? 0) || (Z.of_nat r <=? Z.of_nat y)) with false by lia.
  wbind. eapply wp_data_ptr; [exact Ha|]. intros p Hp.
  eapply wp_load; [exact Hwf|exact Hp|exact Ha|lia| |exact HQ].
  rewrite zidx, mlist_lookup by assumption. f_equal. exact Hg.
Qed.

Lemma wp_m_setP h l c r g (y x : nat) v (Q : unit -> heap F -> Prop) : wf h -> abs h !! l = Some (MatP c r g) ->
  (y < r)%nat -> (x < c)%nat ->
  (forall h', wf h' -> abs h' = <[l := MatP c r (upd g y x (Some v))]> (abs h) -> Q tt h') -> wp (m_set l (Z.of_nat y) (Z.of_nat x) v) h Q.
Proof.
  intros Hwf Ha Hy Hx HQ. eapply wp_m_set; [exact Hwf|exact Ha|]. intros h' W O A. rewrite decide_True in A by lia.
  rewrite !Nat2Z.id in A. auto.
Qed.

(** ** det *)
Definition detb_fill a b (d i : Z) : M F unit :=
  let! _ := for_acc 1 d 0 (fun j sub_i =>
          let! _ := for_acc 0 d 0 (fun k sub_j =>
            if k =? i then ret sub_j else
            let! x := m_get a j k in
            m_set b sub_i sub_j x ;;;
            ret (sub_j + 1)) in
          ret (sub_i + 1)) in ret tt.

Lemma wp_detb_fill h a b ca ra g f d (i : nat) gb hi (Q : unit -> heap F -> Prop) : a <> b ->
  abs h !! a = Some (MatP ca ra g) -> (d <= ca)%nat -> (d <= ra)%nat -> (i < d)%nat ->
  (forall y x, (y < d)%nat -> (x < d)%nat -> g y x = Some (f y x)) ->
  wf hi -> abs hi = <[b := MatP d d gb]> (abs h) ->
  (forall gb' h', wf h' -> abs h' = <[b := MatP d d gb']> (abs h) ->
     (forall y x, (y < d - 1)%nat -> (x < d - 1)%nat -> gb' y x = Some (minor 0 i f y x)) -> Q tt h') ->
  wp (detb_fill a b (Z.of_nat d) (Z.of_nat i)) hi Q.
Proof.
  intros Hab Ha Hca Hra Hi Hg Wi Ai HQ. unfold detb_fill. wbind.
  apply wp_for_acc with (I := fun j sub_i hj => sub_i = j - 1 /\ wf hj /\ exists gj, abs hj = <[b := MatP d d gj]> (abs h) /\
    forall y x, (Z.of_nat y < j - 1) -> (x < d - 1)%nat -> gj y x = Some (minor 0 i f y x)).
  - split; [lia|]. split; [exact Wi|]. exists gb. split; [exact Ai|]. intros; lia.
  - clear hi Wi Ai gb. intros j sub_i hi Hj (-> & Wi & gi & Ai & Gi). wbind.
    apply wp_for_acc with (I := fun k sub_j hj => sub_j = (if k <=? Z.of_nat i then k else k - 1) /\ wf hj /\
      exists gj, abs hj = <[b := MatP d d gj]> (abs h) /\
      (forall y x, (Z.of_nat y < j - 1) -> (x < d - 1)%nat -> gj y x = Some (minor 0 i f y x)) /\
      (forall y x, (Z.of_nat y = j - 1) -> (Z.of_nat x < sub_j) -> gj y x = Some (minor 0 i f y x))).
    + split; [destruct (Z.leb_spec 0 (Z.of_nat i)); lia|]. split; [exact Wi|]. exists gi. split; [exact Ai|]. split; [exact Gi|]. intros; lia.
    + clear hi Wi Ai gi Gi. intros k sub_j hi Hk (-> & Wi & gi & Ai & Gi & Gk).
      destruct (Z.eqb_spec k (Z.of_nat i)) as [->|Hne].
      * apply wp_ret. split; [destruct (Z.leb_spec (Z.of_nat i) (Z.of_nat i)), (Z.leb_spec (Z.of_nat i + 1) (Z.of_nat i)); lia|]. split; [exact Wi|]. exists gi. split; [exact Ai|]. split; [exact Gi|].
        exact Gk.
      * assert (exists jn, j = Z.of_nat (S jn)) as [jn ->] by (exists (Z.to_nat (j - 1)); lia).
        assert (exists kn, k = Z.of_nat kn) as [kn ->] by (exists (Z.to_nat k); lia).
        wbind. eapply wp_m_getP; [exact Wi|rewrite Ai, lookup_insert_ne by congruence; exact Ha|lia|lia|apply Hg; lia|].
        set (sj := if Z.of_nat kn <=? Z.of_nat i then Z.of_nat kn else Z.of_nat kn - 1) in *.
        assert (exists sn, sj = Z.of_nat sn /\ (sn < d - 1)%nat /\ kn = skip i sn) as (sn & Es & Hs & Ek).
        { unfold sj, skip. destruct (Z.leb_spec (Z.of_nat kn) (Z.of_nat i)); [exists kn|exists (kn - 1)%nat];
          (split; [lia|]; split; [lia|]). - destruct (Nat.ltb_spec kn i); lia. - destruct (Nat.ltb_spec (kn - 1) i); lia. }
        replace (Z.of_nat (S jn) - 1) with (Z.of_nat jn) in * by lia. rewrite Es in *.
        wbind. eapply wp_m_setP; [exact Wi|rewrite Ai; apply lookup_insert|lia|lia|]. intros h' W' A'. apply wp_ret.
        split. { destruct (Z.leb_spec (Z.of_nat kn + 1) (Z.of_nat i)); unfold sj in Es; destruct (Z.leb_spec (Z.of_nat kn) (Z.of_nat i)); lia. }
        split; [exact W'|]. eexists. split; [rewrite A', Ai, insert_insert; reflexivity|].
        split.
        { intros y x Hy Hx. unfold upd. rewrite decide_False by lia. apply Gi; lia. }
        { intros y x Hy Hx. unfold upd. destruct (decide (y = jn /\ x = sn)) as [[-> ->]|Hn].
          - unfold minor. rewrite <- Ek. reflexivity.
          - apply Gk; lia. }
    + cbv beta. intros sj hk (-> & Wk & gk & Ak & Gk1 & Gk2). apply wp_ret. split; [lia|]. split; [exact Wk|].
      exists gk. split; [exact Ak|]. intros y x Hy Hx. destruct (Z.eq_dec (Z.of_nat y) (j - 1)) as [E|E].
      * apply Gk2; [exact E|]. destruct (Z.leb_spec (Z.max 0 (Z.of_nat d)) (Z.of_nat i)); lia.
      * apply Gk1; lia.
  - cbv beta. intros si hj (_ & Wj & gj & Aj & Gj). apply wp_ret. eapply HQ; eauto. intros y x Hy Hx. apply Gj; lia.
Qed.

Lemma wp_m_detb fuel : forall d h a ca ra g f (Q : F -> heap F -> Prop), (d < fuel)%nat -> wf h ->
  abs h !! a = Some (MatP ca ra g) -> (d <= ca)%nat -> (d <= ra)%nat ->
  (forall y x, (y < d)%nat -> (x < d)%nat -> g y x = Some (f y x)) ->
  (forall h', wf h' -> abs h' = abs h -> Q (detF d f) h') ->
  wp (m_detb fuel a (Z.of_nat d)) h Q.
Proof.
  induction fuel as [|fuel IH]; [lia|]. intros d h a ca ra g f Q Hfu Hwf Ha Hca Hra Hg HQ. cbn [m_detb].
  destruct (Z.eqb_spec (Z.of_nat d) 2) as [E2|E2].
  - assert (d = 2%nat) as -> by lia.
    wbind. eapply (wp_m_getP _ _ _ _ _ 0 0); [exact Hwf|exact Ha|lia|lia|apply Hg; lia|].
    wbind. eapply (wp_m_getP _ _ _ _ _ 1 1); [exact Hwf|exact Ha|lia|lia|apply Hg; lia|].
    wbind. eapply (wp_m_getP _ _ _ _ _ 0 1); [exact Hwf|exact Ha|lia|lia|apply Hg; lia|].
    wbind. eapply (wp_m_getP _ _ _ _ _ 1 0); [exact Hwf|exact Ha|lia|lia|apply Hg; lia|].
    apply wp_ret. apply HQ; auto.
  - destruct (mat_len h a _ _ _ Hwf Ha) as [_ Hsz].
    assert (Hdd : Z.of_nat d * Z.of_nat d <= int_max) by nia.
    wbind. apply wp_m_new; [exact Hwf|]. intros b h1 W1 N1 A1 _.
    assert (Hab : a <> b) by congruence.
    wbind. eapply wp_m_resize; [exact W1|rewrite A1; apply lookup_insert|lia|]. intros h2 W2 A2 _.
    rewrite A1, insert_insert in A2.
    wbind. eapply wp_m_fill_mat with (c := d) (r := d); [exact W2|rewrite A2; apply lookup_insert|]. intros h3 W3 _ A3.
    rewrite A2, insert_insert in A3.
    wbind. apply wp_for_acc_n with (I := fun i deter hi => wf hi /\ (exists gi, abs hi = <[b := MatP d d gi]> (abs h)) /\
       deter = lsum i (fun i => s_mul (s_mul (pow_sign i) (f 0%nat i)) (detF (d - 1) (minor 0 i f)))).
    + split; [exact W3|]. split; [|reflexivity]. eexists. rewrite A3, Mat_MatP. reflexivity.
    + intros i deter hi Hi (Wi & (gi & Ai) & ->).
      assert (WF : wp (detb_fill a b (Z.of_nat d) (Z.of_nat i)) hi (fun _ h' => wf h' /\ exists gb', abs h' = <[b := MatP d d gb']> (abs h) /\
          forall y x, (y < d - 1)%nat -> (x < d - 1)%nat -> gb' y x = Some (minor 0 i f y x))).
      { eapply wp_detb_fill; eauto 10. }
      unfold detb_fill in WF. apply wp_bind_inv in WF. apply wp_bind. eapply wp_mono; [exact WF|].
      cbv beta. clear hi Wi gi Ai WF. intros _ hi (Wi & gi & Ai & Gi).
      wbind. eapply (wp_m_getP _ _ _ _ _ 0 i); [exact Wi|rewrite Ai, lookup_insert_ne by congruence; exact Ha|lia|lia|apply Hg; lia|].
      wbind. eapply wp_m_size; [rewrite Ai; apply lookup_insert|].
      replace (Z.of_nat d - 1 =? -1) with false by lia. replace (Z.of_nat d - 1) with (Z.of_nat (d - 1)) by lia.
      wbind. eapply IH with (f := minor 0 i f); [lia|exact Wi|rewrite Ai; apply lookup_insert|lia|lia|exact Gi|].
      intros h' W' A'. apply wp_ret. split; [exact W'|]. split; [exists gi; congruence|]. rewrite lsum_S. reflexivity.
    + intros deter h4 (W4 & (g4 & A4) & ->).
      wbind. eapply wp_del; [exact W4|rewrite A4; apply lookup_insert|]. intros h5 W5 A5 _. apply wp_ret.
      assert (A : abs h5 = abs h) by (rewrite A5, A4, delete_insert; auto).
      destruct d as [|d']; [apply (HQ h5 W5 A)|].
      pose proof (HQ h5 W5 A) as HQ'. cbn [det_code] in HQ'. destruct (Nat.eqb_spec d' 1); [lia|].
      replace (S d' - 1)%nat with d' by lia. rewrite fsum_lsum in HQ'. exact HQ'.
Qed.

Lemma wp_m_det h a n f (Q : F -> heap F -> Prop) : wf h -> abs h !! a = Some (Mat n n f) ->
  (forall h', wf h' -> abs h' = abs h -> Q (detF n f) h') -> wp (m_det a (-1)) h Q.
Proof.
  intros Hwf Ha HQ. unfold m_det. wbind. eapply wp_m_size; [exact Ha|]. rewrite Z.eqb_refl. cbn [snd].
  rewrite Mat_MatP in Ha. eapply wp_m_detb; [lia|exact Hwf|exact Ha|lia|lia|reflexivity|exact HQ].
Qed.
Lemma wp_m_det_d h a c r g f d (Q : F -> heap F -> Prop) : wf h -> abs h !! a = Some (MatP c r g) ->
  (d <= c)%nat -> (d <= r)%nat -> (forall y x, (y < d)%nat -> (x < d)%nat -> g y x = Some (f y x)) ->
  (forall h', wf h' -> abs h' = abs h -> Q (detF d f) h') -> wp (m_det a (Z.of_nat d)) h Q.
Proof.
  intros Hwf Ha Hc Hr Hg HQ. unfold m_det. wbind. eapply wp_m_size; [exact Ha|]. replace (Z.of_nat d =? -1) with false by lia.
  eapply wp_m_detb; [lia|exact Hwf|exact Ha|lia|lia|exact Hg|exact HQ].
Qed.

(** ** cofactor *)
Lemma wp_cofactor_loop h a b ca ra f gb (n i j : nat) hi (Q : unit -> heap F -> Prop) : a <> b ->
  abs h !! a = Some (Mat ca ra f) -> (n <= ca)%nat -> (n <= ra)%nat -> (i < n)%nat -> (j < n)%nat ->
  wf hi -> abs hi = <[b := MatP ca ra gb]> (abs h) ->
  (forall gb' h', wf h' -> abs h' = <[b := MatP ca ra gb']> (abs h) ->
     (forall y x, (y < n - 1)%nat -> (x < n - 1)%nat -> gb' y x = Some (minor i j f y x)) ->
     (forall y x, ~ ((y < n - 1)%nat /\ (x < n - 1)%nat) -> gb' y x = gb y x) -> Q tt h') ->
  wp (cofactor_loop a b (Z.of_nat n) (Z.of_nat i) (Z.of_nat j)) hi Q.
Proof.
  intros Hab Ha Hca Hra Hi Hj Wi Ai HQ. unfold cofactor_loop. wbind.
  apply wp_for_acc_n with (I := fun row '(si, sj) hj => (si, sj) = (Z.of_nat (if (row <=? i)%nat then row else row - 1), 0) /\
    wf hj /\ exists gj, abs hj = <[b := MatP ca ra gj]> (abs h) /\
    (forall y x, (Z.of_nat y < si) -> (x < n - 1)%nat -> gj y x = Some (minor i j f y x)) /\
    (forall y x, ~ ((Z.of_nat y < si) /\ (x < n - 1)%nat) -> gj y x = gb y x)).
  - split; [reflexivity|]. split; [exact Wi|]. exists gb. split; [exact Ai|]. split; [intros; lia|auto].
  - clear hi Wi Ai. intros row [si sj] hi Hrow (E & Wi & gi & Ai & Gi & Ki). injection E as -> ->.
    destruct (Nat.eq_dec row i) as [->|Hne].
    { (* the skipped row *)
      eapply wp_mono.
      - apply wp_for_acc_n with (I := fun (_ : nat) st hj => st = (Z.of_nat i, 0) /\ hj = hi) (Q := fun st hj => st = (Z.of_nat i, 0) /\ hj = hi).
        + rewrite Nat.leb_refl. auto.
        + intros col st h0 _ [-> ->]. rewrite Z.eqb_refl. cbn [negb andb]. apply wp_ret. auto.
        + auto.
      - cbv beta. intros st h' [-> ->]. rewrite Nat.leb_refl in Gi, Ki.
        split; [f_equal; destruct (S i <=? i)%nat eqn:?; lia|]. split; [exact Wi|]. exists gi. auto. }
    set (s := (if (row <=? i)%nat then row else row - 1)%nat) in *.
    assert (Hs : (s < n - 1)%nat) by (unfold s; destruct (Nat.leb_spec row i); lia).
    assert (Erow : row = skip i s).
    { unfold skip. destruct (Nat.ltb_spec s i); unfold s in *; destruct (Nat.leb_spec row i); lia. }
    eapply wp_for_acc_n with (I := fun col '(si, sj) hj =>
       (let w := (if (col <=? j)%nat then col else col - 1)%nat in (si, sj) = (if (w =? n - 1)%nat then (Z.of_nat s + 1, 0) else (Z.of_nat s, Z.of_nat w)) /\
       wf hj /\ exists gj, abs hj = <[b := MatP ca ra gj]> (abs h) /\
       (forall y x, (y < s)%nat -> (x < n - 1)%nat -> gj y x = Some (minor i j f y x)) /\
       (forall x, (x < w)%nat -> gj s x = Some (minor i j f s x)) /\
       (forall y x, ~ ((y < s)%nat /\ (x < n - 1)%nat) -> ~ (y = s /\ (x < w)%nat) -> gj y x = gb y x))).
    + cbv zeta. change (0 <=? j)%nat with true. cbv iota. split; [destruct (Nat.eqb_spec 0 (n - 1)); [lia|reflexivity]|]. split; [exact Wi|]. exists gi. split; [exact Ai|].
      split; [intros; apply Gi; lia|]. split; [lia|]. intros; apply Ki; lia.
    + clear hi Wi Ai gi Gi Ki. intros col [si sj] hi Hcol (E & Wi & gi & Ai & G1 & G2 & K).
      replace (Z.of_nat row =? Z.of_nat i) with false by lia. cbn [negb andb].
      set (w := (if (col <=? j)%nat then col else col - 1)%nat) in *.
      destruct (Z.eqb_spec (Z.of_nat col) (Z.of_nat j)) as [Ec|Ec]; cbn [negb].
      * assert (col = j) as -> by lia. apply wp_ret. cbv zeta.
        assert (Ew : (if (S j <=? j)%nat then S j else S j - 1)%nat = w) by (unfold w; destruct (Nat.leb_spec (S j) j), (Nat.leb_spec j j); lia).
        rewrite Ew. split; [exact E|]. split; [exact Wi|]. exists gi. auto.
      * assert (Hw : (w < n - 1)%nat /\ col = skip j w).
        { unfold w, skip. destruct (Nat.leb_spec col j); split; try lia.
          - destruct (Nat.ltb_spec col j); lia.
          - destruct (Nat.ltb_spec (col - 1) j); lia. }
        destruct Hw as [Hw Ecol]. destruct (Nat.eqb_spec w (n - 1)); [lia|]. injection E as -> ->.
        wbind. eapply wp_m_getP; [exact Wi|rewrite Ai, lookup_insert_ne by congruence; rewrite <- Mat_MatP; exact Ha|lia|lia|reflexivity|].
        wbind. eapply wp_m_setP; [exact Wi|rewrite Ai; apply lookup_insert|lia|lia|]. intros h' W' A'. rewrite Ai, insert_insert in A'.
        apply wp_ret.
        assert (Ew : (if (S col <=? j)%nat then S col else S col - 1)%nat = S w).
        { unfold w. destruct (Nat.leb_spec (S col) j), (Nat.leb_spec col j); lia. }
        cbv zeta. rewrite Ew.
        destruct (Z.eqb_spec (Z.of_nat w + 1) (Z.of_nat n - 1)) as [E1|E1];
        (split; [destruct (Nat.eqb_spec (S w) (n - 1)); [try lia; try reflexivity|try lia; f_equal; lia]|]; split; [exact W'|]; eexists; split; [exact A'|];
         split; [|split]);
        [ intros y x Hy Hx; unfold upd; rewrite decide_False by lia; apply G1; lia
        | intros x Hx; unfold upd; destruct (decide (s = s /\ x = w)) as [[_ ->]|]; [unfold minor; rewrite <- Erow, <- Ecol; reflexivity|apply G2; lia]
        | intros y x H1 H2; unfold upd; rewrite decide_False by lia; apply K; lia
        | intros y x Hy Hx; unfold upd; rewrite decide_False by lia; apply G1; lia
        | intros x Hx; unfold upd; destruct (decide (s = s /\ x = w)) as [[_ ->]|]; [unfold minor; rewrite <- Erow, <- Ecol; reflexivity|apply G2; lia]
        | intros y x H1 H2; unfold upd; rewrite decide_False by lia; apply K; lia ].
    + intros [si sj] hj (E & Wj & gj & Aj & G1 & G2 & K). revert E G2 K.
      replace (if (n <=? j)%nat then n else (n - 1)%nat) with (n - 1)%nat by (destruct (Nat.leb_spec n j); lia).
      rewrite Nat.eqb_refl. intros E G2 K. injection E as -> ->.
      split; [f_equal; unfold s; destruct (Nat.leb_spec row i), (Nat.leb_spec (S row) i); lia|]. split; [exact Wj|]. exists gj. split; [exact Aj|].
      split.
      * intros y x Hy Hx. destruct (Nat.eq_dec y s) as [->|]; [apply G2|apply G1]; lia.
      * intros y x Hn. apply K; lia.
  - intros [si sj] hj (E & Wj & gj & Aj & Gj & Kj). injection E as -> ->. apply wp_ret.
    assert (En : (if (n <=? i)%nat then n else n - 1)%nat = (n - 1)%nat) by (destruct (Nat.leb_spec n i); lia). rewrite En in Gj, Kj.
    eapply HQ; eauto.
    + intros y x Hy Hx. apply Gj; lia.
    + intros y x Hn. apply Kj; lia.
Qed.

Lemma wp_m_cofactor h a c r f (n i j : nat) (Q : loc -> heap F -> Prop) : wf h ->
  abs h !! a = Some (Mat c r f) -> (n <= c)%nat -> (n <= r)%nat -> (i < n)%nat -> (j < n)%nat ->
  (forall b gb h', wf h' -> abs h !! b = None -> abs h' = <[b := MatP c r gb]> (abs h) ->
     (forall y x, (y < n - 1)%nat -> (x < n - 1)%nat -> gb y x = Some (minor i j f y x)) -> Q b h') ->
  wp (m_cofactor a (Z.of_nat n) (Z.of_nat i) (Z.of_nat j)) h Q.
Proof.
  intros Hwf Ha Hc Hr Hi Hj HQ. unfold m_cofactor. wbind. apply wp_m_new; [exact Hwf|]. intros b h1 W1 N1 A1 _.
  assert (Hab : a <> b) by congruence. destruct (mat_len h a _ _ _ Hwf Ha) as [_ Hle].
  wbind. eapply wp_m_size; [rewrite A1, lookup_insert_ne by congruence; exact Ha|].
  wbind. eapply wp_m_resize; [exact W1|rewrite A1; apply lookup_insert|lia|]. intros h2 W2 A2 _. rewrite A1, insert_insert in A2.
  destruct (cells_MatP h2 b c r _ W2 ltac:(rewrite A2; apply lookup_insert)) as [g2 G2].
  wbind. eapply wp_cofactor_loop with (gb := g2); [exact Hab|exact Ha|exact Hc|exact Hr|exact Hi|exact Hj|exact W2| |].
  { rewrite <- (insert_id _ _ _ G2), A2, insert_insert. reflexivity. }
  intros gb h3 W3 A3 G3 _. apply wp_ret. eapply HQ; eauto.
Qed.

(** cofactor() of a matrix with more rows or columns than [n]: the written corner; the other cells are not initialised. *)
Lemma wp_m_cofactoro h a t x0 y0 cs c r f (n i j : nat) (Q : unit -> heap F -> Prop) : wf h -> t <> a ->
  abs h !! a = Some (Mat c r f) -> abs h !! t = Some (SMat x0 y0, cs) -> (n <= c)%nat -> (n <= r)%nat -> (i < n)%nat -> (j < n)%nat ->
  (forall gb h', wf h' -> abs h' = <[t := MatP c r gb]> (abs h) ->
     (forall y x, (y < n - 1)%nat -> (x < n - 1)%nat -> gb y x = Some (minor i j f y x)) -> Q tt h') ->
  wp (m_cofactoro a (Z.of_nat n) (Z.of_nat i) (Z.of_nat j) (Some t)) h Q.
Proof.
  intros Hwf Hta Ha Ht Hc Hr Hi Hj HQ. unfold m_cofactoro. destruct (mat_len h a _ _ _ Hwf Ha) as [_ Hle].
  wbind. eapply wp_m_size; [exact Ha|].
  wbind. eapply wp_m_resize_if; [exact Hwf|exact Ht|lia|]. intros h2 W2 A2 _.
  destruct (cells_MatP h2 t c r _ W2 ltac:(rewrite A2; apply lookup_insert)) as [g2 G2].
  eapply wp_cofactor_loop with (gb := g2); [|exact Ha|exact Hc|exact Hr|exact Hi|exact Hj|exact W2| |].
  { congruence. }
  { rewrite <- (insert_id _ _ _ G2), A2, insert_insert. reflexivity. }
  intros gb h3 W3 A3 G3 _. eapply HQ; eauto.
Qed.

(** ** adjoint *)
Lemma even_rem (k : nat) : (Z.rem (Z.of_nat k) 2 =? 0) = Nat.even k.
Proof.
  destruct (Nat.even k) eqn:E; [apply Nat.even_spec in E as [m ->]|].
  - lia.
  - assert (O : Nat.odd k = true) by (unfold Nat.odd; rewrite E; reflexivity). apply Nat.odd_spec in O as [m ->]. lia.
Qed.

Lemma wp_adjoint_body h a b n f g0 (Q : unit -> heap F -> Prop) : wf h -> a <> b ->
  abs h !! a = Some (Mat n n f) -> abs h !! b = Some (MatP n n g0) ->
  (forall h', wf h' -> abs h' = <[b := Mat n n (adjF n f)]> (abs h) -> Q tt h') ->
  wp (adjoint_body a b (Z.of_nat n, Z.of_nat n)) h Q.
Proof.
  intros Hwf Hab Ha Hb HQ. unfold adjoint_body. cbn [fst snd].
  destruct (Z.eqb_spec (Z.of_nat n) 1) as [E1|E1].
  { assert (n = 1%nat) as -> by lia. eapply (wp_m_setP _ _ _ _ _ 0 0); [exact Hwf|exact Hb|lia|lia|].
    intros h' W' A'. apply HQ; [exact W'|]. rewrite A', Mat_MatP. f_equal. }
  destruct (Z.eqb_spec (Z.of_nat n) 2) as [E2|E2].
  { assert (n = 2%nat) as -> by lia. clear E1 E2.
    assert (Ga : forall h' x, wf h' -> abs h' = <[b := x]> (abs h) -> abs h' !! a = Some (MatP 2 2 (fun i j => Some (f i j)))).
    { intros h' x _ A. rewrite A, lookup_insert_ne by congruence. rewrite <- Mat_MatP. exact Ha. }
    wbind. eapply (wp_m_getP _ _ _ _ _ 1 1); [exact Hwf|rewrite Mat_MatP in Ha; exact Ha|lia|lia|reflexivity|].
    wbind. eapply (wp_m_setP _ _ _ _ _ 0 0); [exact Hwf|exact Hb|lia|lia|]. intros h1 W1 A1.
    wbind. eapply (wp_m_getP _ _ _ _ _ 0 0); [exact W1|eapply Ga; eauto|lia|lia|reflexivity|].
    wbind. eapply (wp_m_setP _ _ _ _ _ 1 1); [exact W1|rewrite A1; apply lookup_insert|lia|lia|]. intros h2 W2 A2. rewrite A1, insert_insert in A2.
    wbind. eapply (wp_m_getP _ _ _ _ _ 0 1); [exact W2|eapply Ga; eauto|lia|lia|reflexivity|].
    wbind. eapply (wp_m_setP _ _ _ _ _ 0 1); [exact W2|rewrite A2; apply lookup_insert|lia|lia|]. intros h3 W3 A3. rewrite A2, insert_insert in A3.
    wbind. eapply (wp_m_getP _ _ _ _ _ 1 0); [exact W3|eapply Ga; eauto|lia|lia|reflexivity|].
    eapply (wp_m_setP _ _ _ _ _ 1 0); [exact W3|rewrite A3; apply lookup_insert|lia|lia|]. intros h4 W4 A4. rewrite A3, insert_insert in A4.
    apply HQ; [exact W4|]. rewrite A4, Mat_MatP. f_equal. }
  assert (Hadj : forall i j, adjF n f j i = s_mul (if Nat.even (i + j) then s_one else s_opp s_one) (detF (n - 1) (minor i j f))).
  { destruct n as [|[|[|m]]]; try lia; reflexivity. }
  destruct (mat_len h a _ _ _ Hwf Ha) as [_ Hle].
  apply wp_for_n with (I := fun i hi => wf hi /\ exists gi, abs hi = <[b := MatP n n gi]> (abs h) /\
     forall y x, (x < i)%nat -> (y < n)%nat -> gi y x = Some (adjF n f y x)).
  - split; [exact Hwf|]. exists g0. rewrite insert_id by exact Hb. split; [reflexivity|]. intros; lia.
  - intros i hi Hi (Wi & gi & Ai & Gi).
    apply wp_for_n with (I := fun j hj => wf hj /\ exists gj, abs hj = <[b := MatP n n gj]> (abs h) /\
      (forall y x, (x < i)%nat -> (y < n)%nat -> gj y x = Some (adjF n f y x)) /\
      (forall y, (y < j)%nat -> gj y i = Some (adjF n f y i))).
    + split; [exact Wi|]. exists gi. split; [exact Ai|]. split; [exact Gi|]. intros; lia.
    + clear hi Wi gi Ai Gi. intros j hi Hj (Wi & gi & Ai & Gi & Gj).
      wbind. eapply wp_m_cofactor with (i := i) (j := j) (n := n); [exact Wi|rewrite Ai, lookup_insert_ne by congruence; exact Ha|lia|lia|lia|lia|].
      intros co gc h1 W1 N1 A1 G1. assert (Hcb : co <> b) by (intros ->; rewrite Ai, lookup_insert in N1; discriminate).
      wbind. replace (Z.of_nat n - 1) with (Z.of_nat (n - 1)) by lia.
      eapply wp_m_det_d; [exact W1|rewrite A1; apply lookup_insert|lia|lia|exact G1|]. intros h2 W2 A2. rewrite A1 in A2.
      wbind. eapply wp_m_setP; [exact W2|rewrite A2, lookup_insert_ne, Ai by congruence; apply lookup_insert|lia|lia|].
      intros h3 W3 A3. eapply wp_del; [exact W3|rewrite A3, A2, lookup_insert_ne by congruence; apply lookup_insert|]. intros h4 W4 A4 _.
      split; [exact W4|]. eexists. split.
      { rewrite A4, A3, A2. rewrite insert_commute by congruence. rewrite delete_insert.
        - rewrite Ai, insert_insert. reflexivity.
        - rewrite lookup_insert_ne by congruence. exact N1. }
      split.
      * intros y x Hx Hy. unfold upd. rewrite decide_False by lia. apply Gi; lia.
      * intros y Hy. unfold upd. destruct (decide (y = j /\ i = i)) as [[-> _]|].
        -- rewrite Hadj. rewrite <- Nat2Z.inj_add, even_rem. reflexivity.
        -- apply Gj; lia.
    + intros hj (Wj & gj & Aj & G1 & G2). split; [exact Wj|]. exists gj. split; [exact Aj|]. intros y x Hx Hy.
      destruct (Nat.eq_dec x i) as [->|]; [apply G2|apply G1]; lia.
  - intros hj (Wj & gj & Aj & Gj). apply HQ; [exact Wj|]. rewrite Aj, Mat_MatP. f_equal. apply MatP_ext. intros i j Hi Hj. apply Gj; lia.
Qed.

Lemma wp_m_adjoint h a n f (Q : option loc -> heap F -> Prop) : wf h -> abs h !! a = Some (Mat n n f) ->
  (forall d h', wf h' -> abs h !! d = None -> abs h' = <[d := Mat n n (adjF n f)]> (abs h) -> Q (Some d) h') -> wp (m_adjoint a) h Q.
Proof.
  intros Hwf Ha HQ. unfold m_adjoint. wbind. eapply wp_m_size; [exact Ha|]. cbn [fst snd]. rewrite Z.eqb_refl. cbn [negb].
  destruct (mat_len h a _ _ _ Hwf Ha) as [_ Hle].
  wbind. apply wp_m_new; [exact Hwf|]. intros d h1 W1 N1 A1 _. assert (a <> d) as Hne by congruence.
  wbind. eapply wp_m_resize; [exact W1|rewrite A1; apply lookup_insert|lia|]. intros h2 W2 A2 _. rewrite A1, insert_insert in A2.
  destruct (cells_MatP h2 d n n _ W2 ltac:(rewrite A2; apply lookup_insert)) as [g2 G2].
  wbind. eapply wp_adjoint_body; [exact W2|exact Hne|rewrite A2, lookup_insert_ne by congruence; exact Ha|exact G2|].
  intros h3 W3 A3. apply wp_ret. apply HQ; auto. rewrite A3, A2, insert_insert. reflexivity.
Qed.
Lemma wp_m_adjointo h a t x0 y0 cs n f (Q : unit -> heap F -> Prop) : wf h -> t <> a -> abs h !! a = Some (Mat n n f) -> abs h !! t = Some (SMat x0 y0, cs) ->
  (forall h', wf h' -> abs h' = <[t := Mat n n (adjF n f)]> (abs h) -> Q tt h') -> wp (m_adjointo a (Some t)) h Q.
Proof.
  intros Hwf Hne Ha Ht HQ. unfold m_adjointo. wbind. eapply wp_m_size; [exact Ha|]. cbn [fst snd]. rewrite Z.eqb_refl. cbn [negb].
  destruct (mat_len h a _ _ _ Hwf Ha) as [_ Hle].
  wbind. eapply wp_m_resize_if; [exact Hwf|exact Ht|lia|]. intros h2 W2 A2 _.
  destruct (cells_MatP h2 t n n _ W2 ltac:(rewrite A2; apply lookup_insert)) as [g2 G2].
  eapply wp_adjoint_body; [exact W2|congruence|rewrite A2, lookup_insert_ne by congruence; exact Ha|exact G2|].
  intros h3 W3 A3. apply HQ; auto. rewrite A3, A2, insert_insert. reflexivity.
Qed.

(** ** inverse, solve, powers, pinverse *)
Definition inv_entry (n : nat) f : nat -> nat -> F := fun i j => s_mul (adjF n f i j) (s_div s_one (detF n f)).

Lemma wp_m_inverse h a n f (Q : loc -> heap F -> Prop) : wf h -> abs h !! a = Some (Mat n n f) ->
  (forall d h', wf h' -> abs h !! d = None -> abs h' = <[d := Mat n n (inv_entry n f)]> (abs h) -> Q d h') -> wp (m_inverse a) h Q.
Proof.
  intros Hwf Ha HQ. unfold m_inverse. wbind. eapply wp_m_adjoint; [exact Hwf|exact Ha|]. intros d h1 W1 N1 A1.
  wbind. apply wp_ret. assert (a <> d) as Hne by congruence.
  wbind. eapply wp_m_det; [exact W1|rewrite A1, lookup_insert_ne by congruence; exact Ha|]. intros h2 W2 A2.
  wbind. unfold m_scalar_multiplyn. eapply wp_m_mapn_dup; [exact W2|rewrite A2, A1; apply lookup_insert|]. intros o h3 W3 N3 A3.
  assert (o <> d) as Hod by (intros ->; rewrite A2, A1, lookup_insert in N3; discriminate).
  wbind. eapply wp_del; [exact W3|rewrite A3, A2, A1, lookup_insert_ne by congruence; apply lookup_insert|]. intros h4 W4 A4 _.
  apply wp_ret. apply HQ; [exact W4| |].
  - rewrite A2, A1, lookup_insert_ne in N3 by congruence. exact N3.
  - rewrite A4, A3, A2, A1, insert_commute, delete_insert by (try congruence; rewrite lookup_insert_ne by congruence; exact N1).
    f_equal. unfold Mat. f_equal. rewrite mlist_fmap. reflexivity.
Qed.
Lemma wp_m_inverseo h a t x0 y0 cs n f (Q : unit -> heap F -> Prop) : wf h -> abs h !! a = Some (Mat n n f) -> abs h !! t = Some (SMat x0 y0, cs) ->
  (forall h', wf h' -> abs h' = <[t := Mat n n (inv_entry n f)]> (abs h) -> Q tt h') -> wp (m_inverseo a (Some t)) h Q.
Proof.
  intros Hwf Ha Ht HQ. unfold m_inverseo. wbind. eapply wp_m_inverse; [exact Hwf|exact Ha|]. intros d h1 W1 N1 A1.
  assert (t <> d) as Hne by congruence.
  wbind. eapply wp_m_set_from_mat; [exact W1|rewrite A1, lookup_insert_ne by congruence; exact Ht|rewrite A1; apply lookup_insert|].
  intros h2 W2 A2. eapply wp_del; [exact W2|rewrite A2, A1, lookup_insert_ne by congruence; apply lookup_insert|]. intros h3 W3 A3 _.
  apply HQ; [exact W3|]. rewrite A3, A2, A1, insert_commute, delete_insert by (try congruence; rewrite lookup_insert_ne by congruence; exact N1).
  reflexivity.
Qed.

Lemma wp_m_solve h a b n f (xs : list F) (Q : option loc -> heap F -> Prop) : wf h -> abs h !! a = Some (Mat n n f) -> abs h !! b = Some (AVec xs) -> (length xs <= n)%nat ->
  Z.of_nat n <= int_max ->
  (forall d h', wf h' -> abs h !! d = None -> abs h' = <[d := AVec (vlist n (mv_row (inv_entry n f) xs (length xs)))]> (abs h) -> Q (Some d) h') ->
  wp (m_solve a (Some b)) h Q.
Proof.
  intros Hwf Ha Hb Hlen Hn HQ. unfold m_solve. wbind. eapply wp_m_inverse; [exact Hwf|exact Ha|]. intros i h1 W1 N1 A1.
  assert (b <> i) as Hne by congruence.
  wbind. eapply wp_m_mult_vec; [exact W1|rewrite A1; apply lookup_insert|rewrite A1, lookup_insert_ne by congruence; exact Hb|exact Hlen|exact Hn|].
  intros d h2 W2 N2 A2. assert (d <> i) as Hdi by (intros ->; rewrite A1, lookup_insert in N2; discriminate).
  wbind. eapply wp_del; [exact W2|rewrite A2, A1, lookup_insert_ne by congruence; apply lookup_insert|]. intros h3 W3 A3 _.
  apply wp_ret. apply HQ; [exact W3|rewrite A1, lookup_insert_ne in N2 by congruence; exact N2|].
  rewrite A3, A2, A1, insert_commute, delete_insert by (try congruence; rewrite lookup_insert_ne by congruence; exact N1). reflexivity.
Qed.

(** ((1 A) A) ... A *)
Fixpoint mat_pow (n : nat) f (k : nat) : nat -> nat -> F :=
  match k with O => mat_id | S k' => mat_mul n (mat_pow n f k') f end.

Lemma wp_pow_loop h a b n f k (Q : unit -> heap F -> Prop) : wf h -> a <> b -> abs h !! a = Some (Mat n n f) -> abs h !! b = Some (Mat n n mat_id) ->
  (forall h', wf h' -> abs h' = <[b := Mat n n (mat_pow n f k)]> (abs h) -> Q tt h') ->
  wp (for_ 0 (Z.of_nat k) (fun _ => m_mult b (Some a))) h Q.
Proof.
  intros Hwf Hab Ha Hb HQ. destruct (mat_len h a _ _ _ Hwf Ha) as [_ Hle].
  apply wp_for_n with (I := fun i hi => wf hi /\ abs hi = <[b := Mat n n (mat_pow n f i)]> (abs h)).
  - split; [exact Hwf|]. rewrite insert_id; auto.
  - intros i hi Hi [Wi Ai]. eapply wp_m_mult; [exact Wi|exact Hab|rewrite Ai; apply lookup_insert|rewrite Ai, lookup_insert_ne by congruence; exact Ha|lia|].
    intros h' W' A'. split; [exact W'|]. rewrite A', Ai, insert_insert. reflexivity.
  - intros hi [Wi Ai]. apply HQ; auto.
Qed.

Lemma wp_m_powern h a n f (k : Z) (Q : loc -> heap F -> Prop) : wf h -> abs h !! a = Some (Mat n n f) ->
  (forall d h', wf h' -> abs h !! d = None ->
     abs h' = <[d := Mat n n (mat_pow n (if k <? 0 then inv_entry n f else f) (Z.abs_nat k))]> (abs h) -> Q d h') -> wp (m_powern a k) h Q.
Proof.
  intros Hwf Ha HQ. destruct (mat_len h a _ _ _ Hwf Ha) as [_ Hle]. unfold m_powern. wbind. eapply wp_m_size; [exact Ha|]. cbn [snd].
  destruct (Z.eqb_spec k 0) as [->|Hk].
  { eapply wp_m_identity_mat; [exact Hwf|lia|]. intros d h1 W1 N1 A1. apply HQ; auto. }
  wbind. eapply wp_m_identity_mat; [exact Hwf|lia|]. intros b h1 W1 N1 A1. assert (a <> b) as Hab by congruence.
  replace (Z.abs k) with (Z.of_nat (Z.abs_nat k)) by lia.
  destruct (k <? 0) eqn:Ek.
  - wbind. eapply wp_m_inverse; [exact W1|rewrite A1, lookup_insert_ne by congruence; exact Ha|]. intros d h2 W2 N2 A2.
    assert (d <> b) as Hdb by (intros ->; rewrite A1, lookup_insert in N2; discriminate).
    wbind. eapply wp_pow_loop; [exact W2|exact Hdb|rewrite A2; apply lookup_insert|rewrite A2, A1, lookup_insert_ne by congruence; apply lookup_insert|].
    intros h3 W3 A3. wbind. eapply wp_del; [exact W3|rewrite A3, A2, lookup_insert_ne by congruence; apply lookup_insert|]. intros h4 W4 A4 _.
    apply wp_ret. apply HQ; auto. rewrite A4, A3, A2, A1. rewrite (insert_commute _ d b), insert_insert by congruence.
    rewrite (insert_commute _ b d), delete_insert by (try congruence; rewrite lookup_insert_ne by congruence; rewrite A1, lookup_insert_ne in N2 by congruence; exact N2).
    reflexivity.
  - wbind. eapply wp_pow_loop; [exact W1|exact Hab|rewrite A1, lookup_insert_ne by congruence; exact Ha|rewrite A1; apply lookup_insert|].
    intros h3 W3 A3. apply wp_ret. apply HQ; auto. rewrite A3, A1, insert_insert. reflexivity.
Qed.

Lemma wp_m_pinverse h a n f (Q : option loc -> heap F -> Prop) : wf h -> abs h !! a = Some (Mat n n f) ->
  (forall d h', wf h' -> abs h !! d = None ->
     abs h' = <[d := Mat n n (mat_mul n (inv_entry n (mat_tr (mat_mul n f f))) (mat_tr f))]> (abs h) -> Q (Some d) h') -> wp (m_pinverse a) h Q.
Proof.
  intros Hwf Ha HQ. destruct (mat_len h a _ _ _ Hwf Ha) as [_ Hle]. unfold m_pinverse.
  wbind. eapply wp_m_multn; [exact Hwf|exact Ha|exact Ha|lia|]. intros aa h1 W1 N1 A1. assert (a <> aa) by congruence.
  wbind. apply wp_ret.
  wbind. eapply wp_m_transposen; [exact W1|rewrite A1; apply lookup_insert|]. intros at1 h2 W2 N2 A2.
  assert (at1 <> aa) by (intros ->; rewrite A1, lookup_insert in N2; discriminate).
  assert (at1 <> a) by (intros ->; rewrite A1, lookup_insert_ne in N2 by congruence; congruence).
  wbind. eapply wp_m_inverse; [exact W2|rewrite A2; apply lookup_insert|]. intros iv h3 W3 N3 A3.
  assert (iv <> at1) by (intros ->; rewrite A2, lookup_insert in N3; discriminate).
  rewrite A2, lookup_insert_ne in N3 by congruence.
  assert (iv <> aa) by (intros ->; rewrite A1, lookup_insert in N3; discriminate).
  assert (iv <> a) by (intros ->; rewrite A1, lookup_insert_ne in N3 by congruence; congruence).
  wbind. eapply wp_m_transposen; [exact W3|rewrite A3, A2, A1, !lookup_insert_ne by congruence; exact Ha|]. intros at2 h4 W4 N4 A4.
  assert (at2 <> iv) by (intros ->; rewrite A3, lookup_insert in N4; discriminate).
  rewrite A3, lookup_insert_ne in N4 by congruence.
  assert (at2 <> at1) by (intros ->; rewrite A2, lookup_insert in N4; discriminate).
  rewrite A2, lookup_insert_ne in N4 by congruence.
  assert (at2 <> aa) by (intros ->; rewrite A1, lookup_insert in N4; discriminate).
  wbind. eapply wp_m_multn; [exact W4|rewrite A4, lookup_insert_ne, A3 by congruence; apply lookup_insert|rewrite A4; apply lookup_insert|lia|].
  intros o h5 W5 N5 A5.
  assert (o <> at2) by (intros ->; rewrite A4, lookup_insert in N5; discriminate). rewrite A4, lookup_insert_ne in N5 by congruence.
  assert (o <> iv) by (intros ->; rewrite A3, lookup_insert in N5; discriminate). rewrite A3, lookup_insert_ne in N5 by congruence.
  assert (o <> at1) by (intros ->; rewrite A2, lookup_insert in N5; discriminate). rewrite A2, lookup_insert_ne in N5 by congruence.
  assert (o <> aa) by (intros ->; rewrite A1, lookup_insert in N5; discriminate). rewrite A1, lookup_insert_ne in N5 by congruence.
  rewrite A1, lookup_insert_ne in N2, N3, N4 by congruence.
  assert (E5 : abs h5 = <[o := Mat n n (mat_mul n (inv_entry n (mat_tr (mat_mul n f f))) (mat_tr f))]>
     (<[at2 := Mat n n (mat_tr f)]> (<[iv := Mat n n (inv_entry n (mat_tr (mat_mul n f f)))]> (<[at1 := Mat n n (mat_tr (mat_mul n f f))]>
       (<[aa := Mat n n (mat_mul n f f)]> (abs h)))))).
  { rewrite A5, A4, A3, A2, A1. reflexivity. }
  wbind. eapply wp_del; [exact W5|rewrite E5, !lookup_insert_ne by congruence; apply lookup_insert|]. intros h6 W6 A6 _.
  rewrite E5 in A6. rewrite !(delete_insert_ne _ aa) in A6 by congruence. rewrite delete_insert in A6 by exact N1.
  wbind. eapply wp_del; [exact W6|rewrite A6, !lookup_insert_ne by congruence; apply lookup_insert|]. intros h7 W7 A7 _.
  rewrite A6 in A7. rewrite !(delete_insert_ne _ at1) in A7 by congruence. rewrite delete_insert in A7 by exact N2.
  wbind. eapply wp_del; [exact W7|rewrite A7, !lookup_insert_ne by congruence; apply lookup_insert|]. intros h8 W8 A8 _.
  rewrite A7 in A8. rewrite !(delete_insert_ne _ iv) in A8 by congruence. rewrite delete_insert in A8 by exact N3.
  wbind. eapply wp_del; [exact W8|rewrite A8, !lookup_insert_ne by congruence; apply lookup_insert|]. intros h9 W9 A9 _.
  rewrite A8 in A9. rewrite !(delete_insert_ne _ at2) in A9 by congruence. rewrite delete_insert in A9 by exact N4.
  apply wp_ret. apply HQ; auto.
Qed.

End proofs.
