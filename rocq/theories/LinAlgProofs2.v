(** * inversenm, pinversenm, gram_matrix, linear_independence_checker: what they compute, for any arithmetic. *)
From Verif Require Import Base BaseProofs Vec VecSpec VecProofs VecProofs2 Mat MatSpec MatProofs MatProofs2 MatProofs3 MatProofs4 MatProofs5 DetCode DetProofs Frame Stat StatProofs Act ActProofs ActProofs2 Cost CostProofs Sym Svm LinAlg LinAlgProofs.
Section lp.
Context {F : Type} `{Scalar F} `{Libm F}.
Implicit Types (h : heap F) (f g : nat -> nat -> F).
Notation detF := (det_code s_zero s_add s_sub s_mul pow_sign).

Lemma wp_la_det h a n f (Q : F -> heap F -> Prop) : wf h -> abs h !! a = Some (Mat n n f) ->
  (forall h', wf h' -> abs h' = abs h -> Q (detF n f) h') -> wp (la_det (Some a) (Z.of_nat n)) h Q.
Proof. intros Hw Ha HQ. unfold la_det. rewrite Mat_MatP in Ha. eapply wp_m_detb; [lia|exact Hw|exact Ha|lia|lia|reflexivity|exact HQ]. Qed.
Lemma wp_la_inverse h a n f (Q : loc -> heap F -> Prop) : wf h -> abs h !! a = Some (Mat n n f) ->
  (forall d h', wf h' -> abs h !! d = None -> abs h' = <[d := Mat n n (inv_entry n f)]> (abs h) -> Q d h') -> wp (la_inverse (Some a)) h Q.
Proof.
  intros Hw Ha HQ. unfold la_inverse. wbind. apply wp_deref_Some. wbind. eapply wp_m_size; [exact Ha|]. cbn [snd].
  wbind. eapply wp_la_det; [exact Hw|exact Ha|]. intros h1 W1 A1. wbind. unfold la_adjoint. eapply wp_m_adjoint; [exact W1|rewrite A1; exact Ha|]. intros d h2 W2 N2 A2. rewrite A1 in N2, A2. assert (a <> d) by congruence.
  wbind. unfold la_scale. wbind. apply wp_deref_Some. unfold m_scalar_multiplyn. eapply wp_m_mapn_dup; [exact W2|rewrite A2; apply lookup_insert|]. new_as o h3 W3 N3 A3.
  wbind. cbn [drop_ref]. dele h4 W4 A4. apply wp_ret. apply HQ; [assumption|assumption|]. rewrite A4. f_equal. unfold Mat. f_equal. rewrite mlist_fmap. reflexivity.
Qed.
Lemma wp_la_pinverse h a r c f (Q : option loc -> heap F -> Prop) : wf h -> abs h !! a = Some (Mat c r f) -> Z.of_nat (c * c) <= int_max ->
  (forall d h', wf h' -> abs h !! d = None -> abs h' = <[d := Mat r c (mat_mul c (inv_entry c (mat_mul r (mat_tr f) f)) (mat_tr f))]> (abs h) -> Q (Some d) h') -> wp (la_pinverse (Some a)) h Q.
Proof.
  intros Hw Ha Hc HQ. destruct (amat_len h a _ _ _ Hw Ha) as [_ Hle]. unfold la_pinverse. wbind. eapply wp_la_transpose; [exact Hw|exact Ha|]. intros t h1 W1 N1 A1. assert (a <> t) by congruence.
  wbind. unfold la_matmult at 1. eapply wp_m_multn; [exact W1|look|look|lia|]. new_as g h2 W2 N2 A2. assert (a <> g) by congruence.
  wbind. eapply wp_la_inverse; [exact W2|look|]. new_as i h3 W3 N3 A3. assert (a <> i) by congruence.
  wbind. eapply wp_la_transpose; [exact W3|look|]. new_as s h4 W4 N4 A4. assert (a <> s) by congruence.
  wbind. unfold la_matmult at 1. eapply wp_m_multn; [exact W4|look|look|nia|]. new_as o h5 W5 N5 A5.
  wbind. cbn [drop_ref]. dele h6 W6 A6. wbind. cbn [drop_ref]. dele h7 W7 A7. wbind. dele h8 W8 A8. wbind. cbn [drop_ref]. dele h9 W9 A9.
  apply wp_ret. apply HQ; [assumption|assumption|]. rewrite A9. reflexivity.
Qed.
Lemma wp_la_gram h a r c f (Q : option loc -> heap F -> Prop) : wf h -> abs h !! a = Some (Mat c r f) -> Z.of_nat (c * c) <= int_max ->
  (forall d h', wf h' -> abs h !! d = None -> abs h' = <[d := Mat c c (mat_mul r (mat_tr f) f)]> (abs h) -> Q (Some d) h') -> wp (la_gram (Some a)) h Q.
Proof.
  intros Hw Ha Hc HQ. destruct (amat_len h a _ _ _ Hw Ha) as [_ Hle]. unfold la_gram. wbind. apply wp_deref_Some. wbind. eapply wp_m_transposen; [exact Hw|exact Ha|]. intros t h1 W1 N1 A1. assert (a <> t) by congruence.
  wbind. eapply wp_m_multn; [exact W1|look|look|lia|]. new_as g h2 W2 N2 A2. wbind. dele h3 W3 A3. apply wp_ret. apply HQ; assumption.
Qed.

(** ** det(d) with d larger than the matrix: element_get reports an error and yields 0 outside the matrix. *)
Definition pad (c r : nat) f : nat -> nat -> F := fun y x => if decide (y < r /\ x < c)%nat then f y x else s_zero.
Lemma wp_m_get_pad h l c r f (y x : nat) (Q : F -> heap F -> Prop) : wf h -> abs h !! l = Some (Mat c r f) -> Q (pad c r f y x) h -> wp (m_get l (Z.of_nat y) (Z.of_nat x)) h Q.
Proof.
  intros Hw Ha HQ. eapply wp_m_get; [exact Hw|exact Ha|]. unfold pad in HQ. rewrite !Nat2Z.id. destruct (decide (y < r /\ x < c)%nat); destruct (decide _); try lia; exact HQ.
Qed.
Lemma wp_detb_fill_pad h a b c r f d (i : nat) gb hi (Q : unit -> heap F -> Prop) : a <> b ->
  abs h !! a = Some (Mat c r f) -> (i < d)%nat -> wf hi -> abs hi = <[b := MatP d d gb]> (abs h) ->
  (forall gb' h', wf h' -> abs h' = <[b := MatP d d gb']> (abs h) ->
     (forall y x, (y < d - 1)%nat -> (x < d - 1)%nat -> gb' y x = Some (minor 0 i (pad c r f) y x)) -> Q tt h') ->
  wp (detb_fill a b (Z.of_nat d) (Z.of_nat i)) hi Q.
Proof.
  intros Hab Ha Hi Wi Ai HQ. unfold detb_fill. wbind.
  apply wp_for_acc with (I := fun j sub_i hj => sub_i = j - 1 /\ wf hj /\ exists gj, abs hj = <[b := MatP d d gj]> (abs h) /\
    forall y x, (Z.of_nat y < j - 1) -> (x < d - 1)%nat -> gj y x = Some (minor 0 i (pad c r f) y x)).
  - split; [lia|]. split; [exact Wi|]. exists gb. split; [exact Ai|]. intros; lia.
  - clear hi Wi Ai gb. intros j sub_i hi Hj (-> & Wi & gi & Ai & Gi). wbind.
    apply wp_for_acc with (I := fun k sub_j hj => sub_j = (if k <=? Z.of_nat i then k else k - 1) /\ wf hj /\
      exists gj, abs hj = <[b := MatP d d gj]> (abs h) /\
      (forall y x, (Z.of_nat y < j - 1) -> (x < d - 1)%nat -> gj y x = Some (minor 0 i (pad c r f) y x)) /\
      (forall y x, (Z.of_nat y = j - 1) -> (Z.of_nat x < sub_j) -> gj y x = Some (minor 0 i (pad c r f) y x))).
    + split; [destruct (Z.leb_spec 0 (Z.of_nat i)); lia|]. split; [exact Wi|]. exists gi. split; [exact Ai|]. split; [exact Gi|]. intros; lia.
    + clear hi Wi Ai gi Gi. intros k sub_j hi Hk (-> & Wi & gi & Ai & Gi & Gk).
      destruct (Z.eqb_spec k (Z.of_nat i)) as [->|Hne].
      * apply wp_ret. split; [destruct (Z.leb_spec (Z.of_nat i) (Z.of_nat i)), (Z.leb_spec (Z.of_nat i + 1) (Z.of_nat i)); lia|]. split; [exact Wi|]. exists gi. split; [exact Ai|]. split; [exact Gi|].
        exact Gk.
      * assert (exists jn, j = Z.of_nat (S jn)) as [jn ->] by (exists (Z.to_nat (j - 1)); lia).
        assert (exists kn, k = Z.of_nat kn) as [kn ->] by (exists (Z.to_nat k); lia).
        wbind. eapply wp_m_get_pad; [exact Wi|rewrite Ai, lookup_insert_ne by congruence; exact Ha|].
        set (sj := if Z.of_nat kn <=? Z.of_nat i then Z.of_nat kn else Z.of_nat kn - 1) in *.
        assert (exists sn, sj = Z.of_nat sn /\ (sn < d - 1)%nat /\ kn = skip i sn) as (sn & Es & Hs & Ek).
        { unfold sj, skip. destruct (Z.leb_spec (Z.of_nat kn) (Z.of_nat i)); [exists kn|exists (kn - 1)%nat];
          (split; [lia|]; split; [lia|]). - destruct (Nat.ltb_spec kn i); lia. - destruct (Nat.ltb_spec (kn - 1) i); lia. }
        replace (Z.of_nat (S jn) - 1) with (Z.of_nat jn) in * by lia. rewrite Es in *.
        wbind. eapply wp_m_setP; [exact Wi|rewrite Ai; apply lookup_insert|lia|lia|]. intros h' W' A'. apply wp_ret.
        split. { destruct (Z.leb_spec (Z.of_nat kn + 1) (Z.of_nat i)); unfold sj in Es; destruct (Z.leb_spec (Z.of_nat kn) (Z.of_nat i)); lia. }
        split; [exact W'|]. eexists. split; [rewrite A', Ai, insert_insert; reflexivity|].
        split.
        { intros y x Hy Hx. unfold upd. rewrite decide_False by lia. apply Gi; lia. }
        { intros y x Hy Hx. unfold upd. destruct (decide (y = jn /\ x = sn)) as [[-> ->]|Hn].
          - unfold minor. rewrite <- Ek. reflexivity.
          - apply Gk; lia. }
    + cbv beta. intros sj hk (-> & Wk & gk & Ak & Gk1 & Gk2). apply wp_ret. split; [lia|]. split; [exact Wk|].
      exists gk. split; [exact Ak|]. intros y x Hy Hx. destruct (Z.eq_dec (Z.of_nat y) (j - 1)) as [E|E].
      * apply Gk2; [exact E|]. destruct (Z.leb_spec (Z.max 0 (Z.of_nat d)) (Z.of_nat i)); lia.
      * apply Gk1; lia.
  - cbv beta. intros si hj (_ & Wj & gj & Aj & Gj). apply wp_ret. eapply HQ; eauto. intros y x Hy Hx. apply Gj; lia.
Qed.
Lemma wp_m_detb_pad d h a c r f (Q : F -> heap F -> Prop) : wf h -> abs h !! a = Some (Mat c r f) -> Z.of_nat (d * d) <= int_max ->
  (forall h', wf h' -> abs h' = abs h -> Q (detF d (pad c r f)) h') -> wp (m_detb (S d) a (Z.of_nat d)) h Q.
Proof.
  intros Hwf Ha Hdd HQ. cbn [m_detb]. destruct (Z.eqb_spec (Z.of_nat d) 2) as [E2|E2].
  - assert (d = 2%nat) as -> by lia.
    wbind. eapply (wp_m_get_pad _ _ _ _ _ 0 0); [exact Hwf|exact Ha|].
    wbind. eapply (wp_m_get_pad _ _ _ _ _ 1 1); [exact Hwf|exact Ha|].
    wbind. eapply (wp_m_get_pad _ _ _ _ _ 0 1); [exact Hwf|exact Ha|].
    wbind. eapply (wp_m_get_pad _ _ _ _ _ 1 0); [exact Hwf|exact Ha|].
    apply wp_ret. apply HQ; auto.
  - wbind. apply wp_m_new; [exact Hwf|]. intros b h1 W1 N1 A1 _.
    assert (Hab : a <> b) by congruence.
    wbind. eapply wp_m_resize; [exact W1|rewrite A1; apply lookup_insert|lia|]. intros h2 W2 A2 _.
    rewrite A1, insert_insert in A2.
    wbind. eapply wp_m_fill_mat with (c := d) (r := d); [exact W2|rewrite A2; apply lookup_insert|]. intros h3 W3 _ A3.
    rewrite A2, insert_insert in A3.
    wbind. apply wp_for_acc_n with (I := fun i deter hi => wf hi /\ (exists gi, abs hi = <[b := MatP d d gi]> (abs h)) /\
       deter = lsum i (fun i => s_mul (s_mul (pow_sign i) (pad c r f 0%nat i)) (detF (d - 1) (minor 0 i (pad c r f))))).
    + split; [exact W3|]. split; [|reflexivity]. eexists. rewrite A3, Mat_MatP. reflexivity.
    + intros i deter hi Hi (Wi & (gi & Ai) & ->).
      assert (WF : wp (detb_fill a b (Z.of_nat d) (Z.of_nat i)) hi (fun _ h' => wf h' /\ exists gb', abs h' = <[b := MatP d d gb']> (abs h) /\
          forall y x, (y < d - 1)%nat -> (x < d - 1)%nat -> gb' y x = Some (minor 0 i (pad c r f) y x))).
      { eapply wp_detb_fill_pad; eauto 10. }
      unfold detb_fill in WF. apply wp_bind_inv in WF. apply wp_bind. eapply wp_mono; [exact WF|].
      cbv beta. clear hi Wi gi Ai WF. intros _ hi (Wi & gi & Ai & Gi).
      wbind. eapply (wp_m_get_pad _ _ _ _ _ 0 i); [exact Wi|rewrite Ai, lookup_insert_ne by congruence; exact Ha|].
      wbind. eapply wp_m_size; [rewrite Ai; apply lookup_insert|].
      replace (Z.of_nat d - 1 =? -1) with false by lia. replace (Z.of_nat d - 1) with (Z.of_nat (d - 1)) by lia.
      wbind. eapply wp_m_detb with (f := minor 0 i (pad c r f)); [lia|exact Wi|rewrite Ai; apply lookup_insert|lia|lia|exact Gi|].
      intros h' W' A'. apply wp_ret. split; [exact W'|]. split; [exists gi; congruence|]. rewrite lsum_S. reflexivity.
    + intros deter h4 (W4 & (g4 & A4) & ->).
      wbind. eapply wp_del; [exact W4|rewrite A4; apply lookup_insert|]. intros h5 W5 A5 _. apply wp_ret.
      assert (A : abs h5 = abs h) by (rewrite A5, A4, delete_insert; auto).
      destruct d as [|d']; [apply (HQ h5 W5 A)|].
      pose proof (HQ h5 W5 A) as HQ'. cbn [det_code] in HQ'. destruct (Nat.eqb_spec d' 1); [lia|].
      replace (S d' - 1)%nat with d' by lia. rewrite fsum_lsum in HQ'. exact HQ'.
Qed.
Lemma wp_la_independent h a r c f (Q : bool -> heap F -> Prop) : wf h -> abs h !! a = Some (Mat c r f) -> Z.of_nat (c * c) <= int_max -> Z.of_nat (r * r) <= int_max ->
  (forall h', wf h' -> abs h' = abs h -> Q (negb (s_eq (detF r (pad c c (mat_mul r (mat_tr f) f))) s_zero)) h') -> wp (la_independent (Some a)) h Q.
Proof.
  intros Hw Ha Hc Hr HQ. unfold la_independent. wbind. eapply wp_la_gram; [exact Hw|exact Ha|exact Hc|]. intros g h1 W1 N1 A1. assert (a <> g) by congruence.
  wbind. apply wp_deref_Some. wbind. apply wp_deref_Some. wbind. eapply wp_m_size; [look|]. cbn [snd].
  wbind. unfold m_det. wbind. eapply wp_m_size; [look|]. replace (Z.of_nat r =? -1) with false by slia. rewrite Nat2Z.id.
  eapply wp_m_detb_pad; [exact W1|look|exact Hr|]. intros h2 W2 A2. rewrite A1 in A2. wbind. dele h3 W3 A3. apply wp_ret. destruct (s_eq _ _) eqn:E; apply HQ in A3; try exact W3; exact A3.
Qed.

Lemma wp_la_solve h a b n f (xs : list F) (Q : option loc -> heap F -> Prop) : wf h -> abs h !! a = Some (Mat n n f) -> abs h !! b = Some (AVec xs) -> (length xs <= n)%nat -> Z.of_nat n <= int_max ->
  (forall d h', wf h' -> abs h !! d = None -> abs h' = <[d := AVec (vlist n (mv_row (inv_entry n f) xs (length xs)))]> (abs h) -> Q (Some d) h') -> wp (la_solve (Some a) (Some b)) h Q.
Proof. intros Hw Ha Hb Hl Hn HQ. unfold la_solve. wbind. apply wp_deref_Some. eapply wp_m_solve; eauto. Qed.
(** ** covnm *)
Lemma wp_la_cov h a c r rows (Q : loc -> heap F -> Prop) : wf h -> abs h !! a = Some (Rows c rows) -> width c rows -> length rows = r -> (c <= r)%nat ->
  (forall d h', wf h' -> abs h !! d = None -> abs h' = <[d := Mat c r (fun i j => f_cov (nth i rows []) (nth j rows []))]> (abs h) -> Q d h') -> wp (la_cov (Some a)) h Q.
Proof.
  intros Hw Ha Hwd Hr Hcr HQ. destruct (amat_len h a _ _ _ Hw Ha) as [_ Hle]. rewrite Hr in Hle. assert (Hc : Z.of_nat c <= int_max) by (destruct (decide (c = 0)%nat); [unfold int_max; lia|nia]).
  unfold la_cov. wbind. apply wp_m_new; [exact Hw|]. intros o h1 W1 N1 A1 _. assert (a <> o) by congruence.
  wbind. apply wp_deref_Some. wbind. eapply wp_m_size; [look|]. cbn [fst snd]. rewrite Hr.
  wbind. eapply wp_m_resize; [exact W1|rewrite A1; apply lookup_insert|nia|]. intros h2 W2 A2 _. rewrite A1, insert_insert in A2.
  wbind. apply wp_v_new; [exact W2|]. intros ri h3 W3 N3 A3 _. rewrite A2 in N3, A3. split_none N3.
  wbind. eapply wp_v_resize; [exact W3|rewrite A3; apply lookup_insert|lia|]. intros h4 W4 A4 _. rewrite A3, insert_insert in A4.
  wbind. apply wp_v_new; [exact W4|]. intros rj h5 W5 N5 A5 _. rewrite A4 in N5, A5. split_none N5.
  wbind. eapply wp_v_resize; [exact W5|rewrite A5; apply lookup_insert|lia|]. intros h6 W6 A6 _. rewrite A5, insert_insert in A6. clear A5 A4 A3 A2.
  assert (a <> ri) by congruence. assert (a <> rj) by congruence.
  destruct (cells_MatP h6 o c r _ W6 ltac:(rewrite A6, !lookup_insert_ne by congruence; apply lookup_insert)) as [g6 G6].
  set (I := fun (done : nat -> nat -> Prop) h' => wf h' /\ exists n1 c1 n2 c2 (g : nat -> nat -> cell F), abs h' = <[rj := (SVec n2, c2)]> (<[ri := (SVec n1, c1)]> (<[o := MatP c r g]> (abs h))) /\
     forall y x, (y < r)%nat -> (x < c)%nat -> done y x -> g y x = Some (f_cov (nth y rows []) (nth x rows []))).
  wbind. apply wp_for_n with (I := fun i h' => I (fun y _ => (y < i)%nat) h').
  - split; [exact W6|]. exists (Z.of_nat c), (list.resize (Z.to_nat (Z.of_nat c)) None (Some <$> [])), (Z.of_nat c), (list.resize (Z.to_nat (Z.of_nat c)) None (Some <$> [])), g6. split; [|intros; lia].
    assert (E6 : abs h6 !! o = Some (MatP c r g6)) by exact G6. rewrite A6, !lookup_insert_ne, lookup_insert in E6 by congruence. injection E6 as E6a. rewrite A6. unfold MatP. rewrite <- E6a. reflexivity.
  - clear h6 W6 A6 g6 G6. intros i h6 Hi (W6 & n1 & c1 & n2 & c2 & g & A6 & D6).
    destruct (lookup_lt_is_Some_2 rows i ltac:(lia)) as [rowi Ei].
    wbind. eapply wp_m_row_get_into with (row := rowi); [exact W6|look|exact Hwd|look|lia|rewrite Nat2Z.id; exact Ei|exact Hc|]. intros h7 W7 A7 _.
    apply wp_for_n with (I := fun j h' => wf h' /\ exists n2 c2 (g : nat -> nat -> cell F), abs h' = <[rj := (SVec n2, c2)]> (<[ri := AVec rowi]> (<[o := MatP c r g]> (abs h))) /\
      forall y x, (y < r)%nat -> (x < c)%nat -> (y < i \/ y = i /\ x < j)%nat -> g y x = Some (f_cov (nth y rows []) (nth x rows []))).
    + split; [exact W7|]. exists n2, c2, g. split; [rewrite A7, A6; mapeq|]. intros y x Hy Hx Hd. apply D6; lia.
    + clear h6 W6 A6 h7 W7 A7 g D6 n2 c2. intros j h6 Hj (W6 & n2 & c2 & g & A6 & D6).
      destruct (lookup_lt_is_Some_2 rows j ltac:(lia)) as [rowj Ej].
      wbind. eapply wp_m_row_get_into with (row := rowj); [exact W6|look|exact Hwd|look|lia|rewrite Nat2Z.id; exact Ej|exact Hc|]. intros h7 W7 A7 _.
      assert (Li : length rowi = c) by (eapply Forall_lookup_1 in Hwd; [|exact Ei]; exact Hwd). assert (Lj : length rowj = c) by (eapply Forall_lookup_1 in Hwd; [|exact Ej]; exact Hwd).
      wbind. unfold wp at 1. rewrite (st_covariance_eq h7 ri rj rowi rowj W7); [|rewrite A7, A6, !lookup_insert_ne by congruence; apply lookup_insert|rewrite A7; apply lookup_insert|congruence].
      eapply wp_m_setP; [exact W7|rewrite A7, A6, !lookup_insert_ne by congruence; apply lookup_insert|lia|lia|]. intros h8 W8 A8.
      split; [exact W8|]. exists (Z.of_nat (length rowj)), (Some <$> rowj). eexists. split; [rewrite A8, A7, A6; change (SVec (Z.of_nat (length rowj)), Some <$> rowj) with (AVec rowj); mapeq|].
      intros y x Hy Hx Hd. unfold upd. destruct (decide (y = i /\ x = j)) as [[-> ->]|Hne].
      * rewrite (nth_lookup_Some _ _ _ _ Ei), (nth_lookup_Some _ _ _ _ Ej). reflexivity.
      * apply D6; lia.
    + intros h8 (W8 & n3 & c3 & g8 & A8 & D8). split; [exact W8|]. exists (Z.of_nat (length rowi)), (Some <$> rowi), n3, c3, g8. split; [exact A8|]. intros y x Hy Hx Hd. apply D8; lia.
  - clear h6 W6 A6 g6 G6. intros h6 (W6 & n1 & c1 & n2 & c2 & g & A6 & D6).
    assert (EM : MatP c r g = Mat c r (fun i j => f_cov (nth i rows []) (nth j rows []))) by (rewrite Mat_MatP; apply MatP_ext; intros y x Hy Hx; apply D6; lia).
    rewrite EM in A6. wbind. dele h7 W7 A7. wbind. dele h8 W8 A8. apply wp_ret. apply HQ; assumption.
Qed.
End lp.
