(** * Mini-batch training of MLPPCLogLogReg and MLPPTanhReg, for any arithmetic. *)
From Verif Require Import Base BaseProofs Vec VecSpec VecProofs VecProofs2 Mat MatSpec MatProofs MatProofs2 MatProofs3 MatProofs4 MatProofs5 DetProofs Frame Stat StatProofs Act ActProofs ActProofs2 Cost CostProofs Sym Svm LinAlg LinAlgProofs Util UtilProofs Glm GlmProofs GlmProofs2 GlmProofs4 Lnk LnkProofs LnkProofs2.
Section lnk.
Context {F : Type} `{Scalar F} `{Libm F}.
Implicit Types (h : heap F) (xs ys ws es zs : list F) (X : nat -> nat -> F) (m : gmap loc (aobj F)).
Section obj.
Context (c : lcls) (x y : loc) (k n : nat) (X : nat -> nat -> F) (ys : list F) (reg : regtype) (la al : F) (gn gk : Z).
Context (El : length ys = n) (Hn : Z.of_nat n <= int_max) (Hk : Z.of_nat k <= int_max) (Hgn : c = CLogLog -> gn = Z.of_nat n).
Notation obj := (mklnk x y reg la al gn gk).
Notation lnkS := (lnkS x y k reg la al gn gk).
Notation lnkT := (lnkT c x y k n X reg la al gn gk).

(** ** The object as a view of the heap *)
Lemma lnkS_at m s Yh o h l v : lnkS m s Yh o h -> m !! l = Some v -> abs h !! l = Some v.
Proof.
  intros (W & Ls & lw & ly & rz & Z & -> & D & N1 & N2 & Nz & A) Hl. rewrite A. destruct rz as [lz|]; cbn [withz]; [destruct (Nz lz eq_refl) as (? & ? & ?)|]; rewrite !lookup_insert_ne by congruence; exact Hl.
Qed.
Lemma lnkS_w m s Yh o h : lnkS m s Yh o h -> exists lw, g_w (l_g o) = Some lw /\ g_b (l_g o) = s.2 /\ abs h !! lw = Some (AVec s.1).
Proof.
  intros (W & Ls & lw & ly & rz & Z & -> & D & N1 & N2 & Nz & A). exists lw. split; [reflexivity|]. split; [reflexivity|]. rewrite A. destruct rz as [lz|]; cbn [withz]; [destruct (Nz lz eq_refl) as (? & ? & ?); rewrite (lookup_insert_ne _ lz) by congruence|]; rewrite lookup_insert_ne by congruence; apply lookup_insert.
Qed.
Lemma lnkS_new m s Yh o h d v h' : lnkS m s Yh o h -> wf h' -> abs h !! d = None -> abs h' = <[d := v]> (abs h) -> m !! d = None /\ lnkS (<[d := v]> m) s Yh o h'.
Proof.
  intros (W & Ls & lw & ly & rz & Z & -> & D & N1 & N2 & Nz & A) W' N A'. rewrite A in N, A'.
  assert (G : m !! d = None /\ d <> lw /\ d <> ly /\ (forall lz, rz = Some lz -> d <> lz)).
  { destruct rz as [lz|]; cbn [withz] in N.
    - destruct (Nz lz eq_refl) as (? & ? & ?). split_none N. split_and!; try congruence; try assumption.
    - split_none N. split_and!; try congruence; try assumption. }
  destruct G as (G1 & G2 & G3 & G4). split; [exact G1|]. split; [exact W'|]. split; [exact Ls|]. exists lw, ly, rz, Z. split; [reflexivity|]. split; [exact D|]. split; [rewrite lookup_insert_ne by congruence; exact N1|]. split; [rewrite lookup_insert_ne by congruence; exact N2|]. split.
  - intros lz E. destruct (Nz lz E) as (? & ? & ?). pose proof (G4 lz E). split_and!; try assumption. rewrite lookup_insert_ne by congruence. assumption.
  - rewrite A'. destruct rz as [lz|]; cbn [withz].
    + destruct (Nz lz eq_refl) as (? & ? & ?). pose proof (G4 lz eq_refl). clear Nz G4. map_cases.
    + clear Nz G4. map_cases.
Qed.
Lemma lnkT_free m s o h d xs (Q : unit -> heap F -> Prop) : lnkT (<[d := AVec xs]> m) s o h -> m !! d = None -> (forall h', lnkT m s o h' -> Q tt h') -> wp (free (Some d)) h Q.
Proof.
  intros (W & Ls & lw & ly & lz & -> & D1 & D2 & D3 & N1 & N2 & N3 & A) N HQ. split_none N1. split_none N2. split_none N3. eapply wp_free; [exact W|rewrite A, !lookup_insert_ne by congruence; apply lookup_insert|].
  intros h' W' A'. apply HQ. split; [exact W'|]. split; [exact Ls|]. exists lw, ly, lz. split_and!; try reflexivity; try assumption. rewrite A', A. map_cases.
Qed.
Lemma wp_lS_update op lr bx e z1 z2 N Xb es zs1 zs2 s m Yh o h (Q : lnk F -> heap F -> Prop) : lnkS m s Yh o h ->
  m !! x = Some (Mat k n X) -> m !! bx = Some (Mat k N Xb) -> m !! e = Some (AVec es) -> m !! z1 = Some (AVec zs1) -> m !! z2 = Some (AVec zs2) -> length es = N -> length zs1 = N -> length zs2 = N ->
  (forall o' h', lnkS m (lmove op lr (s_of_Z (Z.of_nat n)) N k Xb (lslope c es zs1) (lslope c es zs2) reg la al s) Yh o' h' -> Q o' h') ->
  wp (l_update c op lr (Some bx) (Some e) (Some z1) (Some z2) o) h Q.
Proof using Hk Hgn.
  intros (W & Ls & lw & ly & rz & Z & -> & D & N1 & N2 & Nz & A) Hx Hb He Hz1 Hz2 Le L1 L2 HQ.
  set (mm := withz rz Z (<[ly := Yh]> m)).
  assert (M : forall l v, m !! l = Some v -> mm !! l = Some v). { intros l v Hl. unfold mm. destruct rz as [lz|]; cbn [withz]; [destruct (Nz lz eq_refl) as (? & ? & ?)|]; rewrite !lookup_insert_ne by congruence; exact Hl. }
  eapply (wp_l_update c x y k n X reg la al gn gk Hk Hgn op lr bx e z1 z2 N Xb es zs1 zs2 lw ly rz s h mm);
    [exact W|exact Ls| | |apply M, Hx|apply M, Hb|apply M, He|apply M, Hz1|apply M, Hz2|exact Le|exact L1|exact L2|].
  - rewrite A. unfold mm. destruct rz as [lz|]; cbn [withz]; [destruct (Nz lz eq_refl) as (? & ? & ?)|]; clear Nz M; map_cases.
  - unfold mm. destruct rz as [lz|]; cbn [withz]; [destruct (Nz lz eq_refl) as (? & ? & ?)|]; rewrite !lookup_insert_ne by congruence; exact N1.
  - intros lw' h' W' N'. cbv zeta. set (s' := lmove _ _ _ _ _ _ _ _ _ _ _ _). intros A'. apply HQ. assert (Ls' : length s'.1 = k) by (apply lmove_length; exact Ls). split; [exact W'|]. split; [exact Ls'|]. clear M.
    exists lw', ly, rz, Z. split; [reflexivity|]. unfold mm in N'. destruct rz as [lz|]; cbn [withz] in *.
    + destruct (Nz lz eq_refl) as (P1 & P2 & P3). split_none N'. split_and!; try congruence; try assumption. { intros ? [= <-]. split_and!; congruence. } rewrite A'. unfold mm. clear Nz. map_cases.
    + split_none N'. split_and!; try congruence; try assumption. rewrite A'. unfold mm. clear Nz. map_cases.
Qed.

(** One batch of MLPPCLogLogReg::mbgd. *)
Lemma wp_l_mb_step m lr bi bo mm Xb yb s Yh o h (Q : lnk F -> heap F -> Prop) : c <> Tanh -> lnkS m s Yh o h -> m !! x = Some (Mat k n X) -> m !! bi = Some (Mat k mm Xb) -> m !! bo = Some (AVec yb) -> length yb = mm -> Z.of_nat mm <= int_max ->
  (forall o' h', lnkT m (let p := lslope c (lerrs c false mm k Xb yb s.1 s.2) (lpre mm k Xb s.1 s.2) in lmove s_sub lr (s_of_Z (Z.of_nat n)) mm k Xb p p reg la al s) o' h' -> Q o' h') ->
  wp (l_mb_step c lr (bi, bo) o) h Q.
Proof using Hk Hgn Hn.
  intros Hc HS Hx Hbi Hbo Eb Hmm HQ. assert (Ls : length s.1 = k) by apply HS. destruct (lnkS_w _ _ _ _ _ HS) as (lw & Ew & Ebb & Hw). unfold l_mb_step.
  wbind. eapply (wp_l_evaluatem c o h bi lw k mm Xb s.1 s.2); [apply HS|exact Ew|exact Ebb|exact (lnkS_at _ _ _ _ _ _ _ HS Hbi)|exact Hw|exact Ls|exact Hmm|]. intros yl h1 W1 N1 A1. destruct (lnkS_new _ _ _ _ _ _ _ _ HS W1 N1 A1) as [Nyl S1]. clear HS Hw lw Ew Ebb N1 A1.
  destruct (lnkS_w _ _ _ _ _ S1) as (lw & Ew & Ebb & Hw). assert (bi <> yl) by congruence. assert (bo <> yl) by congruence. assert (x <> yl) by congruence.
  wbind. unfold propagatem. rewrite Ew, Ebb. eapply wp_propagate; [apply S1|eapply lnkS_at; [exact S1|rewrite lookup_insert_ne by congruence; exact Hbi]|exact Hw|exact Ls|exact Hmm|]. intros zl h2 W2 N2 A2. fold (lpre mm k Xb s.1 s.2) in A2. destruct (lnkS_new _ _ _ _ _ _ _ _ S1 W2 N2 A2) as [Nzl S2]. clear S1 Hw lw Ew Ebb N2 A2. apply lookup_insert_None in Nzl as [Nzl Dzy].
  destruct (lnkS_w _ _ _ _ _ S2) as (lw & Ew & Ebb & Hw). assert (bi <> zl) by congruence. assert (bo <> zl) by congruence. assert (x <> zl) by congruence.
  wbind. unfold l_cost. eapply (wp_g_cost Lin _ h2 yl bo lw (lpreds c mm k Xb s.1 s.2) yb); [apply S2|exact Ew|eapply lnkS_at; [exact S2|look]|eapply lnkS_at; [exact S2|look]|rewrite lpreds_length; congruence|exact Hw|]. intros _.
  wbind. eapply wp_vop; [apply S2|eapply lnkS_at; [exact S2|look]|eapply lnkS_at; [exact S2|look]|rewrite lpreds_length; congruence|]. intros e h3 W3 N3 A3. destruct (lnkS_new _ _ _ _ _ _ _ _ S2 W3 N3 A3) as [Ne S3]. clear S2 Hw lw Ew Ebb N3 A3. split_none Ne.
  set (es := zip_with s_sub (lpreds c mm k Xb s.1 s.2) yb) in *. assert (Ee : lerrs c false mm k Xb yb s.1 s.2 = es). { unfold lerrs. clear Hgn. destruct c; reflexivity. }
  assert (Les : length es = mm) by (rewrite <- Ee; apply lerrs_length; exact Eb). assert (bi <> e) by congruence. assert (bo <> e) by congruence. assert (x <> e) by congruence.
  wbind. replace (match c with Tanh => l_z o | _ => Some zl end) with (Some zl) by (clear - Hc; destruct c; congruence).
  eapply (wp_lS_update s_sub lr bi e zl zl mm Xb es (lpre mm k Xb s.1 s.2) (lpre mm k Xb s.1 s.2)); [exact S3|look|look|look|look|look|exact Les|apply lpre_length|apply lpre_length|].
  rewrite Ee in HQ. cbv zeta in HQ. set (s' := lmove _ _ _ _ _ _ _ _ _ _ _ _) in *. intros o4 h4 S4.
  wbind. eapply (wp_l_forward c x y k n X reg la al gn gk Hn _ s'); [|exact S4|]; [look|]. intros o5 h5 T5. clear S4 S3 o4 h4.
  assert (S5 := lnkT_S _ _ _ _ _ _ _ _ _ _ _ _ _ _ _ T5). assert (Ls5 : length s'.1 = k) by apply S5. destruct (lnkS_w _ _ _ _ _ S5) as (lw & Ew & Ebb & Hw).
  wbind. eapply (wp_l_evaluatem c o5 h5 bi lw k mm Xb s'.1 s'.2); [apply S5|exact Ew|exact Ebb|eapply lnkS_at; [exact S5|look]|exact Hw|exact Ls5|exact Hmm|]. intros y2 h6 W6 N6 A6.
  set (m5 := <[e:=AVec es]> (<[zl:=AVec (lpre mm k Xb s.1 s.2)]> (<[yl:=AVec (lpreds c mm k Xb s.1 s.2)]> m))) in *.
  assert (G : m5 !! y2 = None /\ lnkT (<[y2 := AVec (lpreds c mm k Xb s'.1 s'.2)]> m5) s' o5 h6).
  { clear - T5 W6 N6 A6. clearbody m5. destruct T5 as (W & Ls & lw & ly & lz & -> & D1 & D2 & D3 & N1 & N2 & N3 & A). rewrite A in N6, A6. split_none N6. split; [exact N6|]. split; [exact W6|]. split; [exact Ls|]. exists lw, ly, lz. split_and!; try reflexivity; try assumption; try (rewrite lookup_insert_ne by congruence; assumption). rewrite A6. map_cases. }
  destruct G as [Ny2 T6]. clear T5 S5 A6 N6 Hw Ew Ebb lw. assert (Dy2 := Ny2). unfold m5 in Dy2. split_none Dy2.
  assert (T6' : lnkT (<[yl := AVec (lpreds c mm k Xb s.1 s.2)]> (<[y2 := AVec (lpreds c mm k Xb s'.1 s'.2)]> (<[e := AVec es]> (<[zl := AVec (lpre mm k Xb s.1 s.2)]> m)))) s' o5 h6).
  { replace (<[yl := AVec (lpreds c mm k Xb s.1 s.2)]> (<[y2 := AVec (lpreds c mm k Xb s'.1 s'.2)]> (<[e := AVec es]> (<[zl := AVec (lpre mm k Xb s.1 s.2)]> m)))) with (<[y2 := AVec (lpreds c mm k Xb s'.1 s'.2)]> m5); [exact T6|]. unfold m5. clear - Dzy Dy2 Ne Nzl Nyl Dq Dq0 Dq1 Dq2 Dq3. map_cases. }
  clear T6. clear - T6' HQ Dzy Dy2 Ne Nzl Nyl Dq Dq0 Dq1 Dq2 Dq3.
  wbind. eapply lnkT_free; [exact T6'|rewrite !lookup_insert_ne by congruence; exact Nyl|]. intros h7 T7.
  wbind. eapply lnkT_free; [exact T7|rewrite !lookup_insert_ne by congruence; exact Dy2|]. intros h8 T8.
  wbind. eapply lnkT_free; [exact T8|rewrite !lookup_insert_ne by congruence; exact Ne|]. intros h9 T9.
  wbind. eapply lnkT_free; [exact T9|exact Nzl|]. intros h10 T10. apply wp_ret. apply HQ. exact T10.
Qed.

Lemma lnkS_split P R bs m s Yh o h h1 : lnkS m s Yh o h -> wf h1 -> batches_at P R bs (abs h) (abs h1) -> exists m0, batches_at P R bs m m0 /\ lnkS m0 s Yh o h1.
Proof.
  intros (W & Ls & lw & ly & rz & Z & -> & D & N1 & N2 & Nz & A) W1 B. rewrite A in B.
  set (a1 := abs h1) in *. 
  assert (G : exists m1, batches_at P R bs (<[ly := Yh]> (<[lw := AVec s.1]> m)) m1 /\ a1 = withz rz Z m1 /\ (forall lz, rz = Some lz -> m1 !! lz = None)).
  { destruct rz as [lz|]; cbn [withz] in *.
    - destruct (Nz lz eq_refl) as (P1 & P2 & P3). exists (delete lz a1). split; [eapply batches_drop; [|exact B]; rewrite !lookup_insert_ne by congruence; exact P3|]. split; [|intros ? [= <-]; apply lookup_delete].
      rewrite insert_delete; [reflexivity|]. eapply batches_old; [exact B|apply lookup_insert].
    - exists a1. split; [exact B|]. split; [reflexivity|discriminate]. }
  destruct G as (m1 & B1 & E1 & F1). assert (V1 : m1 !! ly = Some Yh) by (eapply batches_old; [exact B1|apply lookup_insert]).
  assert (B2 := batches_drop _ _ _ _ _ _ _ ltac:(rewrite lookup_insert_ne by exact D; exact N2) B1). assert (V2 : delete ly m1 !! lw = Some (AVec s.1)) by (eapply batches_old; [exact B2|apply lookup_insert]).
  assert (B3 := batches_drop _ _ _ _ _ _ _ N1 B2). exists (delete lw (delete ly m1)). split; [exact B3|]. split; [exact W1|]. split; [exact Ls|]. exists lw, ly, rz, Z.
  split; [reflexivity|]. split; [exact D|]. split; [apply lookup_delete|]. split; [rewrite lookup_delete_ne by exact D; apply lookup_delete|]. split.
  - intros lz E. destruct (Nz lz E) as (P1 & P2 & P3). split_and!; try assumption. rewrite !lookup_delete_ne by congruence. apply F1, E.
  - fold a1. rewrite E1. f_equal. rewrite insert_delete by exact V2. rewrite insert_delete by exact V1. reflexivity.
Qed.
Lemma lnkT_join P R bs m m0 s o h (Q : unit -> heap F -> Prop) : batches_at P R bs m m0 -> lnkT m0 s o h -> (forall h', lnkT m s o h' -> Q tt h') -> wp (del_batches bs) h Q.
Proof.
  intros B (W & Ls & lw & ly & lz & -> & D1 & D2 & D3 & N1 & N2 & N3 & A) HQ.
  destruct (batches_insert _ _ _ _ _ lw (AVec s.1) B N1) as [M1 B1].
  destruct (batches_insert _ _ _ _ _ ly (AVec (lpreds c n k X s.1 s.2)) B1) as [M2 B2]; [rewrite lookup_insert_ne by congruence; exact N2|].
  destruct (batches_insert _ _ _ _ _ lz (AVec (lpre n k X s.1 s.2)) B2) as [M3 B3]; [rewrite !lookup_insert_ne by congruence; exact N3|]. rewrite <- A in B3.
  eapply wp_del_pairs; [exact W|exact B3|]. intros h' W' A'. apply HQ. split; [exact W'|]. split; [exact Ls|]. exists lw, ly, lz. rewrite lookup_insert_ne in M2 by congruence. rewrite !lookup_insert_ne in M3 by congruence. split; [reflexivity|]. split_and!; assumption.
Qed.
Lemma wp_l_mbgd m lr max b s Yh o h (Q : lnk F -> heap F -> Prop) : c = CLogLog -> m !! x = Some (Mat k n X) -> m !! y = Some (AVec ys) -> max < int_max -> (0 < b <= n)%nat -> lnkS m s Yh o h ->
  (forall o' h', let nb := (n / b)%nat in lnkT m (Nat.iter (Z.to_nat (Z.max 1 max)) (lmb_pure c lr (s_of_Z (Z.of_nat n)) (n / nb) nb k X ys reg la al) s) o' h' -> Q o' h') -> wp (l_mbgd c lr max (Z.of_nat b) o) h Q.
Proof using El Hn Hk Hgn.
  intros Hc Hx Hy Hm Hb HS HQ. assert (Hnb : (0 < n / b)%nat) by (apply Nat.div_str_pos; exact Hb). cbv zeta in HQ. set (nb := (n / b)%nat) in *. assert (Hmb : (nb * (n / nb) <= n)%nat) by (apply Nat.mul_div_le; clear - Hnb; lia). set (mb := (n / nb)%nat) in *.
  assert (Eo : g_x (l_g o) = Some x /\ g_y (l_g o) = Some y /\ g_n (l_g o) = gn) by (destruct HS as (_ & _ & ? & ? & ? & ? & -> & _); auto). destruct Eo as (E1 & E2 & E3).
  unfold l_mbgd. wbind. replace (needs_init c o) with (ret (F := F) false) by (rewrite Hc; reflexivity). apply wp_ret. wbind. replace (l_rows c o) with (ret (F := F) (Z.of_nat n)) by (rewrite Hc; cbn [l_rows]; rewrite E3, (Hgn Hc); reflexivity). apply wp_ret.
  wbind. apply wp_idiv_nat; [apply Hb|exact Hn|]. fold nb. rewrite E1, E2.
  wbind. eapply wp_mini_batches_mv; [apply HS|exact (lnkS_at _ _ _ _ _ _ _ HS Hx)|exact (lnkS_at _ _ _ _ _ _ _ HS Hy)|exact El|exact Hnb|exact Hn|exact Hk|]. intros bs h1 W1 Lb B. fold mb in B. destruct (lnkS_split _ _ _ _ _ _ _ _ _ HS W1 B) as (m0 & B0 & S1).
  assert (Hx0 : m0 !! x = Some (Mat k n X)) by (eapply batches_old; [exact B0|exact Hx]).
  wbind. apply wp_train with (I := fun i o h => exists Y, lnkS m0 (Nat.iter i (lmb_pure c lr (s_of_Z (Z.of_nat n)) mb nb k X ys reg la al) s) Y o h); [exact Hm|exists Yh; exact S1| |].
  - intros i o1 h2 _ S2. set (si := Nat.iter i _ s) in *.
    apply (wp_over_batches k n ys El (fun j o h => exists Y, lnkS m0 (lmb_pure c lr (s_of_Z (Z.of_nat n)) mb j k X ys reg la al si) Y o h)) with (i := 0%nat); [exact S2| |].
    + intros j [bi bo] o2 h3 Hj [Y S3]. cbn [plus] in *. destruct (ba_val _ _ _ _ _ B0 j _ Hj) as [V1 V2]. cbn [fst snd] in V1, V2. unfold mv_in in V1. assert (Hjn : (j < nb)%nat) by (apply lookup_lt_Some in Hj; clear - Hj Lb; lia).
      eapply (wp_l_mb_step m0 lr bi bo mb); [rewrite Hc; discriminate|exact S3|exact Hx0|exact V1|exact V2|rewrite take_length; clear - Hmb Hnb El Hn; nia|clear - Hmb Hnb Hn; nia|]. intros o3 h4 T4. eexists. unfold lmb_pure at 1. rewrite seq_S, foldl_app. apply lnkT_S in T4. exact T4.
    + intros o2 h3 S3. cbn [plus] in *. rewrite Lb in S3. exact S3.
  - intros o1 h2 [Y S2]. wbind. eapply (wp_l_forward c x y k n X reg la al gn gk Hn m0); [exact Hx0|exact S2|]. intros o2 h3 T3. wbind. eapply lnkT_join; [exact B0|exact T3|]. intros h4 T4. apply wp_ret. apply HQ. exact T4.
Qed.

(** MLPPTanhReg::train_mbgd: the bias gradient multiplies the batch error with the derivative at the stored _z. *)
Lemma l_mb_step_UB m lr bi bo mm Xb yb s ly lw lz zs Yh h : c = Tanh -> wf h -> length s.1 = k -> lw <> ly -> lz <> lw -> lz <> ly -> m !! lw = None -> m !! ly = None -> m !! lz = None ->
  abs h = <[lz := AVec zs]> (<[ly := Yh]> (<[lw := AVec s.1]> m)) -> m !! x = Some (Mat k n X) -> m !! bi = Some (Mat k mm Xb) -> m !! bo = Some (AVec yb) -> length yb = mm -> Z.of_nat mm <= int_max -> length zs <> mm ->
  l_mb_step c lr (bi, bo) (obj lw ly (Some lz) s.2) h = UB.
Proof using Hk.
  intros Hc W Ls D1 D2 D3 N1 N2 N3 A Hx Hbi Hbo Eb Hmm Hz. assert (x <> lw /\ x <> ly /\ x <> lz /\ bi <> lw /\ bi <> ly /\ bi <> lz /\ bo <> lw /\ bo <> ly /\ bo <> lz) as (? & ? & ? & ? & ? & ? & ? & ? & ?) by (repeat split; congruence).
  unfold l_mb_step. apply bind_UB. eapply (wp_l_evaluatem c _ h bi lw k mm Xb s.1 s.2); [exact W|reflexivity|reflexivity|look|look|exact Ls|exact Hmm|]. new_as yl h1 W1 M1 A1.
  assert (bi <> yl /\ bo <> yl /\ x <> yl) as (? & ? & ?) by (repeat split; congruence).
  apply bind_UB. unfold propagatem. change (g_w (l_g (obj lw ly (Some lz) s.2))) with (Some lw). change (g_b (l_g (obj lw ly (Some lz) s.2))) with (s.2). eapply wp_propagate; [exact W1|look|look|exact Ls|exact Hmm|]. fold (lpre mm k Xb s.1 s.2). new_as zl h2 W2 M2 A2. assert (bi <> zl /\ bo <> zl /\ x <> zl) as (? & ? & ?) by (repeat split; congruence).
  apply bind_UB. unfold l_cost. eapply (wp_g_cost Lin _ h2 yl bo lw (lpreds c mm k Xb s.1 s.2) yb); [exact W2|reflexivity|look|look|rewrite lpreds_length; congruence|look|]. intros _.
  apply bind_UB. eapply wp_vop; [exact W2|look|look|rewrite lpreds_length; congruence|]. set (es := zip_with s_sub (lpreds c mm k Xb s.1 s.2) yb) in *. new_as e h3 W3 M3 A3. assert (bi <> e /\ bo <> e /\ x <> e) as (? & ? & ?) by (repeat split; congruence).
  assert (Les : length es = mm) by (unfold es; rewrite zip_with_length, lpreds_length, Eb; apply Nat.min_id).
  replace (match c with Tanh => l_z (obj lw ly (Some lz) s.2) | _ => Some zl end) with (Some lz) by (rewrite Hc; reflexivity).
  apply bind_UB_first. unfold l_update. apply bind_UB. eapply wp_slope; [exact W3|look|look|rewrite lpre_length; exact Les|]. new_as p h4 W4 M4 A4. assert (bi <> p /\ x <> p) as (? & ?) by (repeat split; congruence).
  apply bind_UB. eapply wp_xt_vec; [exact W4|look|look|rewrite lslope_length by (rewrite lpre_length; exact Les); exact Les|exact Hk|]. new_as g h5 W5 M5 A5. assert (x <> g) by congruence.
  apply bind_UB. fr h6 W6 A6. apply bind_UB. replace (l_rows c (obj lw ly (Some lz) s.2)) with (let! s := m_size x in ret (F := F) s.2) by (rewrite Hc; reflexivity).
  wbind. eapply wp_m_size; [look|]. apply wp_ret. apply bind_UB. cbn [snd].
  eapply (wp_upd reg la al s_sub _ g (xt_e mm k Xb (lslope c es (lpre mm k Xb s.1 s.2))) s.1 _ h6 (<[e := AVec es]> (<[zl := AVec (lpre mm k Xb s.1 s.2)]> (<[yl := AVec (lpreds c mm k Xb s.1 s.2)]> (<[lz := AVec zs]> (<[ly := Yh]> m))))) lw);
    [exact W6|reflexivity|reflexivity|reflexivity|reflexivity|rewrite A6; map_cases|rewrite !lookup_insert_ne by congruence; assumption|rewrite !lookup_insert_ne by congruence; exact N1|congruence|rewrite xt_e_length; congruence|].
  intros lw' h7 W7 M7 A7. split_none M7. apply bind_UB. unfold slope. wbind. eapply wp_deriv; [exact W7|look|]. intros d h8 W8 M8 A8. rewrite A7 in A8, M8. split_none M8.
  wbind. unfold vope. wbind. apply wp_deref_Some. eapply wp_v_op2n_early; [exact W8|look|look|rewrite fmap_length; congruence|]. intros _ h9 W9 A9. wbind. eapply wp_free; [exact W9|rewrite A9; look|]. intros h10 W10 A10. apply wp_ret. reflexivity.
Qed.
Lemma l_mbgd_UB m lr max b s ly lw lz zs ny cs h : c = Tanh -> wf h -> length s.1 = k -> lw <> ly -> lz <> lw -> lz <> ly -> m !! lw = None -> m !! ly = None -> m !! lz = None ->
  abs h = <[lz := AVec zs]> (<[ly := (SVec ny, cs)]> (<[lw := AVec s.1]> m)) -> m !! x = Some (Mat k n X) -> m !! y = Some (AVec ys) -> ny = Z.of_nat n -> (0 < b <= n)%nat -> length zs <> (n / (n / b))%nat ->
  l_mbgd c lr max (Z.of_nat b) (obj lw ly (Some lz) s.2) h = UB.
Proof using El Hn Hk.
  intros Hc W Ls D1 D2 D3 N1 N2 N3 A Hx Hy Eny Hb Hz. assert (Hnb : (0 < n / b)%nat) by (apply Nat.div_str_pos; exact Hb). set (nb := (n / b)%nat) in *. assert (Hmb : (nb * (n / nb) <= n)%nat) by (apply Nat.mul_div_le; clear - Hnb; lia). set (mb := (n / nb)%nat) in *.
  assert (HS : lnkS m s (SVec ny, cs) (obj lw ly (Some lz) s.2) h). { split; [exact W|]. split; [exact Ls|]. exists lw, ly, (Some lz), (AVec zs). split_and!; try reflexivity; try assumption. intros ? [= <-]. auto. }
  assert (Vx := lnkS_at _ _ _ _ _ _ _ HS Hx). assert (Vy := lnkS_at _ _ _ _ _ _ _ HS Hy).
  unfold l_mbgd. apply bind_UB. eapply wp_needs_init; [exact Hx|reflexivity|intros _; exact Eny|exact HS|]. apply bind_UB. rewrite Hc. cbn [l_rows mklnk l_g g_x g_y]. wbind. apply wp_deref_Some. wbind. eapply wp_m_size; [exact Vx|]. apply wp_ret. cbn [snd].
  apply bind_UB. apply wp_idiv_nat; [apply Hb|exact Hn|]. fold nb.
  apply bind_UB. eapply wp_mini_batches_mv; [exact W|exact Vx|exact Vy|exact El|exact Hnb|exact Hn|exact Hk|]. intros bs h1 W1 Lb B. fold mb in B. rewrite A in B.
  assert (Nlz : <[ly := (SVec ny, cs)]> (<[lw := AVec s.1]> m) !! lz = None) by (rewrite !lookup_insert_ne by congruence; exact N3). assert (Nly : <[lw := AVec s.1]> m !! ly = None) by (rewrite lookup_insert_ne by congruence; exact N2).
  assert (B1 := batches_drop _ _ _ _ _ lz _ Nlz B). assert (V1 : abs h1 !! lz = Some (AVec zs)) by (eapply batches_old; [exact B|apply lookup_insert]).
  assert (B2 := batches_drop _ _ _ _ _ ly _ Nly B1). assert (V2 : delete lz (abs h1) !! ly = Some (SVec ny, cs)) by (eapply batches_old; [exact B1|apply lookup_insert]).
  assert (B3 := batches_drop _ _ _ _ _ lw _ N1 B2). assert (V3 : delete ly (delete lz (abs h1)) !! lw = Some (AVec s.1)) by (eapply batches_old; [exact B2|apply lookup_insert]).
  set (m0 := delete lw (delete ly (delete lz (abs h1)))) in *.
  assert (A0 : abs h1 = <[lz := AVec zs]> (<[ly := (SVec ny, cs)]> (<[lw := AVec s.1]> m0))). { unfold m0. rewrite insert_delete by exact V3. rewrite insert_delete by exact V2. rewrite insert_delete by exact V1. reflexivity. }
  assert (Hx0 : m0 !! x = Some (Mat k n X)) by (eapply batches_old; [exact B3|exact Hx]).
  destruct bs as [|[bi bo] bs]; [cbn in Lb; clear - Lb Hnb; lia|]. destruct (ba_val _ _ _ _ _ B3 0%nat _ eq_refl) as [P1 P2]. cbn [fst snd] in P1, P2. unfold mv_in in P1.
  apply bind_UB_first. unfold train. cbn [epochs]. destruct (Z.to_nat (Z.max 1 max)) as [|T] eqn:ET; [clear - ET; lia|]. cbn [epochs]. apply bind_UB_first. cbn [over_batches]. apply bind_UB_first.
  rewrite <- Hc. eapply (l_mb_step_UB m0 lr bi bo mb); [exact Hc|exact W1|exact Ls|exact D1|exact D2|exact D3| | | |exact A0|exact Hx0|exact P1|exact P2|rewrite take_length; clear - Hmb Hnb El Hn; nia|clear - Hmb Hnb Hn; nia|exact Hz].
  - apply lookup_delete.
  - unfold m0. rewrite lookup_delete_ne by congruence. apply lookup_delete.
  - unfold m0. rewrite !lookup_delete_ne by congruence. apply lookup_delete.
Qed.
End obj.
End lnk.
