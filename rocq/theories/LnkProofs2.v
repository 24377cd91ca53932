(** * Stochastic training of the link-function regressions and mini-batch training of MLPPCLogLogReg, for any arithmetic. *)
From Verif Require Import Base BaseProofs Vec VecSpec VecProofs VecProofs2 Mat MatSpec MatProofs MatProofs2 MatProofs3 MatProofs4 MatProofs5 DetProofs Frame Stat StatProofs Act ActProofs ActProofs2 Cost CostProofs Sym Svm LinAlg LinAlgProofs Util UtilProofs Glm GlmProofs GlmProofs2 GlmProofs4 Lnk LnkProofs.
(** Keeps a quantified hypothesis away from [congruence]. *)
Definition hide (P : Prop) : Prop := P.
Ltac hid H := let T := type of H in change (hide T) in H.
Lemma ne_look {A} (m : gmap loc A) a b v : m !! a = Some v -> m !! b = None -> a <> b.
Proof. congruence. Qed.
Ltac ne := first [assumption | apply not_eq_sym; assumption].
Section lnk.
Context {F : Type} `{Scalar F} `{Libm F}.
Implicit Types (h : heap F) (xs ys ws es zs : list F) (X : nat -> nat -> F) (m : gmap loc (aobj F)).

Definition lsgd_t (c : lcls) (lr : F) (k : nat) X ys (i : nat) (s : list F * F) : F :=
  let z := s_add (dotl s.1 (vlist k (X i))) s.2 in
  s_mul (s_mul lr (s_sub (norm_r c z) (nth i ys s_zero))) (sgd_slope c z (norm_r c z)).
Definition lsgd_pure (c : lcls) (lr : F) (k : nat) X ys (reg : regtype) (la al : F) (i : nat) (s : list F * F) : list F * F :=
  let t := lsgd_t c lr k X ys i s in
  (rw1 la al reg <$> match c with Tanh => s.1 | _ => zip_with s_sub s.1 ((fun x => s_mul x t) <$> vlist k (X i)) end, s_sub s.2 t).
Lemma lsgd_pure_length c lr k X ys reg la al i s : length s.1 = k -> length (lsgd_pure c lr k X ys reg la al i s).1 = k.
Proof. intros E. cbn. rewrite fmap_length. destruct c; rewrite ?zip_with_length, ?fmap_length, ?vlist_length; lia. Qed.
(** One epoch of MLPPCLogLogReg::mbgd over nb batches of m rows; the divisor is the number of all rows. *)
Definition lmb_pure (c : lcls) (lr d : F) (m nb k : nat) X ys (reg : regtype) (la al : F) (s : list F * F) : list F * F :=
  foldl (fun s i => let Xb := fun r j => X (m * i + r)%nat j in let p := lslope c (lerrs c false m k Xb (take m ys) s.1 s.2) (lpre m k Xb s.1 s.2) in
    lmove s_sub lr d m k Xb p p reg la al s) s (seq 0 nb).

(** The weight step; [m] is the heap without the weights. *)
Lemma wp_lsgd_upd c h m lw row xs ws t la al reg {B} (kk : option loc -> M F B) (Q : B -> heap F -> Prop) : wf h -> abs h = <[lw := AVec ws]> m -> m !! lw = None -> m !! row = Some (AVec xs) -> length ws = length xs ->
  (forall lw' h', wf h' -> m !! lw' = None -> abs h' = <[lw' := AVec (rw1 la al reg <$> match c with Tanh => ws | _ => zip_with s_sub ws ((fun x => s_mul x t) <$> xs) end)]> m -> wp (kk (Some lw')) h' Q) ->
  wp (let! d := v_scalar_multiplyn t row in let! w := deref (Some lw) in
      (match c with Tanh => let! u := v_subn w (Some d) in drop_ref true u | _ => v_sub w (Some d) end) ;;; del_obj d ;;;
      let! w' := reg_weights KV (Some w) la al reg in del_obj w ;;; kk w') h Q.
Proof.
  intros W A N Hr El HQ. assert (row <> lw) by congruence. wbind. eapply wp_v_mapn; [exact W|look|]. new_as d h1 W1 N1 A1.
  wbind. apply wp_deref_Some. set (ws' := match c with Tanh => ws | _ => _ end) in *.
  assert (G : wp (match c with Tanh => let! u := v_subn lw (Some d) in drop_ref true u | _ => v_sub lw (Some d) end) h1 (fun _ h2 => wf h2 /\ abs h2 = <[lw := AVec ws']> (<[d := AVec ((fun x => s_mul x t) <$> xs)]> m))).
  { assert (G1 : wp (v_sub lw (Some d)) h1 (fun _ h2 => wf h2 /\ abs h2 = <[lw := AVec (zip_with s_sub ws ((fun x => s_mul x t) <$> xs))]> (<[d := AVec ((fun x => s_mul x t) <$> xs)]> m))).
    { eapply wp_v_op2; [exact W1|look|look|]. intros h2 W2 A2. rewrite fmap_length, decide_True in A2 by congruence. split; [exact W2|]. rewrite A2, A1. map_cases. }
    destruct c; [exact G1| |exact G1]. wbind. eapply wp_v_op2n; [exact W1|look|look| |intros Hne; exfalso; apply Hne; rewrite fmap_length; congruence]. intros _. new_as u h2 W2 N2 A2.
    cbn [drop_ref]. eapply wp_del; [exact W2|rewrite A2; apply lookup_insert|]. intros h3 W3 A3 _. split; [exact W3|]. rewrite A3, A2. unfold ws'. map_cases. }
  wbind. eapply wp_mono; [exact G|]. cbv beta. intros _ h2 [W2 A2].
  wbind. eapply wp_del; [exact W2|rewrite A2, lookup_insert_ne by congruence; apply lookup_insert|]. intros h3 W3 A3 _. rewrite A2 in A3.
  rewrite delete_insert_ne in A3 by congruence. rewrite delete_insert in A3 by exact N1.
  wbind. eapply wp_reg_weights; [exact W3|rewrite A3; apply lookup_insert|]. intros lw' h5 W5 N5 A5. rewrite A3 in A5, N5. apply lookup_insert_None in N5 as [N5 D5].
  wbind. eapply wp_del; [exact W5|rewrite A5, lookup_insert_ne by congruence; apply lookup_insert|]. intros h6 W6 A6 _. rewrite A5 in A6.
  rewrite delete_insert_ne in A6 by congruence. rewrite delete_insert in A6 by exact N. apply HQ; assumption.
Qed.

Section obj.
Context (c : lcls) (x y : loc) (k n : nat) (X : nat -> nat -> F) (ys : list F) (reg : regtype) (la al : F) (gn gk : Z).
Context (El : length ys = n) (Hn : Z.of_nat n <= int_max) (Hk : Z.of_nat k <= int_max) (Hgn : c = CLogLog -> gn = Z.of_nat n).
Notation obj := (mklnk x y reg la al gn gk).
Section sg.
Context (m1 : gmap loc (aobj F)) (ly : loc) (rz : option loc) (row yt ot : loc) (Hx : m1 !! x = Some (Mat k n X)) (Hy : m1 !! y = Some (AVec ys)).
Context (Nrow : m1 !! row = None) (Nyt : m1 !! yt = None) (Not : m1 !! ot = None) (Dn : row <> yt /\ row <> ot /\ yt <> ot).
Definition lscr (R0 : aobj F) (Y0 O0 : cell F) : gmap loc (aobj F) := <[ot := (SVec 1, [O0])]> (<[yt := (SVec 1, [Y0])]> (<[row := R0]> m1)).
Definition lsgS (s : list F * F) (o : lnk F) h : Prop :=
  wf h /\ length s.1 = k /\ exists lw n0 c0 Y0 O0, o = obj lw ly rz s.2 /\ lscr (SVec n0, c0) Y0 O0 !! lw = None /\ abs h = <[lw := AVec s.1]> (lscr (SVec n0, c0) Y0 O0).
Lemma lscr_none R0 Y0 O0 R1 Y1 O1 l : lscr R0 Y0 O0 !! l = None -> lscr R1 Y1 O1 !! l = None.
Proof.
  unfold lscr. intros N. apply lookup_insert_None in N as [N D1]. apply lookup_insert_None in N as [N D2]. apply lookup_insert_None in N as [N D3].
  rewrite !lookup_insert_ne by congruence. exact N.
Qed.
Lemma wp_l_sgd_epoch lr (idx : Z -> Z) (i : nat) (e : Z) s o h (Q : lnk F -> heap F -> Prop) : idx e = Z.of_nat i -> (i < n)%nat -> lsgS s o h ->
  (forall o' h', lsgS (lsgd_pure c lr k X ys reg la al i s) o' h' -> Q o' h') -> wp (l_sgd_epoch c lr idx row yt ot e o) h Q.
Proof using Hx Hy El Nrow Nyt Not Dn.
  clear Hgn. destruct s as [ws b]. intros Ei Hi (W & Ls & lw & n0 & c0 & Y0 & O0 & -> & N & A) HQ. cbn [fst snd] in *. unfold l_sgd_epoch. cbn [mklnk l_g g_x g_y g_w g_la g_al g_reg]. rewrite Ei. destruct Dn as (D4 & D5 & D6).
  assert (N' := N). unfold lscr in N'. split_none N'. assert (x <> lw /\ x <> row /\ x <> yt /\ x <> ot) as (? & ? & ? & ?) by (repeat split; congruence). assert (y <> lw /\ y <> row /\ y <> yt /\ y <> ot) as (? & ? & ? & ?) by (repeat split; congruence).
  wbind. apply wp_deref_Some. wbind. eapply wp_row_into; [exact W|rewrite A; unfold lscr; look; exact Hx|rewrite A; unfold lscr; look|reflexivity|exact Hi|]. intros h1 W1 A1.
  assert (A1' : abs h1 = <[lw := AVec ws]> (lscr (AVec (vlist k (X i))) Y0 O0)). { rewrite A1, A. unfold lscr. mapeq. } clear A1.
  wbind. apply wp_deref_Some. wbind. eapply wp_v_get; [exact W1|rewrite A1'; unfold lscr; look; exact Hy|]. destruct (Z.ltb_spec (Z.of_nat i) 0) as [Lt|_]; [slia|]. rewrite Nat2Z.id.
  destruct (lookup_lt_is_Some_2 ys i) as [yi Hyi]; [slia|]. rewrite Hyi. change (default s_zero (Some yi)) with yi.
  assert (En : nth i ys s_zero = yi) by (apply nth_lookup_Some; exact Hyi).
  wbind. eapply wp_v_set; [exact W1|rewrite A1'; unfold lscr; look|]. cbn [Z.ltb Z.compare]. intros h2 W2 _ A2. change (<[Z.to_nat 0:=Some yi]> [O0]) with [Some yi] in A2.
  assert (A2' : abs h2 = <[lw := AVec ws]> (lscr (AVec (vlist k (X i))) Y0 (Some yi))). { rewrite A2, A1'. unfold lscr. mapeq. } clear A2.
  set (z := s_add (dotl ws (vlist k (X i))) b). set (p := norm_r c z).
  change (Lnk (Glm (Some x) (Some y) (Some ly) (Some lw) b gn gk reg la al true) rz) with (obj lw ly rz b).
  wbind. eapply (wp_l_evaluatev c (obj lw ly rz b) h2 lw b row (vlist k (X i)) ws); [exact W2|reflexivity|reflexivity|rewrite A2'; look|rewrite A2'; unfold lscr; look|rewrite vlist_length; exact Ls|]. fold z p.
  wbind. eapply wp_v_set; [exact W2|rewrite A2'; unfold lscr; look|]. cbn [Z.ltb Z.compare]. intros h3 W3 _ A3. change (<[Z.to_nat 0:=Some p]> [Y0]) with [Some p] in A3.
  assert (A3' : abs h3 = <[lw := AVec ws]> (lscr (AVec (vlist k (X i))) (Some p) (Some yi))). { rewrite A3, A2'. unfold lscr. mapeq. } clear A3.
  wbind. eapply (wp_propagatev (obj lw ly rz b) h3 lw b row (vlist k (X i)) ws); [exact W3|reflexivity|reflexivity|rewrite A3'; look|rewrite A3'; unfold lscr; look|rewrite vlist_length; exact Ls|]. fold z.
  wbind. unfold l_cost. eapply (wp_g_cost Lin _ h3 yt ot lw [p] [yi]); [exact W3|reflexivity|rewrite A3'; unfold lscr; look|rewrite A3'; unfold lscr; look|reflexivity|rewrite A3'; look|]. intros _. cbv zeta.
  set (t := s_mul (s_mul lr (s_sub p yi)) (sgd_slope c z p)). assert (Et : lsgd_t c lr k X ys i (ws, b) = t). { unfold lsgd_t. cbv zeta. cbn [fst snd]. rewrite En. reflexivity. }
  eapply (wp_lsgd_upd c h3 (lscr (AVec (vlist k (X i))) (Some p) (Some yi)) lw row (vlist k (X i)) ws t la al reg (fun w' => _));
    [exact W3|exact A3'|exact (lscr_none _ _ _ _ _ _ _ N)|unfold lscr; rewrite !lookup_insert_ne by congruence; apply lookup_insert|rewrite vlist_length; exact Ls|].
  intros lw' h4 W4 N4 A4. set (s' := lsgd_pure c lr k X ys reg la al i (ws, b)).
  assert (Es' : s' = (rw1 la al reg <$> match c with Tanh => ws | _ => zip_with s_sub ws ((fun x => s_mul x t) <$> vlist k (X i)) end, s_sub b t)) by (unfold s', lsgd_pure; cbv zeta; rewrite Et; reflexivity).
  assert (Ls' : length s'.1 = k) by (apply lsgd_pure_length; exact Ls).
  assert (A4' : abs h4 = <[lw' := AVec s'.1]> (lscr (AVec (vlist k (X i))) (Some p) (Some yi))) by (rewrite Es'; exact A4).
  wbind. eapply (wp_l_evaluatev c _ h4 lw' s'.2 row (vlist k (X i)) s'.1); [exact W4|reflexivity|rewrite Es'; reflexivity|rewrite A4'; apply lookup_insert| |rewrite vlist_length; exact Ls'|].
  { rewrite A4'. rewrite lookup_insert_ne; [unfold lscr; rewrite !lookup_insert_ne by congruence; apply lookup_insert|]. intros ->. unfold lscr in N4. split_none N4. congruence. }
  apply wp_ret. apply HQ. split; [exact W4|]. split; [exact Ls'|]. exists lw', (Z.of_nat (length (vlist k (X i)))), (Some <$> vlist k (X i)), (Some p), (Some yi). split; [fold s'; rewrite Es'; reflexivity|]. split; [exact N4|exact A4'].
Qed.
End sg.

Lemma wp_l_sgd m lr max (idx : Z -> Z) (ix : nat -> nat) s Yh ny cs o h (Q : lnk F -> heap F -> Prop) : m !! x = Some (Mat k n X) -> m !! y = Some (AVec ys) -> max < int_max ->
  (forall e, Z.of_nat e < Z.max 1 max -> idx (Z.of_nat e + 1) = Z.of_nat (ix e) /\ (ix e < n)%nat) -> Yh = (SVec ny, cs) -> (c <> CLogLog -> ny = Z.of_nat n) ->
  lnkS x y k reg la al gn gk m s Yh o h ->
  (forall o' h', lnkT c x y k n X reg la al gn gk m (foldl (fun s i => lsgd_pure c lr k X ys reg la al i s) s (ix <$> seq 0 (Z.to_nat (Z.max 1 max)))) o' h' -> Q o' h') ->
  wp (l_sgd c lr max idx o) h Q.
Proof using El Hn Hk.
  clear Hgn. intros Hx Hy Hm Hix EY Ey HS HQ. unfold l_sgd. wbind. eapply wp_needs_init; [exact Hx|exact EY|exact Ey|exact HS|].
  assert (G : wp (match c with CLogLog => l_forward c o | _ => ret o end) h (fun o1 h1 => exists Y1, lnkS x y k reg la al gn gk m s Y1 o1 h1)).
  { destruct c; [|apply wp_ret; exists Yh; exact HS..]. eapply wp_l_forward; [exact Hn|exact Hx|exact HS|]. intros o1 h1 HT. eexists. apply lnkT_S. exact HT. }
  wbind. eapply wp_mono; [exact G|]. cbv beta. clear HS h o EY Ey Yh G. intros o h [Yh (W & Ls & lw & ly & rz & Z & -> & D & N1 & N2 & Nz & A)]. cbn [mklnk l_g g_x].
  hid Hix. hid HQ. hid Nz. set (m1 := withz rz Z (<[ly := Yh]> m)).
  assert (A' : abs h = <[lw := AVec s.1]> m1). { rewrite A. unfold m1. destruct rz as [lz|]; cbn [withz]; [destruct (Nz lz eq_refl) as (? & ? & ?)|]; map_cases. }
  assert (Nw : m1 !! lw = None). { unfold m1. destruct rz as [lz|]; cbn [withz]; [destruct (Nz lz eq_refl) as (? & ? & ?)|]; rewrite !lookup_insert_ne by congruence; exact N1. }
  assert (M1 : forall l v, m !! l = Some v -> m1 !! l = Some v). { intros l v Hl. unfold m1. destruct rz as [lz|]; cbn [withz]; [destruct (Nz lz eq_refl) as (? & ? & ?)|]; rewrite !lookup_insert_ne by congruence; exact Hl. }
  assert (Vly : m1 !! ly = Some Yh). { unfold m1. destruct rz as [lz|]; cbn [withz]; [destruct (Nz lz eq_refl) as (? & ? & ?); rewrite lookup_insert_ne by congruence|]; apply lookup_insert. }
  hid M1. assert (Hx1 := M1 _ _ Hx). assert (Hy1 := M1 _ _ Hy). clear A.
  assert (x <> lw /\ y <> lw /\ ly <> lw) as (? & ? & ?) by (repeat split; congruence).
  wbind. apply wp_v_new; [exact W|]. intros row h1 W1 N3 A1 _. rewrite A' in A1, N3. apply lookup_insert_None in N3 as [N3 ?].
  wbind. apply wp_deref_Some. wbind. eapply wp_m_size; [rewrite A1, !lookup_insert_ne by congruence; exact Hx1|]. cbn [fst snd].
  wbind. eapply wp_v_resize; [exact W1|rewrite A1; apply lookup_insert|slia|]. intros h2 W2 A2 _. rewrite A1, insert_insert in A2.
  wbind. apply wp_v_new; [exact W2|]. intros yt h3 W3 N4 A3 _. rewrite A2 in A3, N4. apply lookup_insert_None in N4 as [N4 ?]. apply lookup_insert_None in N4 as [N4 ?].
  wbind. eapply wp_v_resize; [exact W3|rewrite A3; apply lookup_insert|unfold int_max; slia|]. intros h4 W4 A4 _. rewrite A3, insert_insert in A4.
  wbind. apply wp_v_new; [exact W4|]. intros ot h5 W5 N5 A5 _. rewrite A4 in A5, N5. apply lookup_insert_None in N5 as [N5 ?]. apply lookup_insert_None in N5 as [N5 ?]. apply lookup_insert_None in N5 as [N5 ?].
  wbind. eapply wp_v_resize; [exact W5|rewrite A5; apply lookup_insert|unfold int_max; slia|]. intros h6 W6 A6 _. rewrite A5, insert_insert in A6.
  change (list.resize (Z.to_nat 1) None (Some <$> [])) with [@None F] in A6. set (R0 := list.resize (Z.to_nat (Z.of_nat k)) None (Some <$> [])) in *.
  assert (Dn : row <> yt /\ row <> ot /\ yt <> ot) by (repeat split; congruence).
  assert (S0 : lsgS m1 ly rz row yt ot s (obj lw ly rz s.2) h6).
  { split; [exact W6|]. split; [exact Ls|]. exists lw, (Z.of_nat k), R0, None, None. split; [reflexivity|]. split; [unfold lscr; rewrite !lookup_insert_ne by congruence; exact Nw|]. rewrite A6. unfold lscr. clearbody m1. mapeq. }
  wbind. apply wp_train with (I := fun i o h => lsgS m1 ly rz row yt ot (foldl (fun s i => lsgd_pure c lr k X ys reg la al i s) s (ix <$> seq 0 i)) o h); [exact Hm|exact S0| |].
  { intros e o1 h7 He S1. destruct (Hix e He) as [E1 E2]. eapply (wp_l_sgd_epoch m1 ly rz row yt ot Hx1 Hy1 N3 N4 N5 Dn lr idx (ix e)); [exact E1|exact E2|exact S1|].
    intros o2 h8 S2. rewrite seq_S, fmap_app, foldl_app. exact S2. }
  set (s' := foldl _ s _) in *. clear S0 A1 A2 A3 A4 A5 A6 A' W1 W2 W3 W4 W5 W6 W Hix. clearbody R0 s'. assert (Em : hide (m1 = withz rz Z (<[ly := Yh]> m))) by reflexivity. clearbody m1. intros o1 h7 (W7 & Ls' & lw' & n0 & c0 & Y0 & O0 & -> & Nw' & A7). unfold lscr in Nw'. apply lookup_insert_None in Nw' as [Nw' ?]. apply lookup_insert_None in Nw' as [Nw' ?]. apply lookup_insert_None in Nw' as [Nw' ?].
  assert (Nm : forall l, m1 !! l = None -> m !! l = None). { intros l Hl. destruct (m !! l) eqn:E; [rewrite (M1 _ _ E) in Hl; discriminate|reflexivity]. }
  pose proof (ne_look _ _ _ _ Vly Nw') as L1. pose proof (ne_look _ _ _ _ Vly N3) as L2. pose proof (ne_look _ _ _ _ Vly N4) as L3. pose proof (ne_look _ _ _ _ Vly N5) as L4.
  assert (Zd : forall lz, rz = Some lz -> lz <> lw' /\ lz <> row /\ lz <> yt /\ lz <> ot).
  { clear - Em Nw' N3 N4 N5. intros lz E. assert (V : m1 !! lz = Some Z) by (unfold hide in Em; rewrite Em, E; apply lookup_insert). split_and!; eapply ne_look; eassumption. }
  pose proof (ne_look _ _ _ _ Hx1 Nw') as X1. pose proof (ne_look _ _ _ _ Hx1 N3) as X2. pose proof (ne_look _ _ _ _ Hx1 N4) as X3. pose proof (ne_look _ _ _ _ Hx1 N5) as X4.
  pose proof (Nm _ N3) as Nm3. pose proof (Nm _ N4) as Nm4. pose proof (Nm _ N5) as Nm5. pose proof (Nm _ Nw') as Nmw.
  set (m3 := <[ot := (SVec 1, [O0])]> (<[yt := (SVec 1, [Y0])]> (<[row := (SVec n0, c0)]> m))).
  wbind. eapply (wp_l_forward c x y k n X reg la al gn gk Hn m3 s' Yh); [unfold m3; rewrite !lookup_insert_ne by ne; exact Hx| |].
  { split; [exact W7|]. split; [exact Ls'|]. exists lw', ly, rz, Z. split; [reflexivity|]. split; [ne|]. split; [unfold m3; rewrite !lookup_insert_ne by ne; exact Nmw|]. split; [unfold m3; rewrite !lookup_insert_ne by ne; exact N2|]. split.
    - intros lz E. destruct (Zd lz E) as (? & ? & ? & ?). destruct (Nz lz E) as (? & ? & ?). split_and!; try assumption. unfold m3. rewrite !lookup_insert_ne by ne. assumption.
    - rewrite A7. unfold hide in Em. unfold lscr, m3. rewrite Em. clear - D Nz Zd L1 L2 L3 L4 Dn N1 N2 Nm3 Nm4 Nm5 Nmw. destruct Dn as (? & ? & ?). destruct rz as [lz|]; cbn [withz]; [destruct (Zd lz eq_refl) as (? & ? & ? & ?); destruct (Nz lz eq_refl) as (? & ? & ?)|]; clear Zd Nz.
      all: map_cases. }
  clear - HQ Dn Nm3 Nm4 Nm5. destruct Dn as (? & ? & ?).
  intros o8 h8 (W8 & Ls8 & lw8 & ly8 & lz8 & -> & P1 & P2 & P3 & Q1 & Q2 & Q3 & A8). unfold m3 in *. split_none Q1. split_none Q2. split_none Q3.
  wbind. eapply wp_del; [exact W8|rewrite A8, !lookup_insert_ne by congruence; apply lookup_insert|]. intros h9 W9 A9 _.
  wbind. eapply wp_del; [exact W9|rewrite A9, lookup_delete_ne, A8, !lookup_insert_ne by congruence; apply lookup_insert|]. intros h10 W10 A10 _.
  wbind. eapply wp_del; [exact W10|rewrite A10, A9, !lookup_delete_ne, A8, !lookup_insert_ne by congruence; apply lookup_insert|]. intros h11 W11 A11 _.
  apply wp_ret. apply HQ. split; [exact W11|]. split; [exact Ls8|]. exists lw8, ly8, lz8. split_and!; try reflexivity; try assumption. rewrite A11, A10, A9, A8.
  apply map_eq. intros l.
  destruct (decide (row = l)) as [<-|E1]; [rewrite lookup_delete, !lookup_insert_ne by congruence; congruence|]. rewrite lookup_delete_ne by exact E1.
  destruct (decide (yt = l)) as [<-|E2]; [rewrite lookup_delete, !lookup_insert_ne by congruence; congruence|]. rewrite lookup_delete_ne by exact E2.
  destruct (decide (ot = l)) as [<-|E3]; [rewrite lookup_delete, !lookup_insert_ne by congruence; congruence|]. rewrite lookup_delete_ne by exact E3.
  destruct (decide (lz8 = l)) as [<-|E4]; [rewrite !lookup_insert; reflexivity|]. rewrite !(lookup_insert_ne _ lz8 l) by exact E4.
  destruct (decide (ly8 = l)) as [<-|E5]; [rewrite !lookup_insert; reflexivity|]. rewrite !(lookup_insert_ne _ ly8 l) by exact E5.
  destruct (decide (lw8 = l)) as [<-|E6]; [rewrite !lookup_insert; reflexivity|]. rewrite !lookup_insert_ne by congruence. reflexivity.
Qed.
End obj.
End lnk.
