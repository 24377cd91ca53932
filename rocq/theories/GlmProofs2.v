(** * Stochastic and mini-batch training of linear and logistic regression, for any arithmetic. *)
From Verif Require Import Base BaseProofs Vec VecSpec VecProofs VecProofs2 Mat MatSpec MatProofs MatProofs2 MatProofs3 MatProofs4 MatProofs5 DetProofs Frame Stat StatProofs Act ActProofs ActProofs2 Cost CostProofs Sym Svm LinAlg LinAlgProofs Util UtilProofs Glm GlmProofs.
Section glm.
Context {F : Type} `{Scalar F} `{Libm F}.
Implicit Types (h : heap F) (xs ys ws v : list F) (X : nat -> nat -> F).

Definition dotl xs ys : F := foldl (fun c '(x, y) => s_add c (s_mul x y)) s_zero (zip xs ys).
(** Prediction for one row ([sigmoid_normr] is the scalar activation). *)
Definition pred1 (c : cls) xs (s : list F * F) : F :=
  let z := s_add (dotl s.1 xs) s.2 in match c with Lin => z | Log => sigmoid_normr z end.
Definition sgd_pure (c : cls) (lr : F) (k : nat) X ys (reg : regtype) (la al : F) (i : nat) (s : list F * F) : list F * F :=
  let xs := vlist k (X i) in
  let e := s_sub (pred1 c xs s) (nth i ys s_zero) in
  (rw1 la al reg <$> zip_with s_sub s.1 ((fun x => s_mul x (s_mul lr e)) <$> xs), s_sub s.2 (s_mul lr e)).
Lemma sgd_pure_length c lr k X ys reg la al i s : length s.1 = k -> length (sgd_pure c lr k X ys reg la al i s).1 = k.
Proof. intros E. cbn. rewrite fmap_length, zip_with_length, fmap_length, vlist_length. lia. Qed.
(** One epoch over nb batches of m rows; every batch has the first m labels. *)
Definition mbgd_pure (c : cls) (lr : F) (m nb k : nat) X ys (reg : regtype) (la al : F) (s : list F * F) : list F * F :=
  foldl (fun s i => gd_pure c lr m k (fun r j => X (m * i + r)%nat j) (take m ys) reg la al s) s (seq 0 nb).

Lemma wp_evaluatev c o h w b rx xs ws (Q : F -> heap F -> Prop) : wf h -> g_w o = Some w -> g_b o = b -> abs h !! w = Some (AVec ws) -> abs h !! rx = Some (AVec xs) -> length ws = length xs ->
  Q (pred1 c xs (ws, b)) h -> wp (evaluatev c o (Some rx)) h Q.
Proof.
  intros W Ew Eb Hws Hxs El HQ. unfold evaluatev. rewrite Ew, Eb. wbind. apply wp_deref_Some. wbind. eapply wp_v_dot; [exact W|exact Hws|exact Hxs|]. rewrite decide_True by exact El. apply wp_ret. destruct c; exact HQ.
Qed.
(** [_weights->sub(row * t)], then regularisation; [m] is the heap without the weights. *)
Lemma wp_sgd_upd o h m lw row xs ws t la al reg (kk : option loc -> M F (glm (F := F))) (Q : glm -> heap F -> Prop) : wf h -> abs h = <[lw := AVec ws]> m -> m !! lw = None -> m !! row = Some (AVec xs) -> length ws = length xs ->
  g_w o = Some lw -> g_reg o = reg -> g_la o = la -> g_al o = al ->
  (forall lw' h', wf h' -> m !! lw' = None -> abs h' = <[lw' := AVec (rw1 la al reg <$> zip_with s_sub ws ((fun x => s_mul x t) <$> xs))]> m -> wp (kk (Some lw')) h' Q) ->
  wp (let! d := v_scalar_multiplyn t row in let! w := deref (g_w o) in v_sub w (Some d) ;;; del_obj d ;;; let! w' := reg_weights KV (Some w) (g_la o) (g_al o) (g_reg o) in del_obj w ;;; kk w') h Q.
Proof.
  intros W A N Hr El Ew Er Ea Eb HQ. assert (row <> lw) by congruence. wbind. eapply wp_v_mapn; [exact W|look|]. new_as d h1 W1 N1 A1.
  wbind. rewrite Ew. apply wp_deref_Some. wbind. eapply wp_v_op2; [exact W1|look|look|]. intros h2 W2 A2. rewrite fmap_length, decide_True in A2 by congruence. rewrite A1 in A2.
  wbind. eapply wp_del; [exact W2|rewrite A2, lookup_insert_ne by congruence; apply lookup_insert|]. intros h3 W3 A3 _. rewrite A2 in A3.
  rewrite delete_insert_ne in A3 by congruence. rewrite delete_insert in A3 by (rewrite lookup_insert_ne by congruence; exact N1). rewrite insert_insert in A3.
  wbind. rewrite Er, Ea, Eb. eapply wp_reg_weights; [exact W3|rewrite A3; apply lookup_insert|]. intros lw' h5 W5 N5 A5. rewrite A3 in A5, N5. apply lookup_insert_None in N5 as [N5 D5].
  wbind. eapply wp_del; [exact W5|rewrite A5, lookup_insert_ne by congruence; apply lookup_insert|]. intros h6 W6 A6 _. rewrite A5 in A6.
  rewrite delete_insert_ne in A6 by congruence. rewrite delete_insert in A6 by exact N. apply HQ; assumption.
Qed.

Section obj.
Context (base : gmap loc (aobj F)) (x y : loc) (k n : nat) (X : nat -> nat -> F) (ys : list F) (reg : regtype) (la al : F).
Context (Hx : base !! x = Some (Mat k n X)) (Hy : base !! y = Some (AVec ys)) (El : length ys = n) (Hn : Z.of_nat n <= int_max) (Hk : Z.of_nat k <= int_max).
Notation obj lw ly b := (mkglm x y k n reg la al lw ly b).

(** ** sgd *)
Section sg.
Context (ly row yt ot : loc) (Yh : aobj F).
Context (Nly : base !! ly = None) (Nrow : base !! row = None) (Nyt : base !! yt = None) (Not : base !! ot = None).
Context (Dn : ly <> row /\ ly <> yt /\ ly <> ot /\ row <> yt /\ row <> ot /\ yt <> ot).
Definition scr (R0 : aobj F) (Y0 O0 : cell F) : gmap loc (aobj F) := <[ot := (SVec 1, [O0])]> (<[yt := (SVec 1, [Y0])]> (<[row := R0]> (<[ly := Yh]> base))).
Definition sgS (s : list F * F) (o : glm) h : Prop :=
  wf h /\ length s.1 = k /\ exists lw n0 c0 Y0 O0, o = obj lw ly s.2 /\ scr (SVec n0, c0) Y0 O0 !! lw = None /\ abs h = <[lw := AVec s.1]> (scr (SVec n0, c0) Y0 O0).
Lemma scr_none R0 Y0 O0 R1 Y1 O1 l : scr R0 Y0 O0 !! l = None -> scr R1 Y1 O1 !! l = None.
Proof.
  unfold scr. intros N. apply lookup_insert_None in N as [N D1]. apply lookup_insert_None in N as [N D2]. apply lookup_insert_None in N as [N D3]. apply lookup_insert_None in N as [N D4].
  rewrite !lookup_insert_ne by congruence. exact N.
Qed.
Lemma wp_sgd_epoch c lr (idx : Z -> Z) (i : nat) (e : Z) s o h (Q : glm -> heap F -> Prop) : idx e = Z.of_nat i -> (i < n)%nat -> sgS s o h ->
  (forall o' h', sgS (sgd_pure c lr k X ys reg la al i s) o' h' -> Q o' h') -> wp (sgd_epoch c lr idx row yt ot e o) h Q.
Proof using Hx Hy El Nly Nrow Nyt Not Dn.
  destruct s as [ws b]. intros Ei Hi (W & Ls & lw & n0 & c0 & Y0 & O0 & -> & N & A) HQ. cbn [fst snd] in *. unfold sgd_epoch. cbn [mkglm g_x g_y g_w]. rewrite Ei. destruct Dn as (D1 & D2 & D3 & D4 & D5 & D6).
  assert (N' := N). unfold scr in N'. split_none N'. assert (x <> lw /\ x <> ly /\ x <> row /\ x <> yt /\ x <> ot) as (? & ? & ? & ? & ?) by (repeat split; congruence). assert (y <> lw /\ y <> ly /\ y <> row /\ y <> yt /\ y <> ot) as (? & ? & ? & ? & ?) by (repeat split; congruence).
  wbind. apply wp_deref_Some. wbind. eapply wp_row_into; [exact W|rewrite A; unfold scr; look; exact Hx|rewrite A; unfold scr; look|reflexivity|exact Hi|]. intros h1 W1 A1.
  assert (A1' : abs h1 = <[lw := AVec ws]> (scr (AVec (vlist k (X i))) Y0 O0)). { rewrite A1, A. unfold scr. mapeq. } clear A1.
  wbind. apply wp_deref_Some. wbind. eapply wp_v_get; [exact W1|rewrite A1'; unfold scr; look; exact Hy|]. destruct (Z.ltb_spec (Z.of_nat i) 0) as [Lt|_]; [slia|]. rewrite Nat2Z.id.
  destruct (lookup_lt_is_Some_2 ys i) as [yi Hyi]; [slia|]. rewrite Hyi. change (default s_zero (Some yi)) with yi.
  assert (En : nth i ys s_zero = yi) by (apply nth_lookup_Some; exact Hyi).
  wbind. eapply wp_v_set; [exact W1|rewrite A1'; unfold scr; look|]. cbn [Z.ltb Z.compare]. intros h2 W2 _ A2. change (<[Z.to_nat 0:=Some yi]> [O0]) with [Some yi] in A2.
  assert (A2' : abs h2 = <[lw := AVec ws]> (scr (AVec (vlist k (X i))) Y0 (Some yi))). { rewrite A2, A1'. unfold scr. mapeq. } clear A2.
  wbind. eapply (wp_evaluatev c _ h2 lw b); [exact W2|reflexivity|reflexivity|rewrite A2'; look|rewrite A2'; unfold scr; look|rewrite vlist_length; exact Ls|].
  wbind. eapply wp_v_set; [exact W2|rewrite A2'; unfold scr; look|]. cbn [Z.ltb Z.compare]. intros h3 W3 _ A3. set (p := match c with Lin => yi | Log => pred1 c (vlist k (X i)) (ws, b) end) in *. change (<[Z.to_nat 0:=Some p]> [Y0]) with [Some p] in A3.
  assert (A3' : abs h3 = <[lw := AVec ws]> (scr (AVec (vlist k (X i))) (Some p) (Some yi))). { rewrite A3, A2'. unfold scr. mapeq. } clear A3.
  wbind. eapply (wp_g_cost c _ h3 yt ot lw [p] [yi]); [exact W3|reflexivity|rewrite A3'; unfold scr; look|rewrite A3'; unfold scr; look|reflexivity|rewrite A3'; look|]. intros _. cbv zeta.
  eapply (wp_sgd_upd (obj lw ly b) h3 (scr (AVec (vlist k (X i))) (Some p) (Some yi)) lw row (vlist k (X i)) ws (s_mul lr (s_sub (pred1 c (vlist k (X i)) (ws, b)) yi)) la al reg);
    [exact W3|exact A3'|exact (scr_none _ _ _ _ _ _ _ N)|unfold scr; rewrite !lookup_insert_ne by congruence; apply lookup_insert|rewrite vlist_length; exact Ls|reflexivity|reflexivity|reflexivity|reflexivity|].
  intros lw' h4 W4 N4 A4. set (s' := sgd_pure c lr k X ys reg la al i (ws, b)).
  assert (Es' : s' = (rw1 la al reg <$> zip_with s_sub ws ((fun x => s_mul x (s_mul lr (s_sub (pred1 c (vlist k (X i)) (ws, b)) yi))) <$> vlist k (X i)), s_sub b (s_mul lr (s_sub (pred1 c (vlist k (X i)) (ws, b)) yi)))) by (unfold s', sgd_pure; cbv zeta; rewrite En; reflexivity).
  assert (Ls' : length s'.1 = k) by (apply sgd_pure_length; exact Ls).
  assert (A4' : abs h4 = <[lw' := AVec s'.1]> (scr (AVec (vlist k (X i))) (Some p) (Some yi))) by (rewrite Es'; exact A4).
  wbind. eapply (wp_evaluatev c _ h4 lw' s'.2 row (vlist k (X i)) s'.1); [exact W4|reflexivity|rewrite Es'; reflexivity|rewrite A4'; apply lookup_insert| |rewrite vlist_length; exact Ls'|].
  { rewrite A4'. rewrite lookup_insert_ne; [unfold scr; rewrite !lookup_insert_ne by congruence; apply lookup_insert|]. intros ->. unfold scr in N4. split_none N4. congruence. }
  apply wp_ret. apply HQ. split; [exact W4|]. split; [exact Ls'|]. exists lw', (Z.of_nat (length (vlist k (X i)))), (Some <$> vlist k (X i)), (Some p), (Some yi). split; [fold s'; rewrite Es'; reflexivity|]. split; [exact N4|exact A4'].
Qed.
End sg.

(** [idxs] are the rows drawn in the epochs 1, 2, ... *)
Lemma wp_sgd c lr max (idx : Z -> Z) (ix : nat -> nat) s Yh o h (Q : glm -> heap F -> Prop) : max < int_max ->
  (forall e, Z.of_nat e < Z.max 1 max -> idx (Z.of_nat e + 1) = Z.of_nat (ix e) /\ (ix e < n)%nat) ->
  glmS base x y k n reg la al s Yh o h ->
  (forall o' h', let s' := foldl (fun s i => sgd_pure c lr k X ys reg la al i s) s (ix <$> seq 0 (Z.to_nat (Z.max 1 max))) in
     glmS base x y k n reg la al s' (AVec (preds c n k X s'.1 s'.2)) o' h' -> Q o' h') -> wp (sgd c lr max idx o) h Q.
Proof using Hx Hy El Hn Hk.
  intros Hm Hix HS HQ. unfold sgd. replace (g_init o) with true by (destruct HS as (_ & _ & ? & ? & -> & _); reflexivity). cbn [negb].
  destruct HS as (W & Ls & lw & ly & -> & D & N1 & N2 & A). cbn [mkglm g_x].
  assert (x <> lw /\ x <> ly /\ y <> lw /\ y <> ly) as (? & ? & ? & ?) by (repeat split; congruence).
  wbind. apply wp_v_new; [exact W|]. intros row h1 W1 N3 A1 _. rewrite A in A1, N3. split_none N3.
  wbind. apply wp_deref_Some. wbind. eapply wp_m_size; [rewrite A1, lookup_insert_ne by congruence; rewrite !lookup_insert_ne by congruence; exact Hx|]. cbn [fst snd].
  wbind. eapply wp_v_resize; [exact W1|rewrite A1; apply lookup_insert|slia|]. intros h2 W2 A2 _. rewrite A1, insert_insert in A2.
  wbind. apply wp_v_new; [exact W2|]. intros yt h3 W3 N4 A3 _. rewrite A2 in A3, N4. split_none N4.
  wbind. eapply wp_v_resize; [exact W3|rewrite A3; apply lookup_insert|unfold int_max; slia|]. intros h4 W4 A4 _. rewrite A3, insert_insert in A4.
  wbind. apply wp_v_new; [exact W4|]. intros ot h5 W5 N5 A5 _. rewrite A4 in A5, N5. split_none N5.
  wbind. eapply wp_v_resize; [exact W5|rewrite A5; apply lookup_insert|unfold int_max; slia|]. intros h6 W6 A6 _. rewrite A5, insert_insert in A6.
  change (list.resize (Z.to_nat 1) None (Some <$> [])) with [@None F] in A6. set (R0 := list.resize (Z.to_nat (Z.of_nat k)) None (Some <$> [])) in *.
  assert (Dn : ly <> row /\ ly <> yt /\ ly <> ot /\ row <> yt /\ row <> ot /\ yt <> ot) by (repeat split; congruence).
  assert (S0 : sgS ly row yt ot Yh s (obj lw ly s.2) h6).
  { split; [exact W6|]. split; [exact Ls|]. exists lw, (Z.of_nat k), R0, None, None. split; [reflexivity|]. split; [unfold scr; rewrite !lookup_insert_ne by congruence; exact N1|]. rewrite A6. unfold scr. mapeq. }
  wbind. apply wp_train with (I := fun i o h => sgS ly row yt ot Yh (foldl (fun s i => sgd_pure c lr k X ys reg la al i s) s (ix <$> seq 0 i)) o h); [exact Hm|exact S0| |].
  { intros e o1 h7 He S1. destruct (Hix e He) as [E1 E2]. eapply (wp_sgd_epoch ly row yt ot Yh N2 N3 N4 N5 Dn c lr idx (ix e)); [exact E1|exact E2|exact S1|].
    intros o2 h8 S2. rewrite seq_S, fmap_app, foldl_app. exact S2. }
  set (s' := foldl _ s _) in *. intros o1 h7 (W7 & Ls' & lw' & n0 & c0 & Y0 & O0 & -> & Nw & A7). assert (Nw' := Nw). unfold scr in Nw'. split_none Nw'.
  assert (x <> lw' /\ x <> row /\ x <> yt /\ x <> ot) as (? & ? & ? & ?) by (repeat split; congruence).
  wbind. eapply (wp_forward_raw x k n X Hn c (obj lw' ly s'.2) h7 _ lw' ly s'.1 s'.2 Yh); [exact W7|exact A7|reflexivity|reflexivity|reflexivity|reflexivity|unfold scr; look; exact Hx|look|unfold scr; look|exact Ls'|].
  intros d h8 W8 N8 A8. assert (N8' := N8). unfold scr in N8'. split_none N8'.
  wbind. eapply wp_del; [exact W8|rewrite A8, lookup_insert_ne, lookup_delete_ne by congruence; unfold scr; look|]. intros h9 W9 A9 _.
  wbind. eapply wp_del; [exact W9|rewrite A9, lookup_delete_ne, A8, lookup_insert_ne, lookup_delete_ne by congruence; unfold scr; look|]. intros h10 W10 A10 _.
  wbind. eapply wp_del; [exact W10|rewrite A10, A9, !lookup_delete_ne, A8, lookup_insert_ne, lookup_delete_ne by congruence; unfold scr; look|]. intros h11 W11 A11 _.
  apply wp_ret. apply (HQ _ h11). split; [exact W11|]. split; [exact Ls'|]. exists lw', d. split; [reflexivity|]. split; [congruence|]. split; [congruence|]. split; [congruence|].
  rewrite A11, A10, A9, A8. apply map_eq. intros l. unfold scr.
  destruct (decide (row = l)) as [<-|E1]; [rewrite lookup_delete, !lookup_insert_ne by congruence; congruence|]. rewrite lookup_delete_ne by exact E1.
  destruct (decide (yt = l)) as [<-|E2]; [rewrite lookup_delete, !lookup_insert_ne by congruence; congruence|]. rewrite lookup_delete_ne by exact E2.
  destruct (decide (ot = l)) as [<-|E3]; [rewrite lookup_delete, !lookup_insert_ne by congruence; congruence|]. rewrite lookup_delete_ne by exact E3.
  destruct (decide (d = l)) as [<-|E4]; [rewrite !lookup_insert; reflexivity|]. rewrite !(lookup_insert_ne _ d l) by exact E4.
  destruct (decide (ly = l)) as [<-|E5]; [rewrite lookup_delete, !lookup_insert_ne by congruence; congruence|]. rewrite lookup_delete_ne by exact E5.
  destruct (decide (lw' = l)) as [<-|E6]; [rewrite !lookup_insert; reflexivity|]. rewrite !lookup_insert_ne by congruence. reflexivity.
Qed.

(** ** mbgd *)
(** The heap is [m] plus the weights. *)
Definition mbS (m : gmap loc (aobj F)) (ly : loc) (s : list F * F) (o : glm) h : Prop :=
  wf h /\ length s.1 = k /\ exists lw, o = obj lw ly s.2 /\ m !! lw = None /\ abs h = <[lw := AVec s.1]> m.
Lemma wp_mb_step c lr m ly bi bo mm Xb yb s o h (Q : glm -> heap F -> Prop) : mbS m ly s o h -> m !! bi = Some (Mat k mm Xb) -> m !! bo = Some (AVec yb) -> length yb = mm -> Z.of_nat mm <= int_max ->
  (forall o' h', mbS m ly (gd_pure c lr mm k Xb yb reg la al s) o' h' -> Q o' h') -> wp (mb_step c lr (bi, bo) o) h Q.
Proof using Hk.
  intros (W & Ls & lw & -> & N & A) Hbi Hbo Eb Hmm HQ. assert (bi <> lw) by congruence. assert (bo <> lw) by congruence. unfold mb_step.
  wbind. eapply (wp_evaluatem c _ h bi lw k mm Xb s.1 s.2); [exact W|reflexivity|reflexivity|look|look|exact Ls|exact Hmm|]. new_as yl h1 W1 N1 A1.
  wbind. eapply (wp_g_cost c _ h1 yl bo lw); [exact W1|reflexivity|look|look|rewrite preds_length; congruence|look|]. intros _.
  assert (yl <> bi) by congruence. assert (yl <> bo) by congruence.
  wbind. apply wp_deref_Some. wbind. eapply wp_v_op2n; [exact W1|look|look| |intros Hne; exfalso; apply Hne; rewrite preds_length; congruence]. intros _. fold (errs c mm k Xb yb s.1 s.2). new_as e h2 W2 N3 A2.
  set (es := errs c mm k Xb yb s.1 s.2) in *. assert (Les : length es = mm) by (apply errs_length; exact Eb). assert (e <> bi) by congruence. assert (e <> bo) by congruence.
  wbind. eapply wp_xt_vec; [exact W2|look|look|exact Les|exact Hk|]. new_as g h3 W3 N4 A3.
  assert (g <> bi) by congruence. assert (g <> bo) by congruence.
  wbind. eapply wp_v_size_vec; [look|]. rewrite Eb.
  wbind. eapply (wp_upd reg la al s_sub _ g (xt_e mm k Xb es) s.1 _ h3 (<[e := AVec es]> (<[yl := AVec (preds c mm k Xb s.1 s.2)]> m)) lw);
    [exact W3|reflexivity|reflexivity|reflexivity|reflexivity|rewrite A3; mapeq|rewrite !lookup_insert_ne by congruence; exact N4|rewrite !lookup_insert_ne by congruence; exact N|congruence|rewrite xt_e_length; congruence|].
  intros lw' h4 W4 N5 A4. split_none N5. wbind. apply wp_deref_Some. wbind. eapply wp_v_sum; [exact W4|look|]. cbv zeta.
  set (s' := gd_pure c lr mm k Xb yb reg la al s). assert (Ls' : length s'.1 = k) by (apply gd_pure_length; exact Ls). assert (lw' <> bi) by congruence.
  wbind. eapply (wp_evaluatem c _ h4 bi lw' k mm Xb s'.1 s'.2); [exact W4|reflexivity|reflexivity|look|look|exact Ls'|exact Hmm|]. new_as y2 h5 W5 N6 A5.
  wbind. eapply wp_del; [exact W5|look|]. intros h6 W6 A6 _. rewrite A5 in A6.
  cbn [drop_ref]. wbind. eapply wp_del; [exact W6|rewrite A6, lookup_delete_ne by congruence; look|]. intros h7 W7 A7 _. rewrite A6 in A7.
  wbind. eapply wp_del; [exact W7|rewrite A7, !lookup_delete_ne by congruence; look|]. intros h8 W8 A8 _. rewrite A7 in A8. apply wp_ret. apply HQ. split; [exact W8|]. split; [exact Ls'|].
  exists lw'. split; [reflexivity|]. split; [exact N5|]. rewrite A8. apply map_eq. intros l.
  destruct (decide (e = l)) as [<-|E1]; [rewrite lookup_delete, lookup_insert_ne by congruence; congruence|]. rewrite lookup_delete_ne by exact E1.
  destruct (decide (y2 = l)) as [<-|E2]; [rewrite lookup_delete, lookup_insert_ne by congruence; congruence|]. rewrite lookup_delete_ne by exact E2.
  destruct (decide (yl = l)) as [<-|E3]; [rewrite lookup_delete, lookup_insert_ne by congruence; congruence|]. rewrite lookup_delete_ne by exact E3.
  rewrite (lookup_insert_ne _ y2 l) by exact E2. destruct (decide (lw' = l)) as [<-|E6]; [rewrite !lookup_insert; reflexivity|]. rewrite !lookup_insert_ne by congruence. reflexivity.
Qed.

Lemma wp_over_batches {A} (I : nat -> A -> heap F -> Prop) (step : loc * loc -> A -> M F A) (Q : A -> heap F -> Prop) : forall bs i s h, I i s h ->
  (forall j b s h, bs !! j = Some b -> I (i + j)%nat s h -> wp (step b s) h (fun s' h' => I (S (i + j)) s' h')) ->
  (forall s h, I (i + length bs)%nat s h -> Q s h) -> wp (over_batches step bs s) h Q.
Proof.
  induction bs as [|b bs IH]; intros i s h HI Hs HQ.
  - apply wp_ret. apply HQ. cbn. rewrite Nat.add_0_r. exact HI.
  - cbn [over_batches]. wbind. eapply wp_mono; [apply (Hs 0%nat); [reflexivity|rewrite Nat.add_0_r; exact HI]|]. intros s' h' HI'. rewrite Nat.add_0_r in HI'. apply (IH (S i)); [exact HI'| |].
    + intros j b' s1 h1 Hj HI1. replace (S i + j)%nat with (i + S j)%nat in * by lia. apply Hs; [exact Hj|exact HI1].
    + intros s1 h1 HI1. apply HQ. cbn [length]. replace (i + S (length bs))%nat with (S i + length bs)%nat by lia. exact HI1.
Qed.
(** After splitting the data into nb batches. *)
Lemma wp_split_batches nb s Yh o h (Q : list (loc * loc) -> heap F -> Prop) : glmS base x y k n reg la al s Yh o h -> (0 < nb)%nat ->
  (forall bs m0 ly h', length bs = nb -> base !! ly = None -> batches_at (mv_in k (n / nb) X) (fun _ => AVec (take (n / nb) ys)) bs (<[ly := Yh]> base) m0 -> mbS m0 ly s o h' -> Q bs h') ->
  wp (mini_batches_mv (g_x o) (g_y o) (Z.of_nat nb)) h Q.
Proof using Hx Hy El Hn Hk.
  intros (W & Ls & lw & ly & -> & D & N1 & N2 & A) Hnb HQ. cbn [mkglm g_x g_y].
  assert (x <> lw /\ x <> ly /\ y <> lw /\ y <> ly) as (? & ? & ? & ?) by (repeat split; congruence).
  eapply wp_mini_batches_mv; [exact W|rewrite A; look; exact Hx|rewrite A; look; exact Hy|exact El|exact Hnb|exact Hn|exact Hk|]. intros bs h1 W1 Lb B. rewrite A in B.
  rewrite insert_commute in B by congruence. assert (N3 : <[ly := Yh]> base !! lw = None) by (rewrite lookup_insert_ne by congruence; exact N1).
  assert (V : abs h1 !! lw = Some (AVec s.1)) by (eapply batches_old; [exact B|apply lookup_insert]).
  apply (HQ bs (delete lw (abs h1)) ly h1 Lb N2); [eapply batches_drop; [exact N3|exact B]|]. split; [exact W1|]. split; [exact Ls|]. exists lw. split; [reflexivity|]. split; [apply lookup_delete|].
  rewrite insert_delete by exact V. reflexivity.
Qed.
Lemma wp_join_batches c P R bs m0 ly s Yh o h {B} (kk : glm -> M F B) (Q : B -> heap F -> Prop) : base !! ly = None -> batches_at P R bs (<[ly := Yh]> base) m0 -> mbS m0 ly s o h ->
  (forall o' h', glmS base x y k n reg la al s (AVec (preds c n k X s.1 s.2)) o' h' -> wp (kk o') h' Q) ->
  wp (let! o := forward_pass c o in del_batches bs ;;; kk o) h Q.
Proof using Hx Hn.
  intros Nly Bt (W & Ls & lw & -> & N & A) HQ. assert (Vx : m0 !! x = Some (Mat k n X)) by (eapply batches_old; [exact Bt|rewrite lookup_insert_ne by congruence; exact Hx]).
  assert (Vly : m0 !! ly = Some Yh) by (eapply batches_old; [exact Bt|apply lookup_insert]). assert (x <> lw) by congruence. assert (ly <> lw) by congruence.
  wbind. eapply (wp_forward_raw x k n X Hn c (obj lw ly s.2) h _ lw ly s.1 s.2 Yh); [exact W|exact A|reflexivity|reflexivity|reflexivity|reflexivity|look|look|look|exact Ls|].
  intros d h1 W1 N1 A1. split_none N1. assert (B1 := batches_drop _ _ _ _ _ _ _ Nly Bt).
  rewrite delete_insert_ne in A1 by congruence. destruct (batches_insert _ _ _ _ _ lw (AVec s.1) B1) as [N2 B2]; [rewrite lookup_delete_ne by congruence; exact N|].
  destruct (batches_insert _ _ _ _ _ d (AVec (preds c n k X s.1 s.2)) B2) as [N3 B3]; [rewrite lookup_insert_ne by congruence; rewrite lookup_delete_ne by congruence; exact N1|]. rewrite <- A1 in B3.
  wbind. eapply wp_del_pairs; [exact W1|exact B3|]. intros h2 W2 A2. apply HQ. split; [exact W2|]. split; [exact Ls|]. exists lw, d. split; [reflexivity|]. split; [congruence|]. split; [exact N2|].
  split; [rewrite lookup_insert_ne in N3 by congruence; exact N3|exact A2].
Qed.
Lemma mbgd_pure_length c lr m nb s : length s.1 = k -> length (mbgd_pure c lr m nb k X ys reg la al s).1 = k.
Proof. intros E. unfold mbgd_pure. revert s E. induction (seq 0 nb) as [|i l IH]; intros s E; [exact E|]. cbn [foldl]. apply IH, gd_pure_length, E. Qed.
Lemma wp_mbgd c lr max m s Yh o h (Q : glm -> heap F -> Prop) : max < int_max -> (0 < m <= n)%nat -> glmS base x y k n reg la al s Yh o h ->
  (forall o' h', let nb := (n / m)%nat in let s' := Nat.iter (Z.to_nat (Z.max 1 max)) (mbgd_pure c lr (n / nb) nb k X ys reg la al) s in
     glmS base x y k n reg la al s' (AVec (preds c n k X s'.1 s'.2)) o' h' -> Q o' h') -> wp (mbgd c lr max (Z.of_nat m) o) h Q.
Proof using Hx Hy El Hn Hk.
  intros Hm Hmn HS HQ. unfold mbgd. replace (g_init o) with true by (destruct HS as (_ & _ & ? & ? & -> & _); reflexivity). cbn [negb].
  assert (Hnb : (0 < n / m)%nat) by (apply Nat.div_str_pos; exact Hmn). set (nb := (n / m)%nat) in *. assert (Hmb : (nb * (n / nb) <= n)%nat) by (apply Nat.mul_div_le; lia). set (mb := (n / nb)%nat) in *.
  unfold with_batches. wbind. wbind. replace (g_n o) with (Z.of_nat n) by (destruct HS as (_ & _ & ? & ? & -> & _); reflexivity). apply wp_idiv_nat; [apply Hmn|exact Hn|]. fold nb.
  wbind. eapply wp_split_batches; [exact HS|exact Hnb|]. intros bs m0 ly h1 Lb Nly Bt S1. fold mb in Bt.
  wbind. apply wp_train with (I := fun i (p : glm * unit) h => mbS m0 ly (Nat.iter i (mbgd_pure c lr mb nb k X ys reg la al) s) p.1 h); [exact Hm|exact S1| |].
  - intros i [o1 []] h2 _ S2. cbn [fst] in S2. set (si := Nat.iter i _ s) in *.
    apply (wp_over_batches (fun j (p : glm * unit) h => mbS m0 ly (mbgd_pure c lr mb j k X ys reg la al si) p.1 h)) with (i := 0%nat); [exact S2| |].
    + intros j [bi bo] [o2 []] h3 Hj S3. cbn [fst plus] in *. destruct (ba_val _ _ _ _ _ Bt j _ Hj) as [V1 V2]. cbn [fst snd] in V1, V2. unfold mv_in in V1. assert (Hjn : (j < nb)%nat) by (apply lookup_lt_Some in Hj; lia).
      wbind. eapply wp_mb_step; [exact S3|exact V1|exact V2|rewrite take_length; nia|nia|]. intros o3 h4 S4. apply wp_ret. cbn [fst]. unfold mbgd_pure at 1. rewrite seq_S, foldl_app. exact S4.
    + intros [o2 []] h3 S3. cbn [fst plus] in *. rewrite Lb in S3. exact S3.
  - intros [o1 []] h2 S2. cbn [fst snd] in *. eapply wp_join_batches; [exact Nly|exact Bt|exact S2|]. intros o2 h3 S3. apply wp_ret. apply wp_ret. apply (HQ _ h3). exact S3.
Qed.
End obj.
End glm.
