(** * Training runs of the support vector classifier, for any arithmetic. *)
From Verif Require Import Base BaseProofs Vec VecSpec VecProofs VecProofs2 Mat MatSpec MatProofs MatProofs2 MatProofs3 MatProofs4 MatProofs5 DetProofs Frame Stat StatProofs Act ActProofs ActProofs2 Cost CostProofs Sym Svm LinAlg LinAlgProofs Util UtilProofs Glm GlmProofs GlmProofs2 GlmProofs4 Lnk LnkProofs LnkProofs2 LnkProofs3 Svc SvcProofs.
Section svc.
Context {F : Type} `{Scalar F} `{Libm F}.
Implicit Types (h : heap F) (xs ys ws es zs : list F) (X : nat -> nat -> F) (m : gmap loc (aobj F)).
Section obj.
Context (x y : loc) (k n : nat) (X : nat -> nat -> F) (ys : list F) (cc : F) (reg : regtype) (la al : F) (gn gk : Z).
Context (El : length ys = n) (Hn : Z.of_nat n <= int_max) (Hk : Z.of_nat k <= int_max).
Notation svS := (svS x y k cc reg la al gn gk).
Notation svT := (svT x y k n X cc reg la al gn gk).

Lemma svT_S m s o h : svT m s o h -> svS m s (AVec (signs n k X s.1 s.2)) (AVec (lpre n k X s.1 s.2)) o h.
Proof. exact id. Qed.
Lemma sv_upd m s Yh Zv o h d v0 v h' : svS m s Yh Zv o h -> m !! d = Some v0 -> wf h' -> abs h' = <[d := v]> (abs h) -> svS (<[d := v]> m) s Yh Zv o h'.
Proof.
  intros (W & Ls & lw & ly & lz & -> & D1 & D2 & D3 & N1 & N2 & N3 & A) Hd W' A'. assert (d <> lw /\ d <> ly /\ d <> lz) as (? & ? & ?) by (repeat split; congruence). split; [exact W'|]. split; [exact Ls|].
  exists lw, ly, lz. split_and!; try reflexivity; try assumption; try (rewrite lookup_insert_ne by congruence; assumption). rewrite A', A. map_cases.
Qed.
Lemma sv_needs_init m s ny cs Zv o h (Q : bool -> heap F -> Prop) : m !! x = Some (Mat k n X) -> ny = Z.of_nat n -> svS m s (SVec ny, cs) Zv o h -> Q false h -> wp (needs_init Tanh (v_o o)) h Q.
Proof.
  intros Hx En (W & Ls & lw & ly & lz & -> & D1 & D2 & D3 & N1 & N2 & N3 & A) HQ. eapply (wp_needs_init Tanh x y k n X reg la al gn gk m s (SVec ny, cs) ny cs); [exact Hx|reflexivity|intros _; exact En| |exact HQ].
  split; [exact W|]. split; [exact Ls|]. exists lw, ly, (Some lz), Zv. split; [reflexivity|]. split_and!; try assumption. intros ? [= <-]. auto.
Qed.
Lemma wp_v_cost m s Yh Zv o h r ry xs yv (Q : F -> heap F -> Prop) : svS m s Yh Zv o h -> abs h !! r = Some (AVec xs) -> abs h !! ry = Some (AVec yv) -> length xs = length yv -> (forall v, Q v h) -> wp (v_cost o (Some r) (Some ry)) h Q.
Proof.
  intros S Hr Hy E HQ. destruct (sv_view _ _ _ _ _ _ _ _ _ _ _ _ _ _ _ S) as (W & _ & _ & _ & Ec & _ & lw & ly & lz & Ew & _). unfold v_cost. rewrite Ew, Ec. eapply wp_hcost; [exact W|exact Hr|exact Hy|exact E|eapply sv_w; eassumption|exact HQ].
Qed.

Lemma wp_v_gd_epoch m lr s o h (Q : svc F -> heap F -> Prop) : m !! x = Some (Mat k n X) -> m !! y = Some (AVec ys) -> svT m s o h ->
  (forall o' h', svT m (vgd_pure cc lr n k X ys s) o' h' -> Q o' h') -> wp (v_gd_epoch lr (Z.of_nat n) o) h Q.
Proof using El Hn Hk.
  intros Hx Hy HT HQ. apply svT_S in HT. set (S0 := HT). destruct (sv_view _ _ _ _ _ _ _ _ _ _ _ _ _ _ _ S0) as (W & Ls & Ex & Ey & Ec & Eb & lw & ly & lz & Ew & Eyh & Ez & N1 & N2 & N3). unfold v_gd_epoch. cbv zeta. rewrite Ex, Ey, Eyh, Ez, Ec, Ew.
  wbind. eapply wp_v_cost; [exact S0|eapply sv_yh; eassumption|eapply sv_at; eassumption|rewrite signs_length; congruence|]. intros _.
  wbind. eapply wp_hingew; [exact W|eapply sv_z; eassumption|eapply sv_at; eassumption|rewrite lpre_length; congruence|]. intros p h1 W1 M1 A1. destruct (sv_new _ _ _ _ _ _ _ _ _ _ _ _ _ _ _ _ _ _ S0 W1 M1 A1) as [Np S1].
  assert (x <> p) by congruence. assert (y <> p) by congruence. set (hd := hder cc (lpre n k X s.1 s.2) ys) in *. assert (Lhd : length hd = n) by (unfold hd; rewrite hder_length; [exact El|rewrite lpre_length; congruence]).
  wbind. eapply wp_xt_vec; [exact W1|eapply sv_at; [exact S1|look; exact Hx]|eapply sv_at; [exact S1|apply lookup_insert]|exact Lhd|exact Hk|]. intros t h2 W2 M2 A2. destruct (sv_new _ _ _ _ _ _ _ _ _ _ _ _ _ _ _ _ _ _ S1 W2 M2 A2) as [Nt S2]. apply lookup_insert_None in Nt as [Nt Dt].
  rewrite insert_commute in S2 by congruence. wbind. eapply wp_sv_free; [exact S2|rewrite lookup_insert_ne by congruence; exact Np|]. clear - Hx Hy El Hn Hk HQ Ls Nt Ew Lhd Eyh. intros h3 S3. set (q := s_div lr _).
  wbind. apply wp_deref_Some. wbind. eapply wp_v_mapn; [apply S3|eapply sv_at; [exact S3|apply lookup_insert]|]. intros d h4 W4 M4 A4. destruct (sv_new _ _ _ _ _ _ _ _ _ _ _ _ _ _ _ _ _ _ S3 W4 M4 A4) as [Nd S4]. assert (Nd' := Nd). apply lookup_insert_None in Nd' as [Nd' Dd].
  wbind. apply wp_deref_Some. wbind. eapply wp_sv_sub; [exact S4|exact Ew|apply lookup_insert|rewrite fmap_length; apply xt_e_length|]. intros h5 S5.
  wbind. eapply wp_sv_del; [exact S5|exact Nd|]. intros h6 S6. wbind. eapply wp_sv_del; [exact S6|exact Nt|]. intros h7 S7. clear - Hx Hy El Hn Hk HQ S7 Eyh.
  wbind. eapply wp_v_shrink; [exact S7|]. cbn [fst snd]. intros o' h8 S8 Ey'. rewrite Eyh in Ey'. destruct (sv_view _ _ _ _ _ _ _ _ _ _ _ _ _ _ _ S8) as (_ & _ & _ & E4 & _). rewrite E4, Ey'.
  wbind. eapply wp_v_bias_sum; [exact S8|eapply sv_yh; eassumption|eapply sv_at; eassumption|rewrite signs_length; congruence|]. intros h9 S9.
  eapply wp_v_forward; [exact Hn|exact Hx|apply sv_bias; exact S9|]. intros o'' h10 T10. apply HQ. exact T10.
Qed.
Lemma sv_rows m s Yh Zv o h (Q : Z -> heap F -> Prop) : m !! x = Some (Mat k n X) -> svS m s Yh Zv o h -> Q (Z.of_nat n) h -> wp (l_rows Tanh (v_o o)) h Q.
Proof.
  intros Hx S HQ. destruct (sv_view _ _ _ _ _ _ _ _ _ _ _ _ _ _ _ S) as (_ & _ & Ex & _). unfold l_rows. rewrite Ex. wbind. apply wp_deref_Some. wbind. eapply wp_m_size; [eapply sv_at; eassumption|]. apply wp_ret. exact HQ.
Qed.
Lemma wp_v_gd m lr max s ny cs Zv o h (Q : svc F -> heap F -> Prop) : m !! x = Some (Mat k n X) -> m !! y = Some (AVec ys) -> max < int_max -> ny = Z.of_nat n -> svS m s (SVec ny, cs) Zv o h ->
  (forall o' h', svT m (Nat.iter (Z.to_nat (Z.max 1 max)) (vgd_pure cc lr n k X ys) s) o' h' -> Q o' h') -> wp (v_gd lr max o) h Q.
Proof using El Hn Hk.
  intros Hx Hy Hm En S HQ. unfold v_gd. wbind. eapply sv_needs_init; [exact Hx|exact En|exact S|]. wbind. eapply sv_rows; [exact Hx|exact S|]. wbind. eapply wp_v_forward; [exact Hn|exact Hx|exact S|]. intros o1 h1 T1.
  apply wp_train with (I := fun i o h => svT m (Nat.iter i (vgd_pure cc lr n k X ys) s) o h); [exact Hm|exact T1| |exact HQ].
  intros i o2 h2 _ T2. eapply wp_v_gd_epoch; [exact Hx|exact Hy|exact T2|]. intros o3 h3 T3. exact T3.
Qed.

(** ** train_sgd *)
Section sg.
Context (m : gmap loc (aobj F)) (row ot zt : loc) (Hx : m !! x = Some (Mat k n X)) (Hy : m !! y = Some (AVec ys)).
Context (Nrow : m !! row = None) (Not : m !! ot = None) (Nzt : m !! zt = None) (Dn : row <> ot /\ row <> zt /\ ot <> zt).
Definition vscr (R0 : aobj F) (O0 Z0 : cell F) : gmap loc (aobj F) := <[zt := (SVec 1, [Z0])]> (<[ot := (SVec 1, [O0])]> (<[row := R0]> m)).
Definition vsg (Yh Zv : aobj F) (s : list F * F) (o : svc F) h : Prop := exists n0 c0 O0 Z0, svS (vscr (SVec n0, c0) O0 Z0) s Yh Zv o h.
Lemma wp_v_sgd_epoch lr (idx : Z -> Z) (i : nat) (e : Z) Yh Zv s o h (Q : svc F -> heap F -> Prop) : idx e = Z.of_nat i -> (i < n)%nat -> vsg Yh Zv s o h ->
  (forall o' h', vsg Yh Zv (vsgd_pure cc lr k X ys i s) o' h' -> Q o' h') -> wp (v_sgd_epoch lr idx row ot zt e o) h Q.
Proof using Hx Hy El Nrow Not Nzt Dn.
  intros Ei Hi (n0 & c0 & O0 & Z0 & S0) HQ. destruct Dn as (D4 & D5 & D6). destruct (sv_view _ _ _ _ _ _ _ _ _ _ _ _ _ _ _ S0) as (W & Ls & Ex & Ey & Ec & Eb & lw & ly & lz & Ew & Eyh & Ez & N1 & N2 & N3). unfold v_sgd_epoch. cbv zeta. rewrite Ei, Ex, Ey, Ec, Ew.
  assert (x <> row /\ x <> ot /\ x <> zt /\ y <> row /\ y <> ot /\ y <> zt) as (? & ? & ? & ? & ? & ?) by (repeat split; congruence).
  wbind. apply wp_deref_Some. wbind. eapply wp_row_into; [exact W|eapply sv_at; [exact S0|unfold vscr; look; exact Hx]|eapply sv_at; [exact S0|unfold vscr; look]|reflexivity|exact Hi|]. intros h1 W1 A1.
  assert (S1 : svS (vscr (AVec (vlist k (X i))) O0 Z0) s Yh Zv o h1).
  { replace (vscr (AVec (vlist k (X i))) O0 Z0) with (<[row := AVec (vlist k (X i))]> (vscr (SVec n0, c0) O0 Z0)) by (unfold vscr; clear - D4 D5 D6; mapeq). eapply sv_upd; [exact S0| |exact W1|exact A1]. unfold vscr. rewrite !lookup_insert_ne by congruence. apply lookup_insert. }
  clear S0 A1. set (R := vlist k (X i)) in *.
  wbind. apply wp_deref_Some. wbind. eapply wp_v_get; [exact W1|eapply sv_at; [exact S1|unfold vscr; look; exact Hy]|]. destruct (Z.ltb_spec (Z.of_nat i) 0) as [Lt|_]; [slia|]. rewrite Nat2Z.id.
  destruct (lookup_lt_is_Some_2 ys i) as [yi Hyi]; [slia|]. rewrite Hyi. change (default s_zero (Some yi)) with yi.
  assert (En : nth i ys s_zero = yi) by (apply nth_lookup_Some; exact Hyi).
  wbind. eapply wp_v_set; [exact W1|eapply sv_at; [exact S1|unfold vscr; look]|]. cbn [Z.ltb Z.compare]. intros h2 W2 _ A2. change (<[Z.to_nat 0:=Some yi]> [O0]) with [Some yi] in A2.
  assert (S2 : svS (vscr (AVec R) (Some yi) Z0) s Yh Zv o h2).
  { replace (vscr (AVec R) (Some yi) Z0) with (<[ot := (SVec 1, [Some yi])]> (vscr (AVec R) O0 Z0)) by (unfold vscr; clear - D4 D5 D6; mapeq). eapply sv_upd; [exact S1| |exact W2|exact A2]. unfold vscr. rewrite !lookup_insert_ne by congruence. apply lookup_insert. }
  clear S1 A2. set (z := s_add (dotl s.1 R) s.2).
  wbind. eapply (wp_propagatev (v_o o) h2 lw s.2 row R s.1); [exact W2|exact Ew|exact Eb|eapply sv_w; [exact S2|exact Ew]|eapply sv_at; [exact S2|unfold vscr; look]|unfold R; rewrite vlist_length; exact Ls|]. fold z.
  wbind. eapply wp_v_set; [exact W2|eapply sv_at; [exact S2|unfold vscr; look]|]. cbn [Z.ltb Z.compare]. intros h3 W3 _ A3. change (<[Z.to_nat 0:=Some z]> [Z0]) with [Some z] in A3.
  assert (S3 : svS (vscr (AVec R) (Some yi) (Some z)) s Yh Zv o h3).
  { replace (vscr (AVec R) (Some yi) (Some z)) with (<[zt := (SVec 1, [Some z])]> (vscr (AVec R) (Some yi) Z0)) by (unfold vscr; clear - D4 D5 D6; mapeq). eapply sv_upd; [exact S2| |exact W3|exact A3]. unfold vscr. apply lookup_insert. }
  clear S2 A3. assert (Vz : abs h3 !! zt = Some (AVec [z])) by (eapply sv_at; [exact S3|unfold vscr; apply lookup_insert]). assert (Vo : abs h3 !! ot = Some (AVec [yi])) by (eapply sv_at; [exact S3|unfold vscr; look]).
  wbind. eapply wp_v_cost; [exact S3|exact Vz|exact Vo|reflexivity|]. intros _.
  wbind. eapply wp_hingew; [exact W3|exact Vz|exact Vo|reflexivity|]. intros cd h4 W4 M4 A4. destruct (sv_new _ _ _ _ _ _ _ _ _ _ _ _ _ _ _ _ _ _ S3 W4 M4 A4) as [Ncd S4]. clear S3 Vz Vo. change (hder cc [z] [yi]) with [s_mul (hinge_d1 z yi) cc] in *. set (t := s_mul (hinge_d1 z yi) cc) in *.
  wbind. apply wp_deref_Some. wbind. eapply wp_v_get; [exact W4|rewrite A4; apply lookup_insert|]. cbn [Z.ltb Z.compare]. change (default s_zero ([t] !! Z.to_nat 0)) with t. clear A4 M4.
  assert (row <> cd). { intros ->. unfold vscr in Ncd. split_none Ncd. congruence. }
  wbind. eapply wp_v_mapn; [exact W4|eapply sv_at; [exact S4|rewrite lookup_insert_ne by congruence; unfold vscr; look]|]. intros d h5 W5 M5 A5. destruct (sv_new _ _ _ _ _ _ _ _ _ _ _ _ _ _ _ _ _ _ S4 W5 M5 A5) as [Nd S5]. clear S4 A5 M5.
  wbind. apply wp_deref_Some. wbind. eapply wp_sv_sub; [exact S5|exact Ew|apply lookup_insert|rewrite fmap_length; apply vlist_length|]. intros h6 S6.
  wbind. eapply wp_sv_del; [exact S6|exact Nd|]. intros h7 S7.
  wbind. eapply wp_v_shrink; [exact S7|]. cbn [fst snd]. intros o' h8 S8 _.
  wbind. eapply wp_sv_del; [exact S8|exact Ncd|]. intros h9 S9. apply wp_ret. apply HQ. apply (sv_bias _ _ _ _ _ _ _ _ _ _ _ _ _ _ _ s_sub (s_mul lr t)) in S9. cbn [fst snd] in S9.
  exists (Z.of_nat (length R)), (Some <$> R), (Some yi), (Some z). unfold vsgd_pure, vsgd_t. cbv zeta. rewrite En. exact S9.
Qed.
End sg.

Lemma wp_v_sgd m lr max (idx : Z -> Z) (ix : nat -> nat) s ny cs Zv o h (Q : svc F -> heap F -> Prop) : m !! x = Some (Mat k n X) -> m !! y = Some (AVec ys) -> max < int_max ->
  (forall e, Z.of_nat e < Z.max 1 max -> idx (Z.of_nat e + 1) = Z.of_nat (ix e) /\ (ix e < n)%nat) -> ny = Z.of_nat n -> svS m s (SVec ny, cs) Zv o h ->
  (forall o' h', svT m (foldl (fun s i => vsgd_pure cc lr k X ys i s) s (ix <$> seq 0 (Z.to_nat (Z.max 1 max)))) o' h' -> Q o' h') -> wp (v_sgd lr max idx o) h Q.
Proof using El Hn Hk.
  intros Hx Hy Hm Hix En S HQ. unfold v_sgd. hid Hix. hid HQ. wbind. eapply sv_needs_init; [exact Hx|exact En|exact S|]. destruct (sv_view _ _ _ _ _ _ _ _ _ _ _ _ _ _ _ S) as (W & Ls & Ex & Ey & _). rewrite Ex.
  wbind. apply wp_v_new; [exact W|]. intros row h1 W1 M1 A1 _. destruct (sv_new _ _ _ _ _ _ _ _ _ _ _ _ _ _ _ _ _ _ S W1 M1 A1) as [Nrow S1]. assert (x <> row) by congruence.
  wbind. apply wp_deref_Some. wbind. eapply wp_m_size; [eapply sv_at; [exact S1|rewrite lookup_insert_ne by congruence; exact Hx]|]. cbn [fst snd].
  wbind. eapply wp_v_resize; [exact W1|rewrite A1; apply lookup_insert|slia|]. intros h2 W2 A2 _. pose proof (sv_upd _ _ _ _ _ _ _ _ _ _ S1 (lookup_insert _ _ _) W2 A2) as S2. rewrite insert_insert in S2. clear S1 A2 A1 M1.
  set (R0 := list.resize (Z.to_nat (Z.of_nat k)) None (Some <$> [])) in *.
  wbind. apply wp_v_new; [exact W2|]. intros ot h3 W3 M3 A3 _. destruct (sv_new _ _ _ _ _ _ _ _ _ _ _ _ _ _ _ _ _ _ S2 W3 M3 A3) as [Not S3]. apply lookup_insert_None in Not as [Not Do].
  wbind. eapply wp_v_resize; [exact W3|rewrite A3; apply lookup_insert|unfold int_max; slia|]. intros h4 W4 A4 _. pose proof (sv_upd _ _ _ _ _ _ _ _ _ _ S3 (lookup_insert _ _ _) W4 A4) as S4. rewrite insert_insert in S4. clear S3 A3 A4 M3.
  wbind. apply wp_v_new; [exact W4|]. intros zt h5 W5 M5 A5 _. destruct (sv_new _ _ _ _ _ _ _ _ _ _ _ _ _ _ _ _ _ _ S4 W5 M5 A5) as [Nzt S5]. apply lookup_insert_None in Nzt as [Nzt Dz]. apply lookup_insert_None in Nzt as [Nzt Dz2].
  wbind. eapply wp_v_resize; [exact W5|rewrite A5; apply lookup_insert|unfold int_max; slia|]. intros h6 W6 A6 _. pose proof (sv_upd _ _ _ _ _ _ _ _ _ _ S5 (lookup_insert _ _ _) W6 A6) as S6. rewrite insert_insert in S6. clear S5 A5 A6 M5.
  change (list.resize (Z.to_nat 1) None (Some <$> [])) with [@None F] in S6.
  assert (Dn : row <> ot /\ row <> zt /\ ot <> zt) by (repeat split; congruence). assert (x <> ot) by congruence. assert (x <> zt) by congruence.
  wbind. eapply wp_v_forward; [exact Hn| |exact S6|]. { rewrite !lookup_insert_ne by congruence. exact Hx. }
  intros o1 h7 S7. apply svT_S in S7.
  wbind. apply wp_train with (I := fun i o h => vsg m row ot zt (AVec (signs n k X s.1 s.2)) (AVec (lpre n k X s.1 s.2)) (foldl (fun s i => vsgd_pure cc lr k X ys i s) s (ix <$> seq 0 i)) o h); [exact Hm|exists (Z.of_nat k), R0, None, None; exact S7| |].
  { intros e o2 h8 He S8. destruct (Hix e He) as [E1 E2]. eapply (wp_v_sgd_epoch m row ot zt Hx Hy Nrow Not Nzt Dn lr idx (ix e)); [exact E1|exact E2|exact S8|]. intros o3 h9 S9. rewrite seq_S, fmap_app, foldl_app. exact S9. }
  clear S7 S6 S Hix. set (s' := foldl _ s _) in *. intros o2 h8 (n0 & c0 & O0 & Z0 & S8).
  wbind. eapply wp_v_forward; [exact Hn| |exact S8|]. { unfold vscr. rewrite !lookup_insert_ne by congruence. exact Hx. }
  intros o3 h9 S9. unfold svT, vscr in S9. destruct Dn as (? & ? & ?).
  wbind. eapply wp_sv_del; [exact S9|rewrite !lookup_insert_ne by congruence; exact Nzt|]. intros h10 S10.
  wbind. eapply wp_sv_del; [exact S10|rewrite !lookup_insert_ne by congruence; exact Not|]. intros h11 S11.
  wbind. eapply wp_sv_del; [exact S11|exact Nrow|]. intros h12 S12. apply wp_ret. apply HQ. exact S12.
Qed.

(** ** train_mbgd *)
Lemma wp_v_mb_step m lr bi bo mb Xb yb s Yh Zv o h (Q : svc F -> heap F -> Prop) : svS m s Yh Zv o h -> m !! x = Some (Mat k n X) -> m !! bi = Some (Mat k mb Xb) -> m !! bo = Some (AVec yb) -> length yb = mb -> Z.of_nat mb <= int_max ->
  (forall o' h', svT m (vmb_step cc lr n mb k Xb yb s) o' h' -> Q o' h') -> wp (v_mb_step lr (Z.of_nat n) (bi, bo) o) h Q.
Proof using Hn Hk.
  intros S0 Hx Hbi Hbo Eb Hmb HQ. destruct (sv_view _ _ _ _ _ _ _ _ _ _ _ _ _ _ _ S0) as (W & Ls & Ex & Ey & Ec & Ebb & lw & ly & lz & Ew & Eyh & Ez & N1 & N2 & N3). unfold v_mb_step. rewrite Ec, Ew.
  wbind. eapply (wp_v_evaluatem k o h bi mb Xb s.1 lw s.2); [exact W|exact Ew|exact Ebb|eapply sv_at; eassumption|eapply sv_w; eassumption|exact Ls|exact Hmb|]. intros yl h1 W1 M1 A1. destruct (sv_new _ _ _ _ _ _ _ _ _ _ _ _ _ _ _ _ _ _ S0 W1 M1 A1) as [Nyl S1]. clear M1 A1. assert (bi <> yl /\ bo <> yl /\ x <> yl) as (? & ? & ?) by (repeat split; congruence).
  wbind. unfold propagatem. rewrite Ew, Ebb. eapply wp_propagate; [exact W1|eapply sv_at; [exact S1|look; exact Hbi]|eapply sv_w; [exact S1|exact Ew]|exact Ls|exact Hmb|]. fold (lpre mb k Xb s.1 s.2). intros zl h2 W2 M2 A2. destruct (sv_new _ _ _ _ _ _ _ _ _ _ _ _ _ _ _ _ _ _ S1 W2 M2 A2) as [Nzl S2]. clear M2 A2 S1. apply lookup_insert_None in Nzl as [Nzl Dzl]. assert (bi <> zl /\ bo <> zl /\ x <> zl) as (? & ? & ?) by (repeat split; congruence).
  assert (Vz : abs h2 !! zl = Some (AVec (lpre mb k Xb s.1 s.2))) by (eapply sv_at; [exact S2|apply lookup_insert]). assert (Vo : abs h2 !! bo = Some (AVec yb)) by (eapply sv_at; [exact S2|look; exact Hbo]).
  wbind. eapply wp_v_cost; [exact S2|exact Vz|exact Vo|rewrite lpre_length; congruence|]. intros _.
  wbind. eapply wp_hingew; [exact W2|exact Vz|exact Vo|rewrite lpre_length; congruence|]. intros p h3 W3 M3 A3. destruct (sv_new _ _ _ _ _ _ _ _ _ _ _ _ _ _ _ _ _ _ S2 W3 M3 A3) as [Np S3]. clear M3 A3 Vz Vo. set (m2 := <[zl := _]> (<[yl := _]> m)) in *.
  set (hd := hder cc (lpre mb k Xb s.1 s.2) yb) in *. assert (Lhd : length hd = mb) by (unfold hd; rewrite hder_length; [exact Eb|rewrite lpre_length; congruence]).
  assert (Hbi2 : m2 !! bi = Some (Mat k mb Xb)) by (unfold m2; look; exact Hbi). assert (Hbo2 : m2 !! bo = Some (AVec yb)) by (unfold m2; look; exact Hbo). assert (Hx2 : m2 !! x = Some (Mat k n X)) by (unfold m2; look; exact Hx). assert (bi <> p) by congruence.
  wbind. eapply wp_xt_vec; [exact W3|eapply sv_at; [exact S3|rewrite lookup_insert_ne by congruence; exact Hbi2]|eapply sv_at; [exact S3|apply lookup_insert]|exact Lhd|exact Hk|]. intros t h4 W4 M4 A4. destruct (sv_new _ _ _ _ _ _ _ _ _ _ _ _ _ _ _ _ _ _ S3 W4 M4 A4) as [Nt S4]. clear M4 A4 S3. apply lookup_insert_None in Nt as [Nt Dt].
  rewrite insert_commute in S4 by congruence. wbind. eapply wp_sv_free; [exact S4|rewrite lookup_insert_ne by congruence; exact Np|]. intros h5 S5. set (q := s_div lr _).
  wbind. apply wp_deref_Some. wbind. eapply wp_v_mapn; [apply S5|eapply sv_at; [exact S5|apply lookup_insert]|]. intros d h6 W6 M6 A6. destruct (sv_new _ _ _ _ _ _ _ _ _ _ _ _ _ _ _ _ _ _ S5 W6 M6 A6) as [Nd S6]. clear M6 A6 S5 S4.
  wbind. apply wp_deref_Some. wbind. eapply wp_v_op2n; [exact W6|eapply sv_w; [exact S6|exact Ew]|eapply sv_at; [exact S6|apply lookup_insert]| |intros Hne; exfalso; apply Hne; rewrite fmap_length, xt_e_length; congruence]. intros _ u h7 W7 M7 A7. destruct (sv_new _ _ _ _ _ _ _ _ _ _ _ _ _ _ _ _ _ _ S6 W7 M7 A7) as [Nu S7]. clear M7 A7 S6.
  wbind. cbn [drop_ref]. eapply wp_sv_del; [exact S7|exact Nu|]. intros h8 S8. wbind. eapply wp_sv_del; [exact S8|exact Nd|]. intros h9 S9. wbind. eapply wp_sv_del; [exact S9|exact Nt|]. intros h10 S10. clear S7 S8 S9.
  wbind. eapply wp_v_shrink; [exact S10|]. intros o' h11 S11 _. clear S10.
  assert (Hyl2 : m2 !! yl = Some (AVec (signs mb k Xb s.1 s.2))) by (unfold m2; look).
  wbind. eapply wp_v_bias_sum; [exact S11|eapply sv_at; [exact S11|exact Hyl2]|eapply sv_at; [exact S11|exact Hbo2]|rewrite signs_length; congruence|]. intros h12 S12. apply (sv_bias _ _ _ _ _ _ _ _ _ _ _ _ _ _ _ s_sub (s_div (s_mul lr (sumv (hder cc (signs mb k Xb s.1 s.2) yb))) (s_of_Z (Z.of_nat n)))) in S12. cbn [fst snd] in S12.
  wbind. eapply wp_v_forward; [exact Hn|exact Hx2|exact S12|]. clear S11 S12. intros o2 h13 T13. apply svT_S in T13. fold (vmb_step cc lr n mb k Xb yb s) in T13. change (shrink q s.1, _) with (vmb_step cc lr n mb k Xb yb s) in T13. set (s' := vmb_step cc lr n mb k Xb yb s) in *.
  destruct (sv_view _ _ _ _ _ _ _ _ _ _ _ _ _ _ _ T13) as (W13 & Ls' & _ & _ & _ & Ebb' & lw' & _ & _ & Ew' & _).
  wbind. eapply (wp_v_evaluatem k o2 h13 bi mb Xb s'.1 lw' s'.2); [exact W13|exact Ew'|exact Ebb'|eapply sv_at; [exact T13|exact Hbi2]|eapply sv_w; [exact T13|exact Ew']|exact Ls'|exact Hmb|]. intros y2 h14 W14 M14 A14. destruct (sv_new _ _ _ _ _ _ _ _ _ _ _ _ _ _ _ _ _ _ T13 W14 M14 A14) as [Ny2 S14]. clear M14 A14 T13.
  assert (Dy2 := Ny2). unfold m2 in Dy2. split_none Dy2.
  replace (<[y2 := AVec (signs mb k Xb s'.1 s'.2)]> m2) with (<[yl := AVec (signs mb k Xb s.1 s.2)]> (<[y2 := AVec (signs mb k Xb s'.1 s'.2)]> (<[zl := AVec (lpre mb k Xb s.1 s.2)]> m))) in S14 by (unfold m2; clear - Dzl Dq Dq0; map_cases).
  clear - S14 HQ Nyl Nzl Dzl Dq Dq0 Dy2. 
  wbind. eapply wp_sv_free; [exact S14|rewrite !lookup_insert_ne by congruence; exact Nyl|]. intros h15 S15.
  wbind. eapply wp_sv_free; [exact S15|rewrite !lookup_insert_ne by congruence; exact Dy2|]. intros h16 S16.
  wbind. eapply wp_sv_free; [exact S16|exact Nzl|]. intros h17 S17. apply wp_ret. apply HQ. exact S17.
Qed.
Lemma sv_split P R bs m s Yh Zv o h h1 : svS m s Yh Zv o h -> wf h1 -> batches_at P R bs (abs h) (abs h1) -> exists m0, batches_at P R bs m m0 /\ svS m0 s Yh Zv o h1.
Proof.
  intros (W & Ls & lw & ly & lz & -> & D1 & D2 & D3 & N1 & N2 & N3 & A) W1 B. rewrite A in B.
  assert (Nlz : <[ly := Yh]> (<[lw := AVec s.1]> m) !! lz = None) by (rewrite !lookup_insert_ne by congruence; exact N3). assert (Nly : <[lw := AVec s.1]> m !! ly = None) by (rewrite lookup_insert_ne by congruence; exact N2).
  assert (B1 := batches_drop _ _ _ _ _ lz _ Nlz B). assert (V1 : abs h1 !! lz = Some Zv) by (eapply batches_old; [exact B|apply lookup_insert]).
  assert (B2 := batches_drop _ _ _ _ _ ly _ Nly B1). assert (V2 : delete lz (abs h1) !! ly = Some Yh) by (eapply batches_old; [exact B1|apply lookup_insert]).
  assert (B3 := batches_drop _ _ _ _ _ lw _ N1 B2). assert (V3 : delete ly (delete lz (abs h1)) !! lw = Some (AVec s.1)) by (eapply batches_old; [exact B2|apply lookup_insert]).
  exists (delete lw (delete ly (delete lz (abs h1)))). split; [exact B3|]. split; [exact W1|]. split; [exact Ls|]. exists lw, ly, lz. split; [reflexivity|]. split_and!; try assumption.
  - apply lookup_delete.
  - rewrite lookup_delete_ne by congruence. apply lookup_delete.
  - rewrite !lookup_delete_ne by congruence. apply lookup_delete.
  - rewrite insert_delete by exact V3. rewrite insert_delete by exact V2. rewrite insert_delete by exact V1. reflexivity.
Qed.
Lemma sv_join P R bs m m0 s Yh Zv o h (Q : unit -> heap F -> Prop) : batches_at P R bs m m0 -> svS m0 s Yh Zv o h -> (forall h', svS m s Yh Zv o h' -> Q tt h') -> wp (del_batches bs) h Q.
Proof.
  intros B (W & Ls & lw & ly & lz & -> & D1 & D2 & D3 & N1 & N2 & N3 & A) HQ.
  destruct (batches_insert _ _ _ _ _ lw (AVec s.1) B N1) as [M1 B1].
  destruct (batches_insert _ _ _ _ _ ly Yh B1) as [M2 B2]; [rewrite lookup_insert_ne by congruence; exact N2|].
  destruct (batches_insert _ _ _ _ _ lz Zv B2) as [M3 B3]; [rewrite !lookup_insert_ne by congruence; exact N3|]. rewrite <- A in B3.
  eapply wp_del_pairs; [exact W|exact B3|]. intros h' W' A'. apply HQ. split; [exact W'|]. split; [exact Ls|]. exists lw, ly, lz. rewrite lookup_insert_ne in M2 by congruence. rewrite !lookup_insert_ne in M3 by congruence. split; [reflexivity|]. split_and!; assumption.
Qed.
Lemma wp_v_mbgd m lr max b s ny cs Zv o h (Q : svc F -> heap F -> Prop) : m !! x = Some (Mat k n X) -> m !! y = Some (AVec ys) -> max < int_max -> (0 < b <= n)%nat -> ny = Z.of_nat n -> svS m s (SVec ny, cs) Zv o h ->
  (forall o' h', let nb := (n / b)%nat in svT m (Nat.iter (Z.to_nat (Z.max 1 max)) (vmb_pure cc lr n (n / nb) nb k X ys) s) o' h' -> Q o' h') -> wp (v_mbgd lr max (Z.of_nat b) o) h Q.
Proof using El Hn Hk.
  intros Hx Hy Hm Hb En HS HQ. assert (Hnb : (0 < n / b)%nat) by (apply Nat.div_str_pos; exact Hb). cbv zeta in HQ. set (nb := (n / b)%nat) in *. assert (Hmb : (nb * (n / nb) <= n)%nat) by (apply Nat.mul_div_le; clear - Hnb; lia). set (mb := (n / nb)%nat) in *.
  destruct (sv_view _ _ _ _ _ _ _ _ _ _ _ _ _ _ _ HS) as (W & Ls & E1 & E2 & _). unfold v_mbgd. wbind. eapply sv_needs_init; [exact Hx|exact En|exact HS|]. wbind. eapply sv_rows; [exact Hx|exact HS|].
  wbind. apply wp_idiv_nat; [apply Hb|exact Hn|]. fold nb. rewrite E1, E2.
  wbind. eapply wp_mini_batches_mv; [exact W|eapply sv_at; eassumption|eapply sv_at; eassumption|exact El|exact Hnb|exact Hn|exact Hk|]. intros bs h1 W1 Lb B. fold mb in B. destruct (sv_split _ _ _ _ _ _ _ _ _ _ HS W1 B) as (m0 & B0 & S1).
  assert (Hx0 : m0 !! x = Some (Mat k n X)) by (eapply batches_old; [exact B0|exact Hx]).
  wbind. eapply wp_v_forward; [exact Hn|exact Hx0|exact S1|]. intros o1 h2 T2. apply svT_S in T2.
  wbind. apply wp_train with (I := fun i o h => exists Y Z, svS m0 (Nat.iter i (vmb_pure cc lr n mb nb k X ys) s) Y Z o h); [exact Hm|eexists _, _; exact T2| |].
  - intros i o2 h3 _ S2. set (si := Nat.iter i _ s) in *.
    apply (wp_over_batches k n ys El (fun j o h => exists Y Z, svS m0 (vmb_pure cc lr n mb j k X ys si) Y Z o h)) with (i := 0%nat); [exact S2| |].
    + intros j [bi bo] o3 h4 Hj (Y & Z & S3). cbn [plus] in *. destruct (ba_val _ _ _ _ _ B0 j _ Hj) as [V1 V2]. cbn [fst snd] in V1, V2. unfold mv_in in V1.
      eapply (wp_v_mb_step m0 lr bi bo mb); [exact S3|exact Hx0|exact V1|exact V2|rewrite take_length; clear - Hmb Hnb El Hn; nia|clear - Hmb Hnb Hn; nia|]. intros o4 h5 T4. apply svT_S in T4. eexists _, _. unfold vmb_pure at 1. rewrite seq_S, foldl_app. exact T4.
    + intros o3 h4 S3. cbn [plus] in *. rewrite Lb in S3. exact S3.
  - intros o2 h3 (Y & Z & S2). wbind. eapply wp_v_forward; [exact Hn|exact Hx0|exact S2|]. intros o3 h4 T3. wbind. eapply sv_join; [exact B0|exact T3|]. intros h5 T5. apply wp_ret. apply HQ. exact T5.
Qed.
End obj.
End svc.
