(** * Stochastic and mini-batch training of the perceptron: the whole runs. *)
From Verif Require Import Base BaseProofs Vec VecSpec VecProofs VecProofs2 Mat MatSpec MatProofs MatProofs2 MatProofs3 MatProofs4 MatProofs5 DetProofs Frame Act ActProofs ActProofs2 Cost CostProofs Sym Svm LinAlg LinAlgProofs Util UtilProofs Glm GlmProofs GlmProofs2 GlmProofs4 Mlp MlpProofs MlpProofs2 MlpProofs3 MlpProofs4.
Section mlp.
Context {F : Type} `{Scalar F} `{Libm F}.
Implicit Types (h : heap F) (xs ys ws v es : list F) (X W : nat -> nat -> F).
Context (x y : loc) (k n hh : nat) (reg : regtype) (la al : F).
Context (Hh : Z.of_nat hh <= int_max) (Hkh : Z.of_nat (k * hh) <= int_max).
Context (base : gmap loc (aobj F)) (X : nat -> nat -> F) (ys : list F).
Context (Hx : base !! x = Some (Mat k n X)) (Hy : base !! y = Some (AVec ys)) (El : length ys = n) (Hn : Z.of_nat n <= int_max) (Hk : Z.of_nat k <= int_max) (Hnh : Z.of_nat (n * hh) <= int_max).
Notation obj base := (mlpS base x y k n hh reg la al).

Lemma wp_p_sgd lr max (idx : Z -> Z) (ix : nat -> nat) p Y o h (Q : mlp -> heap F -> Prop) : max < int_max ->
  (forall e, Z.of_nat e < Z.max 1 max -> idx (Z.of_nat e + 1) = Z.of_nat (ix e) /\ (ix e < n)%nat) -> obj base p Y o h ->
  (forall o' h', let p' := foldl (fun p i => msgd lr k hh X ys reg la al i p) p (ix <$> seq 0 (Z.to_nat (Z.max 1 max))) in obj base p' (Some (outs n k hh X p')) o' h' -> Q o' h') -> wp (p_sgd lr max idx o) h Q.
Proof using All.
  intros Hm Hix S HQ. destruct (obj_fields _ _ _ _ _ _ _ _ _ _ _ _ _ S) as (Ex & Ey & En & Eb & Er & Ela & Eal & Einit). unfold p_sgd. rewrite Einit, Ex. cbn [negb].
  wbind. apply wp_v_new; [apply S|]. intros row h1 W1 N1 A1 _. pose proof (obj_new _ _ _ _ _ _ _ _ _ _ _ _ _ _ _ _ (obj_forget _ _ _ _ _ _ _ _ _ _ _ _ _ S) N1 W1 A1) as S1. destruct (own_fresh _ _ _ _ _ _ _ _ _ _ _ _ _ _ S N1) as [O1 M1].
  assert (Bx1 : <[row := AVec []]> base !! x = Some (Mat k n X)) by (rewrite lookup_insert_ne by congruence; exact Hx). destruct (obj_in S1 Bx1) as [Vx1 _].
  wbind. apply wp_deref_Some. wbind. eapply wp_m_size; [exact Vx1|]. cbn [fst snd].
  wbind. eapply wp_v_resize; [exact W1|rewrite A1; apply lookup_insert|slia|]. intros h2 W2 A2 _. pose proof (obj_upd _ _ _ _ _ _ _ _ _ _ _ _ _ _ _ _ S1 O1 W2 A2) as S2. rewrite insert_insert in S2. set (R0 := list.resize (Z.to_nat (Z.of_nat k)) None (Some <$> [])) in *. clear S1 Vx1.
  wbind. apply wp_v_new; [exact W2|]. intros ot h3 W3 N3 A3 _. pose proof (obj_new _ _ _ _ _ _ _ _ _ _ _ _ _ _ _ _ S2 N3 W3 A3) as S3. destruct (own_fresh _ _ _ _ _ _ _ _ _ _ _ _ _ _ S2 N3) as [O3 M3].
  wbind. eapply wp_v_resize; [exact W3|rewrite A3; apply lookup_insert|unfold int_max; slia|]. intros h4 W4 A4 _. pose proof (obj_upd _ _ _ _ _ _ _ _ _ _ _ _ _ _ _ _ S3 O3 W4 A4) as S4. rewrite insert_insert in S4. clear S2 S3.
  wbind. apply wp_v_new; [exact W4|]. intros yt h5 W5 N5 A5 _. pose proof (obj_new _ _ _ _ _ _ _ _ _ _ _ _ _ _ _ _ S4 N5 W5 A5) as S5. destruct (own_fresh _ _ _ _ _ _ _ _ _ _ _ _ _ _ S4 N5) as [O5 M5].
  wbind. eapply wp_v_resize; [exact W5|rewrite A5; apply lookup_insert|unfold int_max; slia|]. intros h6 W6 A6 _. pose proof (obj_upd _ _ _ _ _ _ _ _ _ _ _ _ _ _ _ _ S5 O5 W6 A6) as S6. rewrite insert_insert in S6. clear S4 S5.
  change (list.resize (Z.to_nat 1) None (Some <$> [])) with [@None F] in *.
  wbind. apply wp_v_new; [exact W6|]. intros lz h7 W7 N7 A7 _. pose proof (obj_new _ _ _ _ _ _ _ _ _ _ _ _ _ _ _ _ S6 N7 W7 A7) as S7. destruct (own_fresh _ _ _ _ _ _ _ _ _ _ _ _ _ _ S6 N7) as [O7 M7].
  wbind. apply wp_v_new; [exact W7|]. intros lq h8 W8 N8 A8 _. pose proof (obj_new _ _ _ _ _ _ _ _ _ _ _ _ _ _ _ _ S7 N8 W8 A8) as S8. destruct (own_fresh _ _ _ _ _ _ _ _ _ _ _ _ _ _ S7 N8) as [O8 M8]. clear S6 S7.
  split_none M3. split_none M5. split_none M7. split_none M8. clear A1 A2 A3 A4 A5 A6 A7 A8 N1 N3 N5 N7 N8.
  assert (ND : NoDup [row; ot; yt; lz; lq]) by (rewrite !list.NoDup_cons, !not_elem_of_cons; repeat split; try apply not_elem_of_nil; try congruence; apply NoDup_nil_2).
  assert (Hnew : forall l, l ∈ [row; ot; yt; lz; lq] -> base !! l = None) by (intros l; rewrite !elem_of_cons, elem_of_nil; intros [->|[->|[->|[->|[->|[]]]]]]; assumption).
  assert (G0 : sgS x y k n hh reg la al base row ot yt lz lq p o h8).
  { eexists _, _, _, _, _, _, _, _, _. split; [exact S8|]. split; [intros l I; rewrite !not_elem_of_cons in I; destruct I as (? & ? & ? & ? & ? & _); rewrite !lookup_insert_ne by congruence; reflexivity|].
    split; [rewrite !lookup_insert_ne by congruence; apply lookup_insert|]. split; [rewrite !lookup_insert_ne by congruence; apply lookup_insert|]. split; [rewrite !lookup_insert_ne by congruence; apply lookup_insert|]. split; [rewrite !lookup_insert_ne by congruence; apply lookup_insert|]. apply lookup_insert. }
  wbind. apply wp_train with (I := fun i o h => sgS x y k n hh reg la al base row ot yt lz lq (foldl (fun p i => msgd lr k hh X ys reg la al i p) p (ix <$> seq 0 i)) o h); [exact Hm|exact G0| |].
  { intros e o1 h9 He G1. destruct (Hix e He) as [E1 E2]. eapply (wp_p_sgd_epoch x y k n hh reg la al Hh Hkh base X ys Hx Hy El row ot yt lz lq ND Hnew lr idx (ix e)); [exact E1|exact E2|exact G1|].
    intros o2 h10 G2. rewrite seq_S, fmap_app, foldl_app. exact G2. }
  set (p' := foldl _ p _) in *. clear S S8 G0 o h Ex Ey En Eb Er Ela Eal Einit O1 O3 O5 O7 O8 W1 W2 W3 W4 W5 W6 W7 W8. intros o h (b & n0 & c0 & O0 & Y0 & n1 & c1 & n2 & c2 & S & Rest & B1 & B2 & B3 & B4 & B5).
  assert (Nx : x ∉ [row; ot; yt; lz; lq]) by (intros I; rewrite (Hnew _ I) in Hx; congruence).
  wbind. eapply (wp_obj_forward b x y k n hh X reg la al); [rewrite Rest by exact Nx; exact Hx|exact Hn|exact Hnh|exact S|]. intros h9 S9 _ _.
  assert (D : forall l a, l ∈ [row; ot; yt; lz; lq] -> b !! l = Some a -> l ∉ owned o /\ abs h9 !! l = Some a) by (intros l a I Bl; destruct (obj_in S9 Bl); split; assumption).
  destruct (D lq _ ltac:(rewrite !elem_of_cons; tauto) B5) as [U5 V5]. destruct (D lz _ ltac:(rewrite !elem_of_cons; tauto) B4) as [U4 V4]. destruct (D yt _ ltac:(rewrite !elem_of_cons; tauto) B3) as [U3 V3].
  destruct (D ot _ ltac:(rewrite !elem_of_cons; tauto) B2) as [U2 V2]. destruct (D row _ ltac:(rewrite !elem_of_cons; tauto) B1) as [U1 V1].
  wbind. eapply wp_del; [apply S9|exact V5|]. intros h10 W10 A10 _. pose proof (obj_del _ _ _ _ _ _ _ _ _ _ _ _ _ _ _ S9 U5 W10 A10) as S10.
  wbind. eapply wp_del; [exact W10|rewrite A10, lookup_delete_ne by congruence; exact V4|]. intros h11 W11 A11 _. pose proof (obj_del _ _ _ _ _ _ _ _ _ _ _ _ _ _ _ S10 U4 W11 A11) as S11.
  wbind. eapply wp_del; [exact W11|rewrite A11, A10, !lookup_delete_ne by congruence; exact V3|]. intros h12 W12 A12 _. pose proof (obj_del _ _ _ _ _ _ _ _ _ _ _ _ _ _ _ S11 U3 W12 A12) as S12.
  wbind. eapply wp_del; [exact W12|rewrite A12, A11, A10, !lookup_delete_ne by congruence; exact V2|]. intros h13 W13 A13 _. pose proof (obj_del _ _ _ _ _ _ _ _ _ _ _ _ _ _ _ S12 U2 W13 A13) as S13.
  wbind. eapply wp_del; [exact W13|rewrite A13, A12, A11, A10, !lookup_delete_ne by congruence; exact V1|]. intros h14 W14 A14 _. pose proof (obj_del _ _ _ _ _ _ _ _ _ _ _ _ _ _ _ S13 U1 W14 A14) as S14.
  apply wp_ret. apply (HQ o h14). fold p'. replace base with (delete row (delete ot (delete yt (delete lz (delete lq b))))); [exact S14|]. clear - Rest M1 M3 M5 M7 M8.
  apply map_eq. intros l. destruct (decide (row = l)) as [<-|D1]; [rewrite lookup_delete; congruence|]. rewrite lookup_delete_ne by exact D1. destruct (decide (ot = l)) as [<-|D2]; [rewrite lookup_delete; congruence|]. rewrite lookup_delete_ne by exact D2.
  destruct (decide (yt = l)) as [<-|D3]; [rewrite lookup_delete; congruence|]. rewrite lookup_delete_ne by exact D3. destruct (decide (lz = l)) as [<-|D4]; [rewrite lookup_delete; congruence|]. rewrite lookup_delete_ne by exact D4.
  destruct (decide (lq = l)) as [<-|D5]; [rewrite lookup_delete; congruence|]. rewrite lookup_delete_ne by exact D5. apply Rest. rewrite !not_elem_of_cons. repeat split; try congruence. apply not_elem_of_nil.
Qed.

(** ** mbgd *)
(** One epoch over nb batches of m rows; every batch has the first m labels. *)
Definition mmb (lr : F) (m nb : nat) (p : par) : par :=
  foldl (fun p i => mgd lr m k hh (fun r c => X (m * i + r)%nat c) (take m ys) reg la al p) p (seq 0 nb).
(** Network plus the two scratch matrices; everything else is [b1]. *)
Definition mbS (b1 : gmap loc (aobj F)) (lz lq : loc) (p : par) (o : mlp) h : Prop := exists b Y x0 y0 c0 x1 y1 c1, obj b p Y o h /\ (forall l, l ∉ [lz; lq] -> b !! l = b1 !! l) /\
  b !! lz = Some (SMat x0 y0, c0) /\ b !! lq = Some (SMat x1 y1, c1).
Lemma wp_p_mb_step lr b1 lz lq bi bo m Xb yb p o h (Q : mlp -> heap F -> Prop) : lz <> lq -> b1 !! lz = None -> b1 !! lq = None -> mbS b1 lz lq p o h ->
  b1 !! bi = Some (Mat k m Xb) -> b1 !! bo = Some (AVec yb) -> length yb = m -> Z.of_nat m <= int_max -> Z.of_nat (m * hh) <= int_max ->
  (forall o' h', mbS b1 lz lq (mgd lr m k hh Xb yb reg la al p) o' h' -> Q o' h') -> wp (p_mb_step lr lz lq (bi, bo) o) h Q.
Proof using Hh Hkh.
  intros D N1 N2 (b & Y & x0 & y0 & c0 & x1 & y1 & c1 & S & Rest & Bz & Bq) Hbi Hbo Eb Hm Hmh HQ. unfold p_mb_step.
  assert (Ni : bi ∉ [lz; lq]) by (rewrite !not_elem_of_cons; repeat split; [congruence|congruence|apply not_elem_of_nil]). assert (No : bo ∉ [lz; lq]) by (rewrite !not_elem_of_cons; repeat split; [congruence|congruence|apply not_elem_of_nil]).
  assert (Bi : b !! bi = Some (Mat k m Xb)) by (rewrite Rest by exact Ni; exact Hbi). assert (Bo : b !! bo = Some (AVec yb)) by (rewrite Rest by exact No; exact Hbo).
  rewrite !not_elem_of_cons in Ni, No. destruct Ni as (? & ? & _), No as (? & ? & _).
  destruct (obj_fields _ _ _ _ _ _ _ _ _ _ _ _ _ S) as (_ & _ & _ & Ebb & _).
  destruct (obj_in S Bi) as [Vi _]. wbind. eapply (wp_p_evaluatem o hh k p (ms_shape S) Ebb h bi m Xb); [apply S|exact (obj_pars S)|exact Vi|exact Hm|exact Hmh|]. intros yl h1 W1 M1 A1.
  pose proof (obj_new _ _ _ _ _ _ _ _ _ _ _ _ _ _ _ _ S M1 W1 A1) as S1. destruct (own_fresh _ _ _ _ _ _ _ _ _ _ _ _ _ _ S M1) as [Oyl Nyl]. set (yh := outs m k hh Xb p) in *.
  assert (yl <> lz /\ yl <> lq /\ yl <> bi /\ yl <> bo) as (? & ? & ? & ?) by (repeat split; congruence).
  assert (Bz1 : <[yl := AVec yh]> b !! lz = Some (SMat x0 y0, c0)) by (rewrite lookup_insert_ne by congruence; exact Bz). assert (Bq1 : <[yl := AVec yh]> b !! lq = Some (SMat x1 y1, c1)) by (rewrite lookup_insert_ne by congruence; exact Bq). assert (Bi1 : <[yl := AVec yh]> b !! bi = Some (Mat k m Xb)) by (rewrite lookup_insert_ne by congruence; exact Bi).
  destruct (obj_in S1 Bz1) as [Vz Oz]. destruct (obj_in S1 Bq1) as [Vq Oq]. destruct (obj_in S1 Bi1) as [Vi1 _].
  wbind. eapply (wp_propagatem o hh k p (ms_shape S) h1 bi lz lq m Xb); [exact W1|exact (obj_pars S1)|exact Vi1|exact Hmh|exact Vz|exact Vq|exact D|]. intros h2 W2 A2.
  set (b2 := <[lq := Mat hh m (ha k Xb p)]> (<[lz := Mat hh m (hz k Xb p)]> (<[yl := AVec yh]> b))).
  assert (S2 : obj b2 p Y o h2).
  { pose proof (ms_own S1) as ND1. split; [exact W2|apply S|exact (ms_obj S)|exact ND1| | | | | | | |].
    - intros l I. unfold b2. rewrite !lookup_insert_ne by (intros ->; tauto). apply S, I.
    - rewrite A2, !lookup_insert_ne; [apply S1| |]; intros E; [apply Oz|apply Oq]; rewrite E; unfold owned; rewrite !elem_of_cons; tauto.
    - rewrite A2, !lookup_insert_ne; [apply S1| |]; intros E; [apply Oz|apply Oq]; rewrite E; unfold owned; rewrite !elem_of_cons; tauto.
    - rewrite A2, !lookup_insert_ne; [exact (ms_b1 S1)| |]; intros E; [apply Oz|apply Oq]; rewrite E; unfold owned; rewrite !elem_of_cons; tauto.
    - rewrite A2, !lookup_insert_ne; [exact (ms_yh S1)| |]; intros E; [apply Oz|apply Oq]; rewrite E; unfold owned; rewrite !elem_of_cons; tauto.
    - rewrite A2, !lookup_insert_ne; [exact (ms_z2 S1)| |]; intros E; [apply Oz|apply Oq]; rewrite E; unfold owned; rewrite !elem_of_cons; tauto.
    - rewrite A2, !lookup_insert_ne; [exact (ms_a2 S1)| |]; intros E; [apply Oz|apply Oq]; rewrite E; unfold owned; rewrite !elem_of_cons; tauto.
    - intros l I. rewrite A2. unfold b2. destruct (decide (lq = l)) as [<-|D1]; [rewrite !lookup_insert; reflexivity|]. rewrite !(lookup_insert_ne _ lq) by exact D1.
      destruct (decide (lz = l)) as [<-|D2]; [rewrite !lookup_insert; reflexivity|]. rewrite !(lookup_insert_ne _ lz) by exact D2. apply (ms_frame S1), I. }
  clear S1 A2 A1 Vz Vq Vi1 Bz1 Bq1 Bi1. assert (Bi2 : b2 !! bi = Some (Mat k m Xb)) by (unfold b2; rewrite !lookup_insert_ne by congruence; exact Bi). assert (Bo2 : b2 !! bo = Some (AVec yb)) by (unfold b2; rewrite !lookup_insert_ne by congruence; exact Bo).
  assert (By2 : b2 !! yl = Some (AVec yh)) by (unfold b2; rewrite !lookup_insert_ne by congruence; apply lookup_insert). assert (Bz2 : b2 !! lz = Some (Mat hh m (hz k Xb p))) by (unfold b2; rewrite !lookup_insert_ne by congruence; apply lookup_insert). assert (Bq2 : b2 !! lq = Some (Mat hh m (ha k Xb p))) by (unfold b2; apply lookup_insert).
  destruct (obj_in S2 Bo2) as [Vo2 _]. destruct (obj_in S2 By2) as [Vy2 _]. assert (Lyh : length yh = m) by apply outs_length.
  wbind. apply wp_deref_Some. wbind. eapply wp_p_cost; [exact W2|exact (obj_pars S2)|exact Vy2|exact Vo2|congruence|].
  wbind. eapply wp_v_size_vec; [exact Vo2|]. rewrite Eb.
  wbind. eapply (wp_obj_backprop x y k n hh reg la al Hh Hkh lr b2 p Y o h2 bi bo yl lz lq m Xb yb yh); [exact S2|exact Bi2|exact Bo2|exact By2|exact Eb|exact Lyh|exact Bz2|exact Bq2|exact Hmh|]. cbv zeta. fold (mgd lr m k hh Xb yb reg la al p). set (p' := mgd lr m k hh Xb yb reg la al p) in *.
  clear S S2 Oyl M1 Vo2 Vy2 Vi Oz Oq Ebb W1 W2. intros o' h3 S3. destruct (obj_in S3 Bi2) as [Vi3 _]. destruct (obj_fields _ _ _ _ _ _ _ _ _ _ _ _ _ S3) as (_ & _ & _ & Eb3 & _).
  wbind. eapply (wp_p_evaluatem o' hh k p' (ms_shape S3) Eb3 h3 bi m Xb); [apply S3|exact (obj_pars S3)|exact Vi3|exact Hm|exact Hmh|]. intros y2 h4 W4 M4 A4.
  pose proof (obj_new _ _ _ _ _ _ _ _ _ _ _ _ _ _ _ _ S3 M4 W4 A4) as S4. destruct (own_fresh _ _ _ _ _ _ _ _ _ _ _ _ _ _ S3 M4) as [Oy2 Ny2]. assert (y2 <> yl /\ y2 <> lz /\ y2 <> lq) as (? & ? & ?) by (repeat split; congruence).
  wbind. apply wp_deref_Some. destruct (obj_yh S4) as (n9 & c9 & V9). wbind. eapply wp_del; [exact W4|exact V9|]. intros h5 W5 A5 _.
  pose proof (obj_swap _ _ _ _ _ _ _ _ _ _ _ _ _ _ _ _ S4 (lookup_insert _ _ _) W5 A5) as S5. rewrite delete_insert in S5 by exact Ny2.
  destruct (obj_in S5 By2) as [Vy5 Oy5]. wbind. eapply wp_del; [exact W5|exact Vy5|]. intros h6 W6 A6 _. pose proof (obj_del _ _ _ _ _ _ _ _ _ _ _ _ _ _ _ S5 Oy5 W6 A6) as S6.
  apply wp_ret. apply HQ. exists (delete yl b2). eexists _, _, _, _, _, _, _. split; [exact S6|]. split; [|split; [rewrite lookup_delete_ne by congruence; exact Bz2|rewrite lookup_delete_ne by congruence; exact Bq2]].
  intros l I. destruct (decide (yl = l)) as [<-|Dl]; [rewrite lookup_delete; rewrite <- Rest by exact I; congruence|]. rewrite lookup_delete_ne by exact Dl. rewrite <- Rest by exact I. rewrite !not_elem_of_cons in I. destruct I as (? & ? & _). unfold b2. rewrite !lookup_insert_ne by congruence. reflexivity.
Qed.
Lemma wp_p_mbgd lr max m p Y o h (Q : mlp -> heap F -> Prop) : max < int_max -> (0 < m <= n)%nat -> obj base p Y o h ->
  (forall o' h', let nb := (n / m)%nat in let p' := Nat.iter (Z.to_nat (Z.max 1 max)) (mmb lr (n / nb) nb) p in
     obj base p' (Some (outs n k hh X p')) o' h' -> Q o' h') -> wp (p_mbgd lr max (Z.of_nat m) o) h Q.
Proof using All.
  intros Hm Hmn S HQ. destruct (obj_fields _ _ _ _ _ _ _ _ _ _ _ _ _ S) as (Ex & Ey & En & Eb & Er & Ela & Eal & Einit). unfold p_mbgd. rewrite Einit. cbn [negb].
  assert (Hnb : (0 < n / m)%nat) by (apply Nat.div_str_pos; exact Hmn). set (nb := (n / m)%nat) in *. assert (Hmb : (nb * (n / nb) <= n)%nat) by (apply Nat.mul_div_le; lia). set (mb := (n / nb)%nat) in *.
  wbind. apply wp_m_new; [apply S|]. intros lz h1 W1 N1 A1 _. pose proof (obj_new _ _ _ _ _ _ _ _ _ _ _ _ _ _ _ _ S N1 W1 A1) as S1. destruct (own_fresh _ _ _ _ _ _ _ _ _ _ _ _ _ _ S N1) as [O1 M1].
  wbind. apply wp_m_new; [exact W1|]. intros lq h2 W2 N2 A2 _. pose proof (obj_new _ _ _ _ _ _ _ _ _ _ _ _ _ _ _ _ S1 N2 W2 A2) as S2. destruct (own_fresh _ _ _ _ _ _ _ _ _ _ _ _ _ _ S1 N2) as [O2 M2]. apply lookup_insert_None in M2 as [M2 D12].
  set (ba := <[lq := (SMat 0 0, [])]> (<[lz := (SMat 0 0, [])]> base)) in *.
  assert (Bx : ba !! x = Some (Mat k n X)) by (unfold ba; rewrite !lookup_insert_ne by congruence; exact Hx). assert (By : ba !! y = Some (AVec ys)) by (unfold ba; rewrite !lookup_insert_ne by congruence; exact Hy).
  wbind. rewrite En. apply wp_idiv_nat; [apply Hmn|exact Hn|]. fold nb. rewrite Ex, Ey.
  wbind. eapply wp_mini_batches_mv; [exact W2|eapply obj_in; [exact S2|exact Bx]|eapply obj_in; [exact S2|exact By]|exact El|exact Hnb|exact Hn|exact Hk|]. fold mb. intros bs h3 W3 Lb B.
  (* the batches are fresh, hence not owned and not lz, lq *)
  assert (Obs : forall l, l ∈ blocs bs -> l ∉ owned o /\ ba !! l = None) by (intros l I; eapply own_fresh; [exact S2|apply (ba_fresh _ _ _ _ _ B), I]).
  assert (Keep : forall l, abs h2 !! l <> None -> abs h3 !! l = abs h2 !! l) by (intros l I; apply (ba_rest _ _ _ _ _ B); intros J; apply I, (ba_fresh _ _ _ _ _ B), J).
  set (bb := foldr delete (abs h3) (owned o)). assert (bbin : forall l, l ∉ owned o -> bb !! l = abs h3 !! l) by (intros l I; unfold bb; apply lookup_foldr_delete_not_elem_of, I).
  assert (S3 : obj bb p Y o h3).
  { assert (E : forall l, l ∈ owned o -> abs h3 !! l = abs h2 !! l) by (intros l I; apply Keep; destruct (own_in _ _ _ _ _ _ _ _ _ _ _ _ _ _ S2 I) as [a ->]; discriminate).
    assert (I : forall l', l' ∈ [p_yh o; p_w1 o; p_w2 o; p_b1 o; p_z2 o; p_a2 o] -> l' ∈ owned o) by auto.
    split; [exact W3|apply S|exact (ms_obj S)|apply S| | | | | | | |]; rewrite ?E by (apply I; rewrite !elem_of_cons; tauto).
    - intros l J. unfold bb. apply lookup_foldr_delete, J.
    - apply S2.
    - apply S2.
    - exact (ms_b1 S2).
    - exact (ms_yh S2).
    - exact (ms_z2 S2).
    - exact (ms_a2 S2).
    - intros l J. symmetry. apply bbin, J. }
  set (b1 := delete lq (delete lz bb)).
  assert (Bs : forall j b, bs !! j = Some b -> b1 !! b.1 = Some (mv_in k mb X j) /\ b1 !! b.2 = Some (AVec (take mb ys))).
  { intros j b Hj. destruct (ba_val _ _ _ _ _ B j b Hj) as [V1 V2]. destruct (blocs_in _ _ _ Hj) as [I1 I2]. destruct (Obs _ I1) as [Q1 R1]. destruct (Obs _ I2) as [Q2 R2]. unfold ba in R1, R2. split_none R1. split_none R2.
    unfold b1. rewrite !lookup_delete_ne by congruence. rewrite !bbin by assumption. split; assumption. }
  assert (Vz : bb !! lz = Some (SMat 0 0, [])). { rewrite bbin by exact O1. assert (E : abs h2 !! lz = Some (SMat 0 0, [])) by (rewrite A2, lookup_insert_ne, A1 by congruence; apply lookup_insert). rewrite Keep; rewrite E; [reflexivity|discriminate]. }
  assert (Vq : bb !! lq = Some (SMat 0 0, [])). { rewrite bbin by exact O2. assert (E : abs h2 !! lq = Some (SMat 0 0, [])) by (rewrite A2; apply lookup_insert). rewrite Keep; rewrite E; [reflexivity|discriminate]. }
  assert (G0 : mbS b1 lz lq p o h3).
  { exists bb. eexists _, _, _, _, _, _, _. split; [exact S3|]. split; [|split; [exact Vz|exact Vq]]. intros l I. rewrite !not_elem_of_cons in I. destruct I as (? & ? & _). unfold b1. rewrite !lookup_delete_ne by congruence. reflexivity. }
  assert (Z1 : b1 !! lz = None) by (unfold b1; rewrite lookup_delete_ne by congruence; apply lookup_delete). assert (Z2 : b1 !! lq = None) by (unfold b1; apply lookup_delete).
  wbind. apply wp_train with (I := fun i o h => mbS b1 lz lq (Nat.iter i (mmb lr mb nb) p) o h); [exact Hm|exact G0| |].
  { intros i o1 h4 _ G1. set (pi := Nat.iter i _ p) in *.
    apply (wp_over_batches k n ys El (fun j o h => mbS b1 lz lq (mmb lr mb j pi) o h)) with (i := 0%nat); [exact G1| |].
    - intros j [bi bo] o2 h5 Hj G2. cbn [plus] in *. destruct (Bs j _ Hj) as [V1 V2]. cbn [fst snd] in V1, V2. unfold mv_in in V1. assert (Hjn : (j < nb)%nat) by (apply lookup_lt_Some in Hj; lia).
      eapply (wp_p_mb_step lr b1 lz lq bi bo mb); [congruence|exact Z1|exact Z2|exact G2|exact V1|exact V2|rewrite take_length; nia|nia|nia|]. intros o3 h6 G3. unfold mmb at 1. rewrite seq_S, foldl_app. exact G3.
    - intros o2 h5 G2. cbn [plus] in *. rewrite Lb in G2. exact G2. }
  set (p' := Nat.iter _ _ p) in *. intros o1 h4 (b & Y1 & x0 & y0 & c0 & x1 & y1 & c1 & S4 & Rest & B1 & B2).
  assert (Frm : forall l, l ∉ owned o -> l ∉ [lz; lq] -> l ∉ blocs bs -> b !! l = base !! l).
  { intros l I1 I2 I3. rewrite Rest by exact I2. rewrite !not_elem_of_cons in I2. destruct I2 as (? & ? & _). unfold b1. rewrite !lookup_delete_ne, bbin by congruence. rewrite (ba_rest _ _ _ _ _ B) by exact I3. rewrite (ms_frame S2) by exact I1. unfold ba. rewrite !lookup_insert_ne by congruence. reflexivity. }
  assert (NoO : forall l, l ∈ owned o -> b !! l = None).
  { intros l I. rewrite Rest; [|rewrite !not_elem_of_cons; repeat split; [intros ->; tauto|intros ->; tauto|apply not_elem_of_nil]]. unfold b1. rewrite !lookup_delete_ne by (intros ->; tauto). unfold bb. apply lookup_foldr_delete, I. }
  assert (Xin : forall l a, base !! l = Some a -> b !! l = Some a).
  { intros l a E. rewrite Frm; [exact E| | |]; intros I.
    - rewrite (ms_new S l I) in E. congruence.
    - rewrite !elem_of_cons, elem_of_nil in I. destruct I as [->|[->|[]]]; congruence.
    - destruct (Obs l I) as [_ R]. unfold ba in R. split_none R. congruence. }
  wbind. eapply (wp_obj_forward b x y k n hh X reg la al); [apply Xin, Hx|exact Hn|exact Hnh|exact S4|]. intros h5 S5 _ _.
  (* destroy the batches *)
  set (B5 := foldr delete (abs h5) (blocs bs)).
  assert (Bt : batches_at (mv_in k mb X) (fun _ => AVec (take mb ys)) bs B5 (abs h5)).
  { split; [apply B|intros l I; apply lookup_foldr_delete, I| |intros l I; symmetry; apply lookup_foldr_delete_not_elem_of, I].
    intros j bq Hj. destruct (Bs j bq Hj) as [V1 V2]. assert (Nb : forall l a, b1 !! l = Some a -> b !! l = Some a) by (intros l a E; rewrite Rest; [exact E|]; rewrite !not_elem_of_cons; repeat split; [congruence|congruence|apply not_elem_of_nil]).
    split; eapply obj_in; try exact S5; apply Nb; assumption. }
  wbind. eapply wp_del_pairs; [apply S5|exact Bt|]. intros h6 W6 A6.
  assert (Ow : forall l, l ∈ owned o1 -> l ∉ blocs bs).
  { intros l I J. apply (ms_new S5) in I. unfold blocs in J. apply elem_of_list_bind in J as (bq & Eq & [j Hj]%elem_of_list_lookup_1). destruct (Bs j bq Hj) as [V1 V2].
    assert (Nb : forall l a, b1 !! l = Some a -> b !! l = Some a) by (intros l' a E; rewrite Rest; [exact E|]; rewrite !not_elem_of_cons; repeat split; [congruence|congruence|apply not_elem_of_nil]). apply Nb in V1, V2.
    rewrite !elem_of_cons, elem_of_nil in Eq. destruct Eq as [->|[->|[]]]; congruence. }
  assert (S6 : obj (foldr delete b (blocs bs)) p' (Some (outs n k hh X p')) o1 h6).
  { assert (E : forall l, l ∈ owned o1 -> abs h6 !! l = abs h5 !! l) by (intros l I; rewrite A6; apply lookup_foldr_delete_not_elem_of, Ow, I).
    assert (I : forall l', l' ∈ [p_yh o1; p_w1 o1; p_w2 o1; p_b1 o1; p_z2 o1; p_a2 o1] -> l' ∈ owned o1) by auto.
    split; [exact W6|apply S4|exact (ms_obj S4)|apply S4| | | | | | | |]; rewrite ?E by (apply I; rewrite !elem_of_cons; tauto).
    - intros l J. rewrite lookup_foldr_delete_not_elem_of by (apply Ow, J). apply S5, J.
    - apply S5.
    - apply S5.
    - exact (ms_b1 S5).
    - exact (ms_yh S5).
    - exact (ms_z2 S5).
    - exact (ms_a2 S5).
    - intros l J. rewrite A6. unfold B5. destruct (decide (l ∈ blocs bs)) as [K|K]; [rewrite !lookup_foldr_delete by exact K; reflexivity|]. rewrite !lookup_foldr_delete_not_elem_of by exact K. apply S5, J. }
  assert (Kz : lz ∉ blocs bs) by (intros I; destruct (Obs _ I) as [_ R]; unfold ba in R; split_none R; congruence). assert (Kq : lq ∉ blocs bs) by (intros I; destruct (Obs _ I) as [_ R]; unfold ba in R; split_none R; congruence).
  assert (B1' : foldr delete b (blocs bs) !! lz = Some (SMat x0 y0, c0)) by (rewrite lookup_foldr_delete_not_elem_of by exact Kz; exact B1). assert (B2' : foldr delete b (blocs bs) !! lq = Some (SMat x1 y1, c1)) by (rewrite lookup_foldr_delete_not_elem_of by exact Kq; exact B2).
  destruct (obj_in S6 B1') as [Vz6 Oz6]. destruct (obj_in S6 B2') as [Vq6 Oq6].
  wbind. eapply wp_del; [exact W6|exact Vq6|]. intros h7 W7 A7 _. pose proof (obj_del _ _ _ _ _ _ _ _ _ _ _ _ _ _ _ S6 Oq6 W7 A7) as S7.
  wbind. eapply wp_del; [exact W7|rewrite A7, lookup_delete_ne by congruence; exact Vz6|]. intros h8 W8 A8 _. pose proof (obj_del _ _ _ _ _ _ _ _ _ _ _ _ _ _ _ S7 Oz6 W8 A8) as S8.
  apply wp_ret. apply (HQ o1 h8). fold p'. replace base with (delete lz (delete lq (foldr delete b (blocs bs)))); [exact S8|]. apply map_eq. intros l.
  destruct (decide (lz = l)) as [<-|E1]; [rewrite lookup_delete; congruence|]. rewrite lookup_delete_ne by exact E1. destruct (decide (lq = l)) as [<-|E2]; [rewrite lookup_delete; congruence|]. rewrite lookup_delete_ne by exact E2.
  destruct (decide (l ∈ blocs bs)) as [K|K]; [rewrite lookup_foldr_delete by exact K; destruct (Obs l K) as [_ R]; unfold ba in R; split_none R; congruence|]. rewrite lookup_foldr_delete_not_elem_of by exact K.
  destruct (decide (l ∈ owned o)) as [J|J]; [rewrite NoO by exact J; symmetry; apply (ms_new S), J|]. apply Frm; [exact J| |exact K]. rewrite !not_elem_of_cons. repeat split; [congruence|congruence|apply not_elem_of_nil].
Qed.
End mlp.
