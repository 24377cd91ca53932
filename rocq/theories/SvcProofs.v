(** * What the support vector classifier computes, for any arithmetic. *)
From Verif Require Import Base BaseProofs Vec VecSpec VecProofs VecProofs2 Mat MatSpec MatProofs MatProofs2 MatProofs3 MatProofs4 MatProofs5 DetProofs Frame Stat StatProofs Act ActProofs ActProofs2 Cost CostProofs Sym Svm LinAlg LinAlgProofs Util UtilProofs Glm GlmProofs GlmProofs2 GlmProofs4 Lnk LnkProofs LnkProofs2 LnkProofs3 Svc.
Section svc.
Context {F : Type} `{Scalar F} `{Libm F}.
Implicit Types (h : heap F) (xs ys ws es zs : list F) (X : nat -> nat -> F) (m : gmap loc (aobj F)).

(** ** Pure counterparts *)
Definition hder (cc : F) zs ys : list F := (fun d => s_mul d cc) <$> zip_with hinge_d1 zs ys.
Definition shrink (la : F) ws : list F := rw1 la s_zero RRidge <$> ws.
Definition signs (n k : nat) X ws (b : F) : list F := sign_normr <$> lpre n k X ws b.
Definition vgd_pure (cc lr : F) (n k : nat) X ys (s : list F * F) : list F * F :=
  let q := s_div lr (s_of_Z (Z.of_nat n)) in
  (shrink q (zip_with s_sub s.1 ((fun d => s_mul d q) <$> xt_e n k X (hder cc (lpre n k X s.1 s.2) ys))),
   s_add s.2 (s_div (s_mul lr (sumv (hder cc (signs n k X s.1 s.2) ys))) (s_of_Z (Z.of_nat n)))).
Definition vsgd_t (cc : F) (k : nat) X ys (i : nat) (s : list F * F) : F := s_mul (hinge_d1 (s_add (dotl s.1 (vlist k (X i))) s.2) (nth i ys s_zero)) cc.
Definition vsgd_pure (cc lr : F) (k : nat) X ys (i : nat) (s : list F * F) : list F * F :=
  let t := s_mul lr (vsgd_t cc k X ys i s) in
  (shrink lr (zip_with s_sub s.1 ((fun d => s_mul d t) <$> vlist k (X i))), s_sub s.2 t).
Definition vmb_step (cc lr : F) (n mb k : nat) Xb yb (s : list F * F) : list F * F :=
  (shrink (s_div lr (s_of_Z (Z.of_nat n))) s.1, s_sub s.2 (s_div (s_mul lr (sumv (hder cc (signs mb k Xb s.1 s.2) yb))) (s_of_Z (Z.of_nat n)))).
Definition vmb_pure (cc lr : F) (n mb nb k : nat) X ys (s : list F * F) : list F * F :=
  foldl (fun s i => vmb_step cc lr n mb k (fun r j => X (mb * i + r)%nat j) (take mb ys) s) s (seq 0 nb).

Lemma signs_length n k X ws b : length (signs n k X ws b) = n.
Proof. unfold signs. rewrite fmap_length. apply lpre_length. Qed.
Lemma hder_length cc zs ys : length zs = length ys -> length (hder cc zs ys) = length ys.
Proof. intros. unfold hder. rewrite fmap_length, zip_with_length. lia. Qed.
Lemma shrink_length la ws : length (shrink la ws) = length ws. Proof. apply fmap_length. Qed.

(** ** Steps without the object *)
Lemma wp_hingew h a b cc xs ys (Q : option loc -> heap F -> Prop) : wf h -> abs h !! a = Some (AVec xs) -> abs h !! b = Some (AVec ys) -> length xs = length ys ->
  (forall d h', wf h' -> abs h !! d = None -> abs h' = <[d := AVec (hder cc xs ys)]> (abs h) -> Q (Some d) h') -> wp (d_hingew KV (Some a) (Some b) cc) h Q.
Proof.
  intros W Ha Hb E HQ. unfold d_hingew, d_hinge. wbind. eapply (d_loop_ok KV hinge_d1 h a b 0 0 0 0 xs ys); [exact W|exact Ha|exact Hb|exact E|]. intros t h1 W1 N1 A1. cbn [KObj] in A1.
  wbind. unfold la_scale. eapply (la1_ok KV _ _ h1 t 0 0); [exact W1|look|]. cbn [KObj]. new_as d h2 W2 N2 A2. wbind. cbn [drop_ref]. dele h3 W3 A3. apply wp_ret. apply HQ; assumption.
Qed.
Lemma wp_hcost h a b w cc xs ys ws (Q : F -> heap F -> Prop) : wf h -> abs h !! a = Some (AVec xs) -> abs h !! b = Some (AVec ys) -> length xs = length ys -> abs h !! w = Some (AVec ws) ->
  (forall v, Q v h) -> wp (c_hingewv (Some a) (Some b) (Some w) cc) h Q.
Proof.
  intros W Ha Hb E Hw HQ. unfold c_hingewv, c_hinge. wbind. eapply (cost_fold_ok KV _ _ h a b 0 0 0 0); [exact W|exact Ha|exact Hb|exact E|]. apply wp_ret. wbind. unfold wp. rewrite (reg_term_ok KV h w 0 0 ws); [apply HQ|exact W|exact Hw].
Qed.

Section obj.
Context (x y : loc) (k n : nat) (X : nat -> nat -> F) (ys : list F) (cc : F) (reg : regtype) (la al : F) (gn gk : Z).
Context (El : length ys = n) (Hn : Z.of_nat n <= int_max) (Hk : Z.of_nat k <= int_max).
Definition mksv (lw ly lz : loc) (b : F) : svc F := Svc (mklnk x y reg la al gn gk lw ly (Some lz) b) cc.
(** The object owns its weights, predictions [Yh] and pre-activations [Zv]; [m] is the rest of the heap. *)
Definition svS m (s : list F * F) (Yh Zv : aobj F) (o : svc F) h : Prop :=
  wf h /\ length s.1 = k /\ exists lw ly lz, o = mksv lw ly lz s.2 /\ lw <> ly /\ lz <> lw /\ lz <> ly /\ m !! lw = None /\ m !! ly = None /\ m !! lz = None /\
    abs h = <[lz := Zv]> (<[ly := Yh]> (<[lw := AVec s.1]> m)).
Definition svT m s o h := svS m s (AVec (signs n k X s.1 s.2)) (AVec (lpre n k X s.1 s.2)) o h.

Lemma sv_view m s Yh Zv o h : svS m s Yh Zv o h -> wf h /\ length s.1 = k /\ g_x (l_g (v_o o)) = Some x /\ g_y (l_g (v_o o)) = Some y /\ v_c o = cc /\ g_b (l_g (v_o o)) = s.2 /\
  exists lw ly lz, g_w (l_g (v_o o)) = Some lw /\ g_yh (l_g (v_o o)) = Some ly /\ l_z (v_o o) = Some lz /\ m !! lw = None /\ m !! ly = None /\ m !! lz = None.
Proof. intros (W & Ls & lw & ly & lz & -> & D1 & D2 & D3 & N1 & N2 & N3 & A). split_and!; try reflexivity; try assumption. exists lw, ly, lz. split_and!; try reflexivity; assumption. Qed.
Lemma sv_at m s Yh Zv o h l v : svS m s Yh Zv o h -> m !! l = Some v -> abs h !! l = Some v.
Proof. intros (W & Ls & lw & ly & lz & -> & D1 & D2 & D3 & N1 & N2 & N3 & A) Hl. rewrite A, !lookup_insert_ne by congruence. exact Hl. Qed.
Lemma sv_w m s Yh Zv o h lw : svS m s Yh Zv o h -> g_w (l_g (v_o o)) = Some lw -> abs h !! lw = Some (AVec s.1).
Proof. intros (W & Ls & lw' & ly & lz & -> & D1 & D2 & D3 & N1 & N2 & N3 & A) [= <-]. rewrite A, !lookup_insert_ne by congruence. apply lookup_insert. Qed.
Lemma sv_yh m s Yh Zv o h l : svS m s Yh Zv o h -> g_yh (l_g (v_o o)) = Some l -> abs h !! l = Some Yh.
Proof. intros (W & Ls & lw' & ly & lz & -> & D1 & D2 & D3 & N1 & N2 & N3 & A) [= <-]. rewrite A, lookup_insert_ne by congruence. apply lookup_insert. Qed.
Lemma sv_z m s Yh Zv o h l : svS m s Yh Zv o h -> l_z (v_o o) = Some l -> abs h !! l = Some Zv.
Proof. intros (W & Ls & lw' & ly & lz & -> & D1 & D2 & D3 & N1 & N2 & N3 & A) [= <-]. rewrite A. apply lookup_insert. Qed.
Lemma sv_new m s Yh Zv o h d v h' : svS m s Yh Zv o h -> wf h' -> abs h !! d = None -> abs h' = <[d := v]> (abs h) -> m !! d = None /\ svS (<[d := v]> m) s Yh Zv o h'.
Proof.
  intros (W & Ls & lw & ly & lz & -> & D1 & D2 & D3 & N1 & N2 & N3 & A) W' N A'. rewrite A in N, A'. split_none N. split; [assumption|]. split; [exact W'|]. split; [exact Ls|]. exists lw, ly, lz. split_and!; try reflexivity; try assumption; try (rewrite lookup_insert_ne by congruence; assumption). rewrite A'. map_cases.
Qed.
Lemma sv_gone m s Yh Zv o h d v h' : svS (<[d := v]> m) s Yh Zv o h -> m !! d = None -> wf h' -> abs h' = delete d (abs h) -> svS m s Yh Zv o h'.
Proof.
  intros (W & Ls & lw & ly & lz & -> & D1 & D2 & D3 & N1 & N2 & N3 & A) N W' A'. split_none N1. split_none N2. split_none N3. split; [exact W'|]. split; [exact Ls|]. exists lw, ly, lz. split_and!; try reflexivity; try assumption. rewrite A', A. map_cases.
Qed.
Lemma wp_sv_free m s Yh Zv o h d xs (Q : unit -> heap F -> Prop) : svS (<[d := AVec xs]> m) s Yh Zv o h -> m !! d = None -> (forall h', svS m s Yh Zv o h' -> Q tt h') -> wp (free (Some d)) h Q.
Proof. intros S N HQ. eapply wp_free; [apply S|eapply sv_at; [exact S|apply lookup_insert]|]. intros h' W' A'. apply HQ. eapply sv_gone; eassumption. Qed.
Lemma wp_sv_del m s Yh Zv o h d v (Q : unit -> heap F -> Prop) : svS (<[d := v]> m) s Yh Zv o h -> m !! d = None -> (forall h', svS m s Yh Zv o h' -> Q tt h') -> wp (del_obj d) h Q.
Proof. intros S N HQ. eapply wp_del; [apply S|eapply sv_at; [exact S|apply lookup_insert]|]. intros h' W' A' _. apply HQ. eapply sv_gone; eassumption. Qed.
Lemma wp_sv_sub m s Yh Zv o h lw d ds (Q : unit -> heap F -> Prop) : svS m s Yh Zv o h -> g_w (l_g (v_o o)) = Some lw -> m !! d = Some (AVec ds) -> length ds = k ->
  (forall h', svS m (zip_with s_sub s.1 ds, s.2) Yh Zv o h' -> Q tt h') -> wp (v_sub lw (Some d)) h Q.
Proof using Type.
  clear El Hn Hk X ys. intros (W & Ls & lw' & ly & lz & -> & D1 & D2 & D3 & N1 & N2 & N3 & A) [= <-] Hd Ld HQ. assert (d <> lw' /\ d <> ly /\ d <> lz) as (? & ? & ?) by (repeat split; congruence). eapply wp_v_op2; [exact W|look|look|]. intros h2 W2 A2. rewrite decide_True in A2 by congruence.
  apply HQ. split; [exact W2|]. split; [cbn [fst]; rewrite zip_with_length; lia|]. exists lw', ly, lz. split_and!; try reflexivity; try assumption. rewrite A2, A. cbn [fst]. map_cases.
Qed.
Lemma wp_v_shrink m s Yh Zv o h q (Q : svc F -> heap F -> Prop) : svS m s Yh Zv o h -> (forall o' h', svS m (shrink q s.1, s.2) Yh Zv o' h' -> g_yh (l_g (v_o o')) = g_yh (l_g (v_o o)) -> Q o' h') -> wp (v_shrink q o) h Q.
Proof.
  intros (W & Ls & lw & ly & lz & -> & D1 & D2 & D3 & N1 & N2 & N3 & A) HQ. unfold v_shrink. cbn [mksv mklnk v_o l_g g_w]. wbind. apply wp_deref_Some. wbind. eapply wp_reg_weights; [exact W|look|]. intros w' h1 W1 N4 A1. rewrite A in A1, N4. split_none N4.
  wbind. eapply wp_del; [exact W1|rewrite A1, !lookup_insert_ne by congruence; apply lookup_insert|]. intros h2 W2 A2 _. apply wp_ret. apply HQ; [|reflexivity]. split; [exact W2|]. split; [cbn [fst]; rewrite shrink_length; exact Ls|]. exists w', ly, lz. split_and!; try reflexivity; try congruence. rewrite A2, A1. cbn [fst]. fold (shrink q s.1). map_cases.
Qed.
Lemma sv_bias m s Yh Zv o h (op : F -> F -> F) t : svS m s Yh Zv o h -> svS m (s.1, op s.2 t) Yh Zv (v_add_bias op t o) h.
Proof. intros (W & Ls & lw & ly & lz & -> & D1 & D2 & D3 & N1 & N2 & N3 & A). split; [exact W|]. split; [exact Ls|]. exists lw, ly, lz. split_and!; try reflexivity; assumption. Qed.
Lemma wp_v_bias_sum m s Yh Zv o h r ry xs yv (Q : F -> heap F -> Prop) : svS m s Yh Zv o h -> abs h !! r = Some (AVec xs) -> abs h !! ry = Some (AVec yv) -> length xs = length yv ->
  (forall h', svS m s Yh Zv o h' -> Q (sumv (hder cc xs yv)) h') -> wp (v_bias_sum o (Some r) (Some ry)) h Q.
Proof.
  intros S Hr Hy E HQ. destruct (sv_view _ _ _ _ _ _ S) as (W & _ & _ & _ & Ec & _). unfold v_bias_sum. rewrite Ec. wbind. eapply wp_hingew; [exact W|exact Hr|exact Hy|exact E|]. intros d h1 W1 N1 A1. destruct (sv_new _ _ _ _ _ _ _ _ _ S W1 N1 A1) as [N S1].
  wbind. apply wp_deref_Some. wbind. eapply wp_v_sum; [exact W1|look|]. fold (sumv (hder cc xs yv)). wbind. eapply wp_sv_free; [exact S1|exact N|]. intros h2 S2. apply wp_ret. apply HQ. exact S2.
Qed.
Lemma wp_v_evaluatem o h bx N Xb ws lw b (Q : option loc -> heap F -> Prop) : wf h -> g_w (l_g (v_o o)) = Some lw -> g_b (l_g (v_o o)) = b -> abs h !! bx = Some (Mat k N Xb) -> abs h !! lw = Some (AVec ws) -> length ws = k -> Z.of_nat N <= int_max ->
  (forall d h', wf h' -> abs h !! d = None -> abs h' = <[d := AVec (signs N k Xb ws b)]> (abs h) -> Q (Some d) h') -> wp (v_evaluatem o (Some bx)) h Q.
Proof.
  intros W Ew Eb Hx Hw El' Hn' HQ. unfold v_evaluatem, propagatem. rewrite Ew, Eb. wbind. eapply wp_propagate; [exact W|exact Hx|exact Hw|exact El'|exact Hn'|]. intros z h1 W1 N1 A1. fold (lpre N k Xb ws b) in A1.
  wbind. eapply (act_loop_ok KV _ h1 z 0 0); [exact W1|look|]. cbn [KObj]. new_as d h2 W2 N2 A2. wbind. cbn [drop_ref]. dele h3 W3 A3. apply wp_ret. apply HQ; assumption.
Qed.
Lemma wp_v_forward m s Yh Zv o h (Q : svc F -> heap F -> Prop) : m !! x = Some (Mat k n X) -> svS m s Yh Zv o h -> (forall o' h', svT m s o' h' -> Q o' h') -> wp (v_forward o) h Q.
Proof using Hn.
  intros Hx (W & Ls & lw & ly & lz & -> & D1 & D2 & D3 & N1 & N2 & N3 & A) HQ. unfold v_forward, propagatem. cbn [mksv mklnk v_o l_g l_z g_w g_b g_x g_yh]. assert (x <> lw /\ x <> ly /\ x <> lz) as (? & ? & ?) by (repeat split; congruence).
  wbind. eapply wp_propagate; [exact W|look|look|exact Ls|exact Hn|]. fold (lpre n k X s.1 s.2). new_as z h1 W1 N4 A1.
  wbind. cbn [drop_ref]. eapply wp_del; [exact W1|look|]. intros h2 W2 A2 _.
  assert (A2' : abs h2 = <[z := AVec (lpre n k X s.1 s.2)]> (<[ly := Yh]> (<[lw := AVec s.1]> m))) by (rewrite A2, A1; map_cases). clear A2.
  wbind. eapply (act_loop_ok KV _ h2 z 0 0); [exact W2|look|]. cbn [KObj]. fold (signs n k X s.1 s.2). new_as a h3 W3 N5 A3.
  wbind. eapply wp_del; [exact W3|look|]. intros h4 W4 A4 _. apply wp_ret. apply HQ. split; [exact W4|]. split; [exact Ls|]. exists lw, a, z. split_and!; try reflexivity; try congruence. rewrite A4, A3. map_cases.
Qed.
End obj.
End svc.
