(** * C54: constructing a linear or logistic regression, and construct-then-train end to end. *)
From Verif Require Import Base BaseProofs Vec VecSpec VecProofs VecProofs2 Mat MatSpec MatProofs MatProofs2 MatProofs5 Act Sym Svm Cost Util UtilProofs Glm GlmProofs GlmProofs2 CostSpec GdMath GlmSpec GlmMath LibmR PropGlm.
From Coq Require Import Reals Lra.
From Verif Require Import PropAct PropSvm RSum RInst.
Close Scope R_scope.

Section any.
Context {F : Type} `{Scalar F} `{Libm F}.
Implicit Types (h : heap F).
Lemma wp_g_new c h x y k n X (reg : regtype) (lambda alpha la al : F) (iw : Z -> F) (ib : F) (Q : glm -> heap F -> Prop) : wf h -> abs h !! x = Some (Mat k n X) -> Z.of_nat n <= int_max -> Z.of_nat k <= int_max ->
  (forall (kk : F -> M F (glm (F := F))) h' Q', wp (kk la) h' Q' -> wp (let! z := to_member c lambda in kk z) h' Q') ->
  (forall (kk : F -> M F (glm (F := F))) h' Q', wp (kk al) h' Q' -> wp (let! z := to_member c alpha in kk z) h' Q') ->
  (forall o h', glmS (abs h) x y k n reg la al (vlist k (fun j => iw (Z.of_nat j)), ib) (SVec (Z.of_nat n), replicate n None) o h' -> Q o h') ->
  wp (g_new c (Some x) (Some y) reg lambda alpha iw ib) h Q.
Proof.
  intros W Hx Hn Hk Hla Hal HQ. unfold g_new. wbind. apply wp_deref_Some. wbind. eapply wp_m_size; [exact Hx|]. cbn [fst snd]. apply Hla. apply Hal.
  wbind. apply wp_v_new; [exact W|]. intros yh h1 W1 N1 A1 _. wbind. eapply wp_v_resize; [exact W1|rewrite A1; apply lookup_insert|lia|]. intros h2 W2 A2 _. rewrite A1, insert_insert in A2. change (Some <$> []) with (@nil (option F)) in A2. rewrite resize_nil, Nat2Z.id in A2.
  wbind. apply wp_v_new; [exact W2|]. intros w h3 W3 N3 A3 _. rewrite A2 in A3, N3. apply lookup_insert_None in N3 as [N3 D3]. wbind. eapply wp_v_resize; [exact W3|rewrite A3; apply lookup_insert|lia|]. intros h4 W4 A4 _. rewrite A3, insert_insert in A4. change (Some <$> []) with (@nil (option F)) in A4. rewrite resize_nil, Nat2Z.id in A4.
  wbind. eapply wp_v_size; [rewrite A4; apply lookup_insert|]. wbind.
  apply wp_for_n with (I := fun i h' => wf h' /\ abs h' = <[w := (SVec (Z.of_nat k), (Some <$> vlist i (fun j => iw (Z.of_nat j))) ++ replicate (k - i) None)]> (<[yh := (SVec (Z.of_nat n), replicate n None)]> (abs h))).
  - split; [exact W4|]. rewrite A4, Nat.sub_0_r. reflexivity.
  - intros i h5 Hi [W5 A5]. eapply wp_v_set; [exact W5|rewrite A5; apply lookup_insert|]. destruct (Z.ltb_spec (Z.of_nat i) 0) as [|_]; [lia|]. intros h6 W6 _ A6. split; [exact W6|]. rewrite A6, A5, insert_insert, Nat2Z.id. f_equal. f_equal.
    rewrite insert_app_r_alt by (rewrite fmap_length, vlist_length; lia). rewrite fmap_length, vlist_length, Nat.sub_diag. replace (k - i)%nat with (S (k - S i)) by lia. cbn [replicate]. change (<[0%nat:=?a]> (_ :: ?l)) with (a :: l).
    unfold vlist. rewrite seq_S, !fmap_app, <- app_assoc. reflexivity.
  - intros h5 [W5 A5]. apply wp_ret. apply HQ. split; [exact W5|]. split; [apply vlist_length|]. exists w, yh. split; [reflexivity|]. split; [congruence|]. split; [exact N3|]. split; [exact N1|].
    rewrite Nat.sub_diag, app_nil_r in A5. rewrite A5, insert_commute by congruence. f_equal. cbn [fst]. unfold AVec. rewrite vlist_length. reflexivity.
Qed.
(** MLPPLogReg(x, y, reg, lambda, alpha): k weights, the drawn ones; parameters kept; x, y and everything else untouched. *)
Theorem C54_new_log h x y k n X reg (lambda alpha : F) iw ib : wf h -> abs h !! x = Some (Mat k n X) -> Z.of_nat n <= int_max -> Z.of_nat k <= int_max ->
  runs (g_new Log (Some x) (Some y) reg lambda alpha iw ib) h (fun o h' =>
    glmS (abs h) x y k n reg lambda alpha (vlist k (fun j => iw (Z.of_nat j)), ib) (SVec (Z.of_nat n), replicate n None) o h').
Proof. intros W Hx Hn Hk. apply runs_wp. eapply wp_g_new; [exact W|exact Hx|exact Hn|exact Hk|intros kk h' Q' G; wbind; apply wp_ret; exact G|intros kk h' Q' G; wbind; apply wp_ret; exact G|]. intros o h' S. split; [apply S|exact S]. Qed.
(** MLPPLinReg: the parameters are truncated to integers. *)
Theorem C54_new_lin h x y k n X reg (lambda alpha : F) a b iw ib : wf h -> abs h !! x = Some (Mat k n X) -> Z.of_nat n <= int_max -> Z.of_nat k <= int_max ->
  m_to_int lambda = Some a -> m_to_int alpha = Some b ->
  runs (g_new Lin (Some x) (Some y) reg lambda alpha iw ib) h (fun o h' =>
    glmS (abs h) x y k n reg (s_of_Z a) (s_of_Z b) (vlist k (fun j => iw (Z.of_nat j)), ib) (SVec (Z.of_nat n), replicate n None) o h').
Proof.
  intros W Hx Hn Hk Ea Eb. apply runs_wp. eapply wp_g_new; [exact W|exact Hx|exact Hn|exact Hk|intros kk h' Q' G; wbind; cbn; rewrite Ea; apply wp_ret; exact G|intros kk h' Q' G; wbind; cbn; rewrite Eb; apply wp_ret; exact G|].
  intros o h' S. split; [apply S|exact S].
Qed.
(** A parameter that does not fit an int: undefined behaviour. *)
Theorem C54_new_lin_UB h x y k n X reg (lambda alpha : F) iw ib : wf h -> abs h !! x = Some (Mat k n X) ->
  m_to_int lambda = None \/ (exists a, m_to_int lambda = Some a) /\ m_to_int alpha = None -> g_new Lin (Some x) (Some y) reg lambda alpha iw ib h = UB.
Proof.
  intros W Hx Hc. unfold g_new. assert (E : m_size x h = Ok (Z.of_nat k, Z.of_nat n) h). { pose proof (wp_m_size h x (Z.of_nat k) (Z.of_nat n) _ (fun v h' => v = (Z.of_nat k, Z.of_nat n) /\ h' = h) Hx (conj eq_refl eq_refl)) as G. unfold wp in G. destruct (m_size x h) as [v h'| | |]; try contradiction. destruct G as [-> ->]. reflexivity. }
  cbn [deref]. unfold bind at 1. cbn. unfold bind at 1. rewrite E. destruct Hc as [Ec|[[a Ea] Ec]].
  - unfold bind at 1. rewrite Ec. reflexivity.
  - unfold bind at 1. rewrite Ea. cbn. unfold bind at 1. rewrite Ec. reflexivity.
Qed.
End any.

Open Scope R_scope.
Lemma runs_seq {F A B} (m : M F A) (g : A -> M F B) h P Q : runs m h P -> (forall a h', P a h' -> runs (g a) h' Q) -> runs (let! x := m in g x) h Q.
Proof. intros (a & h1 & E & W & HP) G. destruct (G a h1 HP) as (b & h2 & E2 & W2 & HQ). exists b, h2. split; [unfold bind; rewrite E; exact E2|]. auto. Qed.

(** The trained model an object holds. *)
Definition holds (o : glm (F := R)) (h : heap R) (ws : list R) (b : R) : Prop := exists w, g_w o = Some w /\ abs h !! w = Some (AVec ws) /\ g_b o = b.
Lemma glmS_holds base x y k n reg la al ws b Yh o h : glmS (F := R) base x y k n reg la al (ws, b) Yh o h -> holds o h ws b.
Proof. intros (W & Ls & lw & ly & -> & D & N1 & N2 & A). exists lw. split; [reflexivity|]. split; [|reflexivity]. rewrite A, lookup_insert_ne by congruence. apply lookup_insert. Qed.
Definition in_int (z : R) : Prop := -2147483649 < z < 2147483648.
Lemma to_int_in z : in_int z -> m_to_int z = Some (Rtrunc z).
Proof. intros [H1 H2]. cbn. unfold Rto_int. destruct (Rlt_dec _ _); [|lra]. destruct (Rlt_dec _ _); [reflexivity|lra]. Qed.
Lemma Rtrunc_small z : -1 < z < 1 -> Rtrunc z = 0%Z.
Proof.
  intros [H1 H2]. unfold Rtrunc. assert (G : forall u, 0 <= u < 1 -> Int_part u = 0%Z). { intros u Hu. unfold Int_part. rewrite <- (tech_up u 1); [reflexivity|lra|lra]. }
  destruct (Rlt_dec z 0); [rewrite G by lra; reflexivity|apply G; lra].
Qed.

(** Construct and train without regularisation: whatever weights were drawn, after T epochs the cost is within |v0 - u|^2 / (2 lr T) of that of ANY model u. *)
Theorem C54_fit c h x y k n X ys lambda alpha iw ib lr max : wf h -> abs h !! x = Some (Mat k n X) -> abs h !! y = Some (AVec ys) -> length ys = n -> (0 < n)%nat -> (Z.of_nat n <= int_max)%Z -> (Z.of_nat k <= int_max)%Z ->
  (max < int_max)%Z -> in_int lambda -> in_int alpha ->
  0 < lr -> lr * (match c with Lin => 1 | Log => / 4 end * row_power n k X) <= 1 ->
  runs (let! o := g_new c (Some x) (Some y) RNone lambda alpha iw ib in gradient_descent c lr max o) h (fun o' h' => exists ws b, holds o' h' ws b /\ length ws = k /\
    forall us u, J c n k X ys ws b - J c n k X ys us u <= model_dist2 k (vlist k (fun j => iw (Z.of_nat j))) ib us u / (2 * lr * IZR (Z.max 1 max))).
Proof.
  intros W Hx Hy El Hp Hn Hk Hm Il Ia Hlr HL.
  assert (N : exists la al, runs (g_new c (Some x) (Some y) RNone lambda alpha iw ib) h (fun o h' => glmS (abs h) x y k n RNone la al (vlist k (fun j => iw (Z.of_nat j)), ib) (SVec (Z.of_nat n), replicate n None) o h')).
  { destruct c; eexists _, _; [eapply C54_new_lin; [exact W|exact Hx|exact Hn|exact Hk|apply to_int_in; assumption|apply to_int_in; assumption]|eapply C54_new_log; [exact W|exact Hx|exact Hn|exact Hk]]. }
  destruct N as (la & al & N). eapply runs_seq; [exact N|]. intros o h1 S.
  destruct (C50_gd_rate c (abs h) x y k n X ys la al Hx Hy El Hn Hk Hp lr max _ _ _ o h1 Hm S Hlr HL) as (o' & h' & E & W' & ws & b & S' & R). exists o', h'. split; [exact E|]. split; [exact W'|].
  exists ws, b. split; [eapply glmS_holds; exact S'|]. split; [apply S'|]. exact R.
Qed.
(** Defect: a MLPPLinReg with ridge, lasso or elastic net and parameters strictly between -1 and 1 trains exactly like one without regularisation. *)
Theorem C54_small_parameters_ignored_refuted h x y k n X ys reg lambda alpha iw ib lr max : wf h -> abs h !! x = Some (Mat k n X) -> abs h !! y = Some (AVec ys) -> length ys = n -> (Z.of_nat n <= int_max)%Z -> (Z.of_nat k <= int_max)%Z ->
  (max < int_max)%Z -> reg <> RClip -> -1 < lambda < 1 -> -1 < alpha < 1 ->
  exists ws b, runs (let! o := g_new Lin (Some x) (Some y) reg lambda alpha iw ib in gradient_descent Lin lr max o) h (fun o' h' => holds o' h' ws b) /\
               runs (let! o := g_new Lin (Some x) (Some y) RNone lambda alpha iw ib in gradient_descent Lin lr max o) h (fun o' h' => holds o' h' ws b).
Proof.
  intros W Hx Hy El Hn Hk Hm Hr Hl Ha. assert (m_to_int lambda = Some 0%Z) as El0 by (rewrite <- (Rtrunc_small lambda Hl); apply to_int_in; unfold in_int; lra). assert (m_to_int alpha = Some 0%Z) as Ea0 by (rewrite <- (Rtrunc_small alpha Ha); apply to_int_in; unfold in_int; lra).
  set (s0 := (vlist k (fun j => iw (Z.of_nat j)), ib)). set (s' := Nat.iter (Z.to_nat (Z.max 1 max)) (gd_pure Lin lr n k X ys RNone 0 0) s0).
  assert (G : forall rg, rg <> RClip -> runs (let! o := g_new Lin (Some x) (Some y) rg lambda alpha iw ib in gradient_descent Lin lr max o) h (fun o' h' => holds o' h' s'.1 s'.2)).
  { intros rg Hrg. eapply runs_seq; [eapply C54_new_lin; [exact W|exact Hx|exact Hn|exact Hk|exact El0|exact Ea0]|]. intros o h1 S.
    destruct (C50_gd_run Lin lr max (abs h) x y k n X ys rg _ _ _ _ o h1 Hx Hy El Hn Hk Hm S) as (o' & h' & E & W' & S'). cbv zeta in S'. exists o', h'. split; [exact E|]. split; [exact W'|]. fold s0 in S'.
    assert (Es : Nat.iter (Z.to_nat (Z.max 1 max)) (gd_pure Lin lr n k X ys rg (s_of_Z 0) (s_of_Z 0)) s0 = s').
    { unfold s'. generalize (Z.to_nat (Z.max 1 max)). intros T. induction T as [|T IH]; [reflexivity|]. rewrite !Nat.iter_succ, IH. set (s1 := Nat.iter T _ s0). unfold gd_pure. cbv zeta. f_equal. rewrite rw1_none_map.
      rewrite <- (list_fmap_id (zip_with _ s1.1 _)) at 2. apply list_fmap_ext. intros q v _. unfold rw1, reg_d1. cbn [s_of_Z R_scalar]. destruct rg; try congruence; cbn; try (destruct (Rltb _ _)); ring. }
    rewrite Es in S'. destruct s' as [ws b]. eapply glmS_holds. exact S'. }
  exists s'.1, s'.2. split; apply G; [exact Hr|discriminate].
Qed.
