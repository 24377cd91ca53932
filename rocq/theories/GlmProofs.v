(** * What linear and logistic regression compute, for any arithmetic. *)
From Verif Require Import Base BaseProofs Vec VecSpec VecProofs VecProofs2 Mat MatSpec MatProofs MatProofs2 MatProofs3 MatProofs4 MatProofs5 DetProofs Frame Stat StatProofs Act ActProofs ActProofs2 Cost CostProofs Sym Svm LinAlg LinAlgProofs Util UtilProofs Glm.
Section glm.
Context {F : Type} `{Scalar F} `{Libm F}.
Implicit Types (h : heap F) (xs ys ws v : list F) (X : nat -> nat -> F).

(** ** Pure counterparts *)
(** Link function: identity, or the logistic function (as the vector activation computes it). *)
Definition lk (c : cls) : F -> F := match c with Lin => id | Log => asem (sigmoid_norm_e KV) end.
(** Predictions for the n rows of X. *)
Definition preds (c : cls) (n k : nat) X ws (b : F) : list F := (fun z => lk c (s_add z b)) <$> vlist n (mv_row X ws k).
Definition errs (c : cls) (n k : nat) X ys ws (b : F) : list F := zip_with s_sub (preds c n k X ws b) ys.
(** reg_weightsv, one weight. *)
Definition rw1 (la al : F) (t : regtype) (w : F) : F := match t with RClip => reg_d1 la al t w | _ => s_sub w (reg_d1 la al t w) end.
(** X^T e. *)
Definition xt_e (n k : nat) X (es : list F) : list F := vlist k (mv_row (mat_tr X) es n).
Definition sumv (es : list F) : F := foldl s_add s_zero es.
Definition gd_pure (c : cls) (lr : F) (n k : nat) X ys (reg : regtype) (la al : F) (s : list F * F) : list F * F :=
  let e := errs c n k X ys s.1 s.2 in
  (rw1 la al reg <$> zip_with s_sub s.1 ((fun x => s_mul x (s_div lr (s_of_Z (Z.of_nat n)))) <$> xt_e n k X e),
   s_sub s.2 (s_div (s_mul lr (sumv e)) (s_of_Z (Z.of_nat n)))).
Definition mle_pure (lr : F) (n k : nat) X ys (reg : regtype) (la al : F) (s : list F * F) : list F * F :=
  let e := zip_with s_sub ys (preds Log n k X s.1 s.2) in
  (rw1 la al reg <$> zip_with s_add s.1 ((fun x => s_mul x (s_div lr (s_of_Z (Z.of_nat n)))) <$> xt_e n k X e),
   s_add s.2 (s_div (s_mul lr (sumv e)) (s_of_Z (Z.of_nat n)))).

Lemma preds_length c n k X ws b : length (preds c n k X ws b) = n.
Proof. unfold preds. rewrite fmap_length. apply vlist_length. Qed.
Lemma errs_length c n k X ys ws b : length ys = n -> length (errs c n k X ys ws b) = n.
Proof. intros. unfold errs. rewrite zip_with_length, preds_length. lia. Qed.
Lemma xt_e_length n k X es : length (xt_e n k X es) = k.
Proof. apply vlist_length. Qed.
Lemma gd_pure_length c lr n k X ys reg la al s : length s.1 = k -> length (gd_pure c lr n k X ys reg la al s).1 = k.
Proof. intros E. cbn. rewrite fmap_length, zip_with_length, fmap_length, xt_e_length. lia. Qed.
Lemma mle_pure_length lr n k X ys reg la al s : length s.1 = k -> length (mle_pure lr n k X ys reg la al s).1 = k.
Proof. intros E. cbn. rewrite fmap_length, zip_with_length, fmap_length, xt_e_length. lia. Qed.

(** ** Steps *)
Lemma wp_propagate h x w k n X ws b (Q : option loc -> heap F -> Prop) : wf h -> abs h !! x = Some (Mat k n X) -> abs h !! w = Some (AVec ws) -> length ws = k -> Z.of_nat n <= int_max ->
  (forall d h', wf h' -> abs h !! d = None -> abs h' = <[d := AVec ((fun z => s_add z b) <$> vlist n (mv_row X ws k))]> (abs h) -> Q (Some d) h') ->
  wp (propagate (Some w) b (Some x)) h Q.
Proof.
  intros Hw Hx Hws El Hn HQ. unfold propagate. wbind. apply wp_deref_Some. wbind. eapply wp_m_mult_vec; [exact Hw|exact Hx|exact Hws|lia|exact Hn|]. rewrite El. intros t h1 W1 N1 A1.
  wbind. apply wp_deref_Some. wbind. eapply wp_v_mapn; [exact W1|look|]. new_as z h2 W2 N2 A2. wbind. dele h3 W3 A3. apply wp_ret. apply HQ; assumption.
Qed.
Lemma wp_evaluatem c o h x w k n X ws b (Q : option loc -> heap F -> Prop) : wf h -> g_w o = Some w -> g_b o = b -> abs h !! x = Some (Mat k n X) -> abs h !! w = Some (AVec ws) -> length ws = k -> Z.of_nat n <= int_max ->
  (forall d h', wf h' -> abs h !! d = None -> abs h' = <[d := AVec (preds c n k X ws b)]> (abs h) -> Q (Some d) h') ->
  wp (evaluatem c o (Some x)) h Q.
Proof.
  intros Hw Ew Eb Hx Hws El Hn HQ. unfold evaluatem. rewrite Ew, Eb. wbind. eapply wp_propagate; [exact Hw|exact Hx|exact Hws|exact El|exact Hn|]. intros z h1 W1 N1 A1. destruct c.
  - apply wp_ret. apply HQ; [exact W1|exact N1|exact A1].
  - wbind. eapply (run_exp_val (sigmoid_norm_e KV) KV h1 z 0 0); [exact W1|look|reflexivity|reflexivity|reflexivity|]. cbn [KObj]. new_as d h2 W2 N2 A2.
    wbind. cbn [drop_ref]. dele h3 W3 A3. apply wp_ret. apply HQ; [exact W3|exact N2|]. rewrite A3. unfold preds. rewrite <- list_fmap_compose. reflexivity.
Qed.
Lemma wp_g_cost c o h a b w xs ys ws (Q : F -> heap F -> Prop) : wf h -> g_w o = Some w -> abs h !! a = Some (AVec xs) -> abs h !! b = Some (AVec ys) -> length xs = length ys -> abs h !! w = Some (AVec ws) ->
  (forall v : F, Q v h) -> wp (g_cost c o (Some a) (Some b)) h Q.
Proof.
  intros Hw Ew Ha Hb E Hws HQ. unfold g_cost. wbind. destruct c;
  (eapply (cost_fold_ok KV _ _ h a b 0 0 0 0); [exact Hw|exact Ha|exact Hb|exact E|]); apply wp_ret; wbind; rewrite Ew;
  unfold wp; rewrite (reg_term_ok KV h w 0 0 ws); [apply HQ|exact Hw|exact Hws|apply HQ|exact Hw|exact Hws].
Qed.
Lemma wp_reg_weights h a ws la al t (Q : option loc -> heap F -> Prop) : wf h -> abs h !! a = Some (AVec ws) ->
  (forall d h', wf h' -> abs h !! d = None -> abs h' = <[d := AVec (rw1 la al t <$> ws)]> (abs h) -> Q (Some d) h') ->
  wp (reg_weights KV (Some a) la al t) h Q.
Proof.
  intros Hw Ha HQ. assert (G : t <> RClip -> wp (let! d := reg_deriv_term KV (Some a) la al t in let! o := la2 KV s_sub (Some a) d in drop_ref true d ;;; ret o) h Q).
  { intros Ht. wbind. eapply (reg_deriv_ok KV h a 0 0 ws); [exact Hw|exact Ha|]. cbn [KObj]. intros d h1 W1 N1 A1.
    wbind. eapply (la2_ok KV _ h1 a d 0 0 _ _); [exact W1|cbn [KObj]; look|cbn [KObj]; look|rewrite fmap_length; reflexivity|]. cbn [KObj]. new_as o h2 W2 N2 A2.
    wbind. cbn [drop_ref]. dele h3 W3 A3. apply wp_ret. apply HQ; [exact W3|exact N2|]. rewrite A3. f_equal. f_equal. clear - Ht. induction ws as [|w ws IH]; [reflexivity|]. cbn. f_equal; [destruct t; try reflexivity; congruence|exact IH]. }
  destruct t; try (apply G; congruence). unfold reg_weights. eapply (reg_deriv_ok KV h a 0 0 ws); [exact Hw|exact Ha|]. cbn [KObj]. exact HQ.
Qed.
Lemma wp_xt_vec h x e k n X es (Q : option loc -> heap F -> Prop) : wf h -> abs h !! x = Some (Mat k n X) -> abs h !! e = Some (AVec es) -> length es = n -> Z.of_nat k <= int_max ->
  (forall d h', wf h' -> abs h !! d = None -> abs h' = <[d := AVec (xt_e n k X es)]> (abs h) -> Q (Some d) h') ->
  wp (xt_vec (Some x) (Some e)) h Q.
Proof.
  intros Hw Hx He El Hk HQ. unfold xt_vec. wbind. apply wp_deref_Some. wbind. eapply wp_m_transposen; [exact Hw|exact Hx|]. intros t h1 W1 N1 A1.
  wbind. eapply wp_m_mult_vec; [exact W1|look|look|lia|exact Hk|]. rewrite El. new_as g h2 W2 N2 A2. wbind. dele h3 W3 A3. apply wp_ret. apply HQ; assumption.
Qed.

(** ** The epoch loop *)
Lemma wp_epochs {A} (I : nat -> A -> heap F -> Prop) (body : Z -> A -> M F A) (max : Z) (Q : A -> heap F -> Prop) : max < int_max ->
  (forall i s h, Z.of_nat i < Z.max 1 max -> I i s h -> wp (body (Z.of_nat i + 1) s) h (fun s' h' => I (S i) s' h')) ->
  (forall s h, I (Z.to_nat (Z.max 1 max)) s h -> Q s h) ->
  forall fuel i s h, Z.of_nat i < Z.max 1 max -> (Z.to_nat (Z.max 1 max) <= i + fuel)%nat -> I i s h -> wp (epochs fuel body (Z.of_nat i + 1) max s) h Q.
Proof.
  intros Hm Hb HQ. induction fuel as [|fuel IH]; intros i s h Hi Hf HI; [lia|]. cbn [epochs]. wbind. eapply wp_mono; [apply Hb; [exact Hi|exact HI]|].
  intros s' h' HI'. wbind. unfold int_max in *. apply wp_chk; [unfold int_max; lia|]. destruct (Z.ltb_spec max (Z.of_nat i + 1 + 1)) as [L|L].
  - apply wp_ret. apply HQ. replace (Z.to_nat (Z.max 1 max)) with (S i) by lia. exact HI'.
  - replace (Z.of_nat i + 1 + 1) with (Z.of_nat (S i) + 1) by lia. apply IH; [lia|lia|exact HI'].
Qed.
Lemma wp_train {A} (I : nat -> A -> heap F -> Prop) (body : Z -> A -> M F A) (max : Z) s h (Q : A -> heap F -> Prop) : max < int_max -> I 0%nat s h ->
  (forall i s h, Z.of_nat i < Z.max 1 max -> I i s h -> wp (body (Z.of_nat i + 1) s) h (fun s' h' => I (S i) s' h')) ->
  (forall s h, I (Z.to_nat (Z.max 1 max)) s h -> Q s h) -> wp (train body max s) h Q.
Proof. intros Hm H0' Hb HQ. unfold train. eapply (wp_epochs I body max Q) with (i := 0%nat); [exact Hm|exact Hb|exact HQ|lia|lia|exact H0']. Qed.

(** ** The object *)
Section obj.
Context (base : gmap loc (aobj F)) (x y : loc) (k n : nat) (X : nat -> nat -> F) (ys : list F) (reg : regtype) (la al : F).
Context (Hx : base !! x = Some (Mat k n X)) (Hy : base !! y = Some (AVec ys)) (El : length ys = n) (Hn : Z.of_nat n <= int_max) (Hk : Z.of_nat k <= int_max).
Definition mkglm (lw ly : loc) (b : F) : glm := Glm (Some x) (Some y) (Some ly) (Some lw) b (Z.of_nat n) (Z.of_nat k) reg la al true.
(** The heap is [base] plus the weights [s.1] and some y_hat object; the bias is [s.2]. *)
Definition glmS (s : list F * F) (Yh : aobj F) (o : glm) h : Prop :=
  wf h /\ length s.1 = k /\ exists lw ly, o = mkglm lw ly s.2 /\ lw <> ly /\ base !! lw = None /\ base !! ly = None /\ abs h = <[ly := Yh]> (<[lw := AVec s.1]> base).

Lemma wp_forward c s Yh o h (Q : glm -> heap F -> Prop) : glmS s Yh o h ->
  (forall o' h', glmS s (AVec (preds c n k X s.1 s.2)) o' h' -> Q o' h') -> wp (forward_pass c o) h Q.
Proof using Hx Hn.
  intros (W & Ls & lw & ly & -> & D & N1 & N2 & A) HQ. assert (x <> lw) by congruence. assert (x <> ly) by congruence. unfold forward_pass. wbind.
  eapply (wp_evaluatem c _ h x lw k n X s.1 s.2); [exact W|reflexivity|reflexivity|look|look|exact Ls|exact Hn|]. new_as d h1 W1 N3 A1.
  wbind. cbn [g_yh mkglm drop_ref]. eapply wp_del; [exact W1|look|]. intros h2 W2 A2 _. rewrite A1 in A2. apply wp_ret. apply HQ. split; [exact W2|]. split; [exact Ls|].
  exists lw, d. split; [reflexivity|]. split; [congruence|]. split; [exact N1|]. split; [exact N3|]. rewrite A2.
  rewrite delete_insert_ne by congruence. rewrite delete_insert by (rewrite lookup_insert_ne by congruence; exact N2). reflexivity.
Qed.
(** Subtract s * g from the weights and regularise. *)
Lemma wp_upd op sc g gs ws o h (m : gmap loc (aobj F)) lw (Q : glm -> heap F -> Prop) : wf h -> g_w o = Some lw -> g_reg o = reg -> g_la o = la -> g_al o = al ->
  abs h = <[g := AVec gs]> (<[lw := AVec ws]> m) -> m !! g = None -> m !! lw = None -> g <> lw -> length gs = length ws ->
  (forall lw' h', wf h' -> m !! lw' = None -> abs h' = <[lw' := AVec (rw1 la al reg <$> zip_with op ws ((fun x => s_mul x sc) <$> gs))]> m -> Q (set_w o (Some lw')) h') ->
  wp (upd_weights op sc (Some g) o) h Q.
Proof.
  intros W Ew Er Ea Eb A Ng Nl D Eg HQ. unfold upd_weights. wbind. apply wp_deref_Some. wbind. eapply wp_v_mapn; [exact W|look|]. new_as d h1 W1 N1 A1.
  wbind. rewrite Ew. apply wp_deref_Some. wbind. eapply wp_v_op2; [exact W1|look|look|]. intros h2 W2 A2. rewrite fmap_length, decide_True in A2 by congruence. rewrite A1 in A2.
  wbind. eapply wp_del; [exact W2|rewrite A2, lookup_insert_ne by congruence; apply lookup_insert|]. intros h3 W3 A3 _. rewrite A2 in A3.
  rewrite delete_insert_ne in A3 by congruence. rewrite delete_insert in A3 by (rewrite !lookup_insert_ne by congruence; exact N1).
  wbind. eapply wp_del; [exact W3|rewrite A3, lookup_insert_ne by congruence; apply lookup_insert|]. intros h4 W4 A4 _. rewrite A3 in A4.
  rewrite delete_insert_ne in A4 by congruence. rewrite delete_insert in A4 by (rewrite lookup_insert_ne by congruence; exact Ng). rewrite insert_insert in A4.
  wbind. rewrite Er, Ea, Eb. eapply wp_reg_weights; [exact W4|rewrite A4; apply lookup_insert|]. intros lw' h5 W5 N5 A5. rewrite A4 in A5, N5. apply lookup_insert_None in N5 as [N5 D5].
  wbind. eapply wp_del; [exact W5|rewrite A5, lookup_insert_ne by congruence; apply lookup_insert|]. intros h6 W6 A6 _. rewrite A5 in A6.
  rewrite delete_insert_ne in A6 by congruence. rewrite delete_insert in A6 by exact Nl. apply wp_ret. apply HQ; assumption.
Qed.

Lemma wp_gd_epoch c lr s o h (Q : glm -> heap F -> Prop) : glmS s (AVec (preds c n k X s.1 s.2)) o h ->
  (forall o' h', let s' := gd_pure c lr n k X ys reg la al s in glmS s' (AVec (preds c n k X s'.1 s'.2)) o' h' -> Q o' h') -> wp (gd_epoch c lr o) h Q.
Proof using Hx Hy El Hn Hk.
  intros (W & Ls & lw & ly & -> & D & N1 & N2 & A) HQ. assert (x <> lw) by congruence. assert (x <> ly) by congruence. assert (y <> lw) by congruence. assert (y <> ly) by congruence.
  unfold gd_epoch. cbn [mkglm g_yh g_y g_x g_n].
  wbind. eapply (wp_g_cost c _ h ly y lw); [exact W|reflexivity|look|look|rewrite preds_length; congruence|look|]. intros _.
  wbind. apply wp_deref_Some. wbind. eapply wp_v_op2n; [exact W|look|look| |intros Hne; exfalso; apply Hne; rewrite preds_length; congruence]. intros _. fold (errs c n k X ys s.1 s.2). new_as e h1 W1 N3 A1.
  set (es := errs c n k X ys s.1 s.2) in *. assert (Les : length es = n) by (apply errs_length; exact El).
  wbind. eapply wp_xt_vec; [exact W1|look|look|exact Les|exact Hk|]. new_as g h2 W2 N4 A2.
  wbind. eapply (wp_upd s_sub _ g (xt_e n k X es) s.1 _ h2 (<[e := AVec es]> (<[ly := AVec (preds c n k X s.1 s.2)]> base)) lw);
    [exact W2|reflexivity|reflexivity|reflexivity|reflexivity|rewrite A2; mapeq|rewrite !lookup_insert_ne by congruence; exact N4|rewrite !lookup_insert_ne by congruence; exact N1|congruence|rewrite xt_e_length; congruence|].
  intros lw' h3 W3 N5 A3. split_none N5. wbind. apply wp_deref_Some. wbind. eapply wp_v_sum; [exact W3|look|].
  wbind. set (s' := gd_pure c lr n k X ys reg la al s). assert (Ls' : length s'.1 = k) by (apply gd_pure_length; exact Ls).
  cbn [set_w set_b g_b mkglm g_x g_y g_yh g_w g_n g_k g_reg g_la g_al g_init].
  (* the forward pass with e still alive *)
  unfold forward_pass. wbind. eapply (wp_evaluatem c _ h3 x lw' k n X s'.1 s'.2); [exact W3|reflexivity|reflexivity|look|look|exact Ls'|exact Hn|]. new_as d h4 W4 N6 A4.
  cbn [g_yh drop_ref]. wbind. eapply wp_del; [exact W4|look|]. intros h5 W5 A5 _. rewrite A4 in A5. apply wp_ret.
  wbind. eapply wp_del; [exact W5|rewrite A5, lookup_delete_ne by congruence; look|]. intros h6 W6 A6 _. rewrite A5 in A6. apply wp_ret. apply (HQ _ h6). split; [exact W6|]. split; [exact Ls'|].
  exists lw', d. split; [reflexivity|]. split; [congruence|]. split; [exact N5|]. split; [exact N6|]. rewrite A6. apply map_eq. intros l.
  destruct (decide (e = l)) as [<-|De]; [rewrite lookup_delete, !lookup_insert_ne by congruence; congruence|]. rewrite lookup_delete_ne by exact De.
  destruct (decide (ly = l)) as [<-|Dl]; [rewrite lookup_delete, !lookup_insert_ne by congruence; congruence|]. rewrite lookup_delete_ne by exact Dl.
  destruct (decide (d = l)) as [<-|Dd]; [rewrite !lookup_insert; reflexivity|]. rewrite !(lookup_insert_ne _ d l) by exact Dd.
  destruct (decide (lw' = l)) as [<-|Dw]; [rewrite !lookup_insert; reflexivity|]. rewrite !(lookup_insert_ne _ lw' l) by exact Dw. rewrite (lookup_insert_ne _ e l) by exact De. rewrite (lookup_insert_ne _ ly l) by exact Dl. reflexivity.
Qed.
Notation gdS c s o h := (glmS s (AVec (preds c n k X s.1 s.2)) o h) (only parsing).
(** A loop whose body performs the pure step [step]. *)
Lemma wp_train_pure c (step : nat -> list F * F -> list F * F) body (max : Z) s o h (Q : glm -> heap F -> Prop) : max < int_max ->
  (forall i s o h (Q : glm -> heap F -> Prop), Z.of_nat i < Z.max 1 max -> gdS c s o h -> (forall o' h', gdS c (step i s) o' h' -> Q o' h') -> wp (body (Z.of_nat i + 1) o) h Q) ->
  gdS c s o h -> (forall o' h', gdS c (foldl (fun s i => step i s) s (seq 0 (Z.to_nat (Z.max 1 max)))) o' h' -> Q o' h') -> wp (train body max o) h Q.
Proof.
  intros Hm Hb HS HQ. apply wp_train with (I := fun i o h => gdS c (foldl (fun s i => step i s) s (seq 0 i)) o h); [exact Hm|exact HS| |exact HQ].
  intros i o1 h1 Hi S1. eapply Hb; [exact Hi|exact S1|]. intros o2 h2 S2. rewrite seq_S, foldl_app. exact S2.
Qed.
Lemma wp_gradient_descent c lr max s Yh o h (Q : glm -> heap F -> Prop) : max < int_max -> glmS s Yh o h ->
  (forall o' h', gdS c (foldl (fun s _ => gd_pure c lr n k X ys reg la al s) s (seq 0 (Z.to_nat (Z.max 1 max)))) o' h' -> Q o' h') -> wp (gradient_descent c lr max o) h Q.
Proof using Hx Hy El Hn Hk.
  intros Hm HS HQ. unfold gradient_descent. replace (g_init o) with true by (destruct HS as (_ & _ & ? & ? & -> & _); reflexivity). cbn [negb].
  wbind. eapply wp_forward; [exact HS|]. clear o h HS. intros o h HS.
  eapply (wp_train_pure c (fun _ => gd_pure c lr n k X ys reg la al)); [exact Hm| |exact HS|exact HQ]. clear - Hx Hy El Hn Hk. intros i s o h Q _ HS HQ. eapply wp_gd_epoch; [exact HS|exact HQ].
Qed.

(** The tail shared by [mle] and [newton_raphson]: bias, forward pass, temporaries. *)
Lemma wp_forward_raw c o h m lw ly ws b Yh (Q : glm -> heap F -> Prop) : wf h -> abs h = m -> g_x o = Some x -> g_w o = Some lw -> g_yh o = Some ly -> g_b o = b ->
  m !! x = Some (Mat k n X) -> m !! lw = Some (AVec ws) -> m !! ly = Some Yh -> length ws = k ->
  (forall d h', wf h' -> m !! d = None -> abs h' = <[d := AVec (preds c n k X ws b)]> (delete ly m) -> Q (set_yh o (Some d)) h') -> wp (forward_pass c o) h Q.
Proof using Hn.
  intros W <- Ex Ew Ey Eb Hx' Hw' Hy' Lw HQ. unfold forward_pass. rewrite Ex. wbind. eapply (wp_evaluatem c _ h x lw k n X ws b); [exact W|exact Ew|exact Eb|exact Hx'|exact Hw'|exact Lw|exact Hn|]. intros d h1 W1 N1 A1.
  rewrite Ey. cbn [drop_ref]. wbind. eapply wp_del; [exact W1|rewrite A1, lookup_insert_ne by congruence; exact Hy'|]. intros h2 W2 A2 _. apply wp_ret. apply HQ; [exact W2|exact N1|].
  rewrite A2, A1, delete_insert_ne by congruence. reflexivity.
Qed.

Lemma wp_mle_epoch lr s o h (Q : glm -> heap F -> Prop) : gdS Log s o h ->
  (forall o' h', let s' := mle_pure lr n k X ys reg la al s in gdS Log s' o' h' -> Q o' h') -> wp (mle_epoch lr o) h Q.
Proof using Hx Hy El Hn Hk.
  intros (W & Ls & lw & ly & -> & D & N1 & N2 & A) HQ. assert (x <> lw) by congruence. assert (x <> ly) by congruence. assert (y <> lw) by congruence. assert (y <> ly) by congruence.
  unfold mle_epoch. cbn [mkglm g_yh g_y g_x g_n].
  wbind. eapply (wp_g_cost Log _ h ly y lw); [exact W|reflexivity|look|look|rewrite preds_length; congruence|look|]. intros _.
  wbind. apply wp_deref_Some. wbind. eapply wp_v_op2n; [exact W|look|look| |intros Hne; exfalso; apply Hne; rewrite preds_length; congruence]. intros _. new_as e h1 W1 N3 A1.
  set (es := zip_with s_sub ys (preds Log n k X s.1 s.2)) in *. assert (Les : length es = n) by (unfold es; rewrite zip_with_length, preds_length; lia).
  wbind. eapply wp_xt_vec; [exact W1|look|look|exact Les|exact Hk|]. new_as g h2 W2 N4 A2.
  wbind. eapply (wp_upd s_add _ g (xt_e n k X es) s.1 _ h2 (<[e := AVec es]> (<[ly := AVec (preds Log n k X s.1 s.2)]> base)) lw);
    [exact W2|reflexivity|reflexivity|reflexivity|reflexivity|rewrite A2; mapeq|rewrite !lookup_insert_ne by congruence; exact N4|rewrite !lookup_insert_ne by congruence; exact N1|congruence|rewrite xt_e_length; congruence|].
  intros lw' h3 W3 N5 A3. split_none N5. wbind. apply wp_deref_Some. wbind. eapply wp_v_sum; [exact W3|look|].
  set (s' := mle_pure lr n k X ys reg la al s). assert (Ls' : length s'.1 = k) by (apply mle_pure_length; exact Ls).
  wbind. eapply (wp_forward_raw Log _ h3 _ lw' ly s'.1 s'.2); [exact W3|exact A3|reflexivity|reflexivity|reflexivity|reflexivity|look|look|look|exact Ls'|]. intros d h5 W5 N6 A5. split_none N6.
  wbind. eapply wp_del; [exact W5|rewrite A5, lookup_insert_ne, lookup_delete_ne by congruence; look|]. intros h6 W6 A6 _. rewrite A5 in A6. apply wp_ret. apply (HQ _ h6). split; [exact W6|]. split; [exact Ls'|].
  exists lw', d. split; [reflexivity|]. split; [congruence|]. split; [exact N5|]. split; [exact N6|]. rewrite A6. apply map_eq. intros l.
  destruct (decide (e = l)) as [<-|De]; [rewrite lookup_delete, !lookup_insert_ne by congruence; congruence|]. rewrite lookup_delete_ne by exact De.
  destruct (decide (d = l)) as [<-|Dd]; [rewrite !lookup_insert; reflexivity|]. rewrite !(lookup_insert_ne _ d l) by exact Dd.
  destruct (decide (ly = l)) as [<-|Dl]; [rewrite lookup_delete, !lookup_insert_ne by congruence; congruence|]. rewrite lookup_delete_ne by exact Dl.
  destruct (decide (lw' = l)) as [<-|Dw]; [rewrite !lookup_insert; reflexivity|]. rewrite !(lookup_insert_ne _ lw' l) by exact Dw. rewrite (lookup_insert_ne _ e l) by exact De. rewrite (lookup_insert_ne _ ly l) by exact Dl. reflexivity.
Qed.
Lemma wp_mle lr max s Yh o h (Q : glm -> heap F -> Prop) : max < int_max -> glmS s Yh o h ->
  (forall o' h', gdS Log (foldl (fun s _ => mle_pure lr n k X ys reg la al s) s (seq 0 (Z.to_nat (Z.max 1 max)))) o' h' -> Q o' h') -> wp (mle lr max o) h Q.
Proof using Hx Hy El Hn Hk.
  intros Hm HS HQ. unfold mle. replace (g_init o) with true by (destruct HS as (_ & _ & ? & ? & -> & _); reflexivity). cbn [negb].
  wbind. eapply wp_forward; [exact HS|]. clear o h HS. intros o h HS.
  eapply (wp_train_pure Log (fun _ => mle_pure lr n k X ys reg la al)); [exact Hm| |exact HS|exact HQ]. clear - Hx Hy El Hn Hk. intros i s o h Q _ HS HQ. eapply wp_mle_epoch; [exact HS|exact HQ].
Qed.
End obj.
End glm.
