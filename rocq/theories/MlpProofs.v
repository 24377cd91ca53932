(** * What the two-layer perceptron computes, for any arithmetic. *)
From Verif Require Import Base BaseProofs Vec VecSpec VecProofs VecProofs2 Mat MatSpec MatProofs MatProofs2 MatProofs3 MatProofs4 MatProofs5 DetProofs Frame Act ActProofs ActProofs2 Cost CostProofs Sym Svm LinAlg LinAlgProofs Util UtilProofs Glm GlmProofs GlmProofs2 GlmProofs4 Mlp.
Section mlp.
Context {F : Type} `{Scalar F} `{Libm F}.
Implicit Types (h : heap F) (xs ys ws v es : list F) (X W A : nat -> nat -> F).

(** ** Pure counterparts *)
(** The sigmoid and its derivative as the activations compute them. *)
Definition sg (k : kind) : F -> F := asem (sigmoid_norm_e k).
Definition sgd (k : kind) : F -> F := asem (sigmoid_deriv_e k).
(** W1 (k rows, one column per hidden unit), b1, w2, b2. *)
Record par := Par { t_w1 : nat -> nat -> F; t_b1 : list F; t_w2 : list F; t_b2 : F }.
(** Hidden layer for the rows of X: pre-activation and activation. *)
Definition hz (k : nat) X (p : par) : nat -> nat -> F := add_rows (mat_mul k X (t_w1 p)) (t_b1 p).
Definition ha (k : nat) X (p : par) : nat -> nat -> F := fun i j => sg KM (hz k X p i j).
Definition outs (n k hh : nat) X (p : par) : list F := preds Log n hh (ha k X p) (t_w2 p) (t_b2 p).
(** One row. *)
Definition hzv (k hh : nat) (W : nat -> nat -> F) bs xs : list F := zip_with s_add (xt_e k hh W xs) bs.
Definition out1 (k hh : nat) xs (p : par) : F := sigmoid_normr (s_add (dotl (t_w2 p) (sg KV <$> hzv k hh (t_w1 p) (t_b1 p) xs)) (t_b2 p)).
(** Back-propagation of the errors [es] of m rows. *)
Definition bp (lr : F) (m k hh : nat) X (reg : regtype) (la al : F) es (p : par) : par :=
  let c := s_div lr (s_of_Z (Z.of_nat m)) in
  let w2' := rw1 la al reg <$> zip_with s_sub (t_w2 p) ((fun x => s_mul x c) <$> xt_e m hh (ha k X p) es) in
  let D := fun i j => s_mul (s_mul (nth i es s_zero) (nth j w2' s_zero)) (sgd KM (hz k X p i j)) in
  Par (fun i j => rw1 la al reg (s_sub (t_w1 p i j) (s_mul (mat_mul m (mat_tr X) D i j) c)))
      (sub_rows ((fun i => vlist hh (fun j => s_mul (D i j) c)) <$> seq 0 m) (t_b1 p))
      w2'
      (s_sub (t_b2 p) (s_div (s_mul lr (sumv es)) (s_of_Z (Z.of_nat m)))).
Definition mgd (lr : F) (m k hh : nat) X ys (reg : regtype) (la al : F) (p : par) : par :=
  bp lr m k hh X reg la al (zip_with s_sub (outs m k hh X p) ys) p.
Definition msgd (lr : F) (k hh : nat) X ys (reg : regtype) (la al : F) (i : nat) (p : par) : par :=
  let xs := vlist k (X i) in
  let e := s_sub (out1 k hh xs p) (nth i ys s_zero) in
  let zs := hzv k hh (t_w1 p) (t_b1 p) xs in
  let w2' := rw1 la al reg <$> zip_with s_sub (t_w2 p) ((fun x => s_mul x lr) <$> ((fun x => s_mul x e) <$> (sg KV <$> zs))) in
  let d := zip_with s_mul ((fun x => s_mul x e) <$> w2') (sgd KV <$> zs) in
  Par (fun r j => rw1 la al reg (s_sub (t_w1 p r j) (s_mul (outer xs d r j) lr)))
      (zip_with s_sub (t_b1 p) ((fun x => s_mul x lr) <$> d)) w2' (s_sub (t_b2 p) (s_mul lr e)).
Definition shaped (hh : nat) (p : par) : Prop := length (t_b1 p) = hh /\ length (t_w2 p) = hh.

(** ** Pieces *)
Lemma wp_hidden_z h x w1 b1 k hh n X W bs (Q : option loc -> heap F -> Prop) : wf h -> abs h !! x = Some (Mat k n X) -> abs h !! w1 = Some (Mat hh k W) -> abs h !! b1 = Some (AVec bs) -> length bs = hh ->
  Z.of_nat (n * hh) <= int_max ->
  (forall d h', wf h' -> abs h !! d = None -> abs h' = <[d := Mat hh n (add_rows (mat_mul k X W) bs)]> (abs h) -> Q (Some d) h') -> wp (hidden_z (Some x) w1 b1) h Q.
Proof.
  intros V Hx Hw Hb El Hl HQ. unfold hidden_z. wbind. apply wp_deref_Some. wbind. eapply wp_m_multn; [exact V|exact Hx|exact Hw|exact Hl|]. intros t h1 W1 N1 A1.
  wbind. apply wp_deref_Some. wbind. eapply wp_m_add_vecn; [exact W1|look|look|exact El|]. new_as z h2 W2 N2 A2. wbind. dele h3 W3 A3. apply wp_ret. apply HQ; assumption.
Qed.
Lemma wp_sig_m h z c r f (Q : option loc -> heap F -> Prop) : wf h -> abs h !! z = Some (Mat c r f) ->
  (forall d h', wf h' -> abs h !! d = None -> abs h' = <[d := Mat c r (fun i j => sg KM (f i j))]> (abs h) -> Q (Some d) h') -> wp (run_exp (sigmoid_norm_e KM) (Some z)) h Q.
Proof.
  intros V Hz HQ. eapply (run_exp_val (sigmoid_norm_e KM) KM h z c r); [exact V|exact Hz|reflexivity|reflexivity|reflexivity|]. cbn [KObj]. intros d h' W' N' A'. apply HQ; [exact W'|exact N'|]. rewrite mlist_fmap in A'. exact A'.
Qed.
Lemma wp_sigd_m h z c r f (Q : option loc -> heap F -> Prop) : wf h -> abs h !! z = Some (Mat c r f) ->
  (forall d h', wf h' -> abs h !! d = None -> abs h' = <[d := Mat c r (fun i j => sgd KM (f i j))]> (abs h) -> Q (Some d) h') -> wp (run_exp (sigmoid_deriv_e KM) (Some z)) h Q.
Proof.
  intros V Hz HQ. eapply (run_exp_val (sigmoid_deriv_e KM) KM h z c r); [exact V|exact Hz|reflexivity|reflexivity|reflexivity|]. cbn [KObj]. intros d h' W' N' A'. apply HQ; [exact W'|exact N'|]. rewrite mlist_fmap in A'. exact A'.
Qed.
Lemma wp_sig_v h z xs (Q : option loc -> heap F -> Prop) : wf h -> abs h !! z = Some (AVec xs) ->
  (forall d h', wf h' -> abs h !! d = None -> abs h' = <[d := AVec (sg KV <$> xs)]> (abs h) -> Q (Some d) h') -> wp (run_exp (sigmoid_norm_e KV) (Some z)) h Q.
Proof. intros V Hz HQ. eapply (run_exp_val (sigmoid_norm_e KV) KV h z 0 0); [exact V|exact Hz|reflexivity|reflexivity|reflexivity|]. exact HQ. Qed.
Lemma wp_sigd_v h z xs (Q : option loc -> heap F -> Prop) : wf h -> abs h !! z = Some (AVec xs) ->
  (forall d h', wf h' -> abs h !! d = None -> abs h' = <[d := AVec (sgd KV <$> xs)]> (abs h) -> Q (Some d) h') -> wp (run_exp (sigmoid_deriv_e KV) (Some z)) h Q.
Proof. intros V Hz HQ. eapply (run_exp_val (sigmoid_deriv_e KV) KV h z 0 0); [exact V|exact Hz|reflexivity|reflexivity|reflexivity|]. exact HQ. Qed.
Lemma wp_output_y h a w2 hh n A ws b2 (Q : option loc -> heap F -> Prop) : wf h -> abs h !! a = Some (Mat hh n A) -> abs h !! w2 = Some (AVec ws) -> length ws = hh -> Z.of_nat n <= int_max ->
  (forall d h', wf h' -> abs h !! d = None -> abs h' = <[d := AVec (preds Log n hh A ws b2)]> (abs h) -> Q (Some d) h') -> wp (output_y (Some a) w2 b2) h Q.
Proof.
  intros V Ha Hw El Hn HQ. unfold output_y. wbind. eapply wp_propagate; [exact V|exact Ha|exact Hw|exact El|exact Hn|]. intros t h1 W1 N1 A1.
  wbind. eapply wp_sig_v; [exact W1|look|]. new_as y h2 W2 N2 A2. wbind. cbn [drop_ref]. dele h3 W3 A3. apply wp_ret. apply HQ; [exact W3|exact N2|]. rewrite A3. unfold preds. rewrite <- list_fmap_compose. reflexivity.
Qed.
Lemma wp_hidden_zv h x w1 b1 k hh xs W bs (Q : option loc -> heap F -> Prop) : wf h -> abs h !! x = Some (AVec xs) -> length xs = k -> abs h !! w1 = Some (Mat hh k W) -> abs h !! b1 = Some (AVec bs) -> length bs = hh ->
  Z.of_nat hh <= int_max ->
  (forall d h', wf h' -> abs h !! d = None -> abs h' = <[d := AVec (hzv k hh W bs xs)]> (abs h) -> Q (Some d) h') -> wp (hidden_zv (Some x) w1 b1) h Q.
Proof.
  intros V Hx Ex Hw Hb El Hl HQ. unfold hidden_zv. wbind. eapply wp_xt_vec; [exact V|exact Hw|exact Hx|exact Ex|exact Hl|]. intros t h1 W1 N1 A1.
  wbind. apply wp_deref_Some. wbind. eapply wp_v_op2n; [exact W1|look|look| |intros Hne; exfalso; apply Hne; rewrite xt_e_length; congruence]. intros _. new_as z h2 W2 N2 A2. wbind. dele h3 W3 A3. apply wp_ret. apply HQ; assumption.
Qed.
Lemma wp_assign_m h l s x0 y0 cs c r f (Q : unit -> heap F -> Prop) : wf h -> abs h !! l = Some (SMat x0 y0, cs) -> abs h !! s = Some (Mat c r f) -> l <> s ->
  (forall h', wf h' -> abs h' = <[l := Mat c r f]> (delete s (abs h)) -> Q tt h') -> wp (assign_m l (Some s)) h Q.
Proof.
  intros V Hl Hs D HQ. unfold assign_m. wbind. apply wp_deref_Some. wbind. eapply wp_m_set_from_mat; [exact V|exact Hl|exact Hs|]. intros h1 W1 A1.
  eapply wp_del; [exact W1|look|]. intros h2 W2 A2 _. apply HQ; [exact W2|]. rewrite A2, A1, delete_insert_ne by congruence. reflexivity.
Qed.
Lemma wp_assign_v h l s n0 cs ys (Q : unit -> heap F -> Prop) : wf h -> abs h !! l = Some (SVec n0, cs) -> abs h !! s = Some (AVec ys) -> l <> s ->
  (forall h', wf h' -> abs h' = <[l := AVec ys]> (delete s (abs h)) -> Q tt h') -> wp (assign_v l (Some s)) h Q.
Proof.
  intros V Hl Hs D HQ. unfold assign_v. wbind. apply wp_deref_Some. wbind. eapply wp_v_set_from_vec; [exact V|exact Hl|exact Hs|]. intros h1 W1 A1.
  eapply wp_del; [exact W1|look|]. intros h2 W2 A2 _. apply HQ; [exact W2|]. rewrite A2, A1, delete_insert_ne by congruence. reflexivity.
Qed.
Lemma wp_reg_weights_m h a c r f la al t (Q : option loc -> heap F -> Prop) : wf h -> abs h !! a = Some (Mat c r f) ->
  (forall d h', wf h' -> abs h !! d = None -> abs h' = <[d := Mat c r (fun i j => rw1 la al t (f i j))]> (abs h) -> Q (Some d) h') ->
  wp (reg_weights KM (Some a) la al t) h Q.
Proof.
  intros V Ha HQ. assert (G : t <> RClip -> wp (let! d := reg_deriv_term KM (Some a) la al t in let! o := la2 KM s_sub (Some a) d in drop_ref true d ;;; ret o) h Q).
  { intros Ht. wbind. eapply (reg_deriv_ok KM h a c r (mlist c r f)); [exact V|exact Ha|]. cbn [KObj]. intros d h1 W1 N1 A1.
    wbind. eapply (la2_ok KM _ h1 a d c r (mlist c r f) _); [exact W1|cbn [KObj]; look|cbn [KObj]; look|rewrite fmap_length; reflexivity|]. cbn [KObj]. new_as o h2 W2 N2 A2.
    wbind. cbn [drop_ref]. dele h3 W3 A3. apply wp_ret. apply HQ; [exact W3|exact N2|]. rewrite A3. f_equal. rewrite mlist_fmap, mlist_zip. apply Mat_ext. intros i j _ _. destruct t; try reflexivity; congruence. }
  destruct t; try (apply G; congruence). unfold reg_weights. eapply (reg_deriv_ok KM h a c r (mlist c r f)); [exact V|exact Ha|]. cbn [KObj]. intros d h1 W1 N1 A1. apply HQ; [exact W1|exact N1|]. rewrite A1, mlist_fmap. reflexivity.
Qed.

Section o.
Context (o : mlp (F := F)) (hh k : nat) (p : par).
Context (Hs : shaped hh p) (Hhh : Z.of_nat hh <= int_max) (Hkk : Z.of_nat k <= int_max) (Eb : p_b2 o = t_b2 p).
(** The parameters are in the heap. *)
Definition pars h : Prop := abs h !! p_w1 o = Some (Mat hh k (t_w1 p)) /\ abs h !! p_b1 o = Some (AVec (t_b1 p)) /\ abs h !! p_w2 o = Some (AVec (t_w2 p)).
Lemma pars_dist h : pars h -> p_w1 o <> p_b1 o /\ p_w1 o <> p_w2 o.
Proof using. intros (A & B & C). split; intros E; rewrite E in A; [rewrite A in B|rewrite A in C]; discriminate. Qed.

Lemma wp_p_evaluatem h x n X (Q : option loc -> heap F -> Prop) : wf h -> pars h -> abs h !! x = Some (Mat k n X) -> Z.of_nat n <= int_max -> Z.of_nat (n * hh) <= int_max ->
  (forall d h', wf h' -> abs h !! d = None -> abs h' = <[d := AVec (outs n k hh X p)]> (abs h) -> Q (Some d) h') -> wp (p_evaluatem o (Some x)) h Q.
Proof using Hs Eb.
  intros V (P1 & P2 & P3) Hx Hn Hl HQ. destruct Hs as [S1 S2]. unfold p_evaluatem. wbind. eapply wp_hidden_z; [exact V|exact Hx|exact P1|exact P2|exact S1|exact Hl|]. intros z h1 W1 N1 A1.
  wbind. eapply wp_sig_m; [exact W1|look|]. new_as a h2 W2 N2 A2. wbind. eapply wp_output_y; [exact W2|look|look|exact S2|exact Hn|]. new_as y h3 W3 N3 A3.
  wbind. cbn [drop_ref]. dele h4 W4 A4. wbind. cbn [drop_ref]. dele h5 W5 A5. apply wp_ret. apply HQ; [exact W5|exact N3|]. rewrite A5, Eb. reflexivity.
Qed.
Lemma wp_propagatem h x z a n X x0 y0 c0 x1 y1 c1 (Q : unit -> heap F -> Prop) : wf h -> pars h -> abs h !! x = Some (Mat k n X) -> Z.of_nat (n * hh) <= int_max ->
  abs h !! z = Some (SMat x0 y0, c0) -> abs h !! a = Some (SMat x1 y1, c1) -> z <> a ->
  (forall h', wf h' -> abs h' = <[a := Mat hh n (ha k X p)]> (<[z := Mat hh n (hz k X p)]> (abs h)) -> Q tt h') -> wp (propagatem o (Some x) z a) h Q.
Proof using Hs.
  intros V (P1 & P2 & P3) Hx Hl Hz Ha D HQ. destruct Hs as [S1 S2]. unfold propagatem. wbind. eapply wp_hidden_z; [exact V|exact Hx|exact P1|exact P2|exact S1|exact Hl|]. intros t h1 W1 N1 A1.
  wbind. eapply wp_assign_m; [exact W1|look|look|congruence|]. intros h2 W2 A2. rewrite A1, delete_insert in A2 by exact N1. clear A1.
  wbind. eapply wp_sig_m; [exact W2|look|]. new_as u h3 W3 N3 A3. eapply wp_assign_m; [exact W3|look|look|congruence|]. intros h4 W4 A4. rewrite A3, delete_insert in A4 by (rewrite lookup_insert_ne by congruence; exact N3).
  apply HQ; [exact W4|exact A4].
Qed.
Lemma wp_p_evaluatev h x xs (Q : F -> heap F -> Prop) : wf h -> pars h -> abs h !! x = Some (AVec xs) -> length xs = k ->
  (forall h', wf h' -> abs h' = abs h -> Q (out1 k hh xs p) h') -> wp (p_evaluatev o (Some x)) h Q.
Proof using Hs Hhh Eb.
  intros V (P1 & P2 & P3) Hx Ex HQ. destruct Hs as [S1 S2]. unfold p_evaluatev. wbind. eapply wp_hidden_zv; [exact V|exact Hx|exact Ex|exact P1|exact P2|exact S1|exact Hhh|]. intros z h1 W1 N1 A1.
  wbind. eapply wp_sig_v; [exact W1|look|]. new_as a h2 W2 N2 A2. wbind. eapply wp_v_dot; [exact W2|look|look|]. rewrite decide_True by (unfold hzv; rewrite fmap_length, zip_with_length, xt_e_length; lia).
  wbind. cbn [drop_ref]. dele h4 W4 A4. wbind. cbn [drop_ref]. dele h5 W5 A5. apply wp_ret. rewrite Eb. apply HQ; assumption.
Qed.
Lemma wp_propagatev h x z a xs n0 c0 n1 c1 (Q : unit -> heap F -> Prop) : wf h -> pars h -> abs h !! x = Some (AVec xs) -> length xs = k ->
  abs h !! z = Some (SVec n0, c0) -> abs h !! a = Some (SVec n1, c1) -> z <> a ->
  (forall h', wf h' -> abs h' = <[a := AVec (sg KV <$> hzv k hh (t_w1 p) (t_b1 p) xs)]> (<[z := AVec (hzv k hh (t_w1 p) (t_b1 p) xs)]> (abs h)) -> Q tt h') -> wp (propagatev o (Some x) z a) h Q.
Proof using Hs Hhh.
  intros V (P1 & P2 & P3) Hx Ex Hz Ha D HQ. destruct Hs as [S1 S2]. unfold propagatev. wbind. eapply wp_hidden_zv; [exact V|exact Hx|exact Ex|exact P1|exact P2|exact S1|exact Hhh|]. intros t h1 W1 N1 A1.
  wbind. eapply wp_assign_v; [exact W1|look|look|congruence|]. intros h2 W2 A2. rewrite A1, delete_insert in A2 by exact N1. clear A1.
  wbind. eapply wp_sig_v; [exact W2|look|]. new_as u h3 W3 N3 A3. eapply wp_assign_v; [exact W3|look|look|congruence|]. intros h4 W4 A4. rewrite A3, delete_insert in A4 by (rewrite lookup_insert_ne by congruence; exact N3).
  apply HQ; [exact W4|exact A4].
Qed.
Lemma wp_p_cost h a b xs ys (Q : F -> heap F -> Prop) : wf h -> pars h -> abs h !! a = Some (AVec xs) -> abs h !! b = Some (AVec ys) -> length xs = length ys ->
  Q (s_add (s_add (s_div (fold2 log_loss1 xs ys) (s_of_Z (Z.of_nat (length xs)))) (reg_val (p_la o) (p_al o) (p_reg o) (t_w2 p))) (reg_val (p_la o) (p_al o) (p_reg o) (mlist hh k (t_w1 p)))) h ->
  wp (p_cost o a b) h Q.
Proof using.
  intros V (P1 & P2 & P3) Ha Hb E HQ. unfold p_cost. wbind. eapply (cost_fold_ok KV _ _ h a b 0 0 0 0); [exact V|exact Ha|exact Hb|exact E|]. apply wp_ret.
  wbind. unfold wp. rewrite (reg_term_ok KV h _ 0 0 (t_w2 p)) by assumption. fold (wp (let! t1 := reg_term KM (Some (p_w1 o)) (p_la o) (p_al o) (p_reg o) in ret (s_add (s_add (s_div (fold2 log_loss1 xs ys) (s_of_Z (Z.of_nat (length xs)))) (reg_val (p_la o) (p_al o) (p_reg o) (t_w2 p))) t1)) h Q).
  wbind. unfold wp. rewrite (reg_term_ok KM h _ hh k (mlist hh k (t_w1 p))) by assumption. exact HQ.
Qed.
End o.
End mlp.
