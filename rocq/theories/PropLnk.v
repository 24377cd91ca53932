(** * C69-C72: regression through a link function: MLPPCLogLogReg, MLPPTanhReg, MLPPProbitReg.
    [ready c x y k n reg la al base (ws, b) o h]: the object [o] in heap [h] has the data set x (n rows, k columns), labels y, weights ws
    and bias b, and has been initialised for data of that size; the rest of the heap is [base], which contains x and y.
    [trained ... X ... o h]: moreover its stored predictions are those of the current model. *)
From Verif Require Import Base BaseProofs Vec VecSpec VecProofs VecProofs2 Mat MatSpec MatProofs MatProofs2 MatProofs5 Act ActProofs Sym Svm Cost CostSpec Util UtilProofs Glm GlmProofs GlmProofs2 GdMath GlmSpec GlmMath LibmR PropGlm PropGlm2 PropGlm5 Lnk LnkProofs LnkProofs2 LnkProofs3 LnkSpec LnkMath.
From Coq Require Import Reals Lra.
From Verif Require Import RErf PropAct PropAct2 PropSvm RSum RInst.

Section any.
Context {F : Type} `{Scalar F} `{Libm F}.
Definition ready (c : lcls) (x y : loc) (k n : nat) (reg : regtype) (la al : F) (base : gmap loc (aobj F)) (s : list F * F) (o : lnk F) (h : heap F) : Prop :=
  exists gn gk ny cs, (c = CLogLog -> gn = Z.of_nat n) /\ (c <> CLogLog -> ny = Z.of_nat n) /\ lnkS x y k reg la al gn gk base s (SVec ny, cs) o h.
Definition trained (c : lcls) (x y : loc) (k n : nat) (X : nat -> nat -> F) (reg : regtype) (la al : F) (base : gmap loc (aobj F)) (s : list F * F) (o : lnk F) (h : heap F) : Prop :=
  exists gn gk, (c = CLogLog -> gn = Z.of_nat n) /\ lnkT c x y k n X reg la al gn gk base s o h.
Lemma trained_ready c x y k n X reg la al base s o h : trained c x y k n X reg la al base s o h -> ready c x y k n reg la al base s o h.
Proof. intros (gn & gk & E & HT). exists gn, gk, (Z.of_nat (length (lpreds c n k X s.1 s.2))), (Some <$> lpreds c n k X s.1 s.2). split; [exact E|]. split; [intros _; rewrite lpreds_length; reflexivity|]. apply lnkT_S in HT. exact HT. Qed.
Lemma ready_wf c x y k n reg la al base s o h : ready c x y k n reg la al base s o h -> wf h.
Proof. intros (? & ? & ? & ? & _ & _ & HS). apply HS. Qed.
Lemma ready_len c x y k n reg la al base s o h : ready c x y k n reg la al base s o h -> length s.1 = k.
Proof. intros (? & ? & ? & ? & _ & _ & HS). apply HS. Qed.
Lemma trained_wf c x y k n X reg la al base s o h : trained c x y k n X reg la al base s o h -> wf h.
Proof. intros (? & ? & _ & HT). apply HT. Qed.

(** ** Predictions *)
Theorem C69_model_test_any c x y k n X reg la al base s o h r xs : base !! x = Some (Mat k n X) -> ready c x y k n reg la al base s o h -> base !! r = Some (AVec xs) -> length xs = k ->
  wp (l_model_test c o (Some r)) h (fun v h' => v = norm_r c (s_add (dotl s.1 xs) s.2) /\ h' = h).
Proof.
  intros Hx (gn & gk & ny & cs & E1 & E2 & HS) Hr Lx. unfold l_model_test. wbind. eapply wp_needs_init; [exact Hx|reflexivity|exact E2|exact HS|]. destruct (lnkS_w _ _ _ _ _ _ _ _ _ _ _ _ _ HS) as (lw & Ew & Eb & Hw).
  eapply wp_l_evaluatev; [apply HS|exact Ew|exact Eb|exact Hw|exact (lnkS_at _ _ _ _ _ _ _ _ _ _ _ _ _ _ _ HS Hr)|rewrite Lx; apply HS|]. split; reflexivity.
Qed.
Theorem C69_model_set_test_any c x y k n X reg la al base s o h z m Z_ : base !! x = Some (Mat k n X) -> ready c x y k n reg la al base s o h -> base !! z = Some (Mat k m Z_) -> Z.of_nat m <= int_max ->
  runs (l_model_set_test c o (Some z)) h (fun r h' => exists d, r = Some d /\ abs h !! d = None /\ abs h' = <[d := AVec (lpreds c m k Z_ s.1 s.2)]> (abs h)).
Proof.
  intros Hx (gn & gk & ny & cs & E1 & E2 & HS) Hz Hm. apply runs_wp. unfold l_model_set_test. wbind. eapply wp_needs_init; [exact Hx|reflexivity|exact E2|exact HS|]. destruct (lnkS_w _ _ _ _ _ _ _ _ _ _ _ _ _ HS) as (lw & Ew & Eb & Hw).
  eapply wp_l_evaluatem; [apply HS|exact Ew|exact Eb|exact (lnkS_at _ _ _ _ _ _ _ _ _ _ _ _ _ _ _ HS Hz)|exact Hw|apply HS|exact Hm|]. intros d h' W' N' A'. split; [exact W'|]. exists d. auto.
Qed.
(** ** Training runs *)
Theorem C70_gd_run c mle lr max base x y k n X ys reg la al s o h : base !! x = Some (Mat k n X) -> base !! y = Some (AVec ys) -> length ys = n -> Z.of_nat n <= int_max -> Z.of_nat k <= int_max -> max < int_max ->
  ready c x y k n reg la al base s o h ->
  runs (l_gradient_descent c mle lr max o) h (fun o' h' => trained c x y k n X reg la al base (Nat.iter (Z.to_nat (Z.max 1 max)) (lgd_pure c mle lr n k X ys reg la al) s) o' h').
Proof.
  intros Hx Hy El Hn Hk Hm (gn & gk & ny & cs & E1 & E2 & HS). apply runs_wp. eapply (wp_l_gd c x y k n X ys reg la al gn gk El Hn Hk E1 base mle lr max s); [exact Hx|exact Hy|exact Hm|reflexivity|exact E2|exact HS|]. intros o' h' HT. split; [apply HT|]. exists gn, gk. auto.
Qed.
Theorem C71_sgd_run c lr max (idx : Z -> Z) (ix : nat -> nat) base x y k n X ys reg la al s o h : base !! x = Some (Mat k n X) -> base !! y = Some (AVec ys) -> length ys = n -> Z.of_nat n <= int_max -> Z.of_nat k <= int_max -> max < int_max ->
  (forall e, Z.of_nat e < Z.max 1 max -> idx (Z.of_nat e + 1) = Z.of_nat (ix e) /\ (ix e < n)%nat) -> ready c x y k n reg la al base s o h ->
  runs (l_sgd c lr max idx o) h (fun o' h' => trained c x y k n X reg la al base (foldl (fun s i => lsgd_pure c lr k X ys reg la al i s) s (ix <$> seq 0 (Z.to_nat (Z.max 1 max)))) o' h').
Proof.
  intros Hx Hy El Hn Hk Hm Hix (gn & gk & ny & cs & E1 & E2 & HS). apply runs_wp. eapply (wp_l_sgd c x y k n X ys reg la al gn gk El Hn Hk base lr max idx ix s); [exact Hx|exact Hy|exact Hm|exact Hix|reflexivity|exact E2|exact HS|]. intros o' h' HT. split; [apply HT|]. exists gn, gk. auto.
Qed.
Theorem C72_mbgd_run lr max b base x y k n X ys reg la al s o h : base !! x = Some (Mat k n X) -> base !! y = Some (AVec ys) -> length ys = n -> Z.of_nat n <= int_max -> Z.of_nat k <= int_max -> max < int_max -> (0 < b <= n)%nat ->
  ready CLogLog x y k n reg la al base s o h ->
  runs (l_mbgd CLogLog lr max (Z.of_nat b) o) h (fun o' h' => let nb := (n / b)%nat in
    trained CLogLog x y k n X reg la al base (Nat.iter (Z.to_nat (Z.max 1 max)) (lmb_pure CLogLog lr (s_of_Z (Z.of_nat n)) (n / nb) nb k X ys reg la al) s) o' h').
Proof.
  intros Hx Hy El Hn Hk Hm Hb (gn & gk & ny & cs & E1 & E2 & HS). apply runs_wp. eapply (wp_l_mbgd CLogLog x y k n X ys reg la al gn gk El Hn Hk E1 base lr max b s); [reflexivity|exact Hx|exact Hy|exact Hm|exact Hb|exact HS|]. intros o' h'. cbv zeta. intros HT. split; [apply HT|]. exists gn, gk. auto.
Qed.
(** The result depends only on the labels of the first batch. *)
Theorem C72_mbgd_ignores_labels_refuted lr max b base base' x y k n X ys ys' reg la al s o o' h h' :
  base !! x = Some (Mat k n X) -> base !! y = Some (AVec ys) -> length ys = n -> base' !! x = Some (Mat k n X) -> base' !! y = Some (AVec ys') -> length ys' = n ->
  Z.of_nat n <= int_max -> Z.of_nat k <= int_max -> max < int_max -> (0 < b <= n)%nat -> take (n / (n / b)) ys = take (n / (n / b)) ys' ->
  ready CLogLog x y k n reg la al base s o h -> ready CLogLog x y k n reg la al base' s o' h' ->
  exists s', runs (l_mbgd CLogLog lr max (Z.of_nat b) o) h (fun o1 h1 => trained CLogLog x y k n X reg la al base s' o1 h1) /\
             runs (l_mbgd CLogLog lr max (Z.of_nat b) o') h' (fun o1 h1 => trained CLogLog x y k n X reg la al base' s' o1 h1).
Proof.
  intros Hx Hy El Hx' Hy' El' Hn Hk Hm Hb Et R1 R2. eexists. split; [exact (C72_mbgd_run lr max b base x y k n X ys reg la al s o h Hx Hy El Hn Hk Hm Hb R1)|].
  destruct (C72_mbgd_run lr max b base' x y k n X ys' reg la al s o' h' Hx' Hy' El' Hn Hk Hm Hb R2) as (o1 & h1 & E & W & T). exists o1, h1. split; [exact E|]. split; [exact W|]. cbv zeta in *. unfold lmb_pure in *. rewrite Et. exact T.
Qed.
(** MLPPTanhReg::train_mbgd: undefined behaviour unless the stored _z has exactly as many elements as a batch.  In a fresh object it is empty. *)
Definition z_len (o : lnk F) (h : heap F) (l : nat) : Prop := exists lz zs, l_z o = Some lz /\ abs h !! lz = Some (AVec zs) /\ length zs = l.
Theorem C72_tanh_mbgd_UB lr max b base x y k n X ys reg la al s o h l : base !! x = Some (Mat k n X) -> base !! y = Some (AVec ys) -> length ys = n -> Z.of_nat n <= int_max -> Z.of_nat k <= int_max -> (0 < b <= n)%nat ->
  ready Tanh x y k n reg la al base s o h -> z_len o h l -> l <> (n / (n / b))%nat -> l_mbgd Tanh lr max (Z.of_nat b) o h = UB.
Proof.
  intros Hx Hy El Hn Hk Hb (gn & gk & ny & cs & E1 & E2 & HS) (lz & zs & Ez & Hz & Lz) Hl. destruct HS as (W & Ls & lw & ly & rz & Z & -> & D & N1 & N2 & Nz & A). cbn [mklnk l_z] in Ez. subst rz. destruct (Nz lz eq_refl) as (P1 & P2 & P3). cbn [withz] in A.
  assert (Z = AVec zs). { rewrite A, lookup_insert in Hz. injection Hz as ->. reflexivity. } subst Z.
  eapply (l_mbgd_UB Tanh x y k n X ys reg la al gn gk El Hn Hk base lr max b s ly lw lz zs ny cs h); [reflexivity|exact W|exact Ls|exact D|exact P1|exact P2|exact N1|exact N2|exact P3|exact A|exact Hx|exact Hy|apply E2; discriminate|exact Hb|congruence].
Qed.
(** In particular, whatever ran before: never defined with more than one batch, and never on a fresh object. *)
Theorem C72_tanh_mbgd_UB_trained lr max b base x y k n X ys reg la al s o h : base !! x = Some (Mat k n X) -> base !! y = Some (AVec ys) -> length ys = n -> Z.of_nat n <= int_max -> Z.of_nat k <= int_max -> (0 < b)%nat -> (2 * b <= n)%nat ->
  trained Tanh x y k n X reg la al base s o h -> l_mbgd Tanh lr max (Z.of_nat b) o h = UB.
Proof.
  intros Hx Hy El Hn Hk Hb H2 T. assert (R := trained_ready _ _ _ _ _ _ _ _ _ _ _ _ _ T). eapply (C72_tanh_mbgd_UB lr max b base x y k n X ys reg la al s o h n); [exact Hx|exact Hy|exact El|exact Hn|exact Hk|lia|exact R| |].
  - destruct T as (gn & gk & _ & (W & Ls & lw & ly & lz & -> & D1 & D2 & D3 & N1 & N2 & N3 & A)). exists lz, (lpre n k X s.1 s.2). split; [reflexivity|]. split; [rewrite A; apply lookup_insert|apply lpre_length].
  - assert (2 <= n / b)%nat by (apply Nat.div_le_lower_bound; lia). assert (n / (n / b) < n)%nat by (apply Nat.div_lt; lia). lia.
Qed.

(** ** Objects that are not ready refuse: nothing is computed and nothing changes. *)
Definition refuses (c : lcls) (o : lnk F) (h : heap F) : Prop :=
  (forall r, l_model_test c o r h = Ok s_zero h) /\ (forall r, l_model_set_test c o r h = Ok None h) /\ (forall rnd, l_score c rnd o h = Ok s_zero h) /\
  (forall mle lr max, l_gradient_descent c mle lr max o h = Ok o h) /\ (forall lr max idx, l_sgd c lr max idx o h = Ok o h) /\ (forall lr max b, l_mbgd c lr max b o h = Ok o h).
Lemma refuses_of c o h : needs_init c o h = Ok true h -> refuses c o h.
Proof. intros E. unfold refuses, l_model_test, l_model_set_test, l_score, l_gradient_descent, l_sgd, l_mbgd. split_and!; intros; unfold bind at 1; rewrite E; reflexivity. Qed.
(** Data missing. *)
Theorem C69_refuses_null c o h : c <> CLogLog -> g_x (l_g o) = None \/ g_y (l_g o) = None -> refuses c o h.
Proof. intros Hc Hn. apply refuses_of. unfold needs_init. destruct c; [congruence|..]; destruct (g_x (l_g o)), (g_y (l_g o)); try reflexivity; destruct Hn; discriminate. Qed.
(** New data of another size without a new initialisation. *)
Theorem C69_refuses_size c o h x y k n X lw ly ws ny cs : c <> CLogLog -> g_x (l_g o) = Some x -> g_y (l_g o) = Some y -> g_yh (l_g o) = Some ly -> g_w (l_g o) = Some lw ->
  abs h !! x = Some (Mat k n X) -> abs h !! ly = Some (SVec ny, cs) -> abs h !! lw = Some (AVec ws) -> ny <> Z.of_nat n \/ length ws <> k -> refuses c o h.
Proof.
  intros Hc Ex Ey Eyh Ew Hx Hy Hw Hs. apply refuses_of.
  assert (G : wp (needs_init c o) h (fun v h' => v = true /\ h' = h)).
  { unfold needs_init. rewrite Ex, Ey, Eyh, Ew. assert (G : wp (let! s := m_size x in let! yh := deref (Some ly) in let! a := v_size yh in if negb (a =? s.2) then ret true else let! w := deref (Some lw) in let! b := v_size w in ret (negb (b =? s.1))) h (fun v h' => v = true /\ h' = h)).
    { wbind. eapply wp_m_size; [exact Hx|]. wbind. apply wp_deref_Some. wbind. eapply wp_v_size; [exact Hy|]. cbn [fst snd]. destruct (Z.eqb_spec ny (Z.of_nat n)) as [E|E]; cbn [negb]; [|apply wp_ret; auto].
      wbind. apply wp_deref_Some. wbind. eapply wp_v_size; [exact Hw|]. apply wp_ret. split; [|reflexivity]. destruct Hs as [Hs|Hs]; [congruence|]. destruct (Z.eqb_spec (Z.of_nat (length ws)) (Z.of_nat k)); [lia|reflexivity]. }
    destruct c; [congruence|exact G..]. }
  unfold wp in G. destruct (needs_init c o h); try contradiction. destruct G as [-> ->]. reflexivity.
Qed.
(** MLPPTanhReg::set_output_set takes a matrix: the label vector becomes null and the object unusable, whatever is passed. *)
Theorem C69_tanh_set_output_set_refuted r (o : lnk F) (h : heap F) : refuses Tanh (l_set_output_set Tanh r o) h.
Proof. apply C69_refuses_null; [discriminate|]. right. reflexivity. Qed.
Theorem C69_probit_set_output_set r (o : lnk F) : g_y (l_g (l_set_output_set Probit r o)) = r.
Proof. reflexivity. Qed.

Lemma fill_step (f : nat -> F) (R0 : list (option F)) i : (i < length R0)%nat -> <[i := Some (f i)]> ((Some <$> vlist i f) ++ drop i R0) = (Some <$> vlist (S i) f) ++ drop (S i) R0.
Proof.
  intros Hi. rewrite insert_app_r_alt by (rewrite fmap_length, vlist_length; lia). rewrite fmap_length, vlist_length, Nat.sub_diag. unfold vlist. rewrite seq_S, !fmap_app, <- app_assoc. f_equal.
  destruct (lookup_lt_is_Some_2 R0 i Hi) as [u Hu]. rewrite (drop_S R0 u i Hu). reflexivity.
Qed.
(** ** Constructors *)
Theorem C69_new c h x y k n X ys reg la al iw ib : wf h -> abs h !! x = Some (Mat k n X) -> abs h !! y = Some (AVec ys) -> Z.of_nat n <= int_max -> Z.of_nat k <= int_max ->
  runs (l_new c (Some x) (Some y) reg la al iw ib) h (fun o h' => ready c x y k n reg la al (abs h) (vlist k (fun j => iw (Z.of_nat j)), ib) o h' /\
    match c with CLogLog => l_z o = None | _ => z_len o h' 0 end).
Proof.
  intros W Hx Hy Hn Hk. destruct c.
  { destruct (C54_new_log h x y k n X reg la al iw ib W Hx Hn Hk) as (g & h' & E & W' & HS). exists (Lnk g None), h'. split; [unfold l_new, bind; rewrite E; reflexivity|]. split; [exact W'|]. split; [|reflexivity].
    destruct HS as (_ & Ls & lw & ly & -> & D & N1 & N2 & A). exists (Z.of_nat n), (Z.of_nat k), (Z.of_nat n), (replicate n None). split; [reflexivity|]. split; [reflexivity|]. split; [exact W'|]. split; [exact Ls|].
    exists lw, ly, None, (AVec []). split; [reflexivity|]. split_and!; try assumption. discriminate. }
  all: apply runs_wp; unfold l_new; wbind; apply wp_v_new; [exact W|]; intros lz h1 W1 N1 A1 _; wbind; apply wp_v_new; [exact W1|]; intros ly h2 W2 N2 A2 _; rewrite A1 in A2, N2; apply lookup_insert_None in N2 as [N2 D2];
    wbind; apply wp_v_new; [exact W2|]; intros lw h3 W3 N3 A3 _; rewrite A2 in A3, N3; apply lookup_insert_None in N3 as [N3 D3]; apply lookup_insert_None in N3 as [N3 D4];
    assert (x <> lz) by congruence; assert (x <> ly) by congruence; assert (x <> lw) by congruence;
    unfold l_initialize; cbn [l_g g_x g_y g_yh g_w]; wbind; (eapply wp_m_size; [look; exact Hx|]); cbn [fst snd]; wbind; apply wp_deref_Some; wbind;
    (eapply wp_v_resize; [exact W3|rewrite A3, lookup_insert_ne by congruence; apply lookup_insert|lia|]); intros h4 W4 A4 _; rewrite A3 in A4;
    wbind; apply wp_deref_Some; wbind; (eapply wp_v_resize; [exact W4|rewrite A4, lookup_insert_ne by congruence; apply lookup_insert|lia|]); intros h5 W5 A5 _; rewrite A4 in A5;
    wbind; (eapply wp_v_size; [rewrite A5; apply lookup_insert|]);
    set (R0 := list.resize (Z.to_nat (Z.of_nat k)) None (Some <$> [])) in *; set (Y0 := list.resize (Z.to_nat (Z.of_nat n)) None (Some <$> [])) in *;
    wbind; eapply (wp_for_n (fun i h => wf h /\ abs h = <[lw := (SVec (Z.of_nat k), (Some <$> vlist i (fun j => iw (Z.of_nat j))) ++ drop i R0)]> (abs h5))).
  all: assert (LR : length R0 = k) by (unfold R0; rewrite resize_length; lia).
  all: try (split; [exact W5|]; change (vlist 0 (fun j => iw (Z.of_nat j))) with (@nil F); cbn [fmap list_fmap app]; rewrite drop_0, A5, insert_insert; reflexivity).
  all: try (intros i h6 Hi [W6 A6]; eapply wp_v_set; [exact W6|rewrite A6; apply lookup_insert|]; intros h7 W7 _ A7; rewrite (proj2 (Z.ltb_ge (Z.of_nat i) 0)) in A7 by (clear; lia); split; [exact W7|]; rewrite A7, A6, insert_insert; rewrite Nat2Z.id, (fill_step (fun j => iw (Z.of_nat j))) by lia; reflexivity).
  all: intros h6 [W6 A6]; apply wp_ret; rewrite drop_ge in A6 by lia; rewrite app_nil_r in A6; rewrite A5, insert_insert in A6; split; [exact W6|].
  all: assert (Av : (SVec (Z.of_nat k), Some <$> vlist k (fun j => iw (Z.of_nat j))) = AVec (vlist k (fun j => iw (Z.of_nat j)))) by (unfold AVec; rewrite vlist_length; reflexivity); rewrite Av in A6; clear Av.
  all: split; [exists 0, 0, (Z.of_nat n), Y0; split; [discriminate|]; split; [reflexivity|]; split; [exact W6|]; split; [apply vlist_length|]; exists lw, ly, (Some lz), (AVec []); split; [reflexivity|]; split; [congruence|]; split; [exact N3|]; split; [exact N2|]; split; [intros ? [= <-]; split_and!; congruence|]; cbn [withz fst]; rewrite A6|].
  all: try (exists lz, []; split; [reflexivity|]; split; [rewrite A6, !lookup_insert_ne by congruence; apply lookup_insert|reflexivity]).
  all: clear - D2 D3 D4 N1 N2 N3; GlmProofs4.map_cases.
Qed.
End any.
