(** * C77-C80: the support vector classifier MLPPSVC.
    [v_ready x y k n C base (ws, b) o h]: the object [o] in heap [h] has the data set x (n rows, k columns), labels y, hinge constant C,
    weights ws and bias b, and has been initialised for data of that size; the rest of the heap is [base], which contains x and y.
    [v_trained ... X ... o h]: moreover its stored predictions are those of the current model. *)
From Verif Require Import Base BaseProofs Vec VecSpec VecProofs VecProofs2 Mat MatSpec MatProofs MatProofs2 MatProofs5 Act ActProofs Sym Svm Cost CostProofs CostSpec Util UtilProofs Glm GlmProofs GlmProofs2 GlmProofs4 GdMath GlmSpec GlmMath LibmR PropGlm PropGlm2 Lnk LnkProofs LnkProofs2 LnkProofs3 LnkMath PropLnk Svc SvcProofs SvcProofs2 SvcSpec SvcMath.
From Coq Require Import Reals Lra.
From Verif Require Import PropAct PropSvm RSum RInst.

Section any.
Context {F : Type} `{Scalar F} `{Libm F}.
Definition v_ready (x y : loc) (k n : nat) (cc : F) (base : gmap loc (aobj F)) (s : list F * F) (o : svc F) (h : heap F) : Prop :=
  exists reg la al gn gk ny cs Zv, ny = Z.of_nat n /\ svS x y k cc reg la al gn gk base s (SVec ny, cs) Zv o h.
Definition v_trained (x y : loc) (k n : nat) (X : nat -> nat -> F) (cc : F) (base : gmap loc (aobj F)) (s : list F * F) (o : svc F) (h : heap F) : Prop :=
  exists reg la al gn gk, svT x y k n X cc reg la al gn gk base s o h.
Lemma v_trained_ready x y k n X cc base s o h : v_trained x y k n X cc base s o h -> v_ready x y k n cc base s o h.
Proof. intros (reg & la & al & gn & gk & HT). exists reg, la, al, gn, gk, (Z.of_nat (length (signs n k X s.1 s.2))), (Some <$> signs n k X s.1 s.2). eexists. split; [rewrite signs_length; reflexivity|]. exact HT. Qed.
Lemma v_ready_wf x y k n cc base s o h : v_ready x y k n cc base s o h -> wf h.
Proof. intros (? & ? & ? & ? & ? & ? & ? & ? & _ & HS). apply HS. Qed.
Lemma v_ready_len x y k n cc base s o h : v_ready x y k n cc base s o h -> length s.1 = k.
Proof. intros (? & ? & ? & ? & ? & ? & ? & ? & _ & HS). apply HS. Qed.

(** ** Constructor *)
Theorem C77_new h x y k n X ys c iw ib : wf h -> abs h !! x = Some (Mat k n X) -> abs h !! y = Some (AVec ys) -> Z.of_nat n <= int_max -> Z.of_nat k <= int_max ->
  runs (v_make (Some x) (Some y) c iw ib) h (fun o h' => v_ready x y k n c (abs h) (vlist k (fun j => iw (Z.of_nat j)), ib) o h').
Proof.
  intros W Hx Hy Hn Hk. destruct (C69_new Tanh h x y k n X ys RNone s_zero s_zero iw ib W Hx Hy Hn Hk) as (o & h' & E & W' & (gn & gk & ny & cs & _ & E2 & HS) & (lz & zs & Ez & Hz & _)).
  exists (Svc o c), h'. split; [unfold v_make, bind; rewrite E; reflexivity|]. split; [exact W'|]. destruct HS as (_ & Ls & lw & ly & rz & Z & -> & D & N1 & N2 & Nz & A). cbn [mklnk l_z] in Ez. subst rz. destruct (Nz lz eq_refl) as (P1 & P2 & P3). cbn [withz] in A.
  exists RNone, s_zero, s_zero, gn, gk, ny, cs, Z. split; [apply E2; discriminate|]. split; [exact W'|]. split; [exact Ls|]. exists lw, ly, lz. split; [reflexivity|]. split_and!; assumption.
Qed.
(** [set_c] replaces the constant and nothing else; the model stays usable. *)
Theorem C77_set_c x y k n cc c' base s o h : v_ready x y k n cc base s o h -> v_ready x y k n c' base s (v_set_c c' o) h.
Proof. intros (reg & la & al & gn & gk & ny & cs & Zv & E & (W & Ls & lw & ly & lz & -> & R)). exists reg, la, al, gn, gk, ny, cs, Zv. split; [exact E|]. split; [exact W|]. split; [exact Ls|]. exists lw, ly, lz. split; [reflexivity|exact R]. Qed.
(** ** Predictions *)
Theorem C77_model_test_any x y k n X cc base s o h r xs : base !! x = Some (Mat k n X) -> v_ready x y k n cc base s o h -> base !! r = Some (AVec xs) -> length xs = k ->
  wp (v_model_test o (Some r)) h (fun v h' => v = sign_normr (s_add (dotl s.1 xs) s.2) /\ h' = h).
Proof.
  intros Hx (reg & la & al & gn & gk & ny & cs & Zv & En & HS) Hr Lx. unfold v_model_test. wbind. eapply sv_needs_init; [exact Hx|exact En|exact HS|]. destruct (sv_view _ _ _ _ _ _ _ _ _ _ _ _ _ _ _ HS) as (W & Ls & _ & _ & _ & Eb & lw & _ & _ & Ew & _).
  unfold v_evaluatev. wbind. eapply wp_propagatev; [exact W|exact Ew|exact Eb|eapply sv_w; eassumption|eapply sv_at; eassumption|congruence|]. apply wp_ret. split; reflexivity.
Qed.
Theorem C77_model_set_test_any x y k n X cc base s o h z m Z_ : base !! x = Some (Mat k n X) -> v_ready x y k n cc base s o h -> base !! z = Some (Mat k m Z_) -> Z.of_nat m <= int_max ->
  runs (v_model_set_test o (Some z)) h (fun r h' => exists d, r = Some d /\ abs h !! d = None /\ abs h' = <[d := AVec (signs m k Z_ s.1 s.2)]> (abs h)).
Proof.
  intros Hx (reg & la & al & gn & gk & ny & cs & Zv & En & HS) Hz Hm. apply runs_wp. unfold v_model_set_test. wbind. eapply sv_needs_init; [exact Hx|exact En|exact HS|]. destruct (sv_view _ _ _ _ _ _ _ _ _ _ _ _ _ _ _ HS) as (W & Ls & _ & _ & _ & Eb & lw & _ & _ & Ew & _).
  eapply (wp_v_evaluatem k); [exact W|exact Ew|exact Eb|eapply sv_at; eassumption|eapply sv_w; eassumption|exact Ls|exact Hm|]. intros d h' W' N' A'. split; [exact W'|]. exists d. auto.
Qed.
(** ** Refusal *)
Definition v_refuses (o : svc F) (h : heap F) : Prop :=
  (forall r, v_model_test o r h = Ok s_zero h) /\ (forall r, v_model_set_test o r h = Ok None h) /\ (forall rnd, v_score rnd o h = Ok s_zero h) /\
  (forall lr max, v_gd lr max o h = Ok o h) /\ (forall lr max idx, v_sgd lr max idx o h = Ok o h) /\ (forall lr max b, v_mbgd lr max b o h = Ok o h).
Lemma v_refuses_of o h : needs_init Tanh (v_o o) h = Ok true h -> v_refuses o h.
Proof. intros E. unfold v_refuses, v_model_test, v_model_set_test, v_score, v_gd, v_sgd, v_mbgd. split_and!; intros; unfold bind at 1; rewrite E; reflexivity. Qed.
Theorem C77_refuses_null o h : g_x (l_g (v_o o)) = None \/ g_y (l_g (v_o o)) = None -> v_refuses o h.
Proof. intros Hn. apply v_refuses_of. unfold needs_init. destruct (g_x (l_g (v_o o))), (g_y (l_g (v_o o))); try reflexivity; destruct Hn; discriminate. Qed.
Theorem C77_refuses_size o h x y k n X lw ly ws ny cs : g_x (l_g (v_o o)) = Some x -> g_y (l_g (v_o o)) = Some y -> g_yh (l_g (v_o o)) = Some ly -> g_w (l_g (v_o o)) = Some lw ->
  abs h !! x = Some (Mat k n X) -> abs h !! ly = Some (SVec ny, cs) -> abs h !! lw = Some (AVec ws) -> ny <> Z.of_nat n \/ length ws <> k -> v_refuses o h.
Proof.
  intros Ex Ey Eyh Ew Hx Hy Hw Hs. apply v_refuses_of.
  assert (G : wp (needs_init Tanh (v_o o)) h (fun v h' => v = true /\ h' = h)).
  { unfold needs_init. rewrite Ex, Ey, Eyh, Ew. wbind. eapply wp_m_size; [exact Hx|]. wbind. apply wp_deref_Some. wbind. eapply wp_v_size; [exact Hy|]. cbn [fst snd]. destruct (Z.eqb_spec ny (Z.of_nat n)) as [E|E]; cbn [negb]; [|apply wp_ret; auto].
    wbind. apply wp_deref_Some. wbind. eapply wp_v_size; [exact Hw|]. apply wp_ret. split; [|reflexivity]. destruct Hs as [Hs|Hs]; [congruence|]. destruct (Z.eqb_spec (Z.of_nat (length ws)) (Z.of_nat k)); [lia|reflexivity]. }
  unfold wp in G. destruct (needs_init Tanh (v_o o) h); try contradiction. destruct G as [-> ->]. reflexivity.
Qed.
(** [set_output_set] takes a matrix: the label vector becomes null, whatever is passed. *)
Theorem C77_set_output_set_refuted r (o : svc F) (h : heap F) : v_refuses (v_set_output r o) h.
Proof. apply C77_refuses_null. right. reflexivity. Qed.

(** ** Training runs *)
Theorem C78_sgd_run lr max (idx : Z -> Z) (ix : nat -> nat) base x y k n X ys cc s o h : base !! x = Some (Mat k n X) -> base !! y = Some (AVec ys) -> length ys = n -> Z.of_nat n <= int_max -> Z.of_nat k <= int_max -> max < int_max ->
  (forall e, Z.of_nat e < Z.max 1 max -> idx (Z.of_nat e + 1) = Z.of_nat (ix e) /\ (ix e < n)%nat) -> v_ready x y k n cc base s o h ->
  runs (v_sgd lr max idx o) h (fun o' h' => v_trained x y k n X cc base (foldl (fun s i => vsgd_pure cc lr k X ys i s) s (ix <$> seq 0 (Z.to_nat (Z.max 1 max)))) o' h').
Proof.
  intros Hx Hy El Hn Hk Hm Hix (reg & la & al & gn & gk & ny & cs & Zv & En & HS). apply runs_wp. eapply (wp_v_sgd x y k n X ys cc reg la al gn gk El Hn Hk base lr max idx ix); [exact Hx|exact Hy|exact Hm|exact Hix|exact En|exact HS|]. intros o' h' HT. split; [apply HT|]. exists reg, la, al, gn, gk. exact HT.
Qed.
Theorem C79_gd_run lr max base x y k n X ys cc s o h : base !! x = Some (Mat k n X) -> base !! y = Some (AVec ys) -> length ys = n -> Z.of_nat n <= int_max -> Z.of_nat k <= int_max -> max < int_max ->
  v_ready x y k n cc base s o h -> runs (v_gd lr max o) h (fun o' h' => v_trained x y k n X cc base (Nat.iter (Z.to_nat (Z.max 1 max)) (vgd_pure cc lr n k X ys) s) o' h').
Proof.
  intros Hx Hy El Hn Hk Hm (reg & la & al & gn & gk & ny & cs & Zv & En & HS). apply runs_wp. eapply (wp_v_gd x y k n X ys cc reg la al gn gk El Hn Hk base lr max); [exact Hx|exact Hy|exact Hm|exact En|exact HS|]. intros o' h' HT. split; [apply HT|]. exists reg, la, al, gn, gk. exact HT.
Qed.
Theorem C80_mbgd_run lr max b base x y k n X ys cc s o h : base !! x = Some (Mat k n X) -> base !! y = Some (AVec ys) -> length ys = n -> Z.of_nat n <= int_max -> Z.of_nat k <= int_max -> max < int_max -> (0 < b <= n)%nat ->
  v_ready x y k n cc base s o h -> runs (v_mbgd lr max (Z.of_nat b) o) h (fun o' h' => let nb := (n / b)%nat in
    v_trained x y k n X cc base (Nat.iter (Z.to_nat (Z.max 1 max)) (vmb_pure cc lr n (n / nb) nb k X ys) s) o' h').
Proof.
  intros Hx Hy El Hn Hk Hm Hb (reg & la & al & gn & gk & ny & cs & Zv & En & HS). apply runs_wp. eapply (wp_v_mbgd x y k n X ys cc reg la al gn gk El Hn Hk base lr max b); [exact Hx|exact Hy|exact Hm|exact Hb|exact En|exact HS|]. intros o' h'. cbv zeta. intros HT. split; [apply HT|]. exists reg, la, al, gn, gk. exact HT.
Qed.
End any.
Local Open Scope R_scope.

(** ** C77 over the reals *)
Theorem C77_model_test x y k n X cc base s o (h : heap R) r xs : base !! x = Some (Mat k n X) -> v_ready x y k n cc base s o h -> base !! r = Some (AVec xs) -> length xs = k ->
  runs (v_model_test o (Some r)) h (fun v h' => v = sgnR (Rsum k (fun j => nth j xs 0 * nth j s.1 0) + s.2) /\ h' = h).
Proof.
  intros Hx HR Hr Lx. apply runs_wp. eapply wp_mono; [exact (C77_model_test_any x y k n X cc base s o h r xs Hx HR Hr Lx)|]. cbv beta. intros v h' [-> ->]. split; [exact (v_ready_wf _ _ _ _ _ _ _ _ _ HR)|]. split; [|reflexivity].
  rewrite sign_R. f_equal. assert (Lw := v_ready_len _ _ _ _ _ _ _ _ _ HR). rewrite dotl_R by congruence. rewrite Lx. reflexivity.
Qed.
Theorem C77_model_set_test x y k n X cc base s o (h : heap R) z m Z_ : base !! x = Some (Mat k n X) -> v_ready x y k n cc base s o h -> base !! z = Some (Mat k m Z_) -> (Z.of_nat m <= int_max)%Z ->
  runs (v_model_set_test o (Some z)) h (fun r h' => exists d vs, r = Some d /\ abs h !! d = None /\ abs h' = <[d := AVec vs]> (abs h) /\ length vs = m /\ forall i, (i < m)%nat -> nth i vs 0 = sgnR (score k Z_ s.1 s.2 i)).
Proof.
  intros Hx HR Hz Hm. destruct (C77_model_set_test_any x y k n X cc base s o h z m Z_ Hx HR Hz Hm) as (r & h' & E & W & d & Er & N & A). exists r, h'. split; [exact E|]. split; [exact W|]. eexists d, _. split; [exact Er|]. split; [exact N|]. split; [exact A|].
  split; [apply signs_length|]. intros i Hi. apply signs_R, Hi.
Qed.

(** ** C78: train_sgd *)
(** The states visited: each draw is a subgradient step on C times the hinge loss of the drawn row, after which the weights are multiplied by 1 - lr. *)
Definition sgd_moves (C lr : R) (k : nat) (X : nat -> nat -> R) (ys : list R) (i : nat) (s s' : list R * R) : Prop :=
  length s'.1 = k /\
  (nth i ys 0 * score k X s.1 s.2 i < 1 -> (forall j, (j < k)%nat -> nth j s'.1 0 = (1 - lr) * (nth j s.1 0 + lr * C * nth i ys 0 * X i j)) /\ s'.2 = s.2 + lr * C * nth i ys 0) /\
  (1 <= nth i ys 0 * score k X s.1 s.2 i -> (forall j, (j < k)%nat -> nth j s'.1 0 = (1 - lr) * nth j s.1 0) /\ s'.2 = s.2) /\
  (0 <= C -> exists g gb, subgradient (hinge1 C k X ys i) s.1 s.2 g gb /\ s'.1 = shrunk_step lr lr s.1 g /\ s'.2 = s.2 - lr * gb).
Lemma vsgd_moves C lr k X ys i s : length s.1 = k -> sgd_moves C lr k X ys i s (vsgd_pure C lr k X ys i s).
Proof.
  destruct s as [ws b]. cbn [fst snd]. intros Lw. pose proof (vsgd_R C lr k X ys i ws b Lw) as E. cbv zeta in E. set (g := C * _) in E. rewrite E. set (gs := (fun j => g * X i j) <$> seq 0 k) in *.
  assert (Lg : length gs = length ws) by (unfold gs; rewrite fmap_length, seq_length; congruence).
  assert (Eg : forall j, (j < k)%nat -> nth j (shrunk_step lr lr ws gs) 0 = (1 - lr) * (nth j ws 0 - lr * (g * X i j))) by (intros j Hj; rewrite nth_shrunk by (congruence || lia); unfold gs; rewrite nth_seqmap by exact Hj; reflexivity).
  split; [cbn [fst]; rewrite shrunk_length by exact Lg; exact Lw|]. split; [|split]; cbn [fst snd].
  - intros Hv. assert (Hg : g = C * - nth i ys 0) by (unfold g, violated; destruct (Rlt_dec _ _); [reflexivity|lra]). split; [intros j Hj; rewrite Eg by exact Hj|]; rewrite Hg; ring.
  - intros Hv. assert (Hg : g = 0) by (unfold g, violated; destruct (Rlt_dec _ _); lra). split; [intros j Hj; rewrite Eg by exact Hj|]; rewrite Hg; ring.
  - intros HC. exists gs, g. split; [exact (row_subgradient C k X ys i ws b HC Lw)|]. split; reflexivity.
Qed.
Theorem C78_sgd_path C lr max (idx : Z -> Z) (ix : nat -> nat) base x y k n X ys s o (h : heap R) : base !! x = Some (Mat k n X) -> base !! y = Some (AVec ys) -> length ys = n -> (Z.of_nat n <= int_max)%Z -> (Z.of_nat k <= int_max)%Z -> (max < int_max)%Z ->
  (forall e, (Z.of_nat e < Z.max 1 max)%Z -> idx (Z.of_nat e + 1)%Z = Z.of_nat (ix e) /\ (ix e < n)%nat) -> v_ready x y k n C base s o h ->
  exists st : nat -> list R * R, st 0%nat = s /\ (forall t, sgd_moves C lr k X ys (ix t) (st t) (st (S t))) /\
    runs (v_sgd lr max idx o) h (fun o' h' => v_trained x y k n X C base (st (Z.to_nat (Z.max 1 max))) o' h').
Proof.
  intros Hx Hy El Hn Hk Hm Hix HR. assert (Ls := v_ready_len _ _ _ _ _ _ _ _ _ HR). exists (fun t => foldl (fun s i => vsgd_pure C lr k X ys i s) s (ix <$> seq 0 t)). split; [reflexivity|]. split.
  - intros t. rewrite (seq_S t 0), fmap_app, foldl_app. cbn [fmap list_fmap foldl plus]. apply vsgd_moves. induction t as [|t IH]; [exact Ls|]. rewrite (seq_S t 0), fmap_app, foldl_app. cbn [fmap list_fmap foldl plus]. apply (vsgd_moves C lr k X ys (ix t)), IH.
  - exact (C78_sgd_run lr max idx ix base x y k n X ys C s o h Hx Hy El Hn Hk Hm Hix HR).
Qed.
(** However long it runs: the weights stay bounded, the bias moves by at most lr C per draw, and the weights stay the shrunk initial
    weights plus a combination of the rows with coefficients of the label's sign. *)
Theorem C78_sgd_bounded C lr k X ys (ix : nat -> nat) (st : nat -> list R * R) n B M : 0 <= lr <= 1 -> 0 <= C -> (forall t, (ix t < n)%nat) -> (forall i j, (i < n)%nat -> (j < k)%nat -> Rabs (X i j) <= B) -> (forall i, (i < n)%nat -> Rabs (nth i ys 0) <= 1) ->
  (forall t, sgd_moves C lr k X ys (ix t) (st t) (st (S t))) -> (forall j, (j < k)%nat -> Rabs (nth j (st 0%nat).1 0) <= M) -> (1 - lr) * C * B <= M ->
  forall t, (forall j, (j < k)%nat -> Rabs (nth j (st t).1 0) <= M) /\ Rabs ((st t).2 - (st 0%nat).2) <= INR t * (lr * C).
Proof.
  intros Hl HC Hix HB Hy Hst H0 HM t. induction t as [|t [IH1 IH2]]; [split; [exact H0|]; rewrite Rminus_diag_eq, Rabs_R0 by reflexivity; cbn; lra|].
  destruct (Hst t) as (_ & Hv & Hs & _). assert (Hi := Hix t). set (i := ix t) in *. assert (Hyi := Hy i Hi). assert (P : 0 <= lr * C) by (apply Rmult_le_pos; lra).
  assert (AT : Rabs (lr * C * nth i ys 0) <= lr * C). { rewrite Rabs_mult, (Rabs_right (lr * C)) by lra. rewrite <- (Rmult_1_r (lr * C)) at 2. apply Rmult_le_compat_l; assumption. }
  rewrite S_INR. destruct (Rlt_le_dec (nth i ys 0 * score k X (st t).1 (st t).2 i) 1) as [L|L].
  - destruct (Hv L) as [E1 E2]. split.
    + intros j Hj. rewrite E1 by exact Hj. rewrite Rabs_mult, (Rabs_right (1 - lr)) by lra. assert (W := IH1 j Hj). assert (Q := HB i j Hi Hj).
      assert (T : Rabs (nth j (st t).1 0 + lr * C * nth i ys 0 * X i j) <= M + lr * C * B).
      { eapply Rle_trans; [apply Rabs_triang|]. apply Rplus_le_compat; [exact W|]. rewrite Rabs_mult. apply Rmult_le_compat; try apply Rabs_pos; assumption. }
      apply Rle_trans with ((1 - lr) * (M + lr * C * B)); [apply Rmult_le_compat_l; lra|]. assert (lr * ((1 - lr) * C * B) <= lr * M) by (apply Rmult_le_compat_l; lra). lra.
    + rewrite E2. replace ((st t).2 + lr * C * nth i ys 0 - (st 0%nat).2) with ((st t).2 - (st 0%nat).2 + lr * C * nth i ys 0) by ring. eapply Rle_trans; [apply Rabs_triang|]. lra.
  - destruct (Hs L) as [E1 E2]. split.
    + intros j Hj. rewrite E1 by exact Hj. rewrite Rabs_mult, (Rabs_right (1 - lr)) by lra. assert (W := IH1 j Hj). assert (0 <= Rabs (nth j (st t).1 0)) by apply Rabs_pos. assert (0 <= lr * Rabs (nth j (st t).1 0)) by (apply Rmult_le_pos; lra). lra.
    + rewrite E2. lra.
Qed.
Theorem C78_sgd_span C lr k X ys (ix : nat -> nat) (st : nat -> list R * R) n : 0 <= lr <= 1 -> 0 <= C -> (forall t, (ix t < n)%nat) -> (forall t, sgd_moves C lr k X ys (ix t) (st t) (st (S t))) ->
  forall t, exists a : nat -> R, (forall i, 0 <= a i) /\ forall j, (j < k)%nat -> nth j (st t).1 0 = (1 - lr) ^ t * nth j (st 0%nat).1 0 + Rsum n (fun i => a i * nth i ys 0 * X i j).
Proof.
  intros Hl HC Hix Hst t. induction t as [|t (a & Ha & IH)].
  - exists (fun _ => 0). split; [intros; lra|]. intros j Hj. rewrite (Rsum_ext n _ (fun _ => 0)) by (intros; ring). rewrite Rsum_zero. cbn. ring.
  - destruct (Hst t) as (_ & Hv & Hs & _). assert (Hi := Hix t). set (q := ix t) in *. destruct (Rlt_le_dec (nth q ys 0 * score k X (st t).1 (st t).2 q) 1) as [L|L].
    + destruct (Hv L) as [E _]. exists (fun i => (1 - lr) * a i + (if decide (i = q) then 1 else 0) * ((1 - lr) * (lr * C))). split.
      { intros i. assert (0 <= (1 - lr) * a i) by (apply Rmult_le_pos; [lra|apply Ha]). assert (0 <= (1 - lr) * (lr * C)) by (apply Rmult_le_pos; [lra|apply Rmult_le_pos; lra]). destruct (decide (i = q)); lra. }
      intros j Hj. rewrite E, IH by exact Hj. rewrite (Rsum_ext n (fun i => ((1 - lr) * a i + _) * _ * _) (fun i => (1 - lr) * (a i * nth i ys 0 * X i j) + (if decide (i = q) then 1 else 0) * ((1 - lr) * (lr * C) * nth i ys 0 * X i j))) by (intros; ring).
      rewrite Rsum_plus, Rsum_scal, Rsum_delta by exact Hi. cbn [pow]. ring.
    + destruct (Hs L) as [E _]. exists (fun i => (1 - lr) * a i). split; [intros i; apply Rmult_le_pos; [lra|apply Ha]|]. intros j Hj. rewrite E, IH by exact Hj.
      rewrite (Rsum_ext n (fun i => (1 - lr) * a i * _ * _) (fun i => (1 - lr) * (a i * nth i ys 0 * X i j))) by (intros; ring). rewrite Rsum_scal. cbn [pow]. ring.
Qed.

(** ** C79: train_gradient_descent *)
(** Each epoch: a subgradient step for the weights on the mean hinge loss, then a multiplication by 1 - lr/n.
    The bias: minus lr C/n times the sum of the labels of the rows whose predicted sign times label is below 1; a subgradient step would add
    the labels of the rows whose score times label is below 1. *)
Definition gd_moves (C lr : R) (n k : nat) (X : nat -> nat -> R) (ys : list R) (s s' : list R * R) : Prop :=
  length s'.1 = k /\
  (forall j, (j < k)%nat -> nth j s'.1 0 = (1 - lr / INR n) * (nth j s.1 0 + lr * C / INR n * Rsum n (fun i => if Rlt_dec (nth i ys 0 * score k X s.1 s.2 i) 1 then nth i ys 0 * X i j else 0))) /\
  (0 <= C -> exists g gb, subgradient (hinge_mean C n k X ys) s.1 s.2 g gb /\ s'.1 = shrunk_step lr (lr / INR n) s.1 g) /\
  s'.2 = s.2 - lr * C / INR n * Rsum n (fun i => if Rlt_dec (nth i ys 0 * sgnR (score k X s.1 s.2 i)) 1 then nth i ys 0 else 0).
Lemma vgd_moves C lr n k X ys s : (0 < n)%nat -> length s.1 = k -> length ys = n -> gd_moves C lr n k X ys s (vgd_pure C lr n k X ys s).
Proof.
  destruct s as [ws b]. cbn [fst snd]. intros Hp Lw El. pose proof (vgd_R C lr n k X ys ws b Hp Lw El) as E. cbv zeta in E. rewrite E. set (gs := _ <$> seq 0 k) in *. assert (0 < INR n) by (apply lt_0_INR; exact Hp).
  assert (Lg : length gs = length ws) by (unfold gs; rewrite fmap_length, seq_length; congruence).
  split; [cbn [fst]; rewrite shrunk_length by exact Lg; exact Lw|]. cbn [fst snd]. split; [|split].
  - intros j Hj. rewrite nth_shrunk by (congruence || lia). unfold gs. rewrite nth_seqmap by exact Hj.
    rewrite (Rsum_ext n (fun i => X i j * _) (fun i => - C * (if Rlt_dec (nth i ys 0 * score k X ws b i) 1 then nth i ys 0 * X i j else 0))); [rewrite Rsum_scal; field; lra|]. intros i Hi. unfold violated. destruct (Rlt_dec _ _); ring.
  - intros HC. eexists gs, _. split; [exact (mean_subgradient C n k X ys ws b HC Hp Lw)|reflexivity].
  - f_equal. f_equal. apply Rsum_ext. intros i Hi. unfold sign_wrong. destruct (Rlt_dec _ _); reflexivity.
Qed.
Theorem C79_gd_path C lr base x y k n X ys s o (h : heap R) : base !! x = Some (Mat k n X) -> base !! y = Some (AVec ys) -> length ys = n -> (0 < n)%nat -> (Z.of_nat n <= int_max)%Z -> (Z.of_nat k <= int_max)%Z -> v_ready x y k n C base s o h ->
  exists st : nat -> list R * R, st 0%nat = s /\ (forall t, gd_moves C lr n k X ys (st t) (st (S t))) /\
    forall max, (max < int_max)%Z -> runs (v_gd lr max o) h (fun o' h' => v_trained x y k n X C base (st (Z.to_nat (Z.max 1 max))) o' h').
Proof.
  intros Hx Hy El Hp Hn Hk HR. assert (Ls := v_ready_len _ _ _ _ _ _ _ _ _ HR). exists (fun t => Nat.iter t (vgd_pure C lr n k X ys) s). split; [reflexivity|]. split.
  - intros t. rewrite Nat.iter_succ. apply vgd_moves; [exact Hp| |exact El]. induction t as [|t IH]; [exact Ls|]. rewrite Nat.iter_succ. apply (vgd_moves C lr n k X ys _ Hp IH El).
  - intros max Hm. exact (C79_gd_run lr max base x y k n X ys C s o h Hx Hy El Hn Hk Hm HR).
Qed.
(** With labels -1 and 1, the rows that move the bias are exactly the misclassified ones. *)
Theorem C79_bias_rows y z : y = 1 \/ y = -1 -> (y * sgnR z < 1 <-> sgnR z <> y).
Proof. intros Hy. unfold sgnR. destruct (Rlt_dec z 0), (Req_EM_T z 0), Hy as [->| ->]; split; intros; lra. Qed.
(** The bias moves the wrong way: with one all-zero row labelled 1 that is misclassified, every run lowers the bias and raises the hinge loss. *)
Theorem C79_gd_bias_refuted C lr max base x y s o (h : heap R) : 0 < C -> 0 < lr -> s.2 < 0 -> base !! x = Some (Mat 1 1 (fun _ _ => 0)) -> base !! y = Some (AVec [1]) -> (max < int_max)%Z -> v_ready x y 1 1 C base s o h ->
  runs (v_gd lr max o) h (fun o' h' => exists s', v_trained x y 1 1 (fun _ _ => 0) C base s' o' h' /\ s'.2 = s.2 - INR (Z.to_nat (Z.max 1 max)) * (lr * C) /\
    hinge_mean C 1 1 (fun _ _ => 0) [1] s.1 s.2 < hinge_mean C 1 1 (fun _ _ => 0) [1] s'.1 s'.2).
Proof.
  intros HC Hl Hb Hx Hy Hm HR. destruct (C79_gd_path C lr base x y 1 1 (fun _ _ => 0) [1] s o h Hx Hy eq_refl ltac:(lia) ltac:(unfold int_max; lia) ltac:(unfold int_max; lia) HR) as (st & E0 & Hst & G). specialize (G max Hm).
  assert (Sc : forall ws b i, score 1 (fun _ _ => 0) ws b i = b) by (intros; unfold score; rewrite Rsum_S; change (Rsum 0 _) with 0; ring). assert (P : 0 < lr * C) by (apply Rmult_lt_0_compat; assumption).
  assert (Eb : forall t, (st t).2 = s.2 - INR t * (lr * C)).
  { induction t as [|t IH]; [rewrite E0; cbn; ring|]. destruct (Hst t) as (_ & _ & _ & E). rewrite E, !Rsum_S. change (Rsum 0 _) with 0. change (INR 1) with 1. cbn [nth]. rewrite Sc. assert (0 <= INR t * (lr * C)) by (apply Rmult_le_pos; [apply pos_INR|lra]).
    assert (Es : sgnR (st t).2 = -1) by (unfold sgnR; destruct (Rlt_dec _ _); lra). rewrite Es. destruct (Rlt_dec (1 * -1) 1) as [_|Hf]; [|lra]. rewrite IH, S_INR. lra. }
  destruct G as (o' & h' & E & W & T). exists o', h'. split; [exact E|]. split; [exact W|]. set (T0 := Z.to_nat (Z.max 1 max)) in *. exists (st T0). split; [exact T|]. split; [apply Eb|]. assert (0 < INR T0) by (apply lt_0_INR; lia). assert (0 < INR T0 * (lr * C)) by (apply Rmult_lt_0_compat; assumption).
  unfold hinge_mean, hinge1. rewrite !Rsum_S. change (Rsum 0 _) with 0. cbn [nth]. rewrite !Sc, Eb. rewrite !Rmax_right by lra. change (INR 1) with 1. rewrite Rinv_1. nra.
Qed.

(** ** C80: train_mbgd *)
Lemma list_fmap_one (l : list R) : (fun w => 1 * w) <$> l = l.
Proof. induction l as [|a l IH]; [reflexivity|]. cbn [fmap list_fmap]. rewrite <- IH at 2. f_equal. ring. Qed.
Lemma vmb_pure_w C lr n mb nb k X ys s : (vmb_pure (F := R) C lr n mb nb k X ys s).1 = (fun w => (1 - lr / INR n) ^ nb * w) <$> s.1.
Proof.
  induction nb as [|nb IH]; unfold vmb_pure in *; [cbn [seq foldl pow]; symmetry; apply list_fmap_one|]. rewrite seq_S, foldl_app. cbn [foldl plus]. unfold vmb_step at 1. cbn [fst]. rewrite shrink_R, IH, <- list_fmap_compose. apply list_fmap_ext.
  intros _ w _. unfold compose. cbn [s_div s_of_Z R_scalar pow]. rewrite <- INR_IZR_INZ. ring.
Qed.
(** The weights never depend on the data: they are the initial ones times (1 - lr/n) to the number of batches processed. *)
Theorem C80_mbgd_weights_refuted C lr max b base x y k n X ys s o (h : heap R) : base !! x = Some (Mat k n X) -> base !! y = Some (AVec ys) -> length ys = n -> (Z.of_nat n <= int_max)%Z -> (Z.of_nat k <= int_max)%Z -> (max < int_max)%Z -> (0 < b <= n)%nat -> v_ready x y k n C base s o h ->
  runs (v_mbgd lr max (Z.of_nat b) o) h (fun o' h' => exists b', v_trained x y k n X C base ((fun w => (1 - lr / INR n) ^ (n / b * Z.to_nat (Z.max 1 max)) * w) <$> s.1, b') o' h').
Proof.
  intros Hx Hy El Hn Hk Hm Hb HR. destruct (C80_mbgd_run lr max b base x y k n X ys C s o h Hx Hy El Hn Hk Hm Hb HR) as (o' & h' & E & W & T). exists o', h'. split; [exact E|]. split; [exact W|]. cbv zeta in T. set (nb := (n / b)%nat) in *. set (f := vmb_pure C lr n (n / nb) nb k X ys) in *.
  exists (Nat.iter (Z.to_nat (Z.max 1 max)) f s).2. replace ((fun w => _) <$> s.1) with (Nat.iter (Z.to_nat (Z.max 1 max)) f s).1; [rewrite <- surjective_pairing; exact T|]. generalize (Z.to_nat (Z.max 1 max)). clear. induction n0 as [|t IH].
  - rewrite Nat.mul_0_r. symmetry. apply list_fmap_one.
  - rewrite Nat.iter_succ. unfold f at 1. rewrite vmb_pure_w, IH, <- list_fmap_compose. apply list_fmap_ext. intros _ w _. unfold compose. rewrite Nat.mul_succ_r, pow_add. ring.
Qed.
(** The bias: batch i of every epoch (rows mb i .. mb i + mb - 1) is scored against the labels of the first batch, and adds lr C/n times
    the labels whose product with the predicted sign is below 1. *)
Theorem C80_mbgd_bias_path C lr max b base x y k n X ys s o (h : heap R) : base !! x = Some (Mat k n X) -> base !! y = Some (AVec ys) -> length ys = n -> (Z.of_nat n <= int_max)%Z -> (Z.of_nat k <= int_max)%Z -> (max < int_max)%Z -> (0 < b <= n)%nat -> v_ready x y k n C base s o h ->
  let nb := (n / b)%nat in let mb := (n / nb)%nat in
  exists st : nat -> list R * R, st 0%nat = s /\
    (forall t, (st (S t)).2 = (st t).2 + lr * C / INR n * Rsum mb (fun r => if Rlt_dec (nth r ys 0 * sgnR (score k X (st t).1 (st t).2 (mb * (t mod nb) + r))) 1 then nth r ys 0 else 0)) /\
    runs (v_mbgd lr max (Z.of_nat b) o) h (fun o' h' => v_trained x y k n X C base (st (nb * Z.to_nat (Z.max 1 max))%nat) o' h').
Proof.
  intros Hx Hy El Hn Hk Hm Hb HR nb mb. assert (Hnb : (0 < nb)%nat) by (apply Nat.div_str_pos; exact Hb). assert (Hmb : (nb * mb <= n)%nat) by (apply Nat.mul_div_le; lia). assert (0 < INR n) by (apply lt_0_INR; lia).
  set (g := fun (s : list R * R) t => vmb_step (F := R) C lr n mb k (fun r j => X (mb * (t mod nb) + r)%nat j) (take mb ys) s). exists (fun t => foldl g s (seq 0 t)). split; [reflexivity|]. split.
  - intros t. rewrite seq_S, foldl_app. cbn [foldl plus]. set (u := foldl g s (seq 0 t)). unfold g, vmb_step. cbn [snd s_sub s_div s_mul s_of_Z R_scalar]. rewrite <- INR_IZR_INZ, sumv_R, rsum_nth. assert (Lt : length (take mb ys) = mb) by (rewrite take_length; nia). rewrite hder_length by (rewrite signs_length; congruence). rewrite Lt.
    rewrite (Rsum_ext mb _ (fun r => - C * (if Rlt_dec (nth r ys 0 * sgnR (score k X u.1 u.2 (mb * (t mod nb) + r))) 1 then nth r ys 0 else 0))); [rewrite Rsum_scal; field; lra|].
    intros r Hr. rewrite hder_signs by lia. unfold sign_wrong. assert (En : nth r (take mb ys) 0 = nth r ys 0) by (rewrite !nth_lookup, lookup_take by exact Hr; reflexivity). rewrite En. unfold score. destruct (Rlt_dec _ _); ring.
  - destruct (C80_mbgd_run lr max b base x y k n X ys C s o h Hx Hy El Hn Hk Hm Hb HR) as (o' & h' & E & W & T). exists o', h'. split; [exact E|]. split; [exact W|]. cbv zeta in T. fold nb mb in T. set (T0 := Z.to_nat (Z.max 1 max)) in *. clearbody T0.
    replace (foldl g s (seq 0 (nb * T0))) with (Nat.iter T0 (vmb_pure C lr n mb nb k X ys) s); [exact T|]. clear - Hnb. induction T0 as [|t IH]; [rewrite Nat.mul_0_r; reflexivity|]. rewrite Nat.iter_succ, IH, Nat.mul_succ_r, seq_app, foldl_app. set (u := foldl g s _). unfold vmb_pure. clearbody u. clear IH.
    cbn [plus]. assert (G : forall q, (q <= nb)%nat -> foldl (fun s i => vmb_step C lr n mb k (fun r j => X (mb * i + r)%nat j) (take mb ys) s) u (seq 0 q) = foldl g u (seq (nb * t) q)).
    { induction q as [|q IHq]; intros Hq; [reflexivity|]. rewrite !seq_S, !foldl_app, IHq by lia. cbn [foldl plus]. unfold g. replace ((nb * t + q) mod nb)%nat with q; [reflexivity|]. rewrite Nat.add_comm, Nat.mul_comm, Nat.mod_add by lia. rewrite Nat.mod_small by lia. reflexivity. }
    apply G. lia.
Qed.
