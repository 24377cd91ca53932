(** * The adaptive optimisers of linear regression: mini-batches and epochs, for any arithmetic. *)
From Verif Require Import Base BaseProofs Vec VecSpec VecProofs VecProofs2 Mat MatSpec MatProofs MatProofs2 MatProofs3 MatProofs4 MatProofs5 DetProofs Frame Stat StatProofs Act ActProofs ActProofs2 Cost CostProofs Sym Svm LinAlg LinAlgProofs Util UtilProofs Glm GlmProofs GlmProofs2 GlmProofs4.
Ltac fr h' W A := eapply wp_free; [eassumption|look|]; intros h' W A; match type of A with abs _ = delete ?d (abs ?h0) => match goal with A0 : abs h0 = _ |- _ => rewrite A0 in A; clear A0 end end;
  rewrite ?delete_insert_ne in A by congruence; rewrite delete_insert in A by (rewrite ?lookup_insert_ne by congruence; first [assumption|congruence]).
Section glm.
Context {F : Type} `{Scalar F} `{Libm F}.
Implicit Types (h : heap F) (xs ys ws gs ms vs : list F) (X : nat -> nat -> F).

Ltac lens := unfold descend, axpy; repeat first [rewrite fmap_length | rewrite zip_with_length]; slia.
(** ** One mini-batch, one epoch *)
Definition look_ahead (kk : opt) ws vs : list F := match kk with Nag gamma => descend gamma ws vs | _ => ws end.
Definition batch_grad (mm k : nat) X ys (reg : regtype) (la al : F) ws (b : F) : list F :=
  zip_with s_add ((fun x => s_mul x (s_of_Z (Z.quot 1 (Z.of_nat mm)))) <$> xt_e mm k X (errs Lin mm k X ys ws b)) (reg_d1 la al reg <$> ws).
Definition opt_batch_pure (kk : opt) (lr : F) (epoch : Z) (mm k : nat) X ys (reg : regtype) (la al : F) (s : (list F * F) * (list F * list F)) : (list F * F) * (list F * list F) :=
  let b := s.1.2 in
  let ws := look_ahead kk s.1.1 s.2.2 in
  let u := opt_pure kk lr epoch ws s.2.1 s.2.2 (batch_grad mm k X ys reg la al ws b) in
  ((u.1, s_sub b (s_div (s_mul lr (sumv (errs Lin mm k X ys ws b))) (s_of_Z (Z.of_nat mm)))), u.2).
Definition opt_epoch_pure (kk : opt) (lr : F) (epoch : Z) (m nb k : nat) X ys (reg : regtype) (la al : F) (s : (list F * F) * (list F * list F)) : (list F * F) * (list F * list F) :=
  foldl (fun s i => opt_batch_pure kk lr epoch m k (fun r j => X (m * i + r)%nat j) (take m ys) reg la al s) s (seq 0 nb).
Definition st_len (k : nat) (s : (list F * F) * (list F * list F)) : Prop := length s.1.1 = k /\ length s.2.1 = k /\ length s.2.2 = k.
Lemma look_ahead_length kk ws vs k : length ws = k -> length vs = k -> length (look_ahead kk ws vs) = k.
Proof. intros E1 E2. destruct kk; try exact E1. cbn. lens. Qed.
Lemma batch_grad_length mm k X ys reg la al ws b : length ws = k -> length (batch_grad mm k X ys reg la al ws b) = k.
Proof. intros E. unfold batch_grad. rewrite zip_with_length, !fmap_length, xt_e_length. lia. Qed.
Lemma opt_batch_length kk lr epoch mm k X ys reg la al s : st_len k s -> st_len k (opt_batch_pure kk lr epoch mm k X ys reg la al s).
Proof. intros (E1 & E2 & E3). unfold opt_batch_pure, st_len. cbn [fst snd]. apply opt_pure_length; [apply look_ahead_length; assumption|exact E2|exact E3|]. apply batch_grad_length, look_ahead_length; assumption. Qed.

Section obj.
Context (base : gmap loc (aobj F)) (x y : loc) (k n : nat) (X : nat -> nat -> F) (ys : list F) (reg : regtype) (la al : F).
Context (Hx : base !! x = Some (Mat k n X)) (Hy : base !! y = Some (AVec ys)) (El : length ys = n) (Hn : Z.of_nat n <= int_max) (Hk : Z.of_nat k <= int_max).
Notation obj lw ly b := (mkglm x y k n reg la al lw ly b).

(** The heap is [m] plus the weights and the two moment vectors. *)
Definition adS (m : gmap loc (aobj F)) (ly : loc) (s : (list F * F) * (list F * list F)) (p : glm * (option loc * option loc)) h : Prop :=
  wf h /\ st_len k s /\ exists lw lm lv, p = (obj lw ly s.1.2, (Some lm, Some lv)) /\ m !! lw = None /\ m !! lm = None /\ m !! lv = None /\ lw <> lm /\ lw <> lv /\ lm <> lv /\
  abs h = <[lv := AVec s.2.2]> (<[lm := AVec s.2.1]> (<[lw := AVec s.1.1]> m)).
Lemma wp_look_ahead kk (o : glm (F := F)) h m0 lw lm lv ws ms vs (rest : M F (glm (F := F) * (option loc * option loc))) (Q : glm (F := F) * (option loc * option loc) -> heap F -> Prop) : wf h -> g_w o = Some lw -> abs h = <[lv := AVec vs]> (<[lm := AVec ms]> (<[lw := AVec ws]> m0)) -> lw <> lm -> lw <> lv -> lm <> lv ->
  m0 !! lw = None -> m0 !! lm = None -> m0 !! lv = None -> length ws = length vs ->
  (forall h', wf h' -> abs h' = <[lv := AVec vs]> (<[lm := AVec ms]> (<[lw := AVec (look_ahead kk ws vs)]> m0)) -> wp rest h' Q) ->
  wp ((match kk with Nag gamma => let! q := vmap (fun x => s_mul x gamma) (Some lv) in let! w := deref (g_w o) in v_sub w q ;;; free q | _ => ret tt end) ;;; rest) h Q.
Proof.
  intros W Ew A D1 D2 D3 N1 N2 N3 E HQ. wbind. destruct kk; try (apply wp_ret; apply HQ; [exact W|exact A]).
  wbind. eapply wp_vmap; [exact W|look|]. nw q h1 W1 M1 A1. wbind. rewrite Ew. apply wp_deref_Some. wbind. eapply wp_v_op2; [exact W1|look|look|]. intros h2 W2 A2. rewrite fmap_length, decide_True, A1 in A2 by exact E.
  eapply wp_free; [exact W2|look|]. intros h3 W3 A3. rewrite A2 in A3. apply HQ; [exact W3|]. rewrite A3. clear - D1 D2 D3 N1 N2 N3 M1 Dq Dq0 Dq1. cbn [look_ahead]. unfold descend. map_cases.
Qed.
Lemma wp_opt_batch kk lr epoch m ly bi bo mm Xb yb s p h (Q : glm * (option loc * option loc) -> heap F -> Prop) : adS m ly s p h -> m !! bi = Some (Mat k mm Xb) -> m !! bo = Some (AVec yb) -> length yb = mm -> (0 < mm)%nat -> Z.of_nat mm <= int_max ->
  (forall p' h', adS m ly (opt_batch_pure kk lr epoch mm k Xb yb reg la al s) p' h' -> Q p' h') -> wp (opt_batch kk lr epoch (bi, bo) p) h Q.
Proof using Hk.
  destruct s as [[ws0 b] [ms vs]]. intros (W & (L1 & L2 & L3) & lw & lm & lv & -> & N1 & N2 & N3 & D1 & D2 & D3 & A) Hbi Hbo Eb Hm0 Hmm HQ. cbn [fst snd] in *. unfold opt_batch. cbn [fst snd].
  assert (bi <> lw /\ bi <> lm /\ bi <> lv /\ bo <> lw /\ bo <> lm /\ bo <> lv) as (? & ? & ? & ? & ? & ?) by (repeat split; congruence).
  eapply wp_look_ahead; [exact W|reflexivity|exact A|exact D1|exact D2|exact D3|exact N1|exact N2|exact N3|congruence|]. clear h W A. intros h W A.
  set (s' := opt_batch_pure kk lr epoch mm k Xb yb reg la al ((ws0, b), (ms, vs))) in *. assert (Es' : s' = opt_batch_pure kk lr epoch mm k Xb yb reg la al ((ws0, b), (ms, vs))) by reflexivity. assert (Ls' : st_len k s') by (apply opt_batch_length; repeat split; assumption). clearbody s'.
  unfold opt_batch_pure in Es'. cbn [fst snd] in Es'. assert (L0 : length (look_ahead kk ws0 vs) = k) by (apply look_ahead_length; assumption). set (ws := look_ahead kk ws0 vs) in *. clearbody ws. clear L1.
  wbind. eapply (wp_evaluatem Lin _ h bi lw k mm Xb ws b); [exact W|reflexivity|reflexivity|look|look|exact L0|exact Hmm|]. nw yl h1 W1 M1 A1.
  wbind. eapply (wp_g_cost Lin _ h1 yl bo lw); [exact W1|reflexivity|look|look|rewrite preds_length; congruence|look|]. intros _.
  assert (yl <> bi) by congruence. assert (yl <> bo) by congruence.
  wbind. apply wp_deref_Some. wbind. eapply wp_v_op2n; [exact W1|look|look| |intros Hne; exfalso; apply Hne; rewrite preds_length; congruence]. intros _. fold (errs Lin mm k Xb yb ws b). nw e h2 W2 M2 A2.
  set (es := errs Lin mm k Xb yb ws b) in *. assert (Les : length es = mm) by (apply errs_length; exact Eb). assert (e <> bi) by congruence. assert (e <> bo) by congruence.
  wbind. eapply wp_v_size_vec; [look|]. rewrite Eb. wbind. apply wp_idiv; [clear - Hm0; lia| |].
  { clear - Hm0. assert (0 <= Z.quot 1 (Z.of_nat mm) <= 1); [|unfold int_max; lia]. split; [apply Z.quot_pos; lia|]. rewrite Z.quot_div_nonneg by lia. apply Z.div_le_upper_bound; lia. }
  wbind. eapply wp_xt_vec; [exact W2|look|look|exact Les|exact Hk|]. nw g0 h3 W3 M3 A3.
  wbind. eapply wp_vmap; [exact W3|look|]. nw g1 h4 W4 M4 A4. wbind. fr h5 W5 A5. assert (g1 <> bi) by congruence.
  wbind. cbn [mkglm g_w g_la g_al g_reg]. eapply (reg_deriv_ok KV h5 lw 0 0 ws); [exact W5|look|]. cbn [KObj]. nw rd h6 W6 M6 A6. assert (rd <> bi) by congruence.
  wbind. eapply wp_vop; [exact W6|look|look|rewrite !fmap_length, xt_e_length; congruence|]. nw g h7 W7 M7 A7. assert (g <> bi) by congruence.
  fold (batch_grad mm k Xb yb reg la al ws b) in A7. set (gs := batch_grad mm k Xb yb reg la al ws b) in *. assert (Lg : length gs = k) by (apply batch_grad_length; exact L0).
  set (m1 := <[rd := AVec (reg_d1 la al reg <$> ws)]> (<[g1 := AVec ((fun x => s_mul x (s_of_Z (Z.quot 1 (Z.of_nat mm)))) <$> xt_e mm k Xb es)]> (<[e := AVec es]> (<[yl := AVec (preds Lin mm k Xb ws b)]> m)))).
  wbind. eapply (wp_opt_update kk lr epoch h7 m1 lw lm lv g ws ms vs gs k); [exact W7| |unfold m1; rewrite ?lookup_insert_ne by congruence; assumption..| | | | | | | | | | | ]; try congruence.
  { rewrite A7. unfold m1. mapeq. }
  intros lm' lv' h8 W8 P1 P2 P3 P4 P5 P6 P7 A8. unfold m1 in P1, P2, A8. split_none P1. split_none P2. clear m1. set (u := opt_pure kk lr epoch ws ms vs gs) in *.
  wbind. apply wp_deref_Some. wbind. eapply wp_v_sum; [exact W8|look|]. cbv zeta. fold (sumv es).
  assert (lm' <> bi) by congruence. assert (lv' <> bi) by congruence.
  wbind. eapply (wp_evaluatem Lin _ h8 bi lw k mm Xb s'.1.1 s'.1.2); [exact W8|reflexivity|rewrite Es'; reflexivity|look|rewrite Es'; look|apply Ls'|exact Hmm|]. nw y2 h9 W9 M9 A9.
  wbind. fr h10 W10 A10. wbind. fr h11 W11 A11. wbind. fr h12 W12 A12. wbind. fr h13 W13 A13. wbind. fr h14 W14 A14. wbind. fr h15 W15 A15. apply wp_ret. apply HQ. split; [exact W15|]. split; [exact Ls'|].
  exists lw, lm', lv'. split; [rewrite Es'; reflexivity|]. repeat (split; [assumption|]). rewrite A15, Es'. reflexivity.
Qed.
End obj.
End glm.
