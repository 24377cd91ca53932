(** * The pure counterparts of MLPPSVC over exact reals. *)
From Verif Require Import Base BaseProofs Vec VecSpec VecProofs Mat MatSpec MatProofs2 Act ActProofs Cost CostProofs Svm Glm GlmProofs GlmProofs2 CostSpec GdMath GlmSpec GlmMath LibmR PropGlm PropGlm2 Lnk LnkProofs LnkProofs2 LnkMath Svc SvcProofs SvcSpec.
From Coq Require Import Reals Lra.
From Verif Require Import PropAct PropSvm RSum RInst.
Open Scope R_scope.

Lemma sign_R z : sign_normr (F := R) z = sgnR z.
Proof. unfold sign_normr, sgnR. cbn. unfold Rltb, Reqb. destruct (Rlt_dec z 0), (Req_EM_T z 0); try reflexivity; try (cbn; lra). Qed.
Lemma hinge_d1_R z y : hinge_d1 (F := R) z y = if Rlt_dec (y * z) 1 then - y else 0.
Proof. unfold hinge_d1. cbn. unfold Rltb. destruct (Rlt_dec 0 (1 - y * z)), (Rlt_dec (y * z) 1); try reflexivity; lra. Qed.
Lemma hder_R cc zs ys i : length zs = length ys -> (i < length ys)%nat -> nth i (hder (F := R) cc zs ys) 0 = (if Rlt_dec (nth i ys 0 * nth i zs 0) 1 then - nth i ys 0 else 0) * cc.
Proof. intros E Hi. unfold hder. rewrite nth_fmap by (rewrite zip_with_length; lia). rewrite nth_zip by lia. rewrite hinge_d1_R. reflexivity. Qed.
Lemma signs_R n k X ws b i : (i < n)%nat -> nth i (signs (F := R) n k X ws b) 0 = sgnR (score k X ws b i).
Proof. intros Hi. unfold signs. rewrite nth_fmap by (rewrite lpre_length; exact Hi). rewrite sign_R, lpre_R by exact Hi. reflexivity. Qed.
Lemma hder_lpre cc n k X ys ws b i : length ys = n -> (i < n)%nat -> nth i (hder (F := R) cc (lpre n k X ws b) ys) 0 = cc * (if violated k X ys ws b i then - nth i ys 0 else 0).
Proof. intros El Hi. rewrite hder_R by (rewrite ?lpre_length; lia). rewrite lpre_R by exact Hi. unfold violated. destruct (Rlt_dec _ _); lra. Qed.
Lemma hder_signs cc n k X ys ws b i : length ys = n -> (i < n)%nat -> nth i (hder (F := R) cc (signs n k X ws b) ys) 0 = cc * (if sign_wrong k X ys ws b i then - nth i ys 0 else 0).
Proof. intros El Hi. rewrite hder_R by (rewrite ?signs_length; lia). rewrite signs_R by exact Hi. unfold sign_wrong. destruct (Rlt_dec _ _); lra. Qed.
Lemma shrink_R la (ws : list R) : shrink la ws = (fun w => (1 - la) * w) <$> ws.
Proof. unfold shrink. apply list_fmap_ext. intros _ w _. unfold rw1, reg_d1. cbn. ring. Qed.
Lemma nth_ext (l l' : list R) : length l = length l' -> (forall i, (i < length l)%nat -> nth i l 0 = nth i l' 0) -> l = l'.
Proof. intros E G. apply (List.nth_ext l l' 0 0 E). exact G. Qed.

Lemma nth_seqmap (f : nat -> R) k j : (j < k)%nat -> nth j (f <$> seq 0 k) 0 = f j.
Proof. intros Hj. apply nth_lookup_Some. rewrite list_lookup_fmap, lookup_seq_lt by exact Hj. reflexivity. Qed.

(** Hinge of one row: an affine lower bound at every point. *)
Lemma score_diff k X ws vs b c i : score k X vs c i - score k X ws b i = Rsum k (fun j => X i j * (nth j vs 0 - nth j ws 0)) + (c - b).
Proof. unfold score. rewrite (Rsum_ext k (fun j => X i j * (nth j vs 0 - nth j ws 0)) (fun j => X i j * nth j vs 0 - X i j * nth j ws 0)) by (intros; ring). rewrite Rsum_minus. ring. Qed.
Lemma hinge1_sub C k X ys i ws b vs c : 0 <= C -> let g := C * (if violated k X ys ws b i then - nth i ys 0 else 0) in
  hinge1 C k X ys i ws b + g * (score k X vs c i - score k X ws b i) <= hinge1 C k X ys i vs c.
Proof.
  intros HC. cbv zeta. unfold hinge1, violated. set (y := nth i ys 0). set (z := score k X ws b i). set (u := score k X vs c i).
  destruct (Rlt_dec (y * z) 1).
  - rewrite (Rmax_right 0 (1 - y * z)) by lra. assert (1 - y * u <= Rmax 0 (1 - y * u)) by apply Rmax_r. replace (C * (1 - y * z) + C * - y * (u - z)) with (C * (1 - y * u)) by ring. apply Rmult_le_compat_l; assumption.
  - rewrite (Rmax_left 0 (1 - y * z)) by lra. assert (0 <= Rmax 0 (1 - y * u)) by apply Rmax_l. assert (0 <= C * Rmax 0 (1 - y * u)) by (apply Rmult_le_pos; assumption). lra.
Qed.
Lemma row_subgradient C k X ys i ws b : 0 <= C -> length ws = k -> let g := C * (if violated k X ys ws b i then - nth i ys 0 else 0) in
  subgradient (hinge1 C k X ys i) ws b ((fun j => g * X i j) <$> seq 0 k) g.
Proof.
  intros HC Lw. cbv zeta. set (g := C * _). split; [rewrite fmap_length, seq_length; congruence|]. intros vs c Lv. rewrite Lw. pose proof (hinge1_sub C k X ys i ws b vs c HC) as G. cbv zeta in G. fold g in G. rewrite score_diff in G.
  rewrite (Rsum_ext k _ (fun j => g * (X i j * (nth j vs 0 - nth j ws 0)))); [rewrite Rsum_scal; lra|]. intros j Hj. rewrite nth_seqmap by exact Hj. ring.
Qed.
Lemma mean_subgradient C n k X ys ws b : 0 <= C -> (0 < n)%nat -> length ws = k -> let g i := C * (if violated k X ys ws b i then - nth i ys 0 else 0) in
  subgradient (hinge_mean C n k X ys) ws b ((fun j => / INR n * Rsum n (fun i => X i j * g i)) <$> seq 0 k) (/ INR n * Rsum n g).
Proof.
  intros HC Hp Lw. cbv zeta. set (g := fun i => C * (if violated k X ys ws b i then - nth i ys 0 else 0)). split; [rewrite fmap_length, seq_length; congruence|]. intros vs c Lv. rewrite Lw. unfold hinge_mean. assert (0 < / INR n) by (apply Rinv_0_lt_compat, lt_0_INR; exact Hp).
  rewrite (Rsum_ext k _ (fun j => / INR n * Rsum n (fun i => g i * (X i j * (nth j vs 0 - nth j ws 0))))).
  2:{ intros j Hj. rewrite nth_seqmap by exact Hj. rewrite Rmult_assoc, <- Rsum_scal_r. f_equal. apply Rsum_ext. intros; ring. }
  rewrite Rsum_scal, (Rsum_swap k n (fun j i => g i * (X i j * (nth j vs 0 - nth j ws 0)))).
  replace (/ INR n * Rsum n (fun i => hinge1 C k X ys i ws b) + / INR n * Rsum n (fun i => Rsum k (fun j => g i * (X i j * (nth j vs 0 - nth j ws 0)))) + / INR n * Rsum n g * (c - b))
    with (/ INR n * Rsum n (fun i => hinge1 C k X ys i ws b + (Rsum k (fun j => g i * (X i j * (nth j vs 0 - nth j ws 0))) + g i * (c - b)))).
  - apply Rmult_le_compat_l; [lra|]. apply Rsum_le. intros i Hi. pose proof (hinge1_sub C k X ys i ws b vs c HC) as G. cbv zeta in G. fold (g i) in G. rewrite score_diff in G. rewrite Rsum_scal. lra.
  - rewrite Rsum_plus, Rsum_plus, Rsum_scal_r. ring.
Qed.

(** One epoch / one draw. *)
Lemma vsgd_t_R C k X ys i ws b : length ws = k -> vsgd_t (F := R) C k X ys i (ws, b) = C * (if violated k X ys ws b i then - nth i ys 0 else 0).
Proof.
  intros Lw. unfold vsgd_t. cbn [fst snd]. rewrite hinge_d1_R. assert (Ez : s_add (dotl ws (vlist k (X i))) b = score k X ws b i).
  { rewrite dotl_R by (rewrite vlist_length; exact Lw). rewrite vlist_length. unfold score. cbn [s_add R_scalar]. f_equal. apply Rsum_ext. intros j Hj. rewrite nth_vlist by exact Hj. reflexivity. }
  rewrite Ez. cbn [s_mul s_zero R_scalar]. unfold violated. destruct (Rlt_dec _ _); ring.
Qed.
Lemma vsgd_R C lr k X ys i ws b : length ws = k -> let g := C * (if violated k X ys ws b i then - nth i ys 0 else 0) in
  vsgd_pure (F := R) C lr k X ys i (ws, b) = (shrunk_step lr lr ws ((fun j => g * X i j) <$> seq 0 k), b - lr * g).
Proof.
  intros Lw. cbv zeta. set (g := C * _). unfold vsgd_pure. cbv zeta. rewrite vsgd_t_R by exact Lw. fold g. cbn [fst snd s_sub s_mul R_scalar]. f_equal. rewrite shrink_R. unfold shrunk_step.
  apply nth_ext; [rewrite fmap_length, !zip_with_length, !fmap_length, vlist_length, seq_length; reflexivity|]. intros j Hj. rewrite fmap_length, zip_with_length, fmap_length, vlist_length in Hj.
  rewrite nth_fmap by (rewrite zip_with_length, fmap_length, vlist_length; lia). rewrite !nth_zip by (rewrite ?fmap_length, ?vlist_length, ?seq_length; lia). rewrite nth_fmap by (rewrite vlist_length; lia). rewrite nth_vlist by lia.
  rewrite nth_seqmap by lia. ring.
Qed.
Lemma vgd_R C lr n k X ys ws b : (0 < n)%nat -> length ws = k -> length ys = n -> let g i := C * (if violated k X ys ws b i then - nth i ys 0 else 0) in
  vgd_pure (F := R) C lr n k X ys (ws, b) = (shrunk_step lr (lr / INR n) ws ((fun j => / INR n * Rsum n (fun i => X i j * g i)) <$> seq 0 k),
    b - lr * C / INR n * Rsum n (fun i => if sign_wrong k X ys ws b i then nth i ys 0 else 0)).
Proof.
  intros Hp Lw El. cbv zeta. set (g := fun i => C * (if violated k X ys ws b i then - nth i ys 0 else 0)). assert (0 < INR n) by (apply lt_0_INR; exact Hp). unfold vgd_pure. cbv zeta. cbn [fst snd]. cbn [s_sub s_add s_mul s_div s_of_Z R_scalar]. rewrite <- INR_IZR_INZ. f_equal.
  - rewrite shrink_R. unfold shrunk_step. apply nth_ext; [rewrite fmap_length, !zip_with_length, !fmap_length, xt_e_length, seq_length; reflexivity|]. intros j Hj. rewrite fmap_length, zip_with_length, fmap_length, xt_e_length in Hj.
    rewrite nth_fmap by (rewrite zip_with_length, fmap_length, xt_e_length; lia). rewrite !nth_zip by (rewrite ?fmap_length, ?xt_e_length, ?seq_length; lia). rewrite nth_fmap by (rewrite xt_e_length; lia). rewrite xt_e_R by lia.
    rewrite nth_seqmap by lia.
    rewrite (Rsum_ext n (fun i => X i j * nth i (hder C (lpre n k X ws b) ys) 0) (fun i => X i j * g i)); [field; lra|]. intros i Hi. rewrite hder_lpre by lia. reflexivity.
  - rewrite sumv_R, rsum_nth. rewrite hder_length by (rewrite signs_length; congruence). rewrite El. rewrite (Rsum_ext n _ (fun i => - C * (if sign_wrong k X ys ws b i then nth i ys 0 else 0))); [rewrite Rsum_scal; field; lra|].
    intros i Hi. rewrite hder_signs by lia. destruct (sign_wrong _ _ _ _ _ _); ring.
Qed.
Lemma shrunk_length lr d ws gs : length gs = length ws -> length (shrunk_step lr d ws gs) = length ws.
Proof. intros E. unfold shrunk_step. rewrite zip_with_length. lia. Qed.
Lemma nth_shrunk lr d ws gs j : length gs = length ws -> (j < length ws)%nat -> nth j (shrunk_step lr d ws gs) 0 = (1 - d) * (nth j ws 0 - lr * nth j gs 0).
Proof. intros E Hj. unfold shrunk_step. rewrite nth_zip by lia. reflexivity. Qed.
