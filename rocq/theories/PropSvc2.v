(** * C77: the score of a support vector classifier. *)
From Verif Require Import StatProofs Base BaseProofs Vec VecSpec VecProofs Mat MatSpec MatProofs MatProofs2 Act Cost Sym Svm Util UtilProofs Glm GlmProofs GlmSpec Lnk LnkProofs LnkProofs2 LnkMath Svc SvcProofs SvcProofs2 SvcSpec SvcMath PropSvc.
From Coq Require Import Reals Lra.
From Verif Require Import PropAct PropSvm PropUtil RSum RInst.
Open Scope R_scope.
Lemma Int_part_is z x : IZR z <= x < IZR z + 1 -> Int_part x = z.
Proof.
  intros B. destruct (base_Int_part x) as [B1 B2]. assert (G1 : IZR (Int_part x) < IZR (z + 1)) by (rewrite plus_IZR; lra). assert (G2 : IZR (z - 1) < IZR (Int_part x)) by (rewrite minus_IZR; lra). apply lt_IZR in G1, G2. lia.
Qed.
Lemma Rround_sgn z : Rround (sgnR z) = sgnR z.
Proof.
  unfold sgnR. destruct (Rlt_dec z 0); [|destruct (Req_EM_T z 0)]; unfold Rround; destruct (Rle_dec _ _); try lra.
  - rewrite (Int_part_is 1) by lra. lra.
  - rewrite (Int_part_is 0) by lra. reflexivity.
  - rewrite (Int_part_is 1) by lra. reflexivity.
Qed.
Lemma sgn_small z : small_int (sgnR z).
Proof. unfold sgnR. destruct (Rlt_dec z 0); [exists (-1)%Z|destruct (Req_EM_T z 0); [exists 0%Z|exists 1%Z]]; split; reflexivity || (cbn; lia). Qed.
Definition right_sign (k : nat) (X : nat -> nat -> R) (ys ws : list R) (b : R) (i : nat) : bool := if Req_EM_T (sgnR (score k X ws b i)) (nth i ys 0) then true else false.
Lemma countb_map {A B} (f : B -> bool) (g : A -> B) l : countb f (g <$> l) = countb (fun x => f (g x)) l.
Proof. induction l as [|x l IH]; [reflexivity|]. cbn [fmap list_fmap]. rewrite !countb_cons. f_equal. exact IH. Qed.
Lemma countb_zip (f : R -> R -> bool) xs : forall ys, length xs = length ys -> countb (fun p => f p.1 p.2) (zip xs ys) = countb (fun i => f (nth i xs 0) (nth i ys 0)) (seq 0 (length xs)).
Proof.
  induction xs as [|a xs IH]; intros [|b ys] E; try discriminate; [reflexivity|]. cbn [zip zip_with length seq]. rewrite !countb_cons. cbn [fst snd nth]. f_equal. injection E as E. rewrite (IH ys E). rewrite <- fmap_S_seq. apply (eq_sym (countb_map (fun i => f (nth i (a :: xs) 0) (nth i (b :: ys) 0)) S (seq 0 (length xs)))).
Qed.
(** After training (or construction and [forward_pass]): the fraction of the training rows whose predicted sign is their label. *)
Theorem C77_score x y k n X cc base s o (h : heap R) ys : base !! x = Some (Mat k n X) -> base !! y = Some (AVec ys) -> length ys = n -> Forall small_int ys -> v_trained x y k n X cc base s o h ->
  v_score Rround o h = Ok (INR (countb (right_sign k X ys s.1 s.2) (seq 0 n)) / INR n) h.
Proof.
  intros Hx Hy El Fy (reg & la & al & gn & gk & HT). pose proof (svT_S _ _ _ _ _ _ _ _ _ _ _ _ _ _ _ HT) as S0. destruct (sv_view _ _ _ _ _ _ _ _ _ _ _ _ _ _ _ S0) as (W & Ls & Ex & Ey & _ & _ & lw & ly & lz & Ew & Eyh & Ez & _).
  apply wp_eq. unfold v_score. wbind. eapply sv_needs_init; [exact Hx| |exact S0|]; [rewrite signs_length; reflexivity|]. rewrite Eyh, Ey. unfold wp.
  rewrite (C49_performance_vec h ly y (signs n k X s.1 s.2) ys W); [|eapply sv_yh; eassumption|eapply sv_at; eassumption|rewrite signs_length; congruence| |exact Fy].
  - rewrite signs_length. split; [|reflexivity]. f_equal. f_equal. pose proof (countb_zip (fun u v => right_label (u, v)) (signs n k X s.1 s.2) ys ltac:(rewrite signs_length; congruence)) as G.
    assert (E1 : countb right_label (zip (signs n k X s.1 s.2) ys) = countb (fun p => right_label (p.1, p.2)) (zip (signs n k X s.1 s.2) ys)) by (clear; induction (zip _ _) as [|[u v] l IH]; [reflexivity|]; rewrite !countb_cons, IH; reflexivity).
    rewrite E1, G, signs_length. clear - ys. assert (Q : forall i, (i < n)%nat -> right_label (nth i (signs n k X s.1 s.2) 0, nth i ys 0) = right_sign k X ys s.1 s.2 i).
    { intros i Hi. rewrite signs_R by exact Hi. unfold right_label, right_sign. cbn [fst snd]. rewrite Rround_sgn. reflexivity. }
    assert (G : forall l : list nat, Forall (fun i => (i < n)%nat) l -> countb (fun i => right_label (nth i (signs n k X s.1 s.2) 0, nth i ys 0)) l = countb (right_sign k X ys s.1 s.2) l).
    { induction l as [|i l IH]; intros Fl; [reflexivity|]. inversion Fl; subst. rewrite !countb_cons, IH, Q by assumption. reflexivity. }
    apply G. apply Forall_seq. intros; lia.
  - unfold signs. apply Forall_fmap. apply Forall_true. intros z. unfold compose. rewrite sign_R, Rround_sgn. apply sgn_small.
Qed.
