(** * C43: the dual support-vector objective (cost.cpp 578-608) and its gradient. *)
From Verif Require Import Base BaseProofs Vec VecSpec VecProofs VecProofs2 Mat MatSpec MatProofs MatProofs2 MatProofs3 MatProofs4 MatProofs5 Frame StatProofs Act ActProofs ActProofs2 Cost CostProofs Sym.
Section svm.
Context {F : Type} `{Scalar F} `{Libm F}.
Implicit Types (h : heap F) (v : list F).

Lemma wp_deref_Some l h (Q : loc -> heap F -> Prop) : Q l h -> wp (deref (Some l)) h Q.
Proof. intros HQ. apply wp_ret. exact HQ. Qed.
Lemma wp_la_transpose h l r c fa (Q : option loc -> heap F -> Prop) : wf h -> abs h !! l = Some (Mat c r fa) ->
  (forall d h', wf h' -> abs h !! d = None -> abs h' = <[d := Mat r c (mat_tr fa)]> (abs h) -> Q (Some d) h') -> wp (la_transpose (Some l)) h Q.
Proof. intros Hw Hl HQ. unfold la_transpose. wbind. apply wp_deref_Some. wbind. eapply wp_m_transposen; [exact Hw|exact Hl|]. intros. apply wp_ret. auto. Qed.

(** Q = Y^T (X X^T) Y. *)
Definition svm_q (n d : nat) (ys : list F) (fx : nat -> nat -> F) : nat -> nat -> F :=
  mat_mul n (mat_mul n (mat_tr (set_diag ys (fun _ _ => s_zero))) (mat_mul d fx (mat_tr fx))) (set_diag ys (fun _ _ => s_zero)).
Lemma wp_dual_q h x y d n fx ys (Q : loc * option loc * option loc -> heap F -> Prop) : wf h -> abs h !! x = Some (Mat d n fx) -> abs h !! y = Some (AVec ys) -> length ys = n ->
  Z.of_nat (n * n) <= int_max ->
  (forall dy kk q h', wf h' -> abs h !! dy = None -> abs h !! kk = None -> abs h !! q = None -> dy <> kk -> dy <> q -> kk <> q ->
     abs h' = <[q := Mat n n (svm_q n d ys fx)]> (<[kk := Mat n n (mat_mul d fx (mat_tr fx))]> (<[dy := Mat n n (set_diag ys (fun _ _ => s_zero))]> (abs h))) -> Q (dy, Some kk, Some q) h') ->
  wp (dual_q (Some x) (Some y)) h Q.
Proof.
  intros Hw Hx Hy El Hn HQ. destruct (amat_len h x _ _ _ Hw Hx) as [_ Hdn].
  unfold dual_q. wbind. apply wp_deref_Some. wbind. eapply wp_v_diagnm; [exact Hw|exact Hy|rewrite El; exact Hn|]. rewrite El. new_as dy h1 W1 N1 A1.
  wbind. eapply wp_la_transpose; [exact W1|look|]. new_as xt h2 W2 N2 A2.
  wbind. unfold la_matmult at 1. eapply wp_m_multn; [exact W2|look|look|lia|]. new_as kk h3 W3 N3 A3.
  wbind. cbn [drop_ref]. dele h4 W4 A4.
  wbind. eapply wp_la_transpose; [exact W4|look|]. new_as yt h5 W5 N5 A5.
  wbind. unfold la_matmult at 1. eapply wp_m_multn; [exact W5|look|look|lia|]. new_as t h6 W6 N6 A6.
  wbind. cbn [drop_ref]. dele h7 W7 A7.
  wbind. unfold la_matmult at 1. eapply wp_m_multn; [exact W7|look|look|lia|]. new_as q h8 W8 N8 A8.
  wbind. cbn [drop_ref]. dele h9 W9 A9. apply wp_ret. apply HQ; auto.
Qed.

Lemma MatP_row0 (n : nat) g v : MatP (F := F) n 1 (fun i j => if decide (i = Z.to_nat 0) then Some (nth j v s_zero) else g i j) = Mat n 1 (fun _ j => nth j v s_zero).
Proof. rewrite Mat_MatP. apply MatP_ext. intros i j Hi Hj. destruct (decide _); [reflexivity|lia]. Qed.
Lemma wp_dual_form_svm h al x y d n fx ys als (Q : F -> heap F -> Prop) : wf h -> abs h !! al = Some (AVec als) -> abs h !! x = Some (Mat d n fx) -> abs h !! y = Some (AVec ys) ->
  length ys = n -> length als = n -> Z.of_nat (n * n) <= int_max ->
  (forall h', wf h' -> abs h' = abs h -> Q (s_add (s_opp (foldl (fun c '(x, y) => s_add c (s_mul x y)) s_zero (zip (replicate n s_one) als)))
         (s_mul s_half (mat_mul n (mat_mul n (fun _ j => nth j als s_zero) (svm_q n d ys fx)) (mat_tr (fun _ j => nth j als s_zero)) 0%nat 0%nat))) h') ->
  wp (c_dual_form_svm (Some al) (Some x) (Some y)) h Q.
Proof.
  intros Hw Hal Hx Hy El Ela Hn HQ. assert (Hn1 : Z.of_nat n <= int_max) by snia. assert (1 <= int_max) by (unfold int_max; slia).
  unfold c_dual_form_svm. wbind. eapply wp_dual_q; [exact Hw|exact Hx|exact Hy|exact El|exact Hn|]. intros dy kk q h1 W1 Ndy Nkk Nq D1 D2 D3 A1.
  wbind. eapply wp_m_new; [exact W1|]. intros am h2 W2 N2 A2 _. rewrite A1 in N2, A2. split_none N2. clear A1.
  wbind. apply wp_deref_Some. wbind. eapply wp_v_size_vec; [look|]. rewrite Ela.
  wbind. eapply wp_m_resize; [exact W2|look|snia|]. intros h3 W3 A3 _. rewrite A2, insert_insert in A3. clear A2.
  destruct (MatP_new (F := F) n 1) as [g0 Hg0]. change (SMat (Z.of_nat n) 1, list.resize (Z.to_nat (Z.of_nat n * 1)) None []) with (SMat (Z.of_nat n) (Z.of_nat 1), list.resize (Z.to_nat (Z.of_nat n * Z.of_nat 1)) (@None F) []) in A3. rewrite Hg0 in A3.
  wbind. eapply wp_m_row_set_vecP; [exact W3|look|look|]. rewrite decide_True, MatP_row0 by (split; [exact Ela|slia]). intros h4 W4 _ A4. rewrite A3, insert_insert in A4. clear A3.
  wbind. unfold la_matmult at 1. eapply wp_m_multn; [exact W4|look|look|slia|]. new_as t1 h5 W5 N5 A5.
  wbind. eapply wp_la_transpose; [exact W5|look|]. new_as t2 h6 W6 N6 A6.
  wbind. unfold la_matmult at 1. eapply wp_m_multn; [exact W6|look|look|slia|]. new_as res h7 W7 N7 A7.
  wbind. cbn [drop_ref]. dele h8 W8 A8. wbind. dele h9 W9 A9.
  wbind. apply wp_deref_Some. wbind. eapply wp_m_get; [exact W9|look|].  rewrite decide_True by slia.
  wbind. apply wp_v_full; [exact W9|slia|]. rewrite Nat2Z.id. new_as one h10 W10 N10 A10.
  wbind. unfold la_dot. wbind. apply wp_deref_Some. wbind. apply wp_deref_Some. eapply wp_v_dot; [exact W10|look|look|]. rewrite decide_True by (rewrite replicate_length; slia).
  wbind. dele h11 W11 A11. wbind. dele h12 W12 A12. wbind. dele h13 W13 A13. wbind. dele h14 W14 A14. wbind. dele h15 W15 A15. wbind. dele h16 W16 A16.
  apply wp_ret. apply HQ; auto.
Qed.
Lemma wp_d_dual_form_svm h al x y d n fx ys als (Q : option loc -> heap F -> Prop) : wf h -> abs h !! al = Some (AVec als) -> abs h !! x = Some (Mat d n fx) -> abs h !! y = Some (AVec ys) ->
  length ys = n -> length als = n -> Z.of_nat (n * n) <= int_max ->
  (forall o h', wf h' -> abs h !! o = None -> abs h' = <[o := AVec (zip_with s_sub (vlist n (mv_row (svm_q n d ys fx) als n)) (replicate n s_one))]> (abs h) -> Q (Some o) h') ->
  wp (d_dual_form_svm (Some al) (Some x) (Some y)) h Q.
Proof.
  intros Hw Hal Hx Hy El Ela Hn HQ. assert (Hn1 : Z.of_nat n <= int_max) by snia. assert (1 <= int_max) by (unfold int_max; slia).
  unfold d_dual_form_svm. wbind. eapply wp_dual_q; [exact Hw|exact Hx|exact Hy|exact El|exact Hn|]. intros dy kk q h1 W1 Ndy Nkk Nq D1 D2 D3 A1.
  wbind. unfold la_mat_vec. eapply wp_m_mult_vec; [exact W1|look|look|slia|snia|]. new_as aq h2 W2 N2 A2. rewrite Ela in A2.
  wbind. apply wp_deref_Some. wbind. eapply wp_v_size_vec; [look|]. rewrite Ela.
  wbind. apply wp_v_full; [exact W2|slia|]. rewrite Nat2Z.id. new_as one h3 W3 N3 A3.
  wbind. eapply (la2_ok KV _ h3 aq one 0 0); [exact W3|look|look|unfold vlist; rewrite fmap_length, seq_length, replicate_length; reflexivity|]. new_as o h4 W4 N4 A4.
  wbind. dele h5 W5 A5. wbind. cbn [drop_ref]. dele h6 W6 A6. wbind. dele h7 W7 A7. wbind. dele h8 W8 A8. wbind. dele h9 W9 A9.
  apply wp_ret. apply HQ; auto.
Qed.
End svm.
