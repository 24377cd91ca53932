(** * Concrete cases for PropLin.v. *)
From Verif Require Import Base BaseProofs Vec VecSpec VecProofs VecProofs2 Mat MatSpec MatProofs MatProofs2 MatProofs3 MatProofs4 MatProofs5 Act LinAlg PropLin RSum LsqMath PropDet.
From Verif Require Import RErf LibmR.
From Coq Require Import Reals Lra Lia.
From Verif Require Import RInst Inst.
Open Scope R_scope.

(** 0: [[4 2] [2 3]] (positive definite), 1: [[1 1] [1 2] [1 3]] (independent columns), 2: [1; 2; 4], 3: [3; 4]; built through the API. *)
Definition build : M R (list loc) :=
  let! a := m_new in m_set_from_lists a [[4;2];[2;3]] ;;;
  let! b := m_new in m_set_from_lists b [[1;1];[1;2];[1;3]] ;;;
  let! v := v_new in v_set_from_vector v [1;2;4] ;;;
  let! w := v_new in v_set_from_vector w [3;4] ;;;
  ret [a; b; v; w].
Definition A (i j : nat) : R := nth j (nth i [[4;2];[2;3]] []) 0.
Definition B (i j : nat) : R := nth j (nth i [[1;1];[1;2];[1;3]] []) 0.
Lemma build_ok : exists a b v w h, build empty_heap = Ok [a; b; v; w] h /\ wf h /\
  abs h !! a = Some (Mat 2 2 A) /\ abs h !! b = Some (Mat 2 3 B) /\ abs h !! v = Some (AVec [1;2;4]) /\ abs h !! w = Some (AVec [3;4]).
Proof.
  assert (W : wp build empty_heap (fun r h => exists a b v w, r = [a; b; v; w] /\ wf h /\
    abs h !! a = Some (Mat 2 2 A) /\ abs h !! b = Some (Mat 2 3 B) /\ abs h !! v = Some (AVec [1;2;4]) /\ abs h !! w = Some (AVec [3;4]))).
  { unfold build.
    wbind. apply wp_m_new; [apply wf_empty|]. intros a h1 W1 _ A1 _.
    wbind. eapply wp_m_set_from_lists with (c := 2%nat); [exact W1|rewrite A1; apply lookup_insert|repeat constructor|lia|discriminate|vm_compute; discriminate|]. intros h2 W2 A2. rewrite A1, insert_insert in A2.
    wbind. apply wp_m_new; [exact W2|]. intros b h3 W3 N3 A3 _. rewrite A2 in N3, A3. assert (a <> b) by (intros ->; rewrite lookup_insert in N3; discriminate).
    wbind. eapply wp_m_set_from_lists with (c := 2%nat); [exact W3|rewrite A3; apply lookup_insert|repeat constructor|lia|discriminate|vm_compute; discriminate|]. intros h4 W4 A4. rewrite A3, insert_insert in A4.
    wbind. apply wp_v_new; [exact W4|]. intros v h5 W5 N5 A5 _. rewrite A4 in N5, A5. apply lookup_insert_None in N5 as [N5 ?]. apply lookup_insert_None in N5 as [N5 ?].
    wbind. eapply wp_v_set_from_vector; [exact W5|rewrite A5; apply lookup_insert|vm_compute; discriminate|]. intros h6 W6 A6. rewrite A5, insert_insert in A6.
    wbind. apply wp_v_new; [exact W6|]. intros w h7 W7 N7 A7 _. rewrite A6 in N7, A7. apply lookup_insert_None in N7 as [N7 ?]. apply lookup_insert_None in N7 as [N7 ?]. apply lookup_insert_None in N7 as [N7 ?].
    wbind. eapply wp_v_set_from_vector; [exact W7|rewrite A7; apply lookup_insert|vm_compute; discriminate|]. intros h8 W8 A8. rewrite A7, insert_insert in A8.
    apply wp_ret. exists a, b, v, w. split; [reflexivity|]. split; [exact W8|]. rewrite A8.
    split; [|split; [|split]]; repeat (first [apply lookup_insert|rewrite lookup_insert_ne by congruence]). }
  unfold wp in W. destruct (build empty_heap) as [r h| | |]; try contradiction. destruct W as (a & b & v & w & -> & HR).
  exists a, b, v, w, h. split; [reflexivity|exact HR].
Qed.
Lemma A_sym : RSum.symmetric 2%nat A. Proof. intros [|[|]] [|[|]] ? ?; try lia; reflexivity. Qed.
Lemma A_pd : RSum.positive_definite 2%nat A.
Proof.
  intros x (i & Hi & Hx). unfold quad, Rsum, A. cbn. set (u := x 0%nat). set (v := x 1%nat).
  assert (G : 0 < (2 * u + v) * (2 * u + v) + 2 * (v * v)); [|lra].
  destruct (Req_dec v 0) as [Ev|Ev].
  - assert (u <> 0) by (destruct i as [|[|]]; [exact Hx|exfalso; apply Hx; exact Ev|lia]). rewrite Ev. assert (0 < u * u) by nra. nra.
  - assert (0 < v * v) by nra. nra.
Qed.
Lemma B_ind : independent 3%nat 2%nat B.
Proof.
  intros x Hx j Hj. pose proof (Hx 0%nat ltac:(lia)) as E0. pose proof (Hx 1%nat ltac:(lia)) as E1. unfold apply, Rsum, B in E0, E1. cbn in E0, E1.
  destruct j as [|[|]]; [|lra|lia]. lra.
Qed.
Lemma A_inv : exists X, inverse_of 2%nat A X.
Proof.
  exists (fun i j => nth j (nth i [[3/8; -1/4];[-1/4; 1/2]] []) 0). intros [|[|]] [|[|]] Hi Hj; try lia; unfold A, Rsum; cbn; split; repeat case_decide; try lia; lra.
Qed.
Example ex_C44 : exists a h L, lower_triangular L /\ positive_diagonal 2 L /\ product 2 2 2 L (transposed L) A /\
  runs (la_cholesky (Some a)) h (fun o h' => exists l lt, o = (Some l, Some lt) /\ abs h !! l = None /\ abs h !! lt = None /\ l <> lt /\ abs h' = <[lt := Mat 2 2 (transposed L)]> (<[l := Mat 2 2 L]> (abs h))).
Proof.
  destruct build_ok as (a & b & v & w & h & _ & W & Ha & _). destruct (C44_cholesky h a 2 A W Ha A_sym A_pd) as (L & H1 & H2 & H3 & H4). exists a, h, L. auto.
Qed.
Example ex_C45 : exists b h Q U, orthonormal_columns 3 2 Q /\ upper_triangular U /\ positive_diagonal 2 U /\ product 3 2 2 Q U B /\
  runs (la_qrd (Some b)) h (fun o h' => exists q u, o = (q, Some u) /\ abs h !! q = None /\ abs h !! u = None /\ q <> u /\ abs h' = <[u := Mat 2 2 U]> (<[q := Mat 2 3 Q]> (abs h))).
Proof.
  destruct build_ok as (a & b & v & w & h & _ & W & _ & Hb & _). destruct (C45_qrd h b 3 2 B W Hb ltac:(lia) ltac:(vm_compute; discriminate) ltac:(vm_compute; discriminate) B_ind) as (Q & U & H1 & H2 & H3 & H4 & H5). exists b, h, Q, U. auto.
Qed.
Example ex_C46 : exists b h P, (forall bb z, residual 3 2 B bb (LsqMath.apply 3 P bb) <= residual 3 2 B bb z) /\
  runs (la_pinverse (Some b)) h (fun o h' => exists p, o = Some p /\ abs h !! p = None /\ abs h' = <[p := Mat 3 2 P]> (abs h)).
Proof.
  destruct build_ok as (a & b & v & w & h & _ & W & _ & Hb & _). destruct (C46_pinverse h b 3 2 B ltac:(lia) W Hb ltac:(vm_compute; discriminate) B_ind) as (P & _ & H2 & _ & H4). exists b, h, P. auto.
Qed.
Example ex_C46_solve : exists a w h xs, (forall i, (i < 2)%nat -> LsqMath.apply 2 A (fun k => nth k xs 0) i = nth i [3;4] 0) /\
  runs (la_solve (Some a) (Some w)) h (fun o h' => exists d, o = Some d /\ abs h !! d = None /\ abs h' = <[d := AVec xs]> (abs h)).
Proof.
  destruct build_ok as (a & b & v & w & h & _ & W & Ha & Hb & _ & Hv). destruct (C46_solve h a w 2 A [3;4] ltac:(lia) W Ha Hv eq_refl A_inv) as (xs & _ & S & _ & E). exists a, w, h, xs. auto.
Qed.
(** A tall matrix with independent columns is reported dependent. *)
Example ex_C47 : exists b (h : heap R), independent 3 2 B /\ runs (la_independent (Some b)) h (fun r h' => r = false /\ abs h' = abs h).
Proof.
  destruct build_ok as (a & b & v & w & h & _ & W & _ & Hb & _). exists b, h. split; [exact B_ind|]. apply (C47_tall h b 3 2 B); try lia; try assumption; vm_compute; discriminate.
Qed.
Example ex_C47_square : exists a (h : heap R), runs (la_independent (Some a)) h (fun r h' => (r = true <-> independent 2 2 A) /\ abs h' = abs h).
Proof. destruct build_ok as (a & b & v & w & h & _ & W & Ha & _). exists a, h. apply (C47_square h a 2 A); [lia|exact W|exact Ha]. Qed.
