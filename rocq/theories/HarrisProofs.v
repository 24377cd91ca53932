(** * Harris corners, symbolically executed. *)
From Verif Require Import Base BaseProofs Vec VecSpec VecProofs VecProofs2 Mat MatSpec MatProofs MatProofs2 MatProofs3 MatProofs4 MatProofs5 Act Stat StatProofs Util UtilProofs Sym Svm Data DataProofs Conv ConvProofs Harris.

Local Notation S := Datatypes.S.
Section harrisproofs.
Context {F : Type} `{Scalar F} `{Libm F}.
Implicit Types (h : heap F).

(** The side of the results is the number of rows. *)
Definition smooth_at (c r : nat) A (i j : nat) : F := conv_value c r A 1 1 3 (mlist 3 3 (gauss_at 3 s_one)) i j.
Definition had (A B : nat -> nat -> F) i j : F := s_mul (A i j) (B i j).
Lemma wp_harris_smooth h a b g (c r : nat) A B p (Q : loc -> heap F -> Prop) : wf h -> abs h !! a = Some (Mat c r A) -> abs h !! b = Some (Mat c r B) -> abs h !! g = Some (Mat 3 3 (gauss_at 3 s_one)) ->
  (1 <= r)%nat -> (Z.of_nat r + 2) * (Z.of_nat r + 2) <= int_max -> Z.of_nat (r + 2) < int_max -> m_to_int p = Some 1 ->
  (forall d h', wf h' -> abs h !! d = None -> abs h' = <[d := Mat r r (smooth_at c r (had A B))]> (abs h) -> Q d h') -> wp (harris_smooth a b g p) h Q.
Proof.
  intros W Ha Hb Hg Hr HB HL Hp HQ. unfold harris_smooth. wbind. unfold m_hadamardn. eapply wp_m_op2n; [exact W|exact Ha|exact Hb|]. intros t h1 W1 N1 A1. rewrite mlist_zip in A1.
  wbind. unfold cast_int. rewrite Hp. apply wp_ret. wbind. change 1 with (Z.of_nat 1) at 2.
  eapply (wp_convolve h1 t g c r 3 3 1); [exact W1|look|look|lia|lia|lia|unfold int_max; lia|exact HB|exact HL|].
  intros d h2 ms Hms W2 N2 A2. assert (ms = r) as -> by (rewrite Z.div_1_r in Hms; lia). rewrite A1 in N2, A2. apply lookup_insert_None in N2 as [N2 D].
  wbind. apply wp_deref_Some. wbind. eapply wp_del; [exact W2|rewrite A2, lookup_insert_ne, lookup_insert by congruence; reflexivity|]. intros h3 W3 A3 _. rewrite A2, delete_insert_ne, delete_insert in A3 by congruence.
  apply wp_ret. apply HQ; [exact W3|exact N2|exact A3].
Qed.

Definition mxx (c r : nat) X := smooth_at c r (had (dx_at c r X) (dx_at c r X)).
Definition myy (c r : nat) X := smooth_at c r (had (dy_at c r X) (dy_at c r X)).
Definition mxy (c r : nat) X := smooth_at c r (had (dx_at c r X) (dy_at c r X)).
Lemma wp_compute_mv h x (c r : nat) X (Q : loc * loc * loc -> heap F -> Prop) : wf h -> abs h !! x = Some (Mat c r X) ->
  (1 <= r)%nat -> (Z.of_nat r + 2) * (Z.of_nat r + 2) <= int_max -> Z.of_nat (r + 2) < int_max -> m_to_int (harris_pad (F := F) (Z.of_nat r)) = Some 1 ->
  (forall d0 d1 d2 h', wf h' -> abs h !! d0 = None -> abs h !! d1 = None -> abs h !! d2 = None -> d0 <> d1 -> d0 <> d2 -> d1 <> d2 ->
    abs h' = <[d2 := Mat r r (mxy c r X)]> (<[d1 := Mat r r (myy c r X)]> (<[d0 := Mat r r (mxx c r X)]> (abs h))) -> Q (d0, d1, d2) h') -> wp (compute_mv (Some x)) h Q.
Proof.
  intros W A Hr HB HL Hp HQ. unfold compute_mv. wbind. apply wp_deref_Some. wbind. eapply wp_m_size; [exact A|]. cbn [fst snd]. cbv zeta.
  wbind. eapply wp_conv_dx; [exact W|exact A|]. new_as a h1 W1 N1 A1.
  wbind. eapply wp_conv_dy; [exact W1|look|]. new_as b h2 W2 N2 A2.
  wbind. change 3 with (Z.of_nat 3). eapply wp_gaussian_filter; [exact W2|unfold int_max; lia|]. new_as g h3 W3 N3 A3.
  wbind. eapply wp_harris_smooth; [exact W3|look|look|look|exact Hr|exact HB|exact HL|exact Hp|]. new_as xx h4 W4 N4 A4.
  wbind. eapply wp_harris_smooth; [exact W4|look|look|look|exact Hr|exact HB|exact HL|exact Hp|]. new_as yy h5 W5 N5 A5.
  wbind. eapply wp_harris_smooth; [exact W5|look|look|look|exact Hr|exact HB|exact HL|exact Hp|]. new_as xy h6 W6 N6 A6.
  wbind. dele h7 W7 A7. wbind. dele h8 W8 A8. wbind. dele h9 W9 A9.
  apply wp_ret. apply HQ; [exact W9|assumption|assumption|assumption|congruence|congruence|congruence|exact A9].
Qed.

Definition harris_value (c r : nat) X (i j : nat) : F :=
  s_sub (s_sub (s_mul (mxx c r X i j) (myy c r X i j)) (s_mul (mxy c r X i j) (mxy c r X i j)))
    (s_mul (s_mul (s_add (mxx c r X i j) (myy c r X i j)) (s_add (mxx c r X i j) (myy c r X i j))) (s_div s_one (s_of_Z 20))).
Definition harris_rows (c r : nat) X (n : nat) : list (list hclass) := (fun i => (fun j => harris_class (harris_value c r X i j)) <$> seq 0 r) <$> seq 0 n.
Lemma wp_harris h x (c r : nat) X (Q : list (list hclass) -> heap F -> Prop) : wf h -> abs h !! x = Some (Mat c r X) ->
  (1 <= r)%nat -> (Z.of_nat r + 2) * (Z.of_nat r + 2) <= int_max -> Z.of_nat (r + 2) < int_max -> m_to_int (harris_pad (F := F) (Z.of_nat r)) = Some 1 ->
  (forall h', wf h' -> abs h' = abs h -> Q (harris_rows c r X r) h') -> wp (harris_corner_detection (Some x)) h Q.
Proof.
  intros W A Hr HB HL Hp HQ. unfold harris_corner_detection. wbind. eapply wp_compute_mv; [exact W|exact A|exact Hr|exact HB|exact HL|exact Hp|].
  intros m0 m1 m2 h1 W1 N0 N1 N2 D1 D2 D3 A1. cbv beta iota.
  wbind. unfold m_hadamardn. eapply wp_m_op2n; [exact W1|look|look|]. new_as t1 h2 W2 N3 A2. rewrite mlist_zip in A2.
  wbind. eapply wp_m_op2n; [exact W2|look|look|]. new_as t2 h3 W3 N4 A3. rewrite mlist_zip in A3.
  wbind. apply wp_deref_Some. wbind. unfold m_subn. eapply wp_m_op2n; [exact W3|look|look|]. new_as det h4 W4 N5 A4. rewrite mlist_zip in A4.
  wbind. apply wp_deref_Some. wbind. dele h5 W5 A5. wbind. dele h6 W6 A6.
  wbind. unfold m_addn. eapply wp_m_op2n; [exact W6|look|look|]. new_as tr h7 W7 N6 A7. rewrite mlist_zip in A7.
  wbind. apply wp_deref_Some. wbind. eapply wp_m_op2n; [exact W7|look|look|]. new_as t3 h8 W8 N7 A8. rewrite mlist_zip in A8.
  wbind. apply wp_deref_Some. wbind. unfold m_scalar_multiplyn. eapply wp_m_mapn_dup; [exact W8|look|]. new_as t4 h9 W9 N8 A9. rewrite mlist_fmap in A9.
  wbind. apply wp_deref_Some. wbind. eapply wp_m_op2n; [exact W9|look|look|]. new_as rr h10 W10 N9 A10. rewrite mlist_zip in A10.
  wbind. dele h11 W11 A11. wbind. dele h12 W12 A12. wbind. apply wp_deref_Some.
  wbind. eapply wp_m_size; [look|]. cbn [fst snd].
  wbind. eapply (wp_for_acc_n (fun n acc hk => hk = h12 /\ acc = harris_rows c r X n)); [split; reflexivity| |].
  - intros i acc hk Hi [-> ->]. wbind. eapply (wp_for_acc_n (fun n row hk => hk = h12 /\ row = ((fun j => harris_class (harris_value c r X i j)) <$> seq 0 n))); [split; reflexivity| |].
    + intros j row hk Hj [-> ->]. wbind. eapply wp_m_get; [exact W12|look|]. rewrite decide_True by slia. rewrite !Nat2Z.id. apply wp_ret. split; [reflexivity|]. rewrite seq_S, fmap_app. reflexivity.
    + intros row hk [-> ->]. apply wp_ret. split; [reflexivity|]. unfold harris_rows. rewrite seq_S, fmap_app. reflexivity.
  - intros acc hk [-> ->]. wbind. dele h13 W13 A13. wbind. dele h14 W14 A14. wbind. dele h15 W15 A15. wbind. dele h16 W16 A16. wbind. dele h17 W17 A17. wbind. dele h18 W18 A18.
    apply wp_ret. apply HQ; assumption.
Qed.
End harrisproofs.
