(** * The discrete cosine transform, symbolically executed. *)
From Verif Require Import Base BaseProofs Vec VecSpec VecProofs VecProofs2 Mat MatSpec MatProofs MatProofs2 MatProofs3 MatProofs5 Act Stat StatProofs Glm GlmMath GlmProofs3 KmeansProofs2 Sym Svm Data DataProofs Dct.

Local Notation S := Datatypes.S.
Section dctproofs.
Context {F : Type} `{Scalar F} `{Libm F}.
Implicit Types (h : heap F).

Definition cosine (n i k : nat) : F := s_cos (s_div (s_mul (s_mul m_pi (s_of_Z (Z.of_nat i))) (s_of_Z (2 * Z.of_nat k + 1))) (s_mul s_two (s_of_Z (Z.of_nat n)))).
Definition alpha (n i : nat) : F := dct_alpha (s_of_Z (Z.of_nat n)) (Z.of_nat i).
Definition dterm (n : nat) (X : nat -> nat -> F) (i j k f : nat) : F := s_mul (s_mul (s_add (X k f) (s_of_Z (-128))) (cosine n i k)) (cosine n j f).
(** The sum over rows and columns, added up from left to right. *)
Definition dsum (c n r : nat) (X : nat -> nat -> F) (i j : nat) : F :=
  foldl (fun acc k => foldl (fun acc f => s_add acc (dterm n X i j k f)) acc (seq 0 c)) s_zero (seq 0 r).
Definition dct_entry (c n : nat) (X : nat -> nat -> F) (i j : nat) : F := s_mul (s_mul (dsum c n n X i j) (alpha n i)) (alpha n j).

Lemma wp_dct_cos h n (i k : nat) (Q : F -> heap F -> Prop) : 2 * Z.of_nat k + 1 <= int_max -> Q (cosine n i k) h -> wp (dct_cos (s_of_Z (Z.of_nat n)) (Z.of_nat i) (Z.of_nat k)) h Q.
Proof. intros Hk HQ. unfold dct_cos. wbind. apply wp_chk; [unfold int_max in *; lia|]. apply wp_ret. exact HQ. Qed.

Lemma wp_dct h x (c n : nat) X (Q : loc -> heap F -> Prop) : wf h -> abs h !! x = Some (Mat c n X) -> 2 * Z.of_nat c <= int_max -> 2 * Z.of_nat n <= int_max ->
  (forall d h', wf h' -> abs h !! d = None -> abs h' = <[d := Mat c n (dct_entry c n X)]> (abs h) -> Q d h') -> wp (dct (Some x)) h Q.
Proof.
  intros W A Hc Hn HQ. destruct (amat_len h x _ _ _ W A) as [_ Hle]. unfold dct. wbind. apply wp_deref_Some.
  wbind. unfold m_scalar_addn. eapply wp_m_mapn_dup; [exact W|exact A|]. new_as a h1 W1 N1 A1. rewrite mlist_fmap in A1.
  set (A' := fun i j => s_add (X i j) (s_of_Z (-128))). change (abs h1 = <[a := Mat c n A']> (abs h)) in A1.
  wbind. eapply wp_m_size; [look|]. cbn [fst snd]. wbind. apply wp_m_new; [exact W1|]. intros b h2 W2 N2 A2 _. rewrite A1 in N2, A2. split_none N2.
  wbind. eapply wp_m_resize; [exact W2|look|slia|]. intros h3 W3 A3 _.
  destruct (cells_MatP h3 b c n _ W3 ltac:(rewrite A3; apply lookup_insert)) as [G HG]. rewrite A2, insert_insert in A3. rewrite A3, lookup_insert in HG. apply Some_inj in HG. rewrite HG in A3. clear HG.
  wbind. eapply (wp_for_n (fun i hi => wf hi /\ abs hi = <[b := MatP c n (filled (dct_entry c n X) i 0 G)]> (<[a := Mat c n A']> (abs h)))).
  - split; [exact W3|]. rewrite A3, filled_start. reflexivity.
  - intros i hi Hi [Wi Ai]. eapply wp_row_fill; [exact Hi|exact Wi|exact Ai| |].
    + intros j hj Q' Hj Wj Aj HQ'. wbind.
      eapply (wp_for_acc_n (fun k acc h' => h' = hj /\ acc = dsum c n k X i j)); [split; reflexivity| |].
      * intros k acc h' Hk [-> ->].
        eapply (wp_for_acc_n (fun f acc h' => h' = hj /\ acc = foldl (fun acc f => s_add acc (dterm n X i j k f)) (dsum c n k X i j) (seq 0 f))); [split; reflexivity| |].
        -- intros f acc h' Hf [-> ->]. wbind. eapply wp_m_get; [exact Wj|look|]. rewrite decide_True by lia. rewrite !Nat2Z.id.
           wbind. apply wp_dct_cos; [lia|]. wbind. apply wp_dct_cos; [lia|]. apply wp_ret. split; [reflexivity|]. rewrite seq_S, foldl_app. reflexivity.
        -- intros acc h' [-> ->]. split; [reflexivity|]. unfold dsum. rewrite seq_S, foldl_app. reflexivity.
      * intros acc h' [-> ->]. apply wp_ret. exact HQ'.
    + intros hj Wj Aj. split; [exact Wj|exact Aj].
  - intros hi [Wi Ai]. rewrite filled_all in Ai. wbind. dele h4 W4 A4. apply wp_ret. apply HQ; [exact W4|assumption|]. exact A4.
Qed.
End dctproofs.
