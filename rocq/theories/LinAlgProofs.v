(** * What the MLPPLinAlg functions do, for any arithmetic. *)
From Verif Require Import Base BaseProofs Vec VecSpec VecProofs VecProofs2 Mat MatSpec MatProofs MatProofs2 MatProofs3 MatProofs4 MatProofs5 DetProofs Frame Stat StatProofs Act ActProofs ActProofs2 Cost CostProofs Sym Svm LinAlg.
Section lp.
Context {F : Type} `{Scalar F} `{Libm F}.
Implicit Types (h : heap F) (f g : nat -> nat -> F).

(** Counting loop over naturals carrying a pure state. *)
Lemma wp_for_fold {S} (I : S -> heap F -> Prop) (step : S -> nat -> S) (body : Z -> M F unit) n : forall lo s0 h (Q : unit -> heap F -> Prop), I s0 h ->
  (forall i s h, (lo <= i < lo + n)%nat -> I s h -> wp (body (Z.of_nat i)) h (fun _ h' => I (step s i) h')) ->
  (forall h, I (foldl step s0 (seq lo n)) h -> Q tt h) ->
  wp (for_ (Z.of_nat lo) (Z.of_nat (lo + n)) body) h Q.
Proof.
  intros lo s0 h Q HI Hb HQ.
  apply wp_for with (I := fun i h => I (foldl step s0 (seq lo (Z.to_nat i - lo))) h).
  - rewrite Nat2Z.id, Nat.sub_diag. exact HI.
  - intros i hi Hi Hinv. replace i with (Z.of_nat (Z.to_nat i)) at 1 by lia. eapply wp_mono; [apply Hb; [lia|exact Hinv]|]. cbv beta. intros _ h' HS.
    replace (Z.to_nat (i + 1) - lo)%nat with (1 + (Z.to_nat i - lo))%nat by lia. rewrite Nat.add_comm, seq_app, foldl_app. cbn [seq foldl].
    replace (lo + (Z.to_nat i - lo))%nat with (Z.to_nat i) by lia. exact HS.
  - intros h1 Hinv. apply HQ. replace (Z.to_nat (Z.max (Z.of_nat lo) (Z.of_nat (lo + n))) - lo)%nat with n in Hinv by lia. exact Hinv.
Qed.
Lemma wp_m_set_mat h l c r f (y x : nat) v (Q : unit -> heap F -> Prop) : wf h -> abs h !! l = Some (Mat c r f) -> (y < r)%nat -> (x < c)%nat ->
  (forall h', wf h' -> abs h' = <[l := Mat c r (upd f y x v)]> (abs h) -> Q tt h') -> wp (m_set l (Z.of_nat y) (Z.of_nat x) v) h Q.
Proof.
  intros Hw Ha Hy Hx HQ. rewrite Mat_MatP in Ha. eapply wp_m_set; [exact Hw|exact Ha|]. intros h' W _ A. rewrite decide_True in A by lia. apply HQ; [exact W|].
  rewrite A, Mat_MatP, !Nat2Z.id. f_equal. apply MatP_ext. intros i j _ _. unfold upd. destruct (decide _); reflexivity.
Qed.
Lemma wp_m_get_mat h l c r f (y x : nat) (Q : F -> heap F -> Prop) : wf h -> abs h !! l = Some (Mat c r f) -> (y < r)%nat -> (x < c)%nat -> Q (f y x) h -> wp (m_get l (Z.of_nat y) (Z.of_nat x)) h Q.
Proof. intros Hw Ha Hy Hx HQ. eapply wp_m_get; [exact Hw|exact Ha|]. rewrite decide_True, !Nat2Z.id by lia. exact HQ. Qed.

(** ** Cholesky *)
Definition chol_entry (A L : nat -> nat -> F) (i j : nat) : F :=
  if decide (i = j) then s_sqrt (s_sub (A i j) (lsum j (fun k => s_mul (L i k) (L i k))))
  else s_div (s_sub (A i j) (lsum j (fun k => s_mul (L i k) (L j k)))) (L j j).
Definition chol_col (A : nat -> nat -> F) (n : nat) L (j : nat) : nat -> nat -> F :=
  foldl (fun L i => upd L i j (chol_entry A L i j)) L (seq j (n - j)).
Definition chol (A : nat -> nat -> F) (n : nat) : nat -> nat -> F := foldl (chol_col A n) (fun _ _ => s_zero) (seq 0 n).

Lemma wp_lsum h (n : nat) (u : nat -> F) (body : Z -> F -> M F F) (Q : F -> heap F -> Prop) :
  (forall (k : nat) s (Q' : F -> heap F -> Prop), (k < n)%nat -> Q' (s_add s (u k)) h -> wp (body (Z.of_nat k) s) h Q') ->
  Q (lsum n u) h -> wp (for_acc 0 (Z.of_nat n) s_zero body) h Q.
Proof.
  intros Hb HQ. apply wp_for_acc_n with (I := fun k s h' => h' = h /\ s = lsum k u); [auto| |intros s h' [-> ->]; exact HQ].
  intros k s h' Hk [-> ->]. apply Hb; [exact Hk|]. split; [reflexivity|]. rewrite lsum_S. reflexivity.
Qed.
Lemma wp_chol_cell h a ll n A L (j i : nat) (Q : unit -> heap F -> Prop) : wf h -> abs h !! a = Some (Mat n n A) -> abs h !! ll = Some (Mat n n L) -> (j <= i < n)%nat ->
  (forall h', wf h' -> abs h' = <[ll := Mat n n (upd L i j (chol_entry A L i j))]> (abs h) -> Q tt h') ->
  wp (chol_cell a ll (Z.of_nat j) (Z.of_nat i)) h Q.
Proof.
  intros Hw Ha Hl Hij HQ. unfold chol_cell, chol_entry in *. destruct (decide (i = j)) as [->|Hne].
  - rewrite Z.eqb_refl. wbind. eapply wp_lsum with (u := fun k => s_mul (L j k) (L j k)).
    { intros k s Q' Hk HQ'. wbind. eapply wp_m_get_mat; [exact Hw|exact Hl|lia|lia|]. apply wp_ret. exact HQ'. }
    wbind. eapply wp_m_get_mat; [exact Hw|exact Ha|lia|lia|]. eapply wp_m_set_mat; [exact Hw|exact Hl|lia|lia|exact HQ].
  - replace (Z.of_nat i =? Z.of_nat j) with false by lia. wbind. eapply wp_lsum with (u := fun k => s_mul (L i k) (L j k)).
    { intros k s Q' Hk HQ'. wbind. eapply wp_m_get_mat; [exact Hw|exact Hl|lia|lia|]. wbind. eapply wp_m_get_mat; [exact Hw|exact Hl|lia|lia|]. apply wp_ret. exact HQ'. }
    wbind. eapply wp_m_get_mat; [exact Hw|exact Ha|lia|lia|]. wbind. eapply wp_m_get_mat; [exact Hw|exact Hl|lia|lia|]. eapply wp_m_set_mat; [exact Hw|exact Hl|lia|lia|exact HQ].
Qed.
Lemma wp_la_cholesky h a n A (Q : option loc * option loc -> heap F -> Prop) : wf h -> abs h !! a = Some (Mat n n A) ->
  (forall l lt h', wf h' -> abs h !! l = None -> abs h !! lt = None -> l <> lt ->
     abs h' = <[lt := Mat n n (mat_tr (chol A n))]> (<[l := Mat n n (chol A n)]> (abs h)) -> Q (Some l, Some lt) h') ->
  wp (la_cholesky (Some a)) h Q.
Proof.
  intros Hw Ha HQ. destruct (amat_len h a _ _ _ Hw Ha) as [_ Hle]. unfold la_cholesky. wbind. apply wp_deref_Some. wbind. eapply wp_m_size; [exact Ha|]. cbn [fst snd].
  rewrite Z.eqb_refl. cbn [negb]. wbind. eapply wp_m_full; [exact Hw|lia|]. intros l h1 W1 N1 A1. assert (a <> l) by congruence.
  wbind. change 0 with (Z.of_nat 0). change n with (0 + n)%nat at 1 2.
  eapply wp_for_fold with (I := fun L h' => wf h' /\ abs h' = <[l := Mat n n L]> (abs h)) (step := chol_col A n) (s0 := fun _ _ => s_zero).
  - split; [exact W1|]. exact A1.
  - intros j L h2 Hj [W2 A2]. replace (0 + n)%nat with (j + (n - j))%nat by lia.
    eapply wp_for_fold with (I := fun L h' => wf h' /\ abs h' = <[l := Mat n n L]> (abs h)) (step := fun L i => upd L i j (chol_entry A L i j)) (s0 := L).
    + split; [exact W2|exact A2].
    + intros i L' h3 Hi [W3 A3]. eapply wp_chol_cell; [exact W3|rewrite A3, lookup_insert_ne by congruence; exact Ha|rewrite A3; apply lookup_insert|lia|].
      intros h4 W4 A4. split; [exact W4|]. rewrite A4, A3, insert_insert. reflexivity.
    + intros h3 [W3 A3]. split; [exact W3|exact A3].
  - intros h2 [W2 A2]. wbind. eapply wp_m_transposen; [exact W2|rewrite A2; apply lookup_insert|]. intros lt h3 W3 N3 A3. rewrite A2 in N3, A3. split_none N3.
    apply wp_ret. apply HQ; auto.
Qed.
End lp.
