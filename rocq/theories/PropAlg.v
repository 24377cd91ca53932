(** * Property C18: matrix algebra laws, over any scalar arithmetic that is a commutative ring. *)
From Verif Require Export PropMat.
From Coq Require Import Ring_theory Ring.

Ltac r_ := apply runs_wp.
(** After a call that returned the fresh object [d]: everything known is still there. *)
Ltac fresh_step h h' d X N A :=
  let E := fresh "E" in
  assert (E : abs h' !! d = Some X) by (rewrite A; apply lookup_insert);
  repeat match goal with
  | Hx : abs h !! ?x = Some _ |- _ => first [constr_eq x d; fail 1 |
      let Hn := fresh "Hn" in assert (Hn : x <> d) by congruence;
      let Hy := fresh "Hy" in assert (Hy := Hx); rewrite <- (lookup_insert_ne (abs h) d x X) in Hy by congruence; rewrite <- A in Hy;
      clear Hx]
  end.
Tactic Notation "call" uconstr(L) :=
  let d := fresh "d" in let h' := fresh "h" in let W := fresh "W" in let N := fresh "N" in let A := fresh "A" in
  wbind; eapply L; [eassumption|eassumption|eassumption|try eassumption; try lia|]; intros d h' W N A;
  match type of A with abs _ = <[_ := ?X]> (abs ?h0) => fresh_step h0 h' d X N A end; clear N A; try (wbind; apply wp_ret).
Tactic Notation "call1" uconstr(L) :=
  let d := fresh "d" in let h' := fresh "h" in let W := fresh "W" in let N := fresh "N" in let A := fresh "A" in
  wbind; eapply L; [eassumption|eassumption|]; intros d h' W N A;
  match type of A with abs _ = <[_ := ?X]> (abs ?h0) => fresh_step h0 h' d X N A end; clear N A.
Ltac finish := apply wp_ret; split; [assumption|]; split; [congruence|]; eexists _, _, _; split; [eassumption|].

Section alg.
Context {F : Type} `{Scalar F}.
(** The laws of exact arithmetic (integers, rationals, reals, ...); Coq's standard record of the commutative ring axioms. *)
Definition exact_ring : Prop := ring_theory s_zero s_one s_add s_mul s_sub s_opp (@eq F).
Context (RT : exact_ring).
Implicit Types (h : heap F) (a b d : loc) (f g fa fb fc : nat -> nat -> F).
Let RT' : ring_theory s_zero s_one s_add s_mul s_sub s_opp (@eq F) := RT.
Add Ring Fring : RT'.
Local Notation "x '+f' y" := (s_add x y) (at level 50, left associativity).
Local Notation "x '*f' y" := (s_mul x y) (at level 40, left associativity).

Lemma lsum_add n (u v : nat -> F) : lsum n (fun k => u k +f v k) = lsum n u +f lsum n v.
Proof. induction n as [|n IH]; [rewrite !lsum_0; ring|]. rewrite !lsum_S, IH. ring. Qed.
Lemma lsum_mul_l n x (u : nat -> F) : lsum n (fun k => x *f u k) = x *f lsum n u.
Proof. induction n as [|n IH]; [rewrite !lsum_0; ring|]. rewrite !lsum_S, IH. ring. Qed.
Lemma lsum_mul_r n x (u : nat -> F) : lsum n (fun k => u k *f x) = lsum n u *f x.
Proof. induction n as [|n IH]; [rewrite !lsum_0; ring|]. rewrite !lsum_S, IH. ring. Qed.
Lemma lsum_zero n : lsum n (fun _ => s_zero) = s_zero.
Proof. induction n as [|n IH]; [apply lsum_0|]. rewrite lsum_S, IH. ring. Qed.
Lemma lsum_swap n m (u : nat -> nat -> F) : lsum n (fun i => lsum m (fun j => u i j)) = lsum m (fun j => lsum n (fun i => u i j)).
Proof.
  induction n as [|n IH].
  - rewrite lsum_0. symmetry. etransitivity; [apply lsum_ext; intros; apply lsum_0|apply lsum_zero].
  - rewrite lsum_S, IH, <- lsum_add. apply lsum_ext. intros j _. rewrite lsum_S. reflexivity.
Qed.
Lemma lsum_delta n i (u : nat -> F) : (i < n)%nat -> lsum n (fun k => (if Nat.eqb i k then s_one else s_zero) *f u k) = u i.
Proof.
  intros Hi. induction n as [|n IH]; [lia|]. rewrite lsum_S. destruct (Nat.eq_dec i n) as [->|Hne].
  - rewrite Nat.eqb_refl. rewrite (lsum_ext n _ (fun _ => s_zero)).
    + rewrite lsum_zero. ring.
    + intros k Hk. destruct (Nat.eqb_spec n k); [lia|]. ring.
  - rewrite IH by lia. destruct (Nat.eqb_spec i n); [lia|]. ring.
Qed.

Lemma mat_mul_assoc m n fa fb fc i j : mat_mul n (mat_mul m fa fb) fc i j = mat_mul m fa (mat_mul n fb fc) i j.
Proof.
  unfold mat_mul. rewrite (lsum_ext n _ (fun k => lsum m (fun t => fa i t *f fb t k *f fc k j))).
  2:{ intros k _. rewrite lsum_mul_r. reflexivity. }
  rewrite lsum_swap. apply lsum_ext. intros t _. rewrite <- lsum_mul_l. apply lsum_ext. intros k _. ring.
Qed.
Lemma mat_mul_add_r m fa fb fc i j : mat_mul m fa (fun i j => fb i j +f fc i j) i j = mat_mul m fa fb i j +f mat_mul m fa fc i j.
Proof. unfold mat_mul. rewrite <- lsum_add. apply lsum_ext. intros k _. ring. Qed.
Lemma mat_mul_add_l m fa fb fc i j : mat_mul m (fun i j => fa i j +f fb i j) fc i j = mat_mul m fa fc i j +f mat_mul m fb fc i j.
Proof. unfold mat_mul. rewrite <- lsum_add. apply lsum_ext. intros k _. ring. Qed.
Lemma mat_mul_id_l m f i j : (i < m)%nat -> mat_mul m mat_id f i j = f i j.
Proof. intros Hi. unfold mat_mul, mat_id. apply (lsum_delta m i (fun k => f k j) Hi). Qed.
Lemma mat_mul_id_r m f i j : (j < m)%nat -> mat_mul m f mat_id i j = f i j.
Proof.
  intros Hj. unfold mat_mul, mat_id. rewrite <- (lsum_delta m j (fun k => f i k) Hj). apply lsum_ext. intros k _.
  rewrite Nat.eqb_sym. ring.
Qed.
Lemma mat_mul_tr m fa fb i j : mat_tr (mat_mul m fa fb) i j = mat_mul m (mat_tr fb) (mat_tr fa) i j.
Proof. unfold mat_tr, mat_mul. apply lsum_ext. intros k _. ring. Qed.

(** [same h x y]: objects [x] and [y] are distinct and both hold a fully initialised matrix with the same size and entries. *)
Definition same h (x y : loc) : Prop := x <> y /\ exists c r f, abs h !! x = Some (Mat c r f) /\ abs h !! y = Some (Mat c r f).

(** (A B) C = A (B C) *)
Theorem C18_mult_assoc h a b d r m n c fa fb fc : wf h ->
  abs h !! a = Some (Mat m r fa) -> abs h !! b = Some (Mat n m fb) -> abs h !! d = Some (Mat c n fc) ->
  Z.of_nat (r * n) <= int_max -> Z.of_nat (m * c) <= int_max -> Z.of_nat (r * c) <= int_max ->
  runs (let! rab := m_multn a (Some b) in let! ab := deref rab in let! rx := m_multn ab (Some d) in let! x := deref rx in
        let! rbd := m_multn b (Some d) in let! bd := deref rbd in let! ry := m_multn a (Some bd) in let! y := deref ry in ret (x, y)) h
    (fun '(x, y) h' => same h' x y).
Proof.
  intros Hw Ha Hb Hd H1 H2 H3. r_. call wp_m_multn. call wp_m_multn. call wp_m_multn. call wp_m_multn. finish.
  erewrite Mat_ext; [eassumption|]. intros i j _ _. apply mat_mul_assoc.
Qed.

Lemma wp_m_addn_mat h a b c r fa fb (Q : option loc -> heap F -> Prop) : wf h ->
  abs h !! a = Some (Mat c r fa) -> abs h !! b = Some (Mat c r fb) -> True ->
  (forall d h', wf h' -> abs h !! d = None -> abs h' = <[d := Mat c r (fun i j => fa i j +f fb i j)]> (abs h) -> Q (Some d) h') ->
  wp (m_addn a (Some b)) h Q.
Proof. intros Hw Ha Hb _ HQ. eapply wp_m_op2n; eauto. rewrite zip_mlist. exact HQ. Qed.

(** A (B + C) = A B + A C *)
Theorem C18_mult_add_right h a b d r m c fa fb fc : wf h ->
  abs h !! a = Some (Mat m r fa) -> abs h !! b = Some (Mat c m fb) -> abs h !! d = Some (Mat c m fc) -> Z.of_nat (r * c) <= int_max ->
  runs (let! rs := m_addn b (Some d) in let! s := deref rs in let! rx := m_multn a (Some s) in let! x := deref rx in
        let! rab := m_multn a (Some b) in let! ab := deref rab in let! rad := m_multn a (Some d) in let! ad := deref rad in
        let! ry := m_addn ab (Some ad) in let! y := deref ry in ret (x, y)) h
    (fun '(x, y) h' => same h' x y).
Proof.
  intros Hw Ha Hb Hd H1. r_. assert (T := I). call wp_m_addn_mat. call wp_m_multn. call wp_m_multn. call wp_m_multn. call wp_m_addn_mat. finish.
  erewrite Mat_ext; [eassumption|]. intros i j _ _. apply mat_mul_add_r.
Qed.
(** (A + B) C = A C + B C *)
Theorem C18_mult_add_left h a b d r m c fa fb fc : wf h ->
  abs h !! a = Some (Mat m r fa) -> abs h !! b = Some (Mat m r fb) -> abs h !! d = Some (Mat c m fc) -> Z.of_nat (r * c) <= int_max ->
  runs (let! rs := m_addn a (Some b) in let! s := deref rs in let! rx := m_multn s (Some d) in let! x := deref rx in
        let! rab := m_multn a (Some d) in let! ab := deref rab in let! rad := m_multn b (Some d) in let! ad := deref rad in
        let! ry := m_addn ab (Some ad) in let! y := deref ry in ret (x, y)) h
    (fun '(x, y) h' => same h' x y).
Proof.
  intros Hw Ha Hb Hd H1. r_. assert (T := I). call wp_m_addn_mat. call wp_m_multn. call wp_m_multn. call wp_m_multn. call wp_m_addn_mat. finish.
  erewrite Mat_ext; [eassumption|]. intros i j _ _. apply mat_mul_add_l.
Qed.
(** A + B = B + A *)
Theorem C18_add_comm h a b r c fa fb : wf h -> abs h !! a = Some (Mat c r fa) -> abs h !! b = Some (Mat c r fb) ->
  runs (let! rx := m_addn a (Some b) in let! x := deref rx in let! ry := m_addn b (Some a) in let! y := deref ry in ret (x, y)) h
    (fun '(x, y) h' => same h' x y).
Proof.
  intros Hw Ha Hb. r_. assert (T := I). call wp_m_addn_mat. call wp_m_addn_mat. finish.
  erewrite Mat_ext; [eassumption|]. intros i j _ _. cbv beta. ring.
Qed.
(** I A = A and A I = A *)
Theorem C18_identity_unit h a r c fa : wf h -> abs h !! a = Some (Mat c r fa) -> Z.of_nat (r * r) <= int_max -> Z.of_nat (c * c) <= int_max ->
  runs (let! e := m_identity_mat (Z.of_nat r) in let! rx := m_multn e (Some a) in deref rx) h (fun x h' => same h' x a) /\
  runs (let! e := m_identity_mat (Z.of_nat c) in let! ry := m_multn a (Some e) in deref ry) h (fun y h' => same h' y a).
Proof.
  intros Hw Ha H1 H2. assert (H3 : Z.of_nat (r * c) <= int_max) by (destruct (amat_len h a _ _ _ Hw Ha); lia).
  split; r_.
  - wbind. apply wp_m_identity_mat; [exact Hw|exact H1|]. intros e h1 W1 N1 A1. fresh_step h h1 e (@Mat F r r mat_id) N1 A1.
    wbind. eapply wp_m_multn; [exact W1|eassumption|eassumption|exact H3|]. intros x h2 W2 N2 A2.
    apply wp_ret. split; [exact W2|]. split; [congruence|]. eexists c, r, fa. split.
    + rewrite A2, lookup_insert. f_equal. apply Mat_ext. intros i j Hi Hj. apply mat_mul_id_l. exact Hi.
    + rewrite A2, lookup_insert_ne by congruence. assumption.
  - wbind. apply wp_m_identity_mat; [exact Hw|exact H2|]. intros e h1 W1 N1 A1. fresh_step h h1 e (@Mat F c c mat_id) N1 A1.
    wbind. eapply wp_m_multn; [exact W1|eassumption|eassumption|exact H3|]. intros x h2 W2 N2 A2.
    apply wp_ret. split; [exact W2|]. split; [congruence|]. eexists c, r, fa. split.
    + rewrite A2, lookup_insert. f_equal. apply Mat_ext. intros i j Hi Hj. apply mat_mul_id_r. exact Hj.
    + rewrite A2, lookup_insert_ne by congruence. assumption.
Qed.
(** (A^T)^T = A; no law of arithmetic needed, only copies are made. *)
Theorem C18_transpose_involution h a r c fa : wf h -> abs h !! a = Some (Mat c r fa) ->
  runs (let! t := m_transposen a in m_transposen t) h (fun x h' => same h' x a).
Proof.
  intros Hw Ha. r_. call1 wp_m_transposen. eapply wp_m_transposen; [eassumption|eassumption|]. intros x h2 W2 N2 A2.
  split; [exact W2|]. split; [congruence|]. exists c, r, fa. split; [rewrite A2, lookup_insert; reflexivity|].
  rewrite A2, lookup_insert_ne by congruence. assumption.
Qed.
(** (A B)^T = B^T A^T *)
Theorem C18_transpose_mult h a b r m c fa fb : wf h -> abs h !! a = Some (Mat m r fa) -> abs h !! b = Some (Mat c m fb) -> Z.of_nat (r * c) <= int_max ->
  runs (let! rab := m_multn a (Some b) in let! ab := deref rab in let! x := m_transposen ab in
        let! tb := m_transposen b in let! ta := m_transposen a in let! ry := m_multn tb (Some ta) in let! y := deref ry in ret (x, y)) h
    (fun '(x, y) h' => same h' x y).
Proof.
  intros Hw Ha Hb H1. r_. call wp_m_multn. call1 wp_m_transposen. call1 wp_m_transposen. call1 wp_m_transposen. call wp_m_multn. finish.
  erewrite Mat_ext; [eassumption|]. intros i j _ _. apply mat_mul_tr.
Qed.

End alg.
