(** * Properties C22-C26: determinant, adjugate, inverse, linear systems, powers, pinverse. *)
From Verif Require Export PropAlg DetProofs.
From Verif Require DetMC.
From mathcomp Require ssralg.
From Coq Require Import ZifyBool ZifyNat.

Ltac r_ := apply runs_wp.

(** ** Any arithmetic (floating point included): what is computed, without undefined behaviour *)
Section any.
Context {F : Type} `{Scalar F}.
Implicit Types (h : heap F) (l a b : loc) (f g : nat -> nat -> F).
Notation detF := (det_code s_zero s_add s_sub s_mul pow_sign).
Notation adjF := (adj_code s_zero s_one s_add s_sub s_mul s_opp pow_sign).

(** det() terminates, leaves every object as it was and returns the expansion along the first row, in this order of operations. *)
Theorem C22_det_expansion h l n f : wf h -> abs h !! l = Some (Mat n n f) ->
  runs (m_det l (-1)) h (fun d h' => d = detF n f /\ abs h' = abs h).
Proof. intros Hw Hl. r_. eapply wp_m_det; eauto. Qed.
(** det() of a 1x1 matrix does not depend on its entry as soon as multiplying by 0 gives 0: it is 0. *)
Theorem C22_det_1x1 h l f : (forall x : F, s_add s_zero (s_mul x s_zero) = s_zero) -> wf h -> abs h !! l = Some (Mat 1 1 f) ->
  runs (m_det l (-1)) h (fun d h' => d = s_zero /\ abs h' = abs h).
Proof. intros Hz Hw Hl. r_. eapply wp_m_det; eauto. intros h' W A. split; [exact W|]. split; [|exact A]. cbn. apply Hz. Qed.
(** ... so that inverse() of any 1x1 matrix is 1 * (1 / 0), whatever the entry. *)
Theorem C23_inverse_1x1 h l f : (forall x : F, s_add s_zero (s_mul x s_zero) = s_zero) -> wf h -> abs h !! l = Some (Mat 1 1 f) ->
  runs (m_inverse l) h (fun d h' => abs h !! d = None /\ abs h' = <[d := Mat 1 1 (fun _ _ => s_mul s_one (s_div s_one s_zero))]> (abs h)).
Proof.
  intros Hz Hw Hl. r_. eapply wp_m_inverse; eauto. intros d h' W N A. split; [exact W|]. split; [exact N|]. rewrite A. f_equal.
  apply Mat_ext. intros i j Hi Hj. unfold inv_entry. f_equal. f_equal. cbn. apply Hz.
Qed.
(** A non-square matrix has no adjoint: an error is logged and null returned. *)
Theorem C23_adjoint_not_square h l c r f : wf h -> abs h !! l = Some (Mat c r f) -> c <> r -> m_adjoint l h = Ok None h.
Proof.
  intros Hw Hl Hne. assert (W : wp (m_adjoint l) h (fun o h' => o = None /\ h' = h)).
  { unfold m_adjoint. wbind. eapply wp_m_size; [exact Hl|]. cbn [fst snd]. replace (Z.of_nat c =? Z.of_nat r) with false by lia. apply wp_ret. auto. }
  unfold wp in W. destruct (m_adjoint l h); try contradiction. destruct W as [-> ->]. reflexivity.
Qed.
(** matrix_powern(k), k >= 0: the k-fold product ((1 A) A) ... A from the left. *)
Theorem C25_powern_nonneg h l n f (k : nat) : wf h -> abs h !! l = Some (Mat n n f) ->
  runs (m_powern l (Z.of_nat k)) h (fun d h' => abs h !! d = None /\
    abs h' = <[d := Mat n n (Nat.iter k (fun p => mat_mul n p f) mat_id)]> (abs h)).
Proof.
  intros Hw Hl. r_. eapply wp_m_powern; eauto. intros d h' W N A. split; [exact W|]. split; [exact N|]. rewrite A.
  replace (Z.of_nat k <? 0) with false by lia. replace (Z.abs_nat (Z.of_nat k)) with k by lia. clear A.
  f_equal. f_equal. induction k as [|k IH]; [reflexivity|]. cbn. rewrite IH. reflexivity.
Qed.
End any.

(** ** Laws of powers, over any commutative ring *)
Section ring.
Context {F : Type} `{Scalar F}.
Context (RT : @exact_ring F _).
Implicit Types (h : heap F) (l a b : loc) (f g : nat -> nat -> F).

Lemma mat_mul_ext n (f f' g g' : nat -> nat -> F) i j : (forall k, (k < n)%nat -> f i k = f' i k) -> (forall k, (k < n)%nat -> g k j = g' k j) ->
  mat_mul n f g i j = mat_mul n f' g' i j.
Proof. intros E1 E2. unfold mat_mul. apply lsum_ext. intros k Hk. rewrite E1, E2 by assumption. reflexivity. Qed.
Lemma mat_pow_add n f p q i j : (i < n)%nat -> (j < n)%nat -> mat_pow n f (p + q) i j = mat_mul n (mat_pow n f p) (mat_pow n f q) i j.
Proof.
  revert i j. induction q as [|q IH]; intros i j Hi Hj.
  - rewrite Nat.add_0_r. cbn. rewrite (mat_mul_id_r RT) by assumption. reflexivity.
  - rewrite Nat.add_succ_r. cbn. rewrite <- (mat_mul_assoc RT). apply mat_mul_ext; [|auto]. intros k Hk. apply IH; assumption.
Qed.
(** A^p A^q = A^(p+q) *)
Theorem C25_powern_add h l n f (p q : nat) : wf h -> abs h !! l = Some (Mat n n f) ->
  runs (let! x := m_powern l (Z.of_nat p) in let! y := m_powern l (Z.of_nat q) in let! rz := m_multn x (Some y) in let! z := deref rz in
        let! w := m_powern l (Z.of_nat p + Z.of_nat q) in ret (z, w)) h (fun '(z, w) h' => same h' z w).
Proof.
  intros Hw Hl. assert (Hs : Z.of_nat (n * n) <= int_max) by (destruct (amat_len h l _ _ _ Hw Hl); lia).
  r_. call1 wp_m_powern. call1 wp_m_powern. call wp_m_multn. call1 wp_m_powern. finish.
  erewrite Mat_ext; [eassumption|]. intros i j Hi Hj. cbv beta.
  replace (Z.of_nat p <? 0) with false by lia. replace (Z.of_nat q <? 0) with false by lia. replace (Z.of_nat p + Z.of_nat q <? 0) with false by lia.
  replace (Z.abs_nat (Z.of_nat p + Z.of_nat q)) with (p + q)%nat by lia. replace (Z.abs_nat (Z.of_nat p)) with p by lia. replace (Z.abs_nat (Z.of_nat q)) with q by lia.
  symmetry. apply mat_pow_add; assumption.
Qed.
End ring.

(** ** Over a field *)
Section field.
Context (K : ssralg.GRing.Field.type).
Notation F := (ssralg.GRing.Field.sort K).
Context {S : Scalar F}.
(** The scalar operations are those of the field [K], and Math::pow(-1, i) is exact. *)
Definition exact_field : Prop :=
  DetMC.field_ops (K := K) s_zero s_one s_add s_sub s_mul s_div s_opp (fun i => s_pow (s_opp s_one) (s_of_Z (Z.of_nat i))).
Context (E : exact_field).
Implicit Types (h : heap F) (l a b : loc) (f g : nat -> nat -> F).
(** [DetMC.mc_det n f] is mathcomp's determinant \det of the matrix with entries f i j, i, j < n. *)
Notation det := (@DetMC.mc_det (ssralg.GRing.Field.ringType K)).

Lemma field_ring : @exact_ring F _. Proof. exact (DetMC.ops_ring E). Qed.

(** A matrix has an inverse exactly when its determinant is not 0. *)
Definition two_sided_inverse (n : nat) f g : Prop :=
  forall i j, (i < n)%nat -> (j < n)%nat -> mat_mul n f g i j = mat_id i j /\ mat_mul n g f i j = mat_id i j.

Theorem C22_det h l n f : (2 <= n)%nat -> wf h -> abs h !! l = Some (Mat n n f) ->
  runs (m_det l (-1)) h (fun d h' => d = det n f /\ abs h' = abs h).
Proof. intros Hn Hw Hl. r_. eapply wp_m_det; eauto. intros h' W A. split; [exact W|]. split; [|exact A]. exact (DetMC.ops_det E _ Hn). Qed.

Lemma mc_det_mat_mul n f g : det n (mat_mul n f g) = s_mul (det n f) (det n g).
Proof. rewrite <- (DetMC.ops_det_mul E). apply DetMC.mc_det_ext. intros i j _ _. symmetry. apply fsum_lsum. Qed.

(** det(A B) = det(A) det(B) *)
Theorem C22_det_mult h a b n fa fb : (2 <= n)%nat -> wf h -> abs h !! a = Some (Mat n n fa) -> abs h !! b = Some (Mat n n fb) ->
  runs (let! rp := m_multn a (Some b) in let! p := deref rp in let! dp := m_det p (-1) in let! da := m_det a (-1) in let! db := m_det b (-1) in
        ret (dp, s_mul da db)) h (fun '(x, y) _ => x = y).
Proof.
  intros Hn Hw Ha Hb. assert (Hs : Z.of_nat (n * n) <= int_max) by (destruct (amat_len h a _ _ _ Hw Ha); lia).
  r_. call wp_m_multn.
  wbind. eapply wp_m_det; [eassumption|eassumption|]. intros h2 W2 A2.
  wbind. eapply wp_m_det; [eassumption|rewrite A2; eassumption|]. intros h3 W3 A3.
  wbind. eapply wp_m_det; [eassumption|rewrite A3, A2; eassumption|]. intros h4 W4 A4.
  apply wp_ret. split; [exact W4|]. pose proof (fun f => DetMC.ops_det E f Hn) as D. unfold pow_sign. rewrite !D. apply mc_det_mat_mul.
Qed.
(** det(A^T) = det(A) *)
Theorem C22_det_transpose h a n fa : (2 <= n)%nat -> wf h -> abs h !! a = Some (Mat n n fa) ->
  runs (let! t := m_transposen a in let! dt := m_det t (-1) in let! da := m_det a (-1) in ret (dt, da)) h (fun '(x, y) _ => x = y).
Proof.
  intros Hn Hw Ha. r_. call1 wp_m_transposen.
  wbind. eapply wp_m_det; [eassumption|eassumption|]. intros h2 W2 A2.
  wbind. eapply wp_m_det; [eassumption|rewrite A2; eassumption|]. intros h3 W3 A3.
  apply wp_ret. split; [exact W3|]. pose proof (fun f => DetMC.ops_det E f Hn) as D. unfold pow_sign. rewrite !D. apply DetMC.mc_det_tr.
Qed.

(** adjoint(): entry (j, i) is (-1)^(i+j) times the determinant of A without row i and column j. *)
Theorem C23_adjoint h l n f : (2 <= n)%nat -> wf h -> abs h !! l = Some (Mat n n f) ->
  runs (m_adjoint l) h (fun o h' => exists d, o = Some d /\ abs h !! d = None /\
    abs h' = <[d := Mat n n (fun j i => s_mul (s_pow (s_opp s_one) (s_of_Z (Z.of_nat (i + j)))) (det (n - 1) (minor i j f)))]> (abs h)) /\
  (forall t x0 y0 cs, t <> l -> abs h !! t = Some (SMat x0 y0, cs) -> runs (m_adjointo l (Some t)) h (fun _ h' =>
    abs h' = <[t := Mat n n (fun j i => s_mul (s_pow (s_opp s_one) (s_of_Z (Z.of_nat (i + j)))) (det (n - 1) (minor i j f)))]> (abs h))).
Proof.
  intros Hn Hw Hl. split; [|intros t x0 y0 cs Hne Ht]; r_.
  - eapply wp_m_adjoint; eauto. intros d h' W N A. split; [exact W|]. exists d. split; [reflexivity|]. split; [exact N|]. rewrite A. f_equal.
    apply Mat_ext. intros j i Hj Hi. exact (DetMC.ops_adj E f Hn Hi Hj).
  - eapply wp_m_adjointo; eauto. intros h' W A. split; [exact W|]. rewrite A. f_equal.
    apply Mat_ext. intros j i Hj Hi. exact (DetMC.ops_adj E f Hn Hi Hj).
Qed.

Lemma inv_entry_inverse n f : (2 <= n)%nat -> det n f <> s_zero -> two_sided_inverse n f (inv_entry n f).
Proof.
  intros Hn Hd i j Hi Hj. destruct (DetMC.ops_inv E Hn Hd Hi Hj) as [H1 H2]. rewrite fsum_lsum in H1, H2. split; assumption.
Qed.
(** inverse(): the two-sided inverse, in all call forms. *)
Theorem C23_inverse h l n f : (2 <= n)%nat -> det n f <> s_zero -> wf h -> abs h !! l = Some (Mat n n f) ->
  exists g, two_sided_inverse n f g /\
  runs (m_inverse l) h (fun d h' => abs h !! d = None /\ abs h' = <[d := Mat n n g]> (abs h)) /\
  (forall t x0 y0 cs, abs h !! t = Some (SMat x0 y0, cs) -> runs (m_inverseo l (Some t)) h (fun _ h' => abs h' = <[t := Mat n n g]> (abs h))).
Proof.
  intros Hn Hd Hw Hl. exists (inv_entry n f). split; [apply inv_entry_inverse; assumption|]. split; [|intros t x0 y0 cs Ht]; r_.
  - eapply wp_m_inverse; eauto.
  - eapply wp_m_inverseo; eauto.
Qed.
(** The hypothesis on the determinant is exactly invertibility. *)
Theorem C23_invertible_iff n f : (2 <= n)%nat -> (exists g, two_sided_inverse n f g) <-> det n f <> s_zero.
Proof.
  intros Hn. split.
  - intros [g Hg]. apply (DetMC.ops_det_invertible E). exists g. intros i j Hi Hj. rewrite fsum_lsum. apply Hg; assumption.
  - intros Hd. exists (inv_entry n f). apply inv_entry_inverse; assumption.
Qed.
(** A * inverse(A) = inverse(A) * A = identity, as API calls. *)
Theorem C23_mult_inverse h l n f : (2 <= n)%nat -> det n f <> s_zero -> wf h -> abs h !! l = Some (Mat n n f) ->
  runs (let! i := m_inverse l in let! rx := m_multn l (Some i) in let! x := deref rx in
        let! ry := m_multn i (Some l) in let! y := deref ry in let! e := m_identity_mat (Z.of_nat n) in ret (x, y, e)) h
    (fun '(x, y, e) h' => same h' x e /\ same h' y e).
Proof.
  intros Hn Hd Hw Hl. assert (Hs : Z.of_nat (n * n) <= int_max) by (destruct (amat_len h l _ _ _ Hw Hl); lia).
  r_. call1 wp_m_inverse. call wp_m_multn. call wp_m_multn.
  wbind. apply wp_m_identity_mat; [eassumption|exact Hs|]. intros e h4 W4 N4 A4.
  match type of A4 with abs _ = <[_ := ?X]> (abs ?h0) => fresh_step h0 h4 e X N4 A4 end.
  apply wp_ret. split; [assumption|]. split; (split; [congruence|]; eexists _, _, _; split; [eassumption|]).
  - erewrite Mat_ext; [eassumption|]. intros i j Hi Hj. apply inv_entry_inverse; assumption.
  - erewrite Mat_ext; [eassumption|]. intros i j Hi Hj. apply inv_entry_inverse; assumption.
Qed.

(** ** C24 *)
(** The system A x = b. *)
Definition solves (n : nat) f (xs bs : list F) : Prop :=
  length xs = n /\ length bs = n /\ forall i, (i < n)%nat -> lsum n (fun k => s_mul (f i k) (nth k xs s_zero)) = nth i bs s_zero.

Lemma solve_sol n f g (bs : list F) : two_sided_inverse n f g -> length bs = n ->
  solves n f (vlist n (mv_row g bs n)) bs.
Proof.
  intros Hg Hb. split; [apply vlist_length|]. split; [exact Hb|]. intros i Hi.
  rewrite (lsum_ext n _ (fun k => s_mul (f i k) (lsum n (fun t => s_mul (g k t) (nth t bs s_zero))))).
  2:{ intros k Hk. f_equal. apply nth_lookup_Some. rewrite vlist_lookup by exact Hk. reflexivity. }
  pose proof (mat_mul_assoc field_ring n n f g (fun t _ => nth t bs s_zero) i 0%nat) as A.
  unfold mat_mul in A at 3 4. cbv beta in A. rewrite <- A.
  rewrite <- (mat_mul_id_l field_ring n (fun t _ => nth t bs s_zero) i 0%nat Hi). apply mat_mul_ext; [|auto]. intros k Hk. apply Hg; assumption.
Qed.
Lemma solve_unique n f g (xs bs : list F) : two_sided_inverse n f g -> solves n f xs bs -> xs = vlist n (mv_row g bs n).
Proof.
  intros Hg (Hx & Hb & Hs). apply list_eq. intros i. destruct (decide (i < n)%nat) as [Hi|Hi].
  - rewrite vlist_lookup by exact Hi. destruct (lookup_lt_is_Some_2 xs i ltac:(lia)) as [x Ex]. rewrite Ex. f_equal.
    unfold mv_row. rewrite (lsum_ext n _ (fun k => s_mul (g i k) (lsum n (fun t => s_mul (f k t) (nth t xs s_zero))))).
    2:{ intros k Hk. rewrite Hs by exact Hk. reflexivity. }
    pose proof (mat_mul_assoc field_ring n n g f (fun t _ => nth t xs s_zero) i 0%nat) as A.
    unfold mat_mul in A at 3 4. cbv beta in A. rewrite <- A.
    rewrite <- (nth_lookup_Some xs i s_zero x Ex).
    rewrite <- (mat_mul_id_l field_ring n (fun t _ => nth t xs s_zero) i 0%nat Hi). apply mat_mul_ext; [|auto]. intros k Hk. symmetry. apply Hg; assumption.
  - rewrite !lookup_ge_None_2; [reflexivity|rewrite vlist_length; lia|lia].
Qed.
(** A.solve(b) is a solution, and the only one. *)
Theorem C24_solve h a b n f (bs : list F) : (2 <= n)%nat -> det n f <> s_zero -> wf h -> abs h !! a = Some (Mat n n f) -> abs h !! b = Some (AVec bs) -> length bs = n ->
  exists xs, solves n f xs bs /\ (forall ys, solves n f ys bs -> ys = xs) /\
  runs (m_solve a (Some b)) h (fun o h' => exists d, o = Some d /\ abs h !! d = None /\ abs h' = <[d := AVec xs]> (abs h)).
Proof.
  intros Hn Hd Hw Ha Hb Hlen. pose proof (inv_entry_inverse n f Hn Hd) as Hi. exists (vlist n (mv_row (inv_entry n f) bs n)).
  split; [apply solve_sol; assumption|]. split; [intros ys Hy; apply (solve_unique n f _ ys bs Hi Hy)|].
  assert (Hle : Z.of_nat n <= int_max) by (destruct (amat_len h a _ _ _ Hw Ha) as [_ Hl]; nia).
  r_. eapply wp_m_solve; eauto; [lia|]. intros d h' W N A. split; [exact W|]. exists d. rewrite Hlen in A. auto.
Qed.
(** A * A.solve(b) = b, as API calls: mult_vec of the solution gives a new vector equal to b. *)
Theorem C24_mult_solve h a b n f (bs : list F) : (2 <= n)%nat -> det n f <> s_zero -> wf h -> abs h !! a = Some (Mat n n f) -> abs h !! b = Some (AVec bs) -> length bs = n ->
  runs (let! rx := m_solve a (Some b) in let! x := deref rx in let! ry := m_mult_vec a (Some x) in deref ry) h
    (fun y h' => y <> b /\ abs h' !! y = Some (AVec bs) /\ abs h' !! b = Some (AVec bs)).
Proof.
  intros Hn Hd Hw Ha Hb Hlen. pose proof (inv_entry_inverse n f Hn Hd) as Hi.
  assert (Hle : Z.of_nat n <= int_max) by (destruct (amat_len h a _ _ _ Hw Ha) as [_ Hl]; nia).
  r_. wbind. eapply wp_m_solve; [exact Hw|exact Ha|exact Hb|lia|exact Hle|]. intros x h1 W1 N1 A1. wbind. apply wp_ret.
  assert (a <> x) by congruence. assert (b <> x) by congruence.
  wbind. eapply wp_m_mult_vec; [exact W1|rewrite A1, lookup_insert_ne by congruence; exact Ha|rewrite A1; apply lookup_insert|rewrite vlist_length; lia|exact Hle|].
  intros y h2 W2 N2 A2. apply wp_ret. split; [exact W2|].
  assert (y <> b) by (intros ->; rewrite A1, lookup_insert_ne in N2 by congruence; congruence).
  split; [assumption|]. split; [|rewrite A2, A1, !lookup_insert_ne by congruence; exact Hb].
  rewrite A2, lookup_insert. do 2 f_equal. rewrite vlist_length, Hlen.
  destruct (solve_sol n f _ bs Hi Hlen) as (_ & _ & Hsol).
  apply list_eq. intros i. destruct (decide (i < n)%nat) as [Hin|Hin].
  - rewrite vlist_lookup by exact Hin. unfold mv_row at 1. rewrite Hsol by exact Hin.
    destruct (lookup_lt_is_Some_2 bs i ltac:(lia)) as [z Ez]. rewrite Ez. f_equal. apply nth_lookup_Some. exact Ez.
  - rewrite !lookup_ge_None_2; [reflexivity|lia|rewrite vlist_length; lia].
Qed.

(** ** C25 *)
Theorem C25_powern_neg h l n f (k : nat) : (2 <= n)%nat -> det n f <> s_zero -> wf h -> abs h !! l = Some (Mat n n f) -> (0 < k)%nat ->
  exists g, two_sided_inverse n f g /\
  runs (m_powern l (- Z.of_nat k)) h (fun d h' => abs h !! d = None /\ abs h' = <[d := Mat n n (Nat.iter k (fun p => mat_mul n p g) mat_id)]> (abs h)).
Proof.
  intros Hn Hd Hw Hl Hk. exists (inv_entry n f). split; [apply inv_entry_inverse; assumption|].
  r_. eapply wp_m_powern; eauto. intros d h' W N A. split; [exact W|]. split; [exact N|]. rewrite A.
  replace (- Z.of_nat k <? 0) with true by lia. replace (Z.abs_nat (- Z.of_nat k)) with k by lia. clear A Hk.
  f_equal. f_equal. induction k as [|k IH]; [reflexivity|]. cbn. rewrite IH. reflexivity.
Qed.

Lemma mat_pow_comm n f k i j : (i < n)%nat -> (j < n)%nat -> mat_mul n f (mat_pow n f k) i j = mat_mul n (mat_pow n f k) f i j.
Proof.
  intros Hi Hj. pose proof (mat_pow_add field_ring n f 1 k i j Hi Hj) as P. cbn [mat_pow] in P.
  rewrite (mat_mul_ext n _ f _ (mat_pow n f k)) in P; [|intros t Ht; apply (mat_mul_id_l field_ring); exact Hi|auto].
  rewrite <- P. replace (1 + k)%nat with (Datatypes.S k) by lia. reflexivity.
Qed.
Lemma mat_pow_inv n f g k i j : two_sided_inverse n f g -> (i < n)%nat -> (j < n)%nat ->
  mat_mul n (mat_pow n f k) (mat_pow n g k) i j = mat_id i j.
Proof.
  intros Hg. revert i j. induction k as [|k IH]; intros i j Hi Hj; cbn [mat_pow].
  - apply (mat_mul_id_l field_ring). exact Hi.
  - rewrite (mat_mul_assoc field_ring).
    rewrite (mat_mul_ext n _ (mat_pow n f k) _ (mat_pow n g k)); [apply IH; assumption|auto|]. intros t Ht.
    rewrite (mat_mul_ext n f f _ (mat_mul n g (mat_pow n g k))); [|auto|intros s Hs; symmetry; apply mat_pow_comm; assumption].
    rewrite <- (mat_mul_assoc field_ring). rewrite (mat_mul_ext n _ mat_id _ (mat_pow n g k)); [apply (mat_mul_id_l field_ring); exact Ht| |auto].
    intros s Hs. apply Hg; assumption.
Qed.
(** A^k A^(-k) = identity *)
Theorem C25_powern_cancel h l n f (k : Z) : (2 <= n)%nat -> det n f <> s_zero -> wf h -> abs h !! l = Some (Mat n n f) ->
  runs (let! x := m_powern l k in let! y := m_powern l (- k) in let! rz := m_multn x (Some y) in let! z := deref rz in
        let! e := m_identity_mat (Z.of_nat n) in ret (z, e)) h (fun '(z, e) h' => same h' z e).
Proof.
  intros Hn Hd Hw Hl. assert (Hs : Z.of_nat (n * n) <= int_max) by (destruct (amat_len h l _ _ _ Hw Hl); lia).
  r_. call1 wp_m_powern. call1 wp_m_powern. call wp_m_multn.
  wbind. apply wp_m_identity_mat; [eassumption|exact Hs|]. intros e h4 W4 N4 A4.
  match type of A4 with abs _ = <[_ := ?X]> (abs ?h0) => fresh_step h0 h4 e X N4 A4 end.
  finish. erewrite Mat_ext; [eassumption|]. intros i j Hi Hj. cbv beta.
  pose proof (inv_entry_inverse n f Hn Hd) as Hg.
  assert (Hg' : two_sided_inverse n (inv_entry n f) f) by (intros u v Hu Hv; destruct (Hg u v Hu Hv); split; assumption).
  destruct (Z.ltb_spec k 0), (Z.ltb_spec (- k) 0); try lia; replace (Z.abs_nat (- k)) with (Z.abs_nat k) by lia.
  - apply mat_pow_inv; assumption.
  - apply mat_pow_inv; assumption.
  - replace k with 0 by lia. apply (mat_mul_id_l field_ring). exact Hi.
Qed.

(** ** C26 *)
Lemma inverse_unique n f g g' : two_sided_inverse n f g -> two_sided_inverse n f g' -> forall i j, (i < n)%nat -> (j < n)%nat -> g i j = g' i j.
Proof.
  intros Hg Hg' i j Hi Hj.
  rewrite <- (mat_mul_id_r field_ring n g i j Hj).
  rewrite (mat_mul_ext n g g _ (mat_mul n f g')); [|auto|intros k Hk; symmetry; apply Hg'; assumption].
  rewrite <- (mat_mul_assoc field_ring).
  rewrite (mat_mul_ext n _ mat_id _ g'); [apply (mat_mul_id_l field_ring); exact Hi| |auto]. intros k Hk. apply Hg; assumption.
Qed.
Lemma inverse_tr n f g : two_sided_inverse n f g -> two_sided_inverse n (mat_tr f) (mat_tr g).
Proof.
  intros Hg i j Hi Hj. rewrite <- !(mat_mul_tr field_ring). unfold mat_tr. destruct (Hg j i Hj Hi) as [-> ->].
  unfold mat_id. rewrite Nat.eqb_sym. auto.
Qed.
Lemma inverse_mul n f g f' g' : two_sided_inverse n f g -> two_sided_inverse n f' g' -> two_sided_inverse n (mat_mul n f f') (mat_mul n g' g).
Proof.
  intros Hg Hg' i j Hi Hj. split.
  - rewrite (mat_mul_assoc field_ring).
    rewrite (mat_mul_ext n f f _ g); [apply Hg; assumption|auto|]. intros k Hk. rewrite <- (mat_mul_assoc field_ring).
    rewrite (mat_mul_ext n _ mat_id g g); [apply (mat_mul_id_l field_ring); exact Hk| |auto]. intros t Ht. apply Hg'; assumption.
  - rewrite (mat_mul_assoc field_ring).
    rewrite (mat_mul_ext n g' g' _ f'); [apply Hg'; assumption|auto|]. intros k Hk. rewrite <- (mat_mul_assoc field_ring).
    rewrite (mat_mul_ext n _ mat_id f' f'); [apply (mat_mul_id_l field_ring); exact Hk| |auto]. intros t Ht. apply Hg; assumption.
Qed.
Lemma pinv_entry n f : (2 <= n)%nat -> det n f <> s_zero -> forall i j, (i < n)%nat -> (j < n)%nat ->
  mat_mul n (inv_entry n (mat_tr (mat_mul n f f))) (mat_tr f) i j = mat_tr (inv_entry n f) i j.
Proof.
  intros Hn Hd i j Hi Hj. set (g := inv_entry n f). assert (Hg : two_sided_inverse n f g) by (apply inv_entry_inverse; assumption).
  assert (Hff : two_sided_inverse n (mat_tr (mat_mul n f f)) (mat_tr (mat_mul n g g))) by (apply inverse_tr, inverse_mul; assumption).
  assert (Hd2 : det n (mat_tr (mat_mul n f f)) <> s_zero) by (apply C23_invertible_iff; eauto).
  rewrite (mat_mul_ext n _ (mat_tr (mat_mul n g g)) _ (mat_tr f)); [| |auto].
  2:{ intros k Hk. apply (inverse_unique n (mat_tr (mat_mul n f f))); auto. apply inv_entry_inverse; assumption. }
  rewrite <- (mat_mul_tr field_ring). unfold mat_tr. rewrite <- (mat_mul_assoc field_ring).
  rewrite (mat_mul_ext n _ mat_id g g); [apply (mat_mul_id_l field_ring); exact Hj| |auto]. intros k Hk. apply Hg; assumption.
Qed.
(** pinverse() of an invertible matrix is the transpose of its inverse. *)
Theorem C26_pinverse h l n f : (2 <= n)%nat -> det n f <> s_zero -> wf h -> abs h !! l = Some (Mat n n f) ->
  exists g, two_sided_inverse n f g /\
  runs (m_pinverse l) h (fun o h' => exists d, o = Some d /\ abs h !! d = None /\ abs h' = <[d := Mat n n (fun i j => g j i)]> (abs h)).
Proof.
  intros Hn Hd Hw Hl. exists (inv_entry n f). split; [apply inv_entry_inverse; assumption|].
  r_. eapply wp_m_pinverse; eauto. intros d h' W N A. split; [exact W|]. exists d. split; [reflexivity|]. split; [exact N|]. rewrite A.
  f_equal. apply Mat_ext. intros i j Hi Hj. rewrite pinv_entry by assumption. reflexivity.
Qed.
(** Hence X = A.pinverse() satisfies the defining equation A X A = A of a pseudo-inverse exactly when A is symmetric. *)
Theorem C26_pinverse_iff_symmetric h l n f : (2 <= n)%nat -> det n f <> s_zero -> wf h -> abs h !! l = Some (Mat n n f) ->
  runs (let! rx := m_pinverse l in let! x := deref rx in let! ry := m_multn l (Some x) in let! y := deref ry in let! rz := m_multn y (Some l) in deref rz) h
    (fun z h' => abs h' !! l = Some (Mat n n f) /\ (same h' z l <-> forall i j, (i < n)%nat -> (j < n)%nat -> f i j = f j i)).
Proof.
  intros Hn Hd Hw Hl. assert (Hs : Z.of_nat (n * n) <= int_max) by (destruct (amat_len h l _ _ _ Hw Hl); lia).
  pose proof (inv_entry_inverse n f Hn Hd) as Hg. set (g := inv_entry n f) in *.
  r_. wbind. eapply wp_m_pinverse; [exact Hw|exact Hl|]. intros x h1 W1 N1 A1. rewrite (Mat_ext n n _ (mat_tr g)) in A1.
  2:{ intros i j Hi Hj. rewrite pinv_entry by assumption. reflexivity. }
  fresh_step h h1 x (@Mat F n n (mat_tr g)) N1 A1. clear N1 A1. wbind. apply wp_ret.
  call wp_m_multn. wbind. eapply wp_m_multn; [eassumption|eassumption|eassumption|exact Hs|]. intros z h3 W3 N3 A3.
  match type of A3 with abs _ = <[_ := ?X]> (abs ?h0) => fresh_step h0 h3 z X N3 A3 end. apply wp_ret. split; [exact W3|].
  split; [assumption|].
  set (axa := mat_mul n (mat_mul n f (mat_tr g)) f) in *.
  assert (Hsame : same h3 z l <-> forall i j, (i < n)%nat -> (j < n)%nat -> axa i j = f i j).
  { split.
    - intros (_ & c & r & f0 & Hz & Hl0) i j Hi Hj.
      match goal with H1 : abs h3 !! z = Some (Mat n n axa), H2 : abs h3 !! l = Some (Mat n n f) |- _ => 
        assert (Q : Mat n n axa = Mat n n f) by congruence end.
      apply (Mat_inj n n); assumption.
    - intros HE. split; [congruence|]. exists n, n, f. split; [|assumption]. rewrite <- (Mat_ext n n axa f HE). assumption. }
  rewrite Hsame. clear Hsame. split.
  - intros HE.
    (* A X A = A and A invertible: X A = 1, so A^T = A by inverting X = (A^-1)^T *)
    assert (HX : forall i j, (i < n)%nat -> (j < n)%nat -> mat_mul n (mat_tr g) f i j = mat_id i j).
    { intros i j Hi Hj. rewrite <- (mat_mul_id_l field_ring n (mat_mul n (mat_tr g) f) i j Hi).
      rewrite (mat_mul_ext n mat_id (mat_mul n g f) _ (mat_mul n (mat_tr g) f)); [|intros k Hk; symmetry; apply Hg; assumption|auto].
      rewrite (mat_mul_assoc field_ring).
      rewrite (mat_mul_ext n g g _ f); [apply Hg; assumption|auto|]. intros k Hk. rewrite <- (mat_mul_assoc field_ring). apply HE; assumption. }
    pose proof (inverse_tr n f g Hg) as Ht.
    intros i j Hi Hj.
    rewrite <- (mat_mul_id_l field_ring n f i j Hi).
    rewrite (mat_mul_ext n mat_id (mat_mul n (mat_tr f) (mat_tr g)) f f); [|intros k Hk; symmetry; apply Ht; assumption|auto].
    rewrite (mat_mul_assoc field_ring). rewrite (mat_mul_ext n _ (mat_tr f) _ mat_id); [exact (mat_mul_id_r field_ring n (mat_tr f) i j Hj)|auto|].
    intros k Hk. apply HX; assumption.
  - intros Hsym i j Hi Hj. unfold axa.
    rewrite (mat_mul_ext n _ mat_id f f); [apply (mat_mul_id_l field_ring); exact Hi| |auto]. intros k Hk.
    rewrite (mat_mul_ext n f (mat_tr f) _ (mat_tr g)); [apply (inverse_tr n f g Hg); assumption| |auto]. intros t Ht. apply Hsym; assumption.
Qed.
End field.
