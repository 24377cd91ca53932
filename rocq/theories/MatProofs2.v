(** Proofs about the matrix model, part 2: products, transposition, constructors. *)
From Verif Require Export MatProofs.
From Coq Require Import ZifyBool ZifyNat.
Ltac Zify.zify_post_hook ::= Z.to_euclidean_division_equations.

Section matproofs2.
Context {F : Type} `{Scalar F}.
Implicit Types (h : heap F) (l a b : loc) (xs ys : list F) (f : nat -> nat -> F) (g : nat -> nat -> cell F).

(** ** Loops with natural-number counters *)
Lemma wp_for_n (I : nat -> heap F -> Prop) (body : Z -> M F unit) n h (Q : unit -> heap F -> Prop) :
  I 0%nat h ->
  (forall i h, (i < n)%nat -> I i h -> wp (body (Z.of_nat i)) h (fun _ h' => I (S i) h')) ->
  (forall h, I n h -> Q tt h) ->
  wp (for_ 0 (Z.of_nat n) body) h Q.
Proof.
  intros H0 Hb HQ. apply wp_for with (I := fun i h => I (Z.to_nat i) h).
  - exact H0.
  - intros i hi Hi HI. eapply wp_mono.
    + replace i with (Z.of_nat (Z.to_nat i)) at 1 by lia. apply Hb; [lia|exact HI].
    + cbv beta. intros _ h' H'. replace (Z.to_nat (i + 1)) with (S (Z.to_nat i)) by lia. exact H'.
  - intros hi HI. apply HQ. replace (Z.to_nat (Z.max 0 (Z.of_nat n))) with n in HI by lia. exact HI.
Qed.
Lemma wp_for_acc_n {A} (I : nat -> A -> heap F -> Prop) (body : Z -> A -> M F A) n x0 h (Q : A -> heap F -> Prop) :
  I 0%nat x0 h ->
  (forall i x h, (i < n)%nat -> I i x h -> wp (body (Z.of_nat i) x) h (fun x' h' => I (S i) x' h')) ->
  (forall x h, I n x h -> Q x h) ->
  wp (for_acc 0 (Z.of_nat n) x0 body) h Q.
Proof.
  intros H0 Hb HQ. apply wp_for_acc with (I := fun i x h => I (Z.to_nat i) x h).
  - exact H0.
  - intros i x hi Hi HI. eapply wp_mono.
    + replace i with (Z.of_nat (Z.to_nat i)) at 1 by lia. apply Hb; [lia|exact HI].
    + cbv beta. intros x' h' H'. replace (Z.to_nat (i + 1)) with (S (Z.to_nat i)) by lia. exact H'.
  - intros x hi HI. apply HQ. replace (Z.to_nat (Z.max 0 (Z.of_nat n))) with n in HI by lia. exact HI.
Qed.

(** A heap in the middle of a loop that writes matrix [lo]. *)
Record mst h (lo : loc) (c r : nat) (g : nat -> nat -> cell F) hi : Prop := {
  mst_wf : wf hi;
  mst_obj : h_obj hi = h_obj h;
  mst_abs : abs hi = <[lo := MatP c r g]> (abs h)
}.
Lemma mst_ext h lo c r g g' hi : mst h lo c r g hi ->
  (forall i j, (i < r)%nat -> (j < c)%nat -> g i j = g' i j) -> mst h lo c r g' hi.
Proof. intros [W O A] E. constructor; auto. rewrite A. f_equal. apply MatP_ext. exact E. Qed.
Lemma mst_init h lo c r g : wf h -> abs h !! lo = Some (MatP c r g) -> mst h lo c r g h.
Proof. intros W A. constructor; auto. rewrite insert_id; auto. Qed.

Lemma zidx c i j : Z.to_nat (Z.of_nat i * Z.of_nat c + Z.of_nat j) = (i * c + j)%nat.
Proof. lia. Qed.

Lemma wp_mload h lo c r g hi p i j v (Q : F -> heap F -> Prop) : mst h lo c r g hi -> ptr_of h lo = Some p ->
  (i < r)%nat -> (j < c)%nat -> g i j = Some v -> Q v hi ->
  wp (load p (Z.of_nat i * Z.of_nat c + Z.of_nat j)) hi Q.
Proof.
  intros [W O A] Hp Hi Hj Hg HQ. eapply wp_load with (l := lo); [exact W|rewrite (ptr_of_obj h hi); assumption|rewrite A; apply lookup_insert|lia| |exact HQ].
  rewrite zidx, mlist_lookup by assumption. congruence.
Qed.

Lemma wp_mload_other h lo c r g hi la p c' r' f i j (Q : F -> heap F -> Prop) : mst h lo c r g hi -> ptr_of h la = Some p ->
  la <> lo -> abs h !! la = Some (Mat c' r' f) -> (i < r')%nat -> (j < c')%nat -> Q (f i j) hi ->
  wp (load p (Z.of_nat i * Z.of_nat c' + Z.of_nat j)) hi Q.
Proof.
  intros [W O A] Hp Hne Ha Hi Hj HQ. eapply wp_load with (l := la); [exact W|rewrite (ptr_of_obj h hi); assumption|rewrite A, lookup_insert_ne by congruence; exact Ha|lia| |exact HQ].
  rewrite zidx. apply fmap_Some_lookup, mlist_lookup; assumption.
Qed.

Lemma wp_mload_vec h lo c r g hi la p xs i x (Q : F -> heap F -> Prop) : mst h lo c r g hi -> ptr_of h la = Some p ->
  la <> lo -> abs h !! la = Some (AVec xs) -> xs !! i = Some x -> Q x hi ->
  wp (load p (Z.of_nat i)) hi Q.
Proof.
  intros [W O A] Hp Hne Ha Hi HQ. eapply wp_load with (l := la); [exact W|rewrite (ptr_of_obj h hi); assumption|rewrite A, lookup_insert_ne by congruence; exact Ha|lia| |exact HQ].
  rewrite Nat2Z.id. apply fmap_Some_lookup. exact Hi.
Qed.

Lemma wp_mstore h lo c r g hi p i j v (Q : unit -> heap F -> Prop) : mst h lo c r g hi -> ptr_of h lo = Some p ->
  (i < r)%nat -> (j < c)%nat -> (forall h', mst h lo c r (upd g i j (Some v)) h' -> Q tt h') ->
  wp (store p (Z.of_nat i * Z.of_nat c + Z.of_nat j) v) hi Q.
Proof.
  intros [W O A] Hp Hi Hj HQ. pose proof (idx_lt c r i j Hi Hj).
  eapply wp_store with (l := lo); [exact W|rewrite (ptr_of_obj h hi); assumption|rewrite A; apply lookup_insert|rewrite mlist_length; lia|].
  intros h' W' O' _ A'. apply HQ. constructor; [assumption|congruence|].
  rewrite A', A, insert_insert, zidx, mlist_insert by assumption. reflexivity.
Qed.

Lemma wp_mset h lo c r g hi i j v (Q : unit -> heap F -> Prop) : mst h lo c r g hi ->
  (i < r)%nat -> (j < c)%nat -> (forall h', mst h lo c r (upd g i j (Some v)) h' -> Q tt h') ->
  wp (m_set lo (Z.of_nat i) (Z.of_nat j) v) hi Q.
Proof.
  intros [W O A] Hi Hj HQ. eapply wp_m_set; [exact W|rewrite A; apply lookup_insert|].
  intros h' W' O' A'. rewrite decide_True in A' by lia. rewrite !Nat2Z.id in A'. apply HQ. constructor; [assumption|congruence|].
  rewrite A', A, insert_insert. reflexivity.
Qed.

(** ** lsum *)
Lemma lsum_0 (u : nat -> F) : lsum 0 u = s_zero.
Proof. reflexivity. Qed.
Lemma lsum_S n (u : nat -> F) : lsum (S n) u = s_add (lsum n u) (u n).
Proof. unfold lsum. rewrite seq_S, foldl_app. reflexivity. Qed.
Lemma lsum_ext n (u v : nat -> F) : (forall k, (k < n)%nat -> u k = v k) -> lsum n u = lsum n v.
Proof. induction n; intros E; [reflexivity|]. rewrite !lsum_S, E, IHn by (intros; auto; lia). reflexivity. Qed.

(** ** mult *)
Definition mul_inv (m : nat) (fa fb : nat -> nat -> F) (i k j : nat) : nat -> nat -> cell F :=
  fun i' j' => let u := fun t => s_mul (fa i' t) (fb t j') in
    Some (if (i' <? i)%nat then lsum m u else if (i' =? i)%nat then (if (j' <? j)%nat then lsum (S k) u else lsum k u) else lsum 0 u).

Ltac upd_case := intros i' j' Hi' Hj'; unfold upd; destruct (decide _) as [[-> ->]|]; cbv beta zeta;
  repeat match goal with |- context [(?x <? ?y)%nat] => destruct (Nat.ltb_spec x y) | |- context [(?x =? ?y)%nat] => destruct (Nat.eqb_spec x y) end;
  try lia; try reflexivity; auto.
Ltac ext_case := intros i' j' Hi' Hj'; cbv beta zeta;
  repeat match goal with |- context [(?x <? ?y)%nat] => destruct (Nat.ltb_spec x y) | |- context [(?x =? ?y)%nat] => destruct (Nat.eqb_spec x y) end;
  try lia; try reflexivity; auto.

Lemma wp_mult_loop h la pa fa lb pb fb lc pc r m c (Q : unit -> heap F -> Prop) : wf h ->
  abs h !! la = Some (Mat m r fa) -> ptr_of h la = Some pa ->
  abs h !! lb = Some (Mat c m fb) -> ptr_of h lb = Some pb ->
  abs h !! lc = Some (Mat c r (fun _ _ => s_zero)) -> ptr_of h lc = Some pc -> la <> lc -> lb <> lc ->
  (forall h', wf h' -> h_obj h' = h_obj h -> abs h' = <[lc := Mat c r (mat_mul m fa fb)]> (abs h) -> Q tt h') ->
  wp (mult_loop (Z.of_nat r) (Z.of_nat m) (Z.of_nat c) (Z.of_nat m) (Z.of_nat c) (Z.of_nat c) pa pb pc) h Q.
Proof.
  intros Hwf Ha Hpa Hb Hpb Hc Hpc Hac Hbc HQ. unfold mult_loop.
  apply wp_for_n with (I := fun i hi => mst h lc c r (mul_inv m fa fb i 0 0) hi).
  - rewrite Mat_MatP in Hc. eapply mst_ext; [apply mst_init; eauto|]. unfold mul_inv. ext_case.
  - intros i hi Hi HI. apply wp_for_n with (I := fun k hi => mst h lc c r (mul_inv m fa fb i k 0) hi).
    + exact HI.
    + clear hi HI. intros k hi Hk HI. apply wp_for_n with (I := fun j hi => mst h lc c r (mul_inv m fa fb i k j) hi).
      * exact HI.
      * clear hi HI. intros j hi Hj HI.
        wbind. eapply wp_mload; [exact HI|exact Hpc|lia|lia| |].
        { unfold mul_inv. rewrite !Nat.ltb_irrefl, Nat.eqb_refl. reflexivity. }
        wbind. eapply wp_mload_other; [exact HI|exact Hpa|congruence|exact Ha|lia|lia|].
        wbind. eapply wp_mload_other; [exact HI|exact Hpb|congruence|exact Hb|lia|lia|].
        eapply wp_mstore; [exact HI|exact Hpc|lia|lia|]. intros h' HI'.
        eapply mst_ext; [exact HI'|]. unfold mul_inv. upd_case. rewrite lsum_S. reflexivity.
      * intros h1 H1. eapply mst_ext; [exact H1|]. unfold mul_inv. ext_case.
    + intros h1 H1. eapply mst_ext; [exact H1|]. unfold mul_inv. ext_case.
  - intros h1 [W O A]. apply HQ; auto. rewrite A, Mat_MatP. f_equal. apply MatP_ext. unfold mul_inv, mat_mul. ext_case.
Qed.

(** When every element read from the right operand is 0 ([a * 0 = 0], [0 + 0 = 0]) nothing changes. *)
Lemma wp_mult_loop_zero h lx px lb pb lc pc ni m c ax ca ra fa cx rc (Q : unit -> heap F -> Prop) :
  (forall x : F, s_add s_zero (s_mul x s_zero) = s_zero) -> wf h ->
  abs h !! lx = Some (Mat ca ra fa) -> ptr_of h lx = Some px ->
  abs h !! lc = Some (Mat cx rc (fun _ _ => s_zero)) -> ptr_of h lc = Some pc ->
  ax = ca -> (ni <= ra)%nat -> (m <= ca)%nat -> (ni <= rc)%nat -> (c <= cx)%nat -> (m <= rc)%nat ->
  lb = lc -> pb = pc ->
  (forall h', wf h' -> h_obj h' = h_obj h -> abs h' = abs h -> Q tt h') ->
  wp (mult_loop (Z.of_nat ni) (Z.of_nat m) (Z.of_nat c) (Z.of_nat ax) (Z.of_nat cx) (Z.of_nat cx) px pb pc) h Q.
Proof.
  intros Hz Hwf Hx Hpx Hc Hpc -> H1 H2 H3 H4 H5 -> -> HQ. unfold mult_loop.
  pose (I := fun (_ : nat) hi => mst h lc cx rc (fun _ _ => Some s_zero) hi).
  apply wp_for_n with (I := I); unfold I; clear I.
  - rewrite Mat_MatP in Hc. apply mst_init; auto.
  - intros i hi Hi HI. apply wp_for_n with (I := fun (_ : nat) hi => mst h lc cx rc (fun _ _ => Some s_zero) hi); auto.
    clear hi HI. intros k hi Hk HI. apply wp_for_n with (I := fun (_ : nat) hi => mst h lc cx rc (fun _ _ => Some s_zero) hi); auto.
    clear hi HI. intros j hi Hj HI.
    wbind. eapply wp_mload; [exact HI|exact Hpc|lia|lia|reflexivity|].
    assert (Hld : exists v, wp (load px (Z.of_nat i * Z.of_nat ca + Z.of_nat k)) hi (fun v' h' => v' = v /\ h' = hi)).
    { destruct (decide (lx = lc)) as [->|Hne].
      - assert (E : Mat ca ra fa = Mat cx rc (fun _ _ => s_zero)) by congruence. injection E as E1 E2 _.
        assert (ca = cx) as -> by lia. assert (ra = rc) as -> by lia.
        eexists. eapply wp_mload; [exact HI|exact Hpx|lia|lia|reflexivity|]. split; reflexivity.
      - eexists. eapply wp_mload_other; [exact HI|exact Hpx|congruence|exact Hx|lia|lia|]. split; reflexivity. }
    destruct Hld as [v Hld]. wbind. eapply wp_mono; [exact Hld|]. cbv beta. intros v' h' [-> ->].
    wbind. eapply wp_mload; [exact HI|exact Hpc|lia|lia|reflexivity|].
    eapply wp_mstore; [exact HI|exact Hpc|lia|lia|]. intros h' HI'.
    eapply mst_ext; [exact HI'|]. intros i' j' _ _. unfold upd. destruct (decide _); [rewrite Hz|]; reflexivity.
  - intros h1 [W O A]. apply HQ; auto. rewrite A. rewrite insert_id; [reflexivity|]. rewrite <- Mat_MatP. exact Hc.
Qed.

Lemma wp_m_multn h l b r m c fa fb (Q : option loc -> heap F -> Prop) : wf h ->
  abs h !! l = Some (Mat m r fa) -> abs h !! b = Some (Mat c m fb) -> Z.of_nat (r * c) <= int_max ->
  (forall d h', wf h' -> abs h !! d = None -> abs h' = <[d := Mat c r (mat_mul m fa fb)]> (abs h) -> Q (Some d) h') ->
  wp (m_multn l (Some b)) h Q.
Proof.
  intros Hwf Ha Hb Hle HQ. unfold m_multn. wbind. eapply wp_m_size; [exact Hb|]. wbind. eapply wp_m_size; [exact Ha|]. cbn [fst snd].
  rewrite Z.eqb_refl. cbn [negb].
  wbind. apply wp_m_new; [exact Hwf|]. intros d h1 W1 N1 A1 _.
  wbind. eapply wp_m_resize; [exact W1|rewrite A1; apply lookup_insert|lia|]. intros h2 W2 A2 _.
  wbind. eapply wp_m_fill_mat; [exact W2|rewrite A2; apply lookup_insert|]. intros h3 W3 O3 A3.
  assert (Ha3 : abs h3 !! l = Some (Mat m r fa)) by (rewrite A3, A2, A1, !lookup_insert_ne by congruence; exact Ha).
  assert (Hb3 : abs h3 !! b = Some (Mat c m fb)) by (rewrite A3, A2, A1, !lookup_insert_ne by congruence; exact Hb).
  assert (Hd3 : abs h3 !! d = Some (Mat c r (fun _ _ => s_zero))) by (rewrite A3; apply lookup_insert).
  wbind. eapply wp_data_ptr; [exact Ha3|]. intros p Hp.
  wbind. eapply wp_data_ptr; [exact Hb3|]. intros q Hq.
  wbind. eapply wp_data_ptr; [exact Hd3|]. intros po Hpo.
  wbind. eapply wp_mult_loop with (la := l) (lb := b) (lc := d); [exact W3|exact Ha3|exact Hp|exact Hb3|exact Hq|exact Hd3|exact Hpo|congruence|congruence|].
  intros h4 W4 O4 A4. apply wp_ret. apply HQ; auto. rewrite A4, A3, A2, A1, !insert_insert. reflexivity.
Qed.

Lemma wp_m_mult h l b r m c fa fb (Q : unit -> heap F -> Prop) : wf h -> b <> l ->
  abs h !! l = Some (Mat m r fa) -> abs h !! b = Some (Mat c m fb) -> Z.of_nat (r * c) <= int_max ->
  (forall h', wf h' -> abs h' = <[l := Mat c r (mat_mul m fa fb)]> (abs h) -> Q tt h') ->
  wp (m_mult l (Some b)) h Q.
Proof.
  intros Hwf Hbl Ha Hb Hle HQ. unfold m_mult. wbind. eapply wp_m_size; [exact Hb|]. wbind. eapply wp_m_size; [exact Ha|]. cbn [fst snd].
  rewrite Z.eqb_refl. cbn [negb].
  wbind. eapply wp_m_duplicate; [exact Hwf|exact Ha|]. intros d h1 W1 N1 A1.
  assert (d <> l /\ d <> b) as [Hdl Hdb] by (split; congruence).
  assert (Hl1 : abs h1 !! l = Some (Mat m r fa)) by (rewrite A1, lookup_insert_ne by congruence; exact Ha).
  wbind. eapply wp_m_size; [rewrite A1; apply lookup_insert|]. cbn [fst snd].
  wbind. eapply wp_m_resize_if; [exact W1|exact Hl1|lia|]. intros h2 W2 A2 _.
  wbind. eapply wp_m_fill_mat; [exact W2|rewrite A2; apply lookup_insert|]. intros h3 W3 O3 A3.
  assert (Hd3 : abs h3 !! d = Some (Mat m r fa)).
  { rewrite A3, lookup_insert_ne by congruence. rewrite A2, lookup_insert_ne by congruence. rewrite A1. apply lookup_insert. }
  assert (Hb3 : abs h3 !! b = Some (Mat c m fb)) by (rewrite A3, A2, A1, !lookup_insert_ne by congruence; exact Hb).
  assert (Hl3 : abs h3 !! l = Some (Mat c r (fun _ _ => s_zero))) by (rewrite A3; apply lookup_insert).
  wbind. eapply wp_data_ptr; [exact Hd3|]. intros p Hp.
  wbind. eapply wp_data_ptr; [exact Hb3|]. intros q Hq.
  wbind. eapply wp_data_ptr; [exact Hl3|]. intros po Hpo.
  wbind. eapply wp_m_size; [exact Hl3|]. wbind. eapply wp_m_size; [exact Hb3|]. cbn [fst snd].
  wbind. eapply wp_mult_loop with (la := d) (lb := b) (lc := l); [exact W3|exact Hd3|exact Hp|exact Hb3|exact Hq|exact Hl3|exact Hpo|congruence|congruence|].
  intros h4 W4 O4 A4.
  eapply wp_del; [exact W4|rewrite A4, lookup_insert_ne by congruence; exact Hd3|]. intros h5 W5 A5 _. apply HQ; auto.
  rewrite A5, A4, A3, A2, A1, !insert_insert. rewrite delete_insert_ne by congruence. rewrite delete_insert by exact N1. reflexivity.
Qed.

(** A.mult(A): the receiver is zero-filled before it is read as right operand. *)
Lemma wp_m_mult_self h l n fa (Q : unit -> heap F -> Prop) : wf h -> (forall x : F, s_add s_zero (s_mul x s_zero) = s_zero) ->
  abs h !! l = Some (Mat n n fa) ->
  (forall h', wf h' -> abs h' = <[l := Mat n n (fun _ _ => s_zero)]> (abs h) -> Q tt h') ->
  wp (m_mult l (Some l)) h Q.
Proof.
  intros Hwf Hz Ha HQ. destruct (amat_len h l _ _ _ Hwf Ha) as [_ Hle].
  unfold m_mult. do 2 (wbind; eapply wp_m_size; [exact Ha|]). cbn [fst snd].
  rewrite Z.eqb_refl. cbn [negb].
  wbind. eapply wp_m_duplicate; [exact Hwf|exact Ha|]. intros d h1 W1 N1 A1.
  assert (d <> l) as Hdl by congruence.
  assert (Hl1 : abs h1 !! l = Some (Mat n n fa)) by (rewrite A1, lookup_insert_ne by congruence; exact Ha).
  wbind. eapply wp_m_size; [rewrite A1; apply lookup_insert|]. cbn [fst snd].
  wbind. eapply wp_m_resize_if; [exact W1|exact Hl1|lia|]. intros h2 W2 A2 _.
  wbind. eapply wp_m_fill_mat; [exact W2|rewrite A2; apply lookup_insert|]. intros h3 W3 O3 A3.
  assert (Hd3 : abs h3 !! d = Some (Mat n n fa)).
  { rewrite A3, lookup_insert_ne by congruence. rewrite A2, lookup_insert_ne by congruence. rewrite A1. apply lookup_insert. }
  assert (Hl3 : abs h3 !! l = Some (Mat n n (fun _ _ => s_zero))) by (rewrite A3; apply lookup_insert).
  wbind. eapply wp_data_ptr; [exact Hd3|]. intros p Hp.
  wbind. eapply wp_data_ptr; [exact Hl3|]. intros q Hq.
  wbind. eapply wp_data_ptr; [exact Hl3|]. intros po Hpo.
  assert (q = po) as -> by congruence.
  wbind. eapply wp_m_size; [exact Hl3|]. wbind. eapply wp_m_size; [exact Hl3|]. cbn [fst snd].
  wbind. eapply wp_mult_loop_zero with (lx := d) (lb := l) (lc := l);
    [exact Hz|exact W3|exact Hd3|exact Hp|exact Hl3|exact Hpo|reflexivity|lia|lia|lia|lia|lia|reflexivity|reflexivity|].
  intros h4 W4 O4 A4.
  eapply wp_del; [exact W4|rewrite A4; exact Hd3|]. intros h5 W5 A5 _. apply HQ; auto.
  rewrite A5, A4, A3, A2, A1, !insert_insert. rewrite delete_insert_ne by congruence. rewrite delete_insert by exact N1. reflexivity.
Qed.

Lemma wp_m_multb h l x0 y0 cs a b r m c fa fb (Q : unit -> heap F -> Prop) : wf h -> a <> l -> b <> l ->
  abs h !! l = Some (SMat x0 y0, cs) ->
  abs h !! a = Some (Mat m r fa) -> abs h !! b = Some (Mat c m fb) -> Z.of_nat (r * c) <= int_max ->
  (forall h', wf h' -> abs h' = <[l := Mat c r (mat_mul m fa fb)]> (abs h) -> Q tt h') ->
  wp (m_multb l (Some a) (Some b)) h Q.
Proof.
  intros Hwf Hal Hbl Hl Ha Hb Hle HQ. unfold m_multb. wbind. eapply wp_m_size; [exact Ha|]. wbind. eapply wp_m_size; [exact Hb|]. cbn [fst snd].
  rewrite Z.eqb_refl. cbn [negb].
  wbind. eapply wp_m_resize_if; [exact Hwf|exact Hl|lia|]. intros h2 W2 A2 _.
  wbind. eapply wp_m_fill_mat; [exact W2|rewrite A2; apply lookup_insert|]. intros h3 W3 O3 A3.
  assert (Ha3 : abs h3 !! a = Some (Mat m r fa)) by (rewrite A3, A2, !lookup_insert_ne by congruence; exact Ha).
  assert (Hb3 : abs h3 !! b = Some (Mat c m fb)) by (rewrite A3, A2, !lookup_insert_ne by congruence; exact Hb).
  assert (Hl3 : abs h3 !! l = Some (Mat c r (fun _ _ => s_zero))) by (rewrite A3; apply lookup_insert).
  wbind. eapply wp_data_ptr; [exact Ha3|]. intros p Hp.
  wbind. eapply wp_data_ptr; [exact Hb3|]. intros q Hq.
  wbind. eapply wp_data_ptr; [exact Hl3|]. intros po Hpo.
  wbind. eapply wp_m_size; [exact Ha3|]. wbind. eapply wp_m_size; [exact Hb3|]. wbind. eapply wp_m_size; [exact Hl3|]. cbn [fst snd].
  eapply wp_mult_loop with (la := a) (lb := b) (lc := l); [exact W3|exact Ha3|exact Hp|exact Hb3|exact Hq|exact Hl3|exact Hpo|congruence|congruence|].
  intros h4 W4 O4 A4. apply HQ; auto. rewrite A4, A3, A2, !insert_insert. reflexivity.
Qed.

(** C.multb(A, C) with A square (including A = C): the product is lost. *)
Lemma wp_m_multb_alias_right h l a n c fa fb (Q : unit -> heap F -> Prop) : wf h -> (forall x : F, s_add s_zero (s_mul x s_zero) = s_zero) ->
  abs h !! a = Some (Mat n n fa) -> abs h !! l = Some (Mat c n fb) ->
  (forall h', wf h' -> abs h' = <[l := Mat c n (fun _ _ => s_zero)]> (abs h) -> Q tt h') ->
  wp (m_multb l (Some a) (Some l)) h Q.
Proof.
  intros Hwf Hz Ha Hl HQ. destruct (amat_len h l _ _ _ Hwf Hl) as [_ Hle].
  unfold m_multb. wbind. eapply wp_m_size; [exact Ha|]. wbind. eapply wp_m_size; [exact Hl|]. cbn [fst snd].
  rewrite Z.eqb_refl. cbn [negb].
  wbind. eapply wp_m_resize_if; [exact Hwf|exact Hl|lia|]. intros h2 W2 A2 _.
  wbind. eapply wp_m_fill_mat; [exact W2|rewrite A2; apply lookup_insert|]. intros h3 W3 O3 A3.
  assert (Hl3 : abs h3 !! l = Some (Mat c n (fun _ _ => s_zero))) by (rewrite A3; apply lookup_insert).
  assert (Ha3 : exists fa', abs h3 !! a = Some (Mat n n fa')).
  { destruct (decide (a = l)) as [->|Hne].
    - assert (E : Mat n n fa = Mat c n fb) by congruence. injection E as E1 _. assert (c = n) as -> by lia. eauto.
    - exists fa. rewrite A3, A2, !lookup_insert_ne by congruence. exact Ha. }
  destruct Ha3 as [fa' Ha3].
  wbind. eapply wp_data_ptr; [exact Ha3|]. intros p Hp.
  wbind. eapply wp_data_ptr; [exact Hl3|]. intros q Hq.
  wbind. eapply wp_data_ptr; [exact Hl3|]. intros po Hpo. assert (q = po) as -> by congruence.
  wbind. eapply wp_m_size; [exact Ha3|]. wbind. eapply wp_m_size; [exact Hl3|]. wbind. eapply wp_m_size; [exact Hl3|]. cbn [fst snd].
  eapply wp_mult_loop_zero with (lx := a) (lb := l) (lc := l);
    [exact Hz|exact W3|exact Ha3|exact Hp|exact Hl3|exact Hpo|reflexivity|lia|lia|lia|lia|lia|reflexivity|reflexivity|].
  intros h4 W4 O4 A4. apply HQ; auto. rewrite A4, A3, A2, !insert_insert. reflexivity.
Qed.

(** ** transpose *)
Definition tr_inv (fa : nat -> nat -> F) (g0 : nat -> nat -> cell F) (i j : nat) : nat -> nat -> cell F :=
  fun j' i' => if (i' <? i)%nat then Some (fa i' j') else if (i' =? i)%nat then (if (j' <? j)%nat then Some (fa i' j') else g0 j' i') else g0 j' i'.

Lemma wp_transpose_loop h la pa fa lt pt g0 r c (Q : unit -> heap F -> Prop) : wf h ->
  abs h !! la = Some (Mat c r fa) -> ptr_of h la = Some pa ->
  abs h !! lt = Some (MatP r c g0) -> ptr_of h lt = Some pt -> la <> lt ->
  (forall h', wf h' -> h_obj h' = h_obj h -> abs h' = <[lt := Mat r c (mat_tr fa)]> (abs h) -> Q tt h') ->
  wp (transpose_loop (Z.of_nat r) (Z.of_nat c) (Z.of_nat c) (Z.of_nat r) pa pt) h Q.
Proof.
  intros Hwf Ha Hpa Ht Hpt Hne HQ. unfold transpose_loop.
  apply wp_for_n with (I := fun i hi => mst h lt r c (tr_inv fa g0 i 0) hi).
  - eapply mst_ext; [apply mst_init; eauto|]. unfold tr_inv. ext_case.
  - intros i hi Hi HI. apply wp_for_n with (I := fun j hi => mst h lt r c (tr_inv fa g0 i j) hi).
    + exact HI.
    + clear hi HI. intros j hi Hj HI.
      wbind. eapply wp_mload_other; [exact HI|exact Hpa|congruence|exact Ha|lia|lia|].
      eapply wp_mstore; [exact HI|exact Hpt|lia|lia|]. intros h' HI'.
      eapply mst_ext; [exact HI'|]. unfold tr_inv. upd_case.
    + intros h1 H1. eapply mst_ext; [exact H1|]. unfold tr_inv. ext_case.
  - intros h1 [W O A]. apply HQ; auto. rewrite A, Mat_MatP. f_equal. apply MatP_ext. unfold tr_inv, mat_tr. ext_case.
Qed.

Lemma wp_m_transposen h l r c fa (Q : loc -> heap F -> Prop) : wf h -> abs h !! l = Some (Mat c r fa) ->
  (forall d h', wf h' -> abs h !! d = None -> abs h' = <[d := Mat r c (mat_tr fa)]> (abs h) -> Q d h') ->
  wp (m_transposen l) h Q.
Proof.
  intros Hwf Ha HQ. destruct (amat_len h l _ _ _ Hwf Ha) as [_ Hle].
  unfold m_transposen. wbind. apply wp_m_new; [exact Hwf|]. intros d h1 W1 N1 A1 _.
  assert (Ha1 : abs h1 !! l = Some (Mat c r fa)) by (rewrite A1, lookup_insert_ne by congruence; exact Ha).
  wbind. eapply wp_m_size; [exact Ha1|]. cbn [fst snd].
  wbind. eapply wp_m_resize; [exact W1|rewrite A1; apply lookup_insert|lia|]. intros h2 W2 A2 _.
  assert (Ha2 : abs h2 !! l = Some (Mat c r fa)) by (rewrite A2, lookup_insert_ne by congruence; exact Ha1).
  destruct (cells_MatP h2 d r c _ W2 ltac:(rewrite A2; apply lookup_insert)) as [g Hd2].
  wbind. eapply wp_data_ptr; [exact Ha2|]. intros p Hp.
  wbind. eapply wp_data_ptr; [exact Hd2|]. intros po Hpo.
  wbind. eapply wp_transpose_loop with (la := l) (lt := d); [exact W2|exact Ha2|exact Hp|exact Hd2|exact Hpo|congruence|].
  intros h3 W3 O3 A3. apply wp_ret. apply HQ; auto. rewrite A3, A2, A1, !insert_insert. reflexivity.
Qed.

Lemma wp_m_transpose h l r c fa (Q : unit -> heap F -> Prop) : wf h -> abs h !! l = Some (Mat c r fa) ->
  (forall h', wf h' -> abs h' = <[l := Mat r c (mat_tr fa)]> (abs h) -> Q tt h') ->
  wp (m_transpose l) h Q.
Proof.
  intros Hwf Ha HQ. destruct (amat_len h l _ _ _ Hwf Ha) as [_ Hle].
  unfold m_transpose. wbind. eapply wp_m_duplicate; [exact Hwf|exact Ha|]. intros d h1 W1 N1 A1.
  assert (d <> l) by congruence.
  assert (Hl1 : abs h1 !! l = Some (Mat c r fa)) by (rewrite A1, lookup_insert_ne by congruence; exact Ha).
  wbind. eapply wp_m_size; [rewrite A1; apply lookup_insert|]. cbn [fst snd].
  wbind. eapply wp_m_resize; [exact W1|exact Hl1|lia|]. intros h2 W2 A2 _.
  assert (Hd2 : abs h2 !! d = Some (Mat c r fa)) by (rewrite A2, lookup_insert_ne by congruence; rewrite A1; apply lookup_insert).
  destruct (cells_MatP h2 l r c _ W2 ltac:(rewrite A2; apply lookup_insert)) as [g Hl2].
  wbind. eapply wp_data_ptr; [exact Hd2|]. intros p Hp.
  wbind. eapply wp_data_ptr; [exact Hl2|]. intros po Hpo.
  wbind. eapply wp_transpose_loop with (la := d) (lt := l); [exact W2|exact Hd2|exact Hp|exact Hl2|exact Hpo|congruence|].
  intros h3 W3 O3 A3.
  eapply wp_del; [exact W3|rewrite A3, lookup_insert_ne by congruence; exact Hd2|]. intros h5 W5 A5 _. apply HQ; auto.
  rewrite A5, A3, A2, A1, !insert_insert. rewrite delete_insert_ne by congruence. rewrite delete_insert by exact N1. reflexivity.
Qed.

Lemma wp_m_transposeb h l x0 y0 cs a r c fa (Q : unit -> heap F -> Prop) : wf h -> a <> l ->
  abs h !! l = Some (SMat x0 y0, cs) -> abs h !! a = Some (Mat c r fa) ->
  (forall h', wf h' -> abs h' = <[l := Mat r c (mat_tr fa)]> (abs h) -> Q tt h') ->
  wp (m_transposeb l (Some a)) h Q.
Proof.
  intros Hwf Hne Hl Ha HQ. destruct (amat_len h a _ _ _ Hwf Ha) as [_ Hle].
  unfold m_transposeb. wbind. eapply wp_m_size; [exact Ha|]. cbn [fst snd].
  wbind. eapply wp_m_resize_if; [exact Hwf|exact Hl|lia|]. intros h2 W2 A2 _.
  assert (Ha2 : abs h2 !! a = Some (Mat c r fa)) by (rewrite A2, lookup_insert_ne by congruence; exact Ha).
  destruct (cells_MatP h2 l r c _ W2 ltac:(rewrite A2; apply lookup_insert)) as [g Hl2].
  wbind. eapply wp_data_ptr; [exact Ha2|]. intros p Hp.
  wbind. eapply wp_data_ptr; [exact Hl2|]. intros po Hpo.
  wbind. eapply wp_m_size; [exact Ha2|]. wbind. eapply wp_m_size; [exact Hl2|]. cbn [fst snd].
  eapply wp_transpose_loop with (la := a) (lt := l); [exact W2|exact Ha2|exact Hp|exact Hl2|exact Hpo|congruence|].
  intros h3 W3 O3 A3. apply HQ; auto. rewrite A3, A2, !insert_insert. reflexivity.
Qed.

(** transposeb(self), square: (i, j) is copied onto (j, i) in row-major order. *)
Definition trs_inv (fa : nat -> nat -> F) (i j : nat) : nat -> nat -> cell F :=
  fun y x => Some (if (x <? y)%nat && ((x <? i)%nat || ((x =? i)%nat && (y <? j)%nat)) then fa x y else fa y x).

Lemma wp_m_transposeb_self h l n fa (Q : unit -> heap F -> Prop) : wf h -> abs h !! l = Some (Mat n n fa) ->
  (forall h', wf h' -> abs h' = <[l := Mat n n (fun i j => if (j <=? i)%nat then fa j i else fa i j)]> (abs h) -> Q tt h') ->
  wp (m_transposeb l (Some l)) h Q.
Proof.
  intros Hwf Ha HQ. destruct (amat_len h l _ _ _ Hwf Ha) as [_ Hle].
  unfold m_transposeb. wbind. eapply wp_m_size; [exact Ha|]. cbn [fst snd].
  wbind. eapply wp_m_resize_if; [exact Hwf|exact Ha|lia|]. intros h2 W2 A2 _.
  pose proof (m_resize_operand h h2 l _ _ _ l _ _ _ Hwf Ha Ha A2) as Ha2. fold (AMat n n (mlist n n fa)) in Ha2. fold (Mat n n fa) in Ha2.
  wbind. eapply wp_data_ptr; [exact Ha2|]. intros p Hp.
  wbind. eapply wp_data_ptr; [exact Ha2|]. intros q Hq. assert (q = p) as -> by congruence.
  wbind. eapply wp_m_size; [exact Ha2|]. wbind. eapply wp_m_size; [exact Ha2|]. cbn [fst snd]. unfold transpose_loop.
  apply wp_for_n with (I := fun i hi => mst h2 l n n (trs_inv fa i 0) hi).
  - rewrite Mat_MatP in Ha2. eapply mst_ext; [apply mst_init; eauto|]. unfold trs_inv. ext_case.
  - intros i hi Hi HI. apply wp_for_n with (I := fun j hi => mst h2 l n n (trs_inv fa i j) hi).
    + exact HI.
    + clear hi HI. intros j hi Hj HI.
      wbind. eapply wp_mload; [exact HI|exact Hp|lia|lia|reflexivity|].
      eapply wp_mstore; [exact HI|exact Hp|lia|lia|]. intros h' HI'.
      eapply mst_ext; [exact HI'|]. unfold trs_inv. intros i' j' Hi' Hj'. unfold upd.
      destruct (decide (i' = j /\ j' = i)) as [[-> ->]|E].
      * f_equal. destruct (Nat.lt_trichotomy i j) as [Hlt|[->|Hlt]].
        -- replace ((j <? i)%nat && ((j <? i)%nat || (j =? i)%nat && (i <? j)%nat)) with false by lia.
           replace ((i <? j)%nat && ((i <? i)%nat || (i =? i)%nat && (j <? S j)%nat)) with true by lia. reflexivity.
        -- rewrite !Nat.ltb_irrefl. reflexivity.
        -- replace ((j <? i)%nat && ((j <? i)%nat || (j =? i)%nat && (i <? j)%nat)) with true by lia.
           replace ((i <? j)%nat && ((i <? i)%nat || (i =? i)%nat && (j <? S j)%nat)) with false by lia. reflexivity.
      * f_equal. replace ((j' <? i')%nat && ((j' <? i)%nat || (j' =? i)%nat && (i' <? S j)%nat)) with
           ((j' <? i')%nat && ((j' <? i)%nat || (j' =? i)%nat && (i' <? j)%nat)); [reflexivity|].
        apply eq_iff_eq_true. lia.
    + intros h1 H1. eapply mst_ext; [exact H1|]. unfold trs_inv. intros i' j' Hi' Hj'. f_equal.
      replace ((j' <? i')%nat && ((j' <? i)%nat || (j' =? i)%nat && (i' <? n)%nat)) with
        ((j' <? i')%nat && ((j' <? S i)%nat || (j' =? S i)%nat && (i' <? 0)%nat)); [reflexivity|].
      apply eq_iff_eq_true. lia.
  - intros h1 [W O A]. apply HQ; auto. rewrite A, A2, insert_insert, Mat_MatP. f_equal. apply MatP_ext. unfold trs_inv.
    intros i j Hi Hj. f_equal.
    destruct (Nat.leb_spec j i); destruct (Nat.ltb_spec j i); cbn [andb]; try lia.
    + replace ((j <? n)%nat) with true by lia. reflexivity.
    + assert (i = j) as -> by lia. reflexivity.
    + reflexivity.
Qed.

(** ** Constructors *)
Lemma wp_m_full h n m v (Q : loc -> heap F -> Prop) : wf h -> Z.of_nat (n * m) <= int_max ->
  (forall d h', wf h' -> abs h !! d = None -> abs h' = <[d := Mat m n (fun _ _ => v)]> (abs h) -> Q d h') ->
  wp (m_full (Z.of_nat n) (Z.of_nat m) v) h Q.
Proof.
  intros Hwf Hle HQ. unfold m_full. wbind. apply wp_m_new; [exact Hwf|]. intros d h1 W1 N1 A1 _.
  wbind. eapply wp_m_resize; [exact W1|rewrite A1; apply lookup_insert|lia|]. intros h2 W2 A2 _.
  wbind. eapply wp_m_fill_mat; [exact W2|rewrite A2; apply lookup_insert|]. intros h3 W3 O3 A3.
  apply wp_ret. apply HQ; auto. rewrite A3, A2, A1, !insert_insert. reflexivity.
Qed.

Lemma wp_diag_loop h l p c r g n (u : nat -> F) body (Q : unit -> heap F -> Prop) : wf h -> abs h !! l = Some (MatP c r g) ->
  ptr_of h l = Some p -> (n <= c)%nat -> (n <= r)%nat ->
  (forall i hi (Q' : unit -> heap F -> Prop), (i < n)%nat -> mst h l c r (fun i' j' => if decide (i' = j' /\ (i' < i)%nat) then Some (u i') else g i' j') hi ->
     wp (store p (Z.of_nat i * Z.of_nat c + Z.of_nat i) (u i)) hi Q' -> wp (body (Z.of_nat i)) hi Q') ->
  (forall h', wf h' -> h_obj h' = h_obj h -> abs h' = <[l := MatP c r (fun i j => if decide (i = j /\ (i < n)%nat) then Some (u i) else g i j)]> (abs h) -> Q tt h') ->
  wp (for_ 0 (Z.of_nat n) body) h Q.
Proof.
  intros Hwf Ha Hp Hc Hr Hb HQ.
  apply wp_for_n with (I := fun i hi => mst h l c r (fun i' j' => if decide (i' = j' /\ (i' < i)%nat) then Some (u i') else g i' j') hi).
  - eapply mst_ext; [apply mst_init; eauto|]. intros i j _ _. cbn. destruct (decide _) as [[_ ?]|]; [lia|reflexivity].
  - intros i hi Hi HI. apply Hb; [assumption|exact HI|].
    eapply wp_mstore; [exact HI|exact Hp|lia|lia|]. intros h' HI'. eapply mst_ext; [exact HI'|].
    intros i' j' _ _. unfold upd. destruct (decide (i' = i /\ j' = i)) as [[-> ->]|E].
    + rewrite decide_True by lia. reflexivity.
    + destruct (decide (i' = j' /\ (i' < i)%nat)) as [[-> ?]|E1]; [rewrite decide_True by lia; reflexivity|].
      rewrite decide_False; [reflexivity|]. intros [-> ?]. apply E. lia.
  - intros h' [W O A]. apply HQ; auto.
Qed.

Lemma wp_m_identity h l c r cs (Q : unit -> heap F -> Prop) : wf h -> abs h !! l = Some (SMat (Z.of_nat c) (Z.of_nat r), cs) ->
  (forall h', wf h' -> abs h' = <[l := Mat c r mat_id]> (abs h) -> Q tt h') -> wp (m_identity l) h Q.
Proof.
  intros Hwf Ha HQ. unfold m_identity. wbind. eapply wp_m_fill_mat; [exact Hwf|exact Ha|]. intros h1 W1 O1 A1.
  assert (H1 : abs h1 !! l = Some (MatP c r (fun _ _ => Some s_zero))) by (rewrite <- Mat_MatP, A1; apply lookup_insert).
  wbind. eapply wp_data_ptr; [exact H1|]. intros p Hp.
  wbind. eapply wp_m_size; [exact H1|]. cbn [fst snd].
  replace (Z.min (Z.of_nat c) (Z.of_nat r)) with (Z.of_nat (Nat.min c r)) by lia.
  eapply wp_diag_loop with (u := fun _ => s_one); [exact W1|exact H1|exact Hp|lia|lia| |].
  - intros i hi Q' Hi HI Hs. exact Hs.
  - intros h2 W2 O2 A2. apply HQ; auto. rewrite A2, A1, insert_insert, Mat_MatP. f_equal. apply MatP_ext.
    intros i j Hi Hj. unfold mat_id. destruct (Nat.eqb_spec i j) as [->|E]; [rewrite decide_True by lia|rewrite decide_False by tauto]; reflexivity.
Qed.

Lemma wp_m_identityn h l c r cs (Q : loc -> heap F -> Prop) : wf h -> abs h !! l = Some (SMat (Z.of_nat c) (Z.of_nat r), cs) ->
  (forall d h', wf h' -> abs h !! d = None -> abs h' = <[d := Mat c r mat_id]> (abs h) -> Q d h') -> wp (m_identityn l) h Q.
Proof.
  intros Hwf Ha HQ. destruct (mat_len h l _ _ _ Hwf Ha) as [_ Hle].
  unfold m_identityn. wbind. apply wp_m_new; [exact Hwf|]. intros d h1 W1 N1 A1 _.
  wbind. eapply wp_m_size; [rewrite A1, lookup_insert_ne by congruence; exact Ha|].
  wbind. eapply wp_m_resize; [exact W1|rewrite A1; apply lookup_insert|lia|]. intros h2 W2 A2 _.
  wbind. eapply wp_m_identity; [exact W2|rewrite A2; apply lookup_insert|]. intros h3 W3 A3.
  apply wp_ret. apply HQ; auto. rewrite A3, A2, A1, !insert_insert. reflexivity.
Qed.

Lemma wp_m_identity_mat h d (Q : loc -> heap F -> Prop) : wf h -> Z.of_nat (d * d) <= int_max ->
  (forall a h', wf h' -> abs h !! a = None -> abs h' = <[a := Mat d d mat_id]> (abs h) -> Q a h') -> wp (m_identity_mat (Z.of_nat d)) h Q.
Proof.
  intros Hwf Hle HQ. unfold m_identity_mat. wbind. apply wp_m_new; [exact Hwf|]. intros a h1 W1 N1 A1 _.
  wbind. eapply wp_m_resize; [exact W1|rewrite A1; apply lookup_insert|lia|]. intros h2 W2 A2 _.
  wbind. eapply wp_m_fill_mat; [exact W2|rewrite A2; apply lookup_insert|]. intros h3 W3 O3 A3.
  assert (H3 : abs h3 !! a = Some (MatP d d (fun _ _ => Some s_zero))) by (rewrite <- Mat_MatP, A3; apply lookup_insert).
  wbind. eapply wp_data_ptr; [exact H3|]. intros p Hp. wbind.
  eapply wp_diag_loop with (u := fun _ => s_one); [exact W3|exact H3|exact Hp|lia|lia| |].
  - intros i hi Q' Hi HI Hs. exact Hs.
  - intros h4 W4 O4 A4. apply wp_ret. apply HQ; auto. rewrite A4, A3, A2, A1, !insert_insert, Mat_MatP. f_equal. apply MatP_ext.
    intros i j Hi Hj. unfold mat_id. destruct (Nat.eqb_spec i j) as [->|E]; [rewrite decide_True by lia|rewrite decide_False by tauto]; reflexivity.
Qed.

(** ** trace *)
Lemma wp_m_trace h l c r f (Q : F -> heap F -> Prop) : wf h -> abs h !! l = Some (Mat c r f) ->
  Q (lsum (Nat.min c r) (fun i => f i i)) h -> wp (m_trace l) h Q.
Proof.
  intros Hwf Ha HQ. unfold m_trace. wbind. eapply wp_m_size; [exact Ha|]. cbn [fst snd].
  replace (Z.min (Z.of_nat c) (Z.of_nat r)) with (Z.of_nat (Nat.min c r)) by lia.
  apply wp_for_acc_n with (I := fun i t h' => h' = h /\ t = lsum i (fun i => f i i)).
  - auto.
  - intros i t h' Hi [-> ->]. wbind. eapply wp_m_get; [exact Hwf|exact Ha|]. rewrite decide_True by lia. rewrite !Nat2Z.id.
    apply wp_ret. rewrite lsum_S. auto.
  - intros t h' [-> ->]. exact HQ.
Qed.

(** ** matrix-vector *)
Definition vlist {A} (n : nat) (u : nat -> A) : list A := u <$> seq 0 n.
Lemma vlist_length {A} n (u : nat -> A) : length (vlist n u) = n.
Proof. unfold vlist. rewrite fmap_length, seq_length. reflexivity. Qed.
Lemma vlist_lookup {A} n (u : nat -> A) i : (i < n)%nat -> vlist n u !! i = Some (u i).
Proof. intros. unfold vlist. rewrite list_lookup_fmap, lookup_seq_lt by assumption. reflexivity. Qed.
Lemma vlist_ext {A} n (u v : nat -> A) : (forall i, (i < n)%nat -> u i = v i) -> vlist n u = vlist n v.
Proof.
  intros E. apply list_eq. intros i. destruct (decide (i < n)%nat) as [Hi|Hi].
  - rewrite !vlist_lookup by assumption. f_equal. auto.
  - rewrite !lookup_ge_None_2 by (rewrite vlist_length; lia). reflexivity.
Qed.
Lemma vlist_insert {A} n (u : nat -> A) i v : (i < n)%nat -> <[i := v]> (vlist n u) = vlist n (fun k => if decide (k = i) then v else u k).
Proof.
  intros Hi. apply list_eq. intros k. destruct (decide (k < n)%nat) as [Hk|Hk].
  - rewrite (vlist_lookup n _ k) by assumption. destruct (decide (k = i)) as [->|E].
    + apply list_lookup_insert. rewrite vlist_length. assumption.
    + rewrite list_lookup_insert_ne by congruence. apply vlist_lookup. assumption.
  - rewrite !lookup_ge_None_2; [reflexivity|rewrite vlist_length; lia|rewrite insert_length, vlist_length; lia].
Qed.
Lemma vlist_eta {A} (d : A) (xs : list A) : xs = vlist (length xs) (fun i => nth i xs d).
Proof.
  apply list_eq. intros i. destruct (decide (i < length xs)%nat) as [Hi|Hi].
  - rewrite vlist_lookup by assumption. destruct (lookup_lt_is_Some_2 xs i Hi) as [x Hx]. rewrite Hx. f_equal. symmetry. apply nth_lookup_Some. exact Hx.
  - rewrite !lookup_ge_None_2; [reflexivity|rewrite vlist_length; lia|lia].
Qed.

Definition mv_row f (xs : list F) (n : nat) (i : nat) : F := lsum n (fun k => s_mul (f i k) (nth k xs s_zero)).

Lemma wp_mult_vec_loop h la pa f lb pb xs lc pc c r (Q : unit -> heap F -> Prop) : wf h ->
  abs h !! la = Some (Mat c r f) -> ptr_of h la = Some pa ->
  abs h !! lb = Some (AVec xs) -> ptr_of h lb = Some pb -> (length xs <= c)%nat ->
  abs h !! lc = Some (AVec (replicate r s_zero)) -> ptr_of h lc = Some pc -> la <> lc -> lb <> lc ->
  (forall h', wf h' -> h_obj h' = h_obj h -> abs h' = <[lc := AVec (vlist r (mv_row f xs (length xs)))]> (abs h) -> Q tt h') ->
  wp (mult_vec_loop (Z.of_nat r) (Z.of_nat (length xs)) (Z.of_nat c) pa pb pc) h Q.
Proof.
  intros Hwf Ha Hpa Hb Hpb Hlen Hc Hpc Hac Hbc HQ. unfold mult_vec_loop.
  pose (G := fun i k i' => if (i' <? i)%nat then mv_row f xs (length xs) i' else if (i' =? i)%nat then mv_row f xs k i' else s_zero).
  pose (st := fun i k hi => wf hi /\ h_obj hi = h_obj h /\ abs hi = <[lc := AVec (vlist r (G i k))]> (abs h)).
  assert (Hext : forall i k i' k' hi, (forall t, (t < r)%nat -> G i k t = G i' k' t) -> st i k hi -> st i' k' hi).
  { intros i k i' k' hi E (W & O & A). split; [assumption|]. split; [assumption|]. rewrite A. do 2 f_equal. apply vlist_ext. exact E. }
  apply wp_for_n with (I := fun i hi => st i 0%nat hi).
  - split; [assumption|]. split; [reflexivity|]. rewrite insert_id; [reflexivity|]. rewrite Hc. do 2 f_equal.
    apply list_eq. intros t. destruct (decide (t < r)%nat) as [Ht|Ht].
    + rewrite lookup_replicate_2, vlist_lookup by assumption. f_equal. unfold G. destruct (t <? 0)%nat eqn:E; [lia|]. destruct (t =? 0)%nat; reflexivity.
    + rewrite !lookup_ge_None_2; [reflexivity|rewrite vlist_length; lia|rewrite replicate_length; lia].
  - intros i hi Hi HI. apply wp_for_n with (I := fun k hi => st i k hi).
    + exact HI.
    + clear hi HI. intros k hi Hk (W & O & A).
      wbind. eapply wp_load with (l := lc); [exact W|rewrite (ptr_of_obj h hi); assumption|rewrite A; apply lookup_insert|lia|rewrite Nat2Z.id; apply fmap_Some_lookup, vlist_lookup; lia|].
      wbind. eapply wp_load with (l := la); [exact W|rewrite (ptr_of_obj h hi); assumption|rewrite A, lookup_insert_ne by congruence; exact Ha|lia|rewrite zidx; apply fmap_Some_lookup, mlist_lookup; lia|].
      destruct (lookup_lt_is_Some_2 xs k Hk) as [x Hx].
      wbind. eapply wp_load with (l := lb) (v := x); [exact W|rewrite (ptr_of_obj h hi); assumption|rewrite A, lookup_insert_ne by congruence; exact Hb|lia|rewrite Nat2Z.id; apply fmap_Some_lookup; exact Hx|].
      eapply wp_store with (l := lc); [exact W|rewrite (ptr_of_obj h hi); assumption|rewrite A; apply lookup_insert|rewrite fmap_length, vlist_length; lia|].
      intros h' W' O' _ A'. split; [assumption|]. split; [congruence|]. rewrite A', A, insert_insert. f_equal.
      unfold AVec. rewrite Nat2Z.id, !vlist_length, <- list_fmap_insert, vlist_insert by lia. do 2 f_equal. apply vlist_ext.
      intros t Ht. unfold G. destruct (decide (t = i)) as [->|E].
      * rewrite !Nat.ltb_irrefl, !Nat.eqb_refl. unfold mv_row at 2. rewrite lsum_S. rewrite (nth_lookup_Some xs k s_zero x Hx). reflexivity.
      * destruct (Nat.eqb_spec t i); [lia|]. reflexivity.
    + intros h1. apply Hext. intros t Ht. unfold G.
      destruct (Nat.ltb_spec t i); destruct (Nat.ltb_spec t (S i)); try lia; auto.
      * destruct (Nat.eqb_spec t i); [reflexivity|lia].
      * destruct (Nat.eqb_spec t i); [lia|]. destruct (t =? S i)%nat; reflexivity.
  - intros h1 (W & O & A). apply HQ; auto. rewrite A. do 2 f_equal. apply vlist_ext. intros t Ht. unfold G.
    destruct (Nat.ltb_spec t r); [reflexivity|lia].
Qed.

Lemma wp_m_mult_vec h l b c r f xs (Q : option loc -> heap F -> Prop) : wf h ->
  abs h !! l = Some (Mat c r f) -> abs h !! b = Some (AVec xs) -> (length xs <= c)%nat -> Z.of_nat r <= int_max ->
  (forall d h', wf h' -> abs h !! d = None -> abs h' = <[d := AVec (vlist r (mv_row f xs (length xs)))]> (abs h) -> Q (Some d) h') ->
  wp (m_mult_vec l (Some b)) h Q.
Proof.
  intros Hwf Ha Hb Hlen Hle HQ. unfold m_mult_vec. wbind. eapply wp_v_size_vec; [exact Hb|]. wbind. eapply wp_m_size; [exact Ha|]. cbn [fst snd].
  replace (Z.of_nat c <? Z.of_nat (length xs)) with false by lia.
  wbind. apply wp_v_new; [exact Hwf|]. intros d h1 W1 N1 A1 _.
  wbind. eapply wp_v_resize; [exact W1|rewrite A1; apply lookup_insert|lia|]. intros h2 W2 A2 _.
  wbind. eapply wp_v_fill; [exact W2|rewrite A2; apply lookup_insert|]. intros h3 W3 O3 A3. rewrite Nat2Z.id in A3.
  assert (Ha3 : abs h3 !! l = Some (Mat c r f)) by (rewrite A3, A2, A1, !lookup_insert_ne by congruence; exact Ha).
  assert (Hb3 : abs h3 !! b = Some (AVec xs)) by (rewrite A3, A2, A1, !lookup_insert_ne by congruence; exact Hb).
  assert (Hd3 : abs h3 !! d = Some (AVec (replicate r s_zero))) by (rewrite A3; apply lookup_insert).
  wbind. eapply wp_data_ptr; [exact Ha3|]. intros p Hp.
  wbind. eapply wp_data_ptr; [exact Hb3|]. intros q Hq.
  wbind. eapply wp_data_ptr; [exact Hd3|]. intros po Hpo.
  wbind. eapply wp_mult_vec_loop with (la := l) (lb := b) (lc := d); [exact W3|exact Ha3|exact Hp|exact Hb3|exact Hq|exact Hlen|exact Hd3|exact Hpo|congruence|congruence|].
  intros h4 W4 O4 A4. apply wp_ret. apply HQ; auto. rewrite A4, A3, A2, A1, !insert_insert. reflexivity.
Qed.

End matproofs2.
