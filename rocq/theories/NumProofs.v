(** * Numerical differentiation of functions of vectors: what the code computes. *)
From Coq Require Import String.
From Verif Require Import Base BaseProofs Vec VecSpec VecProofs VecProofs2 Mat MatSpec MatProofs MatProofs2 MatProofs3 Ten TenSpec TenProofs TenProofs7 PropMode PropLnk Act Glm GlmProofs4 Sym Num Svm.

Local Notation S := Datatypes.S.
(** The callback [fv] computes the function [g] of the entries of the vector it is given, and has no effect. *)
Definition computes {F} (fv : option loc -> M F F) (g : list F -> F) : Prop :=
  forall (h : heap F) x xs, wf h -> abs h !! x = Some (AVec xs) -> fv (Some x) h = Ok (g xs) h.

Section numproofs.
Context {F : Type} `{Scalar F} `{Libm F}.
Implicit Types (h : heap F) (xs : list F) (fv : option loc -> M F F) (g : list F -> F).

(** [e] added to the entries at the positions [axes]. *)
Definition moved (e : F) (axes : list nat) xs : list F := foldl (fun ys i => alter (fun v => s_add v e) i ys) xs axes.
Lemma moved_length e axes xs : length (moved e axes xs) = length xs.
Proof. revert xs. induction axes as [|i axes IH]; intros xs; [reflexivity|]. cbn. unfold moved in IH. rewrite IH. apply alter_length. Qed.

Lemma wp_bump e h l xs (i : nat) (Q : unit -> heap F -> Prop) : wf h -> abs h !! l = Some (AVec xs) -> (i < length xs)%nat ->
  (forall h', wf h' -> abs h' = <[l := AVec (moved e [i] xs)]> (abs h) -> Q tt h') -> wp (bump e l (Z.of_nat i)) h Q.
Proof.
  intros W A Hi HQ. destruct (lookup_lt_is_Some_2 xs i Hi) as [v Hv]. unfold bump. wbind. eapply wp_v_at; [exact W|exact A|lia|rewrite Nat2Z.id; exact Hv|].
  wbind. eapply wp_data_ptr; [exact A|]. intros p Hp. eapply wp_store; [exact W|exact Hp|exact A|rewrite fmap_length; lia|]. intros h' W' _ _ A'. apply HQ; [exact W'|].
  rewrite A'. f_equal. unfold AVec, moved. cbn [foldl]. rewrite alter_length. f_equal. rewrite Nat2Z.id. rewrite <- list_fmap_insert. f_equal.
  apply list_eq. intros j. destruct (decide (j = i)) as [->|Hne].
  - rewrite list_lookup_insert by exact Hi. rewrite list_lookup_alter, Hv. reflexivity.
  - rewrite list_lookup_insert_ne by congruence. rewrite list_lookup_alter_ne by congruence. reflexivity.
Qed.
Lemma wp_bumps e axes : forall h l xs (Q : unit -> heap F -> Prop), wf h -> abs h !! l = Some (AVec xs) -> Forall (fun i => (i < length xs)%nat) axes ->
  (forall h', wf h' -> abs h' = <[l := AVec (moved e axes xs)]> (abs h) -> Q tt h') -> wp (bumps e l (Z.of_nat <$> axes)) h Q.
Proof.
  induction axes as [|i axes IH]; intros h l xs Q W A HF HQ; cbn [fmap list_fmap bumps].
  - apply wp_ret. apply HQ; [exact W|]. rewrite insert_id; [reflexivity|exact A].
  - inversion HF; subst. wbind. eapply wp_bump; [exact W|exact A|assumption|]. intros h1 W1 A1.
    eapply IH; [exact W1|rewrite A1; apply lookup_insert| |].
    + rewrite moved_length. assumption.
    + intros h2 W2 A2. apply HQ; [exact W2|]. rewrite A2, A1, insert_insert. reflexivity.
Qed.
Lemma wp_shifted e (axes : list nat) h x xs (Q : loc -> heap F -> Prop) : wf h -> abs h !! x = Some (AVec xs) -> Forall (fun i => (i < length xs)%nat) axes ->
  (forall d h', wf h' -> abs h !! d = None -> abs h' = <[d := AVec (moved e axes xs)]> (abs h) -> Q d h') -> wp (shifted e (Some x) (Z.of_nat <$> axes)) h Q.
Proof.
  intros W A HF HQ. unfold shifted. wbind. apply wp_deref_Some. wbind. eapply wp_v_duplicate; [exact W|exact A|]. intros d h1 W1 N1 A1.
  wbind. eapply wp_bumps; [exact W1|rewrite A1; apply lookup_insert|exact HF|]. intros h2 W2 A2. apply wp_ret. apply HQ; [exact W2|exact N1|]. rewrite A2, A1, insert_insert. reflexivity.
Qed.
Lemma wp_call fv g h x xs (Q : F -> heap F -> Prop) : computes fv g -> wf h -> abs h !! x = Some (AVec xs) -> Q (g xs) h -> wp (fv (Some x)) h Q.
Proof. intros C W A HQ. unfold wp. rewrite (C h x xs W A). exact HQ. Qed.

Definition d1 g xs (i : nat) : F := s_div (s_sub (g (moved e10 [i] xs)) (g xs)) e10.
Definition d2 g xs (i j : nat) : F :=
  s_div (s_add (s_sub (s_sub (g (moved e5 [i; j] xs)) (g (moved e5 [j] xs))) (g (moved e5 [i] xs))) (g xs)) (s_mul e5 e5).
Definition d3 g xs (i j k : nat) : F :=
  s_div (s_sub (s_add (s_sub (s_sub (g (moved e5 [i; j; k] xs)) (g (moved e5 [j; k] xs))) (g (moved e5 [i; k] xs))) (g (moved e5 [k] xs)))
               (s_add (s_sub (s_sub (g (moved e5 [i; j] xs)) (g (moved e5 [j] xs))) (g (moved e5 [i] xs))) (g xs))) (s_mul (s_mul e5 e5) e5).

Ltac ax := repeat constructor; assumption.
Ltac call C := wbind; eapply (wp_call _ _ _ _ _ _ C); [eassumption|look|].

Lemma wp_num_diffv fv g h x xs (i : nat) (Q : F -> heap F -> Prop) : computes fv g -> wf h -> abs h !! x = Some (AVec xs) -> (i < length xs)%nat ->
  (forall h', wf h' -> abs h' = abs h -> Q (d1 g xs i) h') -> wp (num_diffv fv (Some x) (Z.of_nat i)) h Q.
Proof.
  intros C W A Hi HQ. unfold num_diffv. wbind. apply (wp_shifted e10 [i]) with (xs := xs); [exact W|exact A|ax|]. intros d h1 W1 N1 A1.
  call C. call C. wbind. dele h2 W2 A2. apply wp_ret. apply HQ; assumption.
Qed.
Lemma wp_num_diff2v fv g h x xs (i j : nat) (Q : F -> heap F -> Prop) : computes fv g -> wf h -> abs h !! x = Some (AVec xs) -> (i < length xs)%nat -> (j < length xs)%nat ->
  (forall h', wf h' -> abs h' = abs h -> Q (d2 g xs i j) h') -> wp (num_diff2v fv (Some x) (Z.of_nat i) (Z.of_nat j)) h Q.
Proof.
  intros C W A Hi Hj HQ. unfold num_diff2v.
  wbind. apply (wp_shifted e5 [i; j]) with (xs := xs); [exact W|exact A|ax|]. intros d h1 W1 N1 A1.
  wbind. apply (wp_shifted e5 [j]) with (xs := xs); [exact W1|look|ax|]. new_as da h2 W2 N2 A2.
  wbind. apply (wp_shifted e5 [i]) with (xs := xs); [exact W2|look|ax|]. new_as db h3 W3 N3 A3.
  call C. call C. call C. call C. wbind. dele h4 W4 A4. wbind. dele h5 W5 A5. wbind. dele h6 W6 A6. apply wp_ret. apply HQ; assumption.
Qed.
Lemma wp_num_diff3v fv g h x xs (i j k : nat) (Q : F -> heap F -> Prop) : computes fv g -> wf h -> abs h !! x = Some (AVec xs) -> (i < length xs)%nat -> (j < length xs)%nat -> (k < length xs)%nat ->
  (forall h', wf h' -> abs h' = abs h -> Q (d3 g xs i j k) h') -> wp (num_diff3v fv (Some x) (Z.of_nat i) (Z.of_nat j) (Z.of_nat k)) h Q.
Proof.
  intros C W A Hi Hj Hk HQ. unfold num_diff3v.
  wbind. apply (wp_shifted e5 [i; j; k]) with (xs := xs); [exact W|exact A|ax|]. intros d h1 W1 N1 A1.
  wbind. apply (wp_shifted e5 [j; k]) with (xs := xs); [exact W1|look|ax|]. new_as da h2 W2 N2 A2.
  wbind. apply (wp_shifted e5 [i; k]) with (xs := xs); [exact W2|look|ax|]. new_as db h3 W3 N3 A3.
  wbind. apply (wp_shifted e5 [k]) with (xs := xs); [exact W3|look|ax|]. new_as dc h4 W4 N4 A4.
  wbind. apply (wp_shifted e5 [i; j]) with (xs := xs); [exact W4|look|ax|]. new_as dd h5 W5 N5 A5.
  wbind. apply (wp_shifted e5 [j]) with (xs := xs); [exact W5|look|ax|]. new_as de h6 W6 N6 A6.
  wbind. apply (wp_shifted e5 [i]) with (xs := xs); [exact W6|look|ax|]. new_as df h7 W7 N7 A7.
  call C. call C. call C. call C. call C. call C. call C. call C.
  wbind. dele k1 V1 B1. wbind. dele k2 V2 B2. wbind. dele k3 V3 B3. wbind. dele k4 V4 B4. wbind. dele k5 V5 B5. wbind. dele k6 V6 B6. wbind. dele k7 V7 B7. apply wp_ret. apply HQ; assumption.
Qed.

(** ** jacobian, hessian, third_order_tensor *)
Lemma wp_jacobian fv g h x xs (Q : loc -> heap F -> Prop) : computes fv g -> wf h -> abs h !! x = Some (AVec xs) ->
  (forall d h', wf h' -> abs h !! d = None -> abs h' = <[d := AVec (vlist (length xs) (d1 g xs))]> (abs h) -> Q d h') -> wp (jacobian fv (Some x)) h Q.
Proof.
  intros C W A HQ. pose proof (avec_len h x xs W A) as Hn. unfold jacobian. wbind. apply wp_v_new; [exact W|]. intros d h1 W1 N1 A1 _.
  wbind. apply wp_deref_Some. wbind. eapply wp_v_size_vec; [look|]. wbind. eapply wp_v_resize; [exact W1|rewrite A1; apply lookup_insert|lia|]. intros h2 W2 A2 _.
  rewrite A1, insert_insert in A2. rewrite Nat2Z.id in A2. assert (exists R0 : list (option F), length R0 = length xs /\ abs h2 = <[d := (SVec (Z.of_nat (length xs)), R0)]> (abs h)) as (R0 & HR & A2') by (eexists; split; [|exact A2]; apply resize_length). clear A2. rename A2' into A2.
  wbind. eapply wp_v_size; [rewrite A2; apply lookup_insert|].
  wbind. eapply (wp_for_n (fun i hi => wf hi /\ abs hi = <[d := (SVec (Z.of_nat (length xs)), (Some <$> vlist i (d1 g xs)) ++ drop i R0)]> (abs h))).
  - split; [exact W2|]. exact A2.
  - intros i hi Hi [Wi Ai]. wbind. eapply wp_num_diffv; [exact C|exact Wi|look|exact Hi|]. intros hj Wj Aj.
    eapply wp_v_set; [exact Wj|rewrite Aj, Ai; apply lookup_insert|]. intros hk Wk _ Ak. rewrite (proj2 (Z.ltb_ge (Z.of_nat i) 0)) in Ak by lia.
    split; [exact Wk|]. rewrite Ak, Aj, Ai, insert_insert, Nat2Z.id, fill_step by lia. reflexivity.
  - intros hi [Wi Ai]. apply wp_ret. rewrite drop_ge, app_nil_r in Ai by lia. apply HQ; [exact Wi|exact N1|]. rewrite Ai. unfold AVec. rewrite vlist_length. reflexivity.
Qed.
Lemma wp_hessian fv g h x xs (Q : loc -> heap F -> Prop) : computes fv g -> wf h -> abs h !! x = Some (AVec xs) -> Z.of_nat (length xs * length xs) <= int_max ->
  (forall d h', wf h' -> abs h !! d = None -> abs h' = <[d := Mat (length xs) (length xs) (d2 g xs)]> (abs h) -> Q d h') -> wp (hessian fv (Some x)) h Q.
Proof.
  intros C W A Hn HQ. set (n := length xs) in *. unfold hessian. wbind. apply wp_m_new; [exact W|]. intros d h1 W1 N1 A1 _.
  wbind. apply wp_deref_Some. wbind. eapply wp_v_size_vec; [look|]. fold n. wbind. eapply wp_m_resize; [exact W1|rewrite A1; apply lookup_insert|lia|]. intros h2 W2 A2 _.
  destruct (cells_MatP h2 d n n _ W2 ltac:(rewrite A2; apply lookup_insert)) as [G HG]. rewrite A1, insert_insert in A2.
  wbind. eapply wp_m_size; [rewrite A2; apply lookup_insert|]. cbn [fst snd].
  assert (A2' : abs h2 = <[d := MatP n n G]> (abs h)) by (rewrite A2, lookup_insert in HG; apply Some_inj in HG; rewrite A2; f_equal; exact HG).
  wbind. eapply (wp_for_n (fun i hi => wf hi /\ abs hi = <[d := MatP n n (fun p q => if (p <? i)%nat then Some (d2 g xs p q) else G p q)]> (abs h))).
  - split; [exact W2|]. rewrite A2'. f_equal.
  - intros i hi Hi [Wi Ai].
    eapply (wp_for_n (fun j hj => wf hj /\ abs hj = <[d := MatP n n (fun p q => if ((p <? i) || ((p =? i) && (q <? j)))%nat then Some (d2 g xs p q) else G p q)]> (abs h))).
    + split; [exact Wi|]. rewrite Ai. f_equal. apply MatP_ext. intros p q _ _. rewrite Bool.andb_false_r, Bool.orb_false_r. reflexivity.
    + intros j hj Hj [Wj Aj]. wbind. eapply wp_num_diff2v; [exact C|exact Wj|look|exact Hi|exact Hj|]. intros hk Wk Ak.
      eapply wp_m_set; [exact Wk|rewrite Ak, Aj; apply lookup_insert|]. intros hl Wl _ Al. rewrite decide_True in Al by lia. split; [exact Wl|].
      rewrite Al, Ak, Aj, insert_insert. f_equal. apply MatP_ext. intros p q _ _. unfold upd. rewrite !Nat2Z.id.
      destruct (decide (p = i /\ q = j)) as [[-> ->]|Hne].
      * rewrite Nat.eqb_refl. replace (Nat.ltb j (S j)) with true by (symmetry; apply Nat.ltb_lt; lia). rewrite Bool.orb_true_r. reflexivity.
      * destruct (Nat.ltb_spec p i), (Nat.eqb_spec p i), (Nat.ltb_spec q j), (Nat.ltb_spec q (S j)); try reflexivity; lia.
    + intros hj [Wj Aj]. split; [exact Wj|]. rewrite Aj. f_equal. apply MatP_ext. intros p q Hp Hq. destruct (Nat.ltb_spec p i), (Nat.eqb_spec p i), (Nat.ltb_spec q n), (Nat.ltb_spec p (S i)); try reflexivity; lia.
  - intros hi [Wi Ai]. apply wp_ret. apply HQ; [exact Wi|exact N1|]. rewrite Ai, Mat_MatP. f_equal. apply MatP_ext. intros p q Hp Hq. destruct (Nat.ltb_spec p n); [reflexivity|lia].
Qed.
Lemma TenP_none x y z (cs : list (option F)) : length cs = (z * (y * x))%nat -> exists T, (STen (Z.of_nat x) (Z.of_nat y) (Z.of_nat z), cs) = TenP x y z T.
Proof.
  intros E. exists (fun k j i => nth (k * (y * x) + (j * x + i)) cs None). unfold TenP. f_equal. apply tlist_eq; [exact E|].
  intros k j i Hk Hj Hi. destruct (lookup_lt_is_Some_2 cs (k * (y * x) + (j * x + i))) as [v Hv]; [rewrite E; apply idx_lt; [exact Hk|apply idx_lt; assumption]|]. rewrite Hv. f_equal. symmetry. apply nth_lookup_Some, Hv.
Qed.
Lemma wp_third_order fv g h x xs (Q : loc -> heap F -> Prop) : computes fv g -> wf h -> abs h !! x = Some (AVec xs) -> Z.of_nat (length xs * (length xs * length xs)) <= int_max ->
  (forall d h', wf h' -> abs h !! d = None -> abs h' = <[d := Ten (length xs) (length xs) (length xs) (d3 g xs)]> (abs h) -> Q d h') -> wp (third_order fv (Some x)) h Q.
Proof.
  intros C W A Hn HQ. set (n := length xs) in *. unfold third_order. wbind. apply wp_t_new; [exact W|]. intros d h1 W1 N1 A1.
  assert (fits n n) as Hf by (unfold fits; destruct n as [|n']; [cbn; unfold int_max; lia|nia]).
  wbind. apply wp_deref_Some. wbind. eapply wp_v_size_vec; [look|]. fold n. wbind. eapply wp_t_resize; [exact W1|rewrite A1; apply lookup_insert|exact Hf|exact Hn|]. intros h2 W2 A2.
  destruct (TenP_none n n n (list.resize (n * (n * n)) None []) (resize_length _ _ _)) as [G HG]. rewrite A1, insert_insert in A2. rewrite HG in A2.
  wbind. eapply wp_t_size; [rewrite A2; apply lookup_insert|]. cbv beta iota.
  wbind. eapply (wp_for_n (fun i hi => wf hi /\ abs hi = <[d := TenP n n n (fun p q r => if (p <? i)%nat then Some (d3 g xs p q r) else G p q r)]> (abs h))).
  - split; [exact W2|]. exact A2.
  - intros i hi Hi [Wi Ai].
    eapply (wp_for_n (fun j hj => wf hj /\ abs hj = <[d := TenP n n n (fun p q r => if ((p <? i) || ((p =? i) && (q <? j)))%nat then Some (d3 g xs p q r) else G p q r)]> (abs h))).
    + split; [exact Wi|]. rewrite Ai. f_equal. apply TenP_ext. intros p q r _ _ _. rewrite Bool.andb_false_r, Bool.orb_false_r. reflexivity.
    + intros j hj Hj [Wj Aj].
      eapply (wp_for_n (fun k hk => wf hk /\ abs hk = <[d := TenP n n n (fun p q r => if ((p <? i) || ((p =? i) && ((q <? j) || ((q =? j) && (r <? k)))))%nat then Some (d3 g xs p q r) else G p q r)]> (abs h))).
      * split; [exact Wj|]. rewrite Aj. f_equal. apply TenP_ext. intros p q r _ _ _. rewrite Bool.andb_false_r, Bool.orb_false_r. reflexivity.
      * intros k hk Hk [Wk Ak]. wbind. eapply wp_num_diff3v; [exact C|exact Wk|look|exact Hi|exact Hj|exact Hk|]. intros hl Wl Al.
        eapply wp_t_set; [exact Wl|rewrite Al, Ak; apply lookup_insert|]. intros hm Wm _ Am. split; [exact Wm|].
        rewrite Am, Al, Ak, insert_insert. f_equal. apply TenP_ext. intros p q r _ _ _.
        destruct (decide (Z.of_nat p = Z.of_nat i /\ Z.of_nat q = Z.of_nat j /\ Z.of_nat r = Z.of_nat k)) as [(E1 & E2 & E3)|Hne].
        -- apply Nat2Z.inj in E1, E2, E3. subst p q r. rewrite !Nat.eqb_refl. replace (Nat.ltb k (S k)) with true by (symmetry; apply Nat.ltb_lt; lia). rewrite !Bool.orb_true_r. reflexivity.
        -- destruct (Nat.ltb_spec p i), (Nat.eqb_spec p i), (Nat.ltb_spec q j), (Nat.eqb_spec q j), (Nat.ltb_spec r k), (Nat.ltb_spec r (S k)); try reflexivity; lia.
      * intros hk [Wk Ak]. split; [exact Wk|]. rewrite Ak. f_equal. apply TenP_ext. intros p q r _ _ Hr.
        destruct (Nat.ltb_spec p i), (Nat.eqb_spec p i), (Nat.ltb_spec q j), (Nat.eqb_spec q j), (Nat.ltb_spec r n), (Nat.ltb_spec q (S j)); try reflexivity; lia.
    + intros hj [Wj Aj]. split; [exact Wj|]. rewrite Aj. f_equal. apply TenP_ext. intros p q r Hp Hq _. destruct (Nat.ltb_spec p i), (Nat.eqb_spec p i), (Nat.ltb_spec q n), (Nat.ltb_spec p (S i)); try reflexivity; lia.
  - intros hi [Wi Ai]. apply wp_ret. apply HQ; [exact Wi|exact N1|]. rewrite Ai, Ten_TenP. f_equal. apply TenP_ext. intros p q r Hp Hq _. destruct (Nat.ltb_spec p n); [reflexivity|lia].
Qed.

(** ** Approximations *)
Definition diffs (xs cs : list F) : list F := zip_with s_sub xs cs.
Lemma wp_row_of h b v (Q : loc -> heap F -> Prop) : wf h -> abs h !! b = Some (AVec v) -> v <> [] ->
  (forall d h', wf h' -> abs h !! d = None -> abs h' = <[d := Mat (length v) 1 (fun _ j => nth j v s_zero)]> (abs h) -> Q d h') -> wp (row_of (Some b)) h Q.
Proof.
  intros W A Hv HQ. unfold row_of. wbind. apply wp_m_new; [exact W|]. intros d h1 W1 N1 A1 _.
  wbind. eapply (wp_m_row_add_vec_first h1 d b v); [exact W1|rewrite A1; apply lookup_insert|look|exact Hv|]. intros h2 W2 A2. apply wp_ret. apply HQ; [exact W2|exact N1|].
  rewrite A2, A1, insert_insert. f_equal. rewrite Rows_Mat by (constructor; [reflexivity|constructor]). apply Mat_ext. intros i j Hi Hj. cbn in Hi. assert (i = 0%nat) as -> by lia. reflexivity.
Qed.
Lemma wp_lin_approxv fv g h c x cs xs (Q : F -> heap F -> Prop) : computes fv g -> wf h -> abs h !! c = Some (AVec cs) -> abs h !! x = Some (AVec xs) -> length xs = length cs -> cs <> [] ->
  Z.of_nat (length cs * length cs) <= int_max ->
  (forall h', wf h' -> abs h' = abs h ->
     Q (s_add (g cs) (s_add s_zero (s_mul (d1 g cs 0) (s_sub (nth 0 xs s_zero) (nth 0 cs s_zero))))) h') -> wp (lin_approxv fv (Some c) (Some x)) h Q.
Proof.
  intros C W Ac Ax El Hne Hn HQ. assert (0 < length cs)%nat as Hp by (destruct cs; [congruence|cbn; lia]). unfold lin_approxv.
  wbind. eapply wp_jacobian; [exact C|exact W|exact Ac|]. intros j h1 W1 N1 A1.
  wbind. eapply wp_row_of; [exact W1|look|intros E; apply (f_equal length) in E; rewrite vlist_length in E; cbn in E; lia|]. rewrite vlist_length. new_as mj h2 W2 N2 A2.
  wbind. apply wp_deref_Some.
  wbind. eapply wp_v_op2n; [exact W2|look|look| |intros E; congruence]. intros _. new_as d h3 W3 N3 A3. fold (diffs xs cs) in A3.
  assert (length (diffs xs cs) = length cs) as Ed by (unfold diffs; rewrite zip_with_length; lia).
  wbind. eapply wp_row_of; [exact W3|look|intros E; rewrite E in Ed; cbn in Ed; lia|]. rewrite Ed. new_as md h4 W4 N4 A4.
  wbind. eapply wp_m_transposen; [exact W4|look|]. new_as t h5 W5 N5 A5.
  wbind. eapply wp_m_multn; [exact W5|look|look|exact Hn|]. new_as p h6 W6 N6 A6.
  call C. wbind. apply wp_deref_Some. wbind. eapply wp_m_get; [exact W6|look|]. rewrite decide_True by lia.
  wbind. dele k1 V1 B1. wbind. dele k2 V2 B2. wbind. dele k3 V3 B3. wbind. unfold free. cbn [drop_ref]. dele k4 V4 B4. wbind. dele k5 V5 B5. wbind. dele k6 V6 B6. apply wp_ret.
  assert (E : mat_mul 1 (mat_tr (fun _ q : nat => nth q (vlist (length cs) (d1 g cs)) s_zero)) (fun _ q : nat => nth q (diffs xs cs) s_zero) (Z.to_nat 0) (Z.to_nat 0) = s_add s_zero (s_mul (d1 g cs 0) (s_sub (nth 0 xs s_zero) (nth 0 cs s_zero)))).
  { destruct cs as [|c0 cs']; [congruence|]. destruct xs as [|x0 xs']; [cbn in El; lia|]. reflexivity. }
  rewrite E. apply HQ; assumption.
Qed.
Lemma wp_quad_form h m md n (G : nat -> nat -> F) (u : nat -> F) (Q : F -> heap F -> Prop) : wf h -> abs h !! m = Some (Mat n n G) -> abs h !! md = Some (Mat n 1 (fun _ j => u j)) -> (0 < n)%nat ->
  (forall h', wf h' -> abs h' = abs h -> Q (lsum n (fun i => s_mul (u i) (lsum n (fun j => s_mul (G i j) (u j))))) h') -> wp (quad_form m md) h Q.
Proof.
  intros W Am Ad Hn HQ. destruct (amat_len h md _ _ _ W Ad) as [_ Hle]. unfold quad_form. wbind. eapply wp_m_transposen; [exact W|exact Ad|]. intros t h1 W1 N1 A1.
  wbind. eapply wp_m_multn; [exact W1|look|look|lia|]. new_as v h2 W2 N2 A2.
  wbind. eapply wp_m_multn; [exact W2|look|look|cbn; unfold int_max; lia|]. new_as q h3 W3 N3 A3.
  wbind. apply wp_deref_Some. wbind. eapply wp_m_get; [exact W3|look|]. rewrite decide_True by lia.
  wbind. dele k1 V1 B1. wbind. unfold free. cbn [drop_ref]. dele k2 V2 B2. wbind. dele k3 V3 B3. apply wp_ret. apply HQ; assumption.
Qed.
Definition qform (n : nat) (G : nat -> nat -> F) (u : nat -> F) : F := lsum n (fun i => s_mul (u i) (lsum n (fun j => s_mul (G i j) (u j)))).
Lemma wp_quad_approxv fv g h c x cs xs (Q : F -> heap F -> Prop) : computes fv g -> wf h -> abs h !! c = Some (AVec cs) -> abs h !! x = Some (AVec xs) -> length xs = length cs -> cs <> [] ->
  Z.of_nat (length cs * length cs) <= int_max ->
  (forall h', wf h' -> abs h' = abs h ->
     Q (s_add (s_add (g cs) (s_add s_zero (s_mul (d1 g cs 0) (s_sub (nth 0 xs s_zero) (nth 0 cs s_zero)))))
          (s_mul s_half (qform (length cs) (d2 g cs) (fun j => nth j (diffs xs cs) s_zero)))) h') -> wp (quad_approxv fv (Some c) (Some x)) h Q.
Proof.
  intros C W Ac Ax El Hne Hn HQ. assert (0 < length cs)%nat as Hp by (destruct cs; [congruence|cbn; lia]). unfold quad_approxv.
  wbind. eapply wp_hessian; [exact C|exact W|exact Ac|exact Hn|]. intros o h1 W1 N1 A1.
  wbind. apply wp_deref_Some.
  wbind. eapply wp_v_op2n; [exact W1|look|look| |intros E; congruence]. intros _. new_as d h3 W3 N3 A3. fold (diffs xs cs) in A3.
  assert (length (diffs xs cs) = length cs) as Ed by (unfold diffs; rewrite zip_with_length; lia).
  wbind. eapply wp_row_of; [exact W3|look|intros E; rewrite E in Ed; cbn in Ed; lia|]. rewrite Ed. new_as md h4 W4 N4 A4.
  wbind. eapply wp_quad_form with (n := length cs); [exact W4|look|look|exact Hp|]. intros h5 W5 A5. rewrite A4 in A5.
  wbind. eapply wp_lin_approxv; [exact C|exact W5|look|look|exact El|exact Hne|exact Hn|]. intros h6 W6 A6. rewrite A5 in A6. clear A4 A5.
  wbind. dele k1 V1 B1. wbind. unfold free. cbn [drop_ref]. dele k2 V2 B2. wbind. dele k3 V3 B3. apply wp_ret. apply HQ; assumption.
Qed.
Lemma wp_laplacian fv g h x xs (Q : F -> heap F -> Prop) : computes fv g -> wf h -> abs h !! x = Some (AVec xs) -> Z.of_nat (length xs * length xs) <= int_max ->
  (forall h', wf h' -> abs h' = abs h -> Q (lsum (length xs) (fun i => d2 g xs i i)) h') -> wp (laplacian fv (Some x)) h Q.
Proof.
  intros C W A Hn HQ. unfold laplacian. wbind. eapply wp_hessian; [exact C|exact W|exact A|exact Hn|]. intros o h1 W1 N1 A1.
  wbind. eapply wp_m_size; [look|]. cbn [fst snd].
  wbind. eapply (wp_for_acc_n (fun i acc hi => hi = h1 /\ acc = lsum i (fun i => d2 g xs i i))); [split; reflexivity| |].
  - intros i acc hi Hi [-> ->]. wbind. eapply wp_m_get; [exact W1|look|]. rewrite decide_True by lia. apply wp_ret. split; [reflexivity|]. rewrite Nat2Z.id. symmetry. exact (lsum_S i (fun i => d2 g xs i i)).
  - intros acc hi [-> ->]. wbind. dele k3 V3 B3. apply wp_ret. apply HQ; assumption.
Qed.
Lemma wp_cubic_approxv fv g h c x cs xs (Q : F -> heap F -> Prop) : computes fv g -> wf h -> abs h !! c = Some (AVec cs) -> abs h !! x = Some (AVec xs) -> length xs = length cs -> cs <> [] ->
  Z.of_nat (length cs * (length cs * length cs)) <= int_max ->
  (forall h' q, wf h' -> abs h' = abs h ->
     Q (s_add (s_add (s_add (g cs) (s_add s_zero (s_mul (d1 g cs 0) (s_sub (nth 0 xs s_zero) (nth 0 cs s_zero)))))
          (s_mul s_half (qform (length cs) (d2 g cs) (fun j => nth j (diffs xs cs) s_zero)))) (s_mul (s_of_Z 0) q)) h') -> wp (cubic_approxv fv (Some c) (Some x)) h Q.
Proof.
  intros C W Ac Ax El Hne Hn3 HQ. assert (0 < length cs)%nat as Hp by (destruct cs; [congruence|cbn; lia]).
  assert (Z.of_nat (length cs * length cs) <= int_max) as Hn by nia. unfold cubic_approxv.
  wbind. apply wp_deref_Some.
  wbind. eapply wp_v_op2n; [exact W|look|look| |intros E; congruence]. intros _ d h1 W1 N1 A1. fold (diffs xs cs) in A1.
  assert (length (diffs xs cs) = length cs) as Ed by (unfold diffs; rewrite zip_with_length; lia).
  wbind. eapply wp_row_of; [exact W1|look|intros E; rewrite E in Ed; cbn in Ed; lia|]. rewrite Ed. new_as md h2 W2 N2 A2.
  wbind. eapply wp_third_order; [exact C|exact W2|look|exact Hn3|]. new_as t h3 W3 N3 A3.
  wbind. eapply wp_t_vec_mult; [exact W3|look|look|exact Ed|exact Hn|]. new_as rm h4 W4 N4 A4.
  wbind. eapply wp_quad_form with (n := length cs); [exact W4|look|look|exact Hp|]. intros h5 W5 A5. rewrite A4 in A5. clear A4.
  wbind. dele k0 V0 B0.
  wbind. eapply wp_quad_approxv; [exact C|exact V0|look|look|exact El|exact Hne|exact Hn|]. intros h6 W6 A6. rewrite B0 in A6. clear B0.
  wbind. dele k1 V1 B1. wbind. dele k2 V2 B2. wbind. unfold free. cbn [drop_ref]. dele k3 V3 B3. apply wp_ret. apply HQ; assumption.
Qed.
(** For two variables. *)
Definition verdict (v d : F) : String.string :=
  if s_lt s_zero v && s_lt s_zero d then "min"%string
  else if s_lt v s_zero && s_lt s_zero d then "max"%string
  else if s_lt d s_zero then "saddle"%string else "test was inconclusive"%string.
Lemma wp_derivative_test other fv g h x xs (Q : String.string -> heap F -> Prop) : computes fv g -> wf h -> abs h !! x = Some (AVec xs) -> length xs = 2%nat ->
  (forall h', wf h' -> abs h' = abs h ->
     Q (verdict (d2 g xs 0 0) (s_sub (s_mul (d2 g xs 0 0) (d2 g xs 1 1)) (s_mul (d2 g xs 0 1) (d2 g xs 1 0)))) h') -> wp (derivative_test other fv (Some x)) h Q.
Proof.
  intros C W A El HQ. unfold derivative_test. wbind. eapply wp_hessian; [exact C|exact W|exact A|rewrite El; cbn; unfold int_max; lia|]. rewrite El. intros o h1 W1 N1 A1.
  wbind. eapply wp_m_size; [look|]. cbn [fst snd]. change (Z.of_nat 2) with 2. rewrite Z.eqb_refl.
  wbind. wbind. unfold m_det. wbind. eapply wp_m_size; [look|]. cbn [fst snd]. change (-1 =? -1) with true. change (Z.of_nat 2) with 2. cbv iota. cbn [m_detb]. rewrite Z.eqb_refl.
  do 4 (wbind; eapply wp_m_get; [exact W1|look|]; rewrite decide_True by lia). apply wp_ret.
  wbind. eapply (wp_num_diff2v fv g h1 x xs 0 0); [exact C|exact W1|look|lia|lia|]. intros h2 W2 A2. apply wp_ret. rewrite A1 in A2. clear A1.
  wbind. dele k3 V3 B3. apply wp_ret. apply HQ; assumption.
Qed.
End numproofs.
