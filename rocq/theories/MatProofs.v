(** Proofs about the matrix model, part 1: addressing, storage, element-wise operations. *)
From Verif Require Export VecProofs2 Mat MatSpec.
From Coq Require Import ZifyBool ZifyNat.
Ltac Zify.zify_post_hook ::= Z.to_euclidean_division_equations.

Section mlist.
Context {A : Type}.
Implicit Types (f g : nat -> nat -> A) (c r i j k : nat).

Lemma mlist_length c r f : length (mlist c r f) = (r * c)%nat.
Proof. unfold mlist. rewrite fmap_length, seq_length. reflexivity. Qed.

Lemma idx_lt c r i j : (i < r)%nat -> (j < c)%nat -> (i * c + j < r * c)%nat.
Proof. intros. nia. Qed.

Lemma idx_div c i j : (j < c)%nat -> ((i * c + j) / c = i)%nat.
Proof. intros. rewrite Nat.div_add_l by lia. rewrite Nat.div_small by lia. lia. Qed.
Lemma idx_mod c i j : (j < c)%nat -> ((i * c + j) mod c = j)%nat.
Proof. intros. rewrite Nat.add_comm, Nat.mod_add by lia. apply Nat.mod_small. lia. Qed.

Lemma idx_inv c r k : (k < r * c)%nat -> (k / c < r)%nat /\ (k mod c < c)%nat /\ k = (k / c * c + k mod c)%nat.
Proof.
  intros Hk. assert (c <> 0)%nat by (intros ->; lia).
  split; [apply Nat.div_lt_upper_bound; lia|]. split; [apply Nat.mod_upper_bound; lia|].
  rewrite (Nat.div_mod k c) at 1 by lia. lia.
Qed.

Lemma mlist_lookup_flat c r f k : (k < r * c)%nat -> mlist c r f !! k = Some (f (k / c) (k mod c))%nat.
Proof. intros Hk. unfold mlist. rewrite list_lookup_fmap, lookup_seq_lt by lia. reflexivity. Qed.

Lemma mlist_lookup c r f i j : (i < r)%nat -> (j < c)%nat -> mlist c r f !! (i * c + j)%nat = Some (f i j).
Proof. intros Hi Hj. rewrite mlist_lookup_flat by (apply idx_lt; assumption). rewrite idx_div, idx_mod by assumption. reflexivity. Qed.

Lemma mlist_ext c r f g : (forall i j, (i < r)%nat -> (j < c)%nat -> f i j = g i j) -> mlist c r f = mlist c r g.
Proof.
  intros E. apply list_eq. intros k. destruct (decide (k < r * c)%nat) as [Hk|Hk].
  - rewrite !mlist_lookup_flat by assumption. destruct (idx_inv c r k Hk) as (? & ? & _). f_equal. auto.
  - rewrite !lookup_ge_None_2 by (rewrite mlist_length; lia). reflexivity.
Qed.
Lemma mlist_inj c r f g : mlist c r f = mlist c r g -> forall i j, (i < r)%nat -> (j < c)%nat -> f i j = g i j.
Proof. intros E i j Hi Hj. pose proof (mlist_lookup c r f i j Hi Hj) as E1. rewrite E, mlist_lookup in E1 by assumption. congruence. Qed.

Lemma mlist_insert c r f i j v : (i < r)%nat -> (j < c)%nat ->
  <[(i * c + j)%nat := v]> (mlist c r f) = mlist c r (fun i' j' => if decide (i' = i /\ j' = j) then v else f i' j').
Proof.
  intros Hi Hj. apply list_eq. intros k. destruct (decide (k < r * c)%nat) as [Hk|Hk].
  - rewrite (mlist_lookup_flat c r _ k) by assumption. destruct (idx_inv c r k Hk) as (H1 & H2 & H3).
    destruct (decide (k / c = i /\ k mod c = j)%nat) as [[E1 E2]|E].
    + replace k with (i * c + j)%nat by congruence. apply list_lookup_insert. rewrite mlist_length. apply idx_lt; assumption.
    + rewrite list_lookup_insert_ne; [apply mlist_lookup_flat; assumption|].
      intros E'. apply E. rewrite <- E'. rewrite idx_div, idx_mod by assumption. auto.
  - rewrite !lookup_ge_None_2; [reflexivity|rewrite mlist_length; lia|rewrite insert_length, mlist_length; lia].
Qed.

Lemma mlist_eta (d : A) c r (xs : list A) : length xs = (r * c)%nat -> xs = mlist c r (fun i j => nth (i * c + j) xs d).
Proof.
  intros E. apply list_eq. intros k. destruct (decide (k < r * c)%nat) as [Hk|Hk].
  - rewrite mlist_lookup_flat by assumption. destruct (idx_inv c r k Hk) as (_ & _ & <-).
    destruct (lookup_lt_is_Some_2 xs k) as [x Hx]; [lia|]. rewrite Hx. f_equal. symmetry. apply nth_lookup_Some. exact Hx.
  - rewrite !lookup_ge_None_2; [reflexivity|rewrite mlist_length; lia|lia].
Qed.

Lemma mlist_const c r (v : A) : mlist c r (fun _ _ => v) = replicate (r * c) v.
Proof.
  apply list_eq. intros k. destruct (decide (k < r * c)%nat) as [Hk|Hk].
  - rewrite mlist_lookup_flat, lookup_replicate_2 by assumption. reflexivity.
  - rewrite !lookup_ge_None_2; [reflexivity|rewrite replicate_length; lia|rewrite mlist_length; lia].
Qed.
Lemma mlist_nil_c r f : mlist 0 r f = [].
Proof. unfold mlist. rewrite Nat.mul_0_r. reflexivity. Qed.
Lemma mlist_nil_r c f : mlist c 0 f = [].
Proof. reflexivity. Qed.
End mlist.

Lemma mlist_fmap {A B} (h : A -> B) c r (f : nat -> nat -> A) : h <$> mlist c r f = mlist c r (fun i j => h (f i j)).
Proof. unfold mlist. rewrite <- list_fmap_compose. reflexivity. Qed.
Lemma mlist_zip {A B C} (h : A -> B -> C) c r (f : nat -> nat -> A) (g : nat -> nat -> B) :
  zip_with h (mlist c r f) (mlist c r g) = mlist c r (fun i j => h (f i j) (g i j)).
Proof.
  apply list_eq. intros k. destruct (decide (k < r * c)%nat) as [Hk|Hk].
  - rewrite lookup_zip_with, !mlist_lookup_flat by assumption. reflexivity.
  - rewrite !lookup_ge_None_2; [reflexivity|rewrite mlist_length; lia|rewrite zip_with_length, !mlist_length; lia].
Qed.

Section matproofs.
Context {F : Type} `{Scalar F}.
Implicit Types (h : heap F) (l a b : loc) (xs ys : list F).

Lemma wp_m_size h l x y cs (Q : Z * Z -> heap F -> Prop) : abs h !! l = Some (SMat x y, cs) -> Q (x, y) h -> wp (m_size l) h Q.
Proof. intros Ha HQ. unfold m_size. wbind. eapply wp_get_obj; [exact Ha|]. intros p Hp. cbn. exact HQ. Qed.

Lemma wp_m_data_size h l x y cs (Q : Z -> heap F -> Prop) : abs h !! l = Some (SMat x y, cs) -> Q (x * y) h -> wp (m_data_size l) h Q.
Proof. intros Ha HQ. unfold m_data_size. wbind. eapply wp_m_size; [exact Ha|]. exact HQ. Qed.

Lemma mat_len h l x y cs : wf h -> abs h !! l = Some (SMat x y, cs) -> x * y = Z.of_nat (length cs) /\ x * y <= int_max.
Proof. intros Hwf Ha. destruct (wf_abs_len h l _ _ Hwf Ha) as [H1 H2]. simpl in *. lia. Qed.

Lemma amat_len h l c r xs : wf h -> abs h !! l = Some (AMat c r xs) -> length xs = (r * c)%nat /\ Z.of_nat (r * c) <= int_max.
Proof. intros Hwf Ha. destruct (mat_len h l _ _ _ Hwf Ha) as [H1 H2]. rewrite fmap_length in H1. lia. Qed.

Lemma wp_m_new h (Q : loc -> heap F -> Prop) : wf h ->
  (forall r h', wf h' -> abs h !! r = None -> abs h' = <[r := (SMat 0 0, [])]> (abs h) ->
    (forall l, l <> r -> ptr_of h' l = ptr_of h l) -> Q r h') ->
  wp m_new h Q.
Proof.
  intros Hwf HQ. unfold m_new. apply wp_new; [exact Hwf|reflexivity|].
  intros r h' W N O A. apply HQ; auto. intros l Hl. unfold ptr_of. rewrite O, lookup_insert_ne by congruence. reflexivity.
Qed.

Lemma wp_m_resize h l sh cs x y (Q : unit -> heap F -> Prop) : wf h -> abs h !! l = Some (sh, cs) -> 0 <= x * y <= int_max ->
  (forall h', wf h' -> abs h' = <[l := (SMat x y, list.resize (Z.to_nat (x * y)) None cs)]> (abs h) ->
     (forall l', l' <> l -> ptr_of h' l' = ptr_of h l') -> Q tt h') ->
  wp (m_resize l (x, y)) h Q.
Proof.
  intros Hwf Ha Hn HQ. unfold m_resize. cbn [fst snd]. wbind. apply wp_chk; [unfold int_max in *; lia|].
  destruct (Z.eqb_spec (x * y) 0) as [E|Hne].
  - eapply wp_obj_free; [exact Hwf|exact Ha|exact E|]. intros h' W A P. apply HQ; auto.
    rewrite E. change (Z.to_nat 0) with 0%nat. rewrite resize_0. exact A.
  - eapply wp_obj_realloc; [exact Hwf|exact Ha|simpl; lia|]. intros h' W A P. apply HQ; auto.
Qed.

Lemma wp_m_resize_if h l x0 y0 cs x y (Q : unit -> heap F -> Prop) : wf h -> abs h !! l = Some (SMat x0 y0, cs) -> 0 <= x * y <= int_max ->
  (forall h', wf h' -> abs h' = <[l := (SMat x y, list.resize (Z.to_nat (x * y)) None cs)]> (abs h) ->
     (forall l', l' <> l -> ptr_of h' l' = ptr_of h l') -> Q tt h') ->
  wp (m_resize_if l (x, y)) h Q.
Proof.
  intros Hwf Ha Hn HQ. unfold m_resize_if. wbind. eapply wp_m_size; [exact Ha|]. unfold size_eq. cbn [fst snd].
  destruct (Z.eqb_spec x0 x) as [->|Hx]; [destruct (Z.eqb_spec y0 y) as [->|Hy]|]; cbn [andb].
  - apply wp_ret. apply HQ; auto. destruct (mat_len h l _ _ _ Hwf Ha) as [H1 _].
    rewrite resize_same by lia. rewrite insert_id; auto.
  - eapply wp_m_resize; eauto.
  - eapply wp_m_resize; eauto.
Qed.

(** Resizing to the size it already has (as an object of any aliasing) keeps an operand. *)
Lemma m_resize_operand h h' l x0 y0 cs a x y ys : wf h -> abs h !! l = Some (SMat x0 y0, cs) -> abs h !! a = Some (SMat x y, Some <$> ys) ->
  abs h' = <[l := (SMat x y, list.resize (Z.to_nat (x * y)) None cs)]> (abs h) ->
  abs h' !! a = Some (SMat x y, Some <$> ys).
Proof.
  intros Hwf Hl Ha A. rewrite A. destruct (decide (a = l)) as [->|Hne].
  - rewrite lookup_insert. assert (E : (SMat x0 y0, cs) = (SMat x y, Some <$> ys)) by congruence. injection E as -> -> ->.
    rewrite resize_same; [reflexivity|]. destruct (mat_len h l _ _ _ Hwf Hl) as [H1 _]. lia.
  - rewrite lookup_insert_ne by congruence. exact Ha.
Qed.

(** ** element_get / element_set *)
Lemma wp_m_get h l c r f y x (Q : F -> heap F -> Prop) : wf h -> abs h !! l = Some (Mat c r f) ->
  Q (if decide (0 <= y < Z.of_nat r /\ 0 <= x < Z.of_nat c) then f (Z.to_nat y) (Z.to_nat x) else s_zero) h ->
  wp (m_get l y x) h Q.
Proof.
  intros Hwf Ha HQ. unfold m_get. wbind. eapply wp_m_size; [exact Ha|]. cbv beta iota.
  destruct (decide (0 <= y < Z.of_nat r /\ 0 <= x < Z.of_nat c)) as [[Hy Hx]|Hn].
  - replace ((x <? 0) || (Z.of_nat c <=? x)) with false by lia. replace ((y <? 0) || (Z.of_nat r <=? y)) with false by lia.
    wbind. eapply wp_data_ptr; [exact Ha|]. intros p Hp.
    eapply wp_load; [exact Hwf|exact Hp|exact Ha|nia| |exact HQ].
    replace (Z.to_nat (y * Z.of_nat c + x)) with (Z.to_nat y * c + Z.to_nat x)%nat by nia.
    apply fmap_Some_lookup, mlist_lookup; lia.
  - destruct ((x <? 0) || (Z.of_nat c <=? x)) eqn:E1; [exact HQ|].
    replace ((y <? 0) || (Z.of_nat r <=? y)) with true by lia. exact HQ.
Qed.

(** Writing in a matrix whose cells may be partly uninitialised. *)
Definition MatP (c r : nat) (g : nat -> nat -> cell F) : aobj F := (SMat (Z.of_nat c) (Z.of_nat r), mlist c r g).
Definition upd {A} (g : nat -> nat -> A) (i j : nat) (v : A) : nat -> nat -> A :=
  fun i' j' => if decide (i' = i /\ j' = j) then v else g i' j'.

Lemma Mat_MatP c r (f : nat -> nat -> F) : Mat c r f = MatP c r (fun i j => Some (f i j)).
Proof. unfold Mat, AMat, MatP. rewrite mlist_fmap. reflexivity. Qed.
Lemma MatP_ext c r g g' : (forall i j, (i < r)%nat -> (j < c)%nat -> g i j = g' i j) -> MatP c r g = MatP c r g'.
Proof. intros E. unfold MatP. f_equal. apply mlist_ext. exact E. Qed.
Lemma Mat_ext c r (f f' : nat -> nat -> F) : (forall i j, (i < r)%nat -> (j < c)%nat -> f i j = f' i j) -> Mat c r f = Mat c r f'.
Proof. intros E. rewrite !Mat_MatP. apply MatP_ext. intros. f_equal. auto. Qed.
Lemma Mat_inj c r (f f' : nat -> nat -> F) : Mat c r f = Mat c r f' -> forall i j, (i < r)%nat -> (j < c)%nat -> f i j = f' i j.
Proof.
  intros E i j Hi Hj. rewrite !Mat_MatP in E. injection E as E. eapply mlist_inj in E; eauto. congruence.
Qed.
Lemma cells_MatP h l c r cs : wf h -> abs h !! l = Some (SMat (Z.of_nat c) (Z.of_nat r), cs) ->
  exists g, abs h !! l = Some (MatP c r g).
Proof.
  intros Hwf Ha. exists (fun i j => nth (i * c + j) cs None). rewrite Ha. unfold MatP. do 2 f_equal. apply mlist_eta.
  destruct (mat_len h l _ _ _ Hwf Ha) as [H1 _]. lia.
Qed.
Lemma amat_Mat h l c r xs : wf h -> abs h !! l = Some (AMat c r xs) -> AMat c r xs = Mat c r (fun i j => nth (i * c + j) xs s_zero).
Proof. intros Hwf Ha. unfold Mat. f_equal. apply mlist_eta. eapply amat_len; eauto. Qed.

Lemma wp_m_set h l c r g y x v (Q : unit -> heap F -> Prop) : wf h -> abs h !! l = Some (MatP c r g) ->
  (forall h', wf h' -> h_obj h' = h_obj h -> abs h' = (if decide (0 <= y < Z.of_nat r /\ 0 <= x < Z.of_nat c) then
       <[l := MatP c r (upd g (Z.to_nat y) (Z.to_nat x) (Some v))]> (abs h) else abs h) -> Q tt h') ->
  wp (m_set l y x v) h Q.
Proof.
  intros Hwf Ha HQ. unfold m_set. wbind. eapply wp_m_size; [exact Ha|]. cbv beta iota.
  destruct (decide (0 <= y < Z.of_nat r /\ 0 <= x < Z.of_nat c)) as [[Hy Hx]|Hn].
  - replace ((x <? 0) || (Z.of_nat c <=? x)) with false by lia. replace ((y <? 0) || (Z.of_nat r <=? y)) with false by lia.
    wbind. eapply wp_data_ptr; [exact Ha|]. intros p Hp.
    assert (Hi : (Z.to_nat y * c + Z.to_nat x < r * c)%nat) by (apply idx_lt; lia).
    eapply wp_store; [exact Hwf|exact Hp|exact Ha| |].
    { rewrite mlist_length. nia. }
    intros h' W O _ A. apply HQ; auto. rewrite A. unfold MatP. do 2 f_equal.
    replace (Z.to_nat (y * Z.of_nat c + x)) with (Z.to_nat y * c + Z.to_nat x)%nat by nia.
    apply mlist_insert; lia.
  - destruct ((x <? 0) || (Z.of_nat c <=? x)) eqn:E1; [apply HQ; auto|].
    replace ((y <? 0) || (Z.of_nat r <=? y)) with true by lia. apply HQ; auto.
Qed.

(** ** fill *)
Lemma wp_m_fill h l x y cs v (Q : unit -> heap F -> Prop) : wf h -> abs h !! l = Some (SMat x y, cs) ->
  (forall h', wf h' -> h_obj h' = h_obj h -> abs h' = <[l := (SMat x y, replicate (length cs) (Some v))]> (abs h) -> Q tt h') ->
  wp (m_fill l v) h Q.
Proof.
  intros Hwf Ha HQ. unfold m_fill. wbind. eapply wp_data_ptr; [exact Ha|]. intros p Hp.
  destruct (mat_len h l _ _ _ Hwf Ha) as [H1 H2].
  destruct p as [q|].
  - wbind. eapply wp_m_data_size; [exact Ha|].
    eapply wp_map_loop with (new := replicate (length cs) v); [exact Hwf|exact Hp|exact Ha|rewrite replicate_length; reflexivity|lia| |].
    + intros i hi w Q' Hi Hm Hw Hs. apply lookup_replicate in Hw as [<- _]. exact Hs.
    + intros h' W O A. apply HQ; auto. rewrite A, fmap_replicate. reflexivity.
  - apply wp_ret. apply (wf_ptr_nil h l _ _ Hwf Ha) in Hp as ->. apply HQ; auto. cbn. rewrite insert_id; auto.
Qed.

Lemma wp_m_fill_mat h l c r cs v (Q : unit -> heap F -> Prop) : wf h -> abs h !! l = Some (SMat (Z.of_nat c) (Z.of_nat r), cs) ->
  (forall h', wf h' -> h_obj h' = h_obj h -> abs h' = <[l := Mat c r (fun _ _ => v)]> (abs h) -> Q tt h') ->
  wp (m_fill l v) h Q.
Proof.
  intros Hwf Ha HQ. eapply wp_m_fill; [exact Hwf|exact Ha|]. intros h' W O A. apply HQ; auto. rewrite A.
  unfold Mat, AMat. rewrite mlist_const, fmap_replicate. do 3 f_equal. destruct (mat_len h l _ _ _ Hwf Ha). lia.
Qed.

(** ** Element-wise templates *)
Lemma amat_map (f : F -> F) c r xs : AMat c r (f <$> xs) = (SMat (Z.of_nat c) (Z.of_nat r), Some <$> (f <$> xs)) :> aobj F.
Proof. reflexivity. Qed.

Lemma wp_m_map f h l c r xs (Q : unit -> heap F -> Prop) : wf h -> abs h !! l = Some (AMat c r xs) ->
  (forall h', wf h' -> abs h' = <[l := AMat c r (f <$> xs)]> (abs h) -> Q tt h') -> wp (m_map f l) h Q.
Proof.
  intros Hwf Ha HQ. destruct (amat_len h l _ _ _ Hwf Ha) as [Hl _].
  unfold m_map. wbind. eapply wp_m_data_size; [exact Ha|].
  wbind. eapply wp_data_ptr; [exact Ha|]. intros p Hp.
  replace (Z.of_nat c * Z.of_nat r) with (Z.of_nat (length xs)) by lia.
  eapply wp_loop1; [exact Hwf|exact Ha|exact Hp|exact Ha|exact Hp|].
  intros h' W O A. apply HQ; auto.
Qed.

Lemma wp_m_set_from_mat h l x0 y0 cs b c r ys (Q : unit -> heap F -> Prop) : wf h -> abs h !! l = Some (SMat x0 y0, cs) -> abs h !! b = Some (AMat c r ys) ->
  (forall h', wf h' -> abs h' = <[l := AMat c r ys]> (abs h) -> Q tt h') -> wp (m_set_from_mat l b) h Q.
Proof.
  intros Hwf Hl Hb HQ. destruct (amat_len h b _ _ _ Hwf Hb) as [Hlen Hle].
  unfold m_set_from_mat. wbind. eapply wp_m_size; [exact Hb|].
  wbind. eapply wp_m_resize; [exact Hwf|exact Hl|lia|]. intros h1 W1 A1 _.
  pose proof (m_resize_operand h h1 l x0 y0 cs b _ _ ys Hwf Hl Hb A1) as Hb1.
  assert (Hl1 := lookup_insert (abs h) l (SMat (Z.of_nat c) (Z.of_nat r), list.resize (Z.to_nat (Z.of_nat c * Z.of_nat r)) None cs)).
  rewrite <- A1 in Hl1.
  wbind. eapply wp_m_data_size; [exact Hb1|].
  wbind. eapply wp_data_ptr; [exact Hl1|]. intros p Hp.
  wbind. eapply wp_data_ptr; [exact Hb1|]. intros q Hq.
  replace (Z.of_nat c * Z.of_nat r) with (Z.of_nat (length ys)) by lia.
  eapply (wp_loop1 h1 b q ys l p _ _ (fun x => x)); [exact W1|exact Hb1|exact Hq|exact Hl1|exact Hp|].
  intros h' W O A. apply HQ; auto. rewrite A, A1, insert_insert, list_fmap_id. reflexivity.
Qed.

Lemma wp_m_duplicate h l c r xs (Q : loc -> heap F -> Prop) : wf h -> abs h !! l = Some (AMat c r xs) ->
  (forall d h', wf h' -> abs h !! d = None -> abs h' = <[d := AMat c r xs]> (abs h) -> Q d h') -> wp (m_duplicate l) h Q.
Proof.
  intros Hwf Ha HQ. unfold m_duplicate. wbind. apply wp_m_new; [exact Hwf|]. intros d h1 W1 N1 A1 _.
  assert (l <> d) by congruence.
  wbind. eapply wp_m_set_from_mat; [exact W1|rewrite A1; apply lookup_insert|rewrite A1, lookup_insert_ne by congruence; exact Ha|].
  intros h2 W2 A2. apply wp_ret. apply HQ; auto. rewrite A2, A1, insert_insert. reflexivity.
Qed.

Lemma wp_m_mapn f h l c r xs (Q : loc -> heap F -> Prop) : wf h -> abs h !! l = Some (AMat c r xs) ->
  (forall d h', wf h' -> abs h !! d = None -> abs h' = <[d := AMat c r (f <$> xs)]> (abs h) -> Q d h') -> wp (m_mapn f l) h Q.
Proof.
  intros Hwf Ha HQ. destruct (amat_len h l _ _ _ Hwf Ha) as [Hlen Hle].
  unfold m_mapn. wbind. apply wp_m_new; [exact Hwf|]. intros d h1 W1 N1 A1 _.
  assert (l <> d) as Hne by congruence.
  assert (Ha1 : abs h1 !! l = Some (AMat c r xs)) by (rewrite A1, lookup_insert_ne by congruence; exact Ha).
  wbind. eapply wp_m_size; [exact Ha1|].
  wbind. eapply wp_m_resize; [exact W1|rewrite A1; apply lookup_insert|lia|]. intros h2 W2 A2 _.
  assert (Ha2 : abs h2 !! l = Some (AMat c r xs)) by (rewrite A2, lookup_insert_ne by congruence; exact Ha1).
  wbind. eapply wp_m_data_size; [exact Ha2|].
  wbind. eapply wp_data_ptr; [exact Ha2|]. intros p Hp.
  wbind. eapply wp_data_ptr; [rewrite A2; apply lookup_insert|]. intros po Hpo.
  wbind. replace (Z.of_nat c * Z.of_nat r) with (Z.of_nat (length xs)) by lia.
  eapply wp_loop1 with (la := l) (lo := d); [exact W2|exact Ha2|exact Hp|rewrite A2; apply lookup_insert|exact Hpo|].
  intros h3 W3 O3 A3. apply wp_ret. apply HQ; auto. rewrite A3, A2, A1, !insert_insert. reflexivity.
Qed.

Lemma wp_m_mapn_dup f h l c r xs (Q : loc -> heap F -> Prop) : wf h -> abs h !! l = Some (AMat c r xs) ->
  (forall d h', wf h' -> abs h !! d = None -> abs h' = <[d := AMat c r (f <$> xs)]> (abs h) -> Q d h') -> wp (m_mapn_dup f l) h Q.
Proof.
  intros Hwf Ha HQ. unfold m_mapn_dup. wbind. eapply wp_m_duplicate; [exact Hwf|exact Ha|]. intros d h1 W1 N1 A1.
  wbind. eapply wp_m_map; [exact W1|rewrite A1; apply lookup_insert|]. intros h2 W2 A2. apply wp_ret. apply HQ; auto.
  rewrite A2, A1, insert_insert. reflexivity.
Qed.

Lemma wp_m_mapb f h l x0 y0 cs a c r xs (Q : unit -> heap F -> Prop) : wf h -> abs h !! l = Some (SMat x0 y0, cs) -> abs h !! a = Some (AMat c r xs) ->
  (forall h', wf h' -> abs h' = <[l := AMat c r (f <$> xs)]> (abs h) -> Q tt h') -> wp (m_mapb f l (Some a)) h Q.
Proof.
  intros Hwf Hl Ha HQ. destruct (amat_len h a _ _ _ Hwf Ha) as [Hlen Hle].
  unfold m_mapb. wbind. eapply wp_m_size; [exact Ha|].
  wbind. eapply wp_m_resize_if; [exact Hwf|exact Hl|lia|]. intros h1 W1 A1 _.
  pose proof (m_resize_operand h h1 l x0 y0 cs a _ _ xs Hwf Hl Ha A1) as Ha1.
  assert (Hl1 := lookup_insert (abs h) l (SMat (Z.of_nat c) (Z.of_nat r), list.resize (Z.to_nat (Z.of_nat c * Z.of_nat r)) None cs)).
  rewrite <- A1 in Hl1.
  wbind. eapply wp_m_data_size; [exact Hl1|].
  wbind. eapply wp_data_ptr; [exact Ha1|]. intros q Hq.
  wbind. eapply wp_data_ptr; [exact Hl1|]. intros p Hp.
  replace (Z.of_nat c * Z.of_nat r) with (Z.of_nat (length xs)) by lia.
  eapply (wp_loop1 h1 a q xs l p); [exact W1|exact Ha1|exact Hq|exact Hl1|exact Hp|].
  intros h' W O A. apply HQ; auto. rewrite A, A1, insert_insert. reflexivity.
Qed.

(** scalar_multiplyb / scalar_addb: the argument gives only the size; when that is also the receiver's
    size the receiver's own elements are mapped. *)
Lemma wp_m_mapb_own f h l a c r xs ys (Q : unit -> heap F -> Prop) : wf h -> abs h !! l = Some (AMat c r xs) -> abs h !! a = Some (AMat c r ys) ->
  (forall h', wf h' -> abs h' = <[l := AMat c r (f <$> xs)]> (abs h) -> Q tt h') -> wp (m_mapb_own f l (Some a)) h Q.
Proof.
  intros Hwf Hl Ha HQ. destruct (amat_len h l _ _ _ Hwf Hl) as [Hlen Hle].
  unfold m_mapb_own. wbind. eapply wp_m_size; [exact Ha|].
  wbind. eapply wp_m_resize_if; [exact Hwf|exact Hl|lia|]. intros h1 W1 A1 _.
  pose proof (m_resize_operand h h1 l _ _ _ l _ _ xs Hwf Hl Hl A1) as Hl1.
  eapply wp_m_map; [exact W1|exact Hl1|]. intros h2 W2 A2. apply HQ; auto. rewrite A2, A1, insert_insert. reflexivity.
Qed.

Lemma size_eq_true c r c' r' : size_eq (Z.of_nat c, Z.of_nat r) (Z.of_nat c', Z.of_nat r') = bool_decide (c = c' /\ r = r').
Proof. unfold size_eq. cbn [fst snd]. case_bool_decide; lia. Qed.

Lemma wp_m_op2 f h l b c r xs ys (Q : unit -> heap F -> Prop) : wf h ->
  abs h !! l = Some (AMat c r xs) -> abs h !! b = Some (AMat c r ys) ->
  (forall h', wf h' -> abs h' = <[l := AMat c r (zip_with f xs ys)]> (abs h) -> Q tt h') ->
  wp (m_op2 f l (Some b)) h Q.
Proof.
  intros Hwf Ha Hb HQ. destruct (amat_len h l _ _ _ Hwf Ha) as [Hlen Hle].
  unfold m_op2. wbind. eapply wp_m_size; [exact Ha|]. wbind. eapply wp_m_size; [exact Hb|].
  rewrite size_eq_true, bool_decide_true by auto. cbn [negb].
  wbind. eapply wp_data_ptr; [exact Hb|]. intros q Hq.
  wbind. eapply wp_data_ptr; [exact Ha|]. intros p Hp.
  wbind. eapply wp_m_data_size; [exact Ha|].
  replace (Z.of_nat c * Z.of_nat r) with (Z.of_nat (length xs)) by lia.
  eapply wp_loop2; [exact Hwf|exact Ha|exact Hp|exact Hb|exact Hq|exact Ha|exact Hp|].
  intros h' W O A. apply HQ; auto.
Qed.

Lemma wp_m_op2_mismatch f h l b c r c' r' xs ys (Q : unit -> heap F -> Prop) :
  abs h !! l = Some (AMat c r xs) -> abs h !! b = Some (AMat c' r' ys) -> (c, r) <> (c', r') -> Q tt h ->
  wp (m_op2 f l (Some b)) h Q.
Proof.
  intros Ha Hb Hne HQ. unfold m_op2. wbind. eapply wp_m_size; [exact Ha|]. wbind. eapply wp_m_size; [exact Hb|].
  rewrite size_eq_true, bool_decide_false by (intros [? ?]; congruence). exact HQ.
Qed.

Lemma wp_m_op2n f h l b c r xs ys (Q : option loc -> heap F -> Prop) : wf h ->
  abs h !! l = Some (AMat c r xs) -> abs h !! b = Some (AMat c r ys) ->
  (forall d h', wf h' -> abs h !! d = None -> abs h' = <[d := AMat c r (zip_with f xs ys)]> (abs h) -> Q (Some d) h') ->
  wp (m_op2n f l (Some b)) h Q.
Proof.
  intros Hwf Ha Hb HQ. destruct (amat_len h l _ _ _ Hwf Ha) as [Hlen Hle].
  unfold m_op2n. wbind. eapply wp_m_size; [exact Ha|]. wbind. eapply wp_m_size; [exact Hb|].
  rewrite size_eq_true, bool_decide_true by auto. cbn [negb].
  wbind. apply wp_m_new; [exact Hwf|]. intros d h1 W1 N1 A1 _.
  wbind. eapply wp_m_resize; [exact W1|rewrite A1; apply lookup_insert|lia|]. intros h2 W2 A2 _.
  assert (Ha2 : abs h2 !! l = Some (AMat c r xs)) by (rewrite A2, A1, !lookup_insert_ne by congruence; exact Ha).
  assert (Hb2 : abs h2 !! b = Some (AMat c r ys)) by (rewrite A2, A1, !lookup_insert_ne by congruence; exact Hb).
  wbind. eapply wp_data_ptr; [exact Ha2|]. intros p Hp.
  wbind. eapply wp_data_ptr; [exact Hb2|]. intros q Hq.
  wbind. eapply wp_data_ptr; [rewrite A2; apply lookup_insert|]. intros po Hpo.
  wbind. eapply wp_m_data_size; [exact Ha2|]. wbind.
  replace (Z.of_nat c * Z.of_nat r) with (Z.of_nat (length xs)) by lia.
  eapply wp_loop2 with (la := l) (lb := b) (lo := d); [exact W2|exact Ha2|exact Hp|exact Hb2|exact Hq|rewrite A2; apply lookup_insert|exact Hpo|].
  intros h3 W3 O3 A3. apply wp_ret. apply HQ; auto. rewrite A3, A2, A1, !insert_insert. reflexivity.
Qed.

Lemma wp_m_op2n_mismatch f h l b c r c' r' xs ys (Q : option loc -> heap F -> Prop) :
  abs h !! l = Some (AMat c r xs) -> abs h !! b = Some (AMat c' r' ys) -> (c, r) <> (c', r') -> Q None h ->
  wp (m_op2n f l (Some b)) h Q.
Proof.
  intros Ha Hb Hne HQ. unfold m_op2n. wbind. eapply wp_m_size; [exact Ha|]. wbind. eapply wp_m_size; [exact Hb|].
  rewrite size_eq_true, bool_decide_false by (intros [? ?]; congruence). exact HQ.
Qed.

Lemma wp_m_op2b f h l x0 y0 cs a b c r xs ys (Q : unit -> heap F -> Prop) : wf h ->
  abs h !! l = Some (SMat x0 y0, cs) -> abs h !! a = Some (AMat c r xs) -> abs h !! b = Some (AMat c r ys) ->
  (forall h', wf h' -> abs h' = <[l := AMat c r (zip_with f xs ys)]> (abs h) -> Q tt h') ->
  wp (m_op2b f l (Some a) (Some b)) h Q.
Proof.
  intros Hwf Hl Ha Hb HQ. destruct (amat_len h a _ _ _ Hwf Ha) as [Hlen Hle].
  unfold m_op2b. wbind. eapply wp_m_size; [exact Ha|]. wbind. eapply wp_m_size; [exact Hb|].
  rewrite size_eq_true, bool_decide_true by auto. cbn [negb].
  wbind. eapply wp_m_resize_if; [exact Hwf|exact Hl|lia|]. intros h1 W1 A1 _.
  pose proof (m_resize_operand h h1 l x0 y0 cs a _ _ xs Hwf Hl Ha A1) as Ha1.
  pose proof (m_resize_operand h h1 l x0 y0 cs b _ _ ys Hwf Hl Hb A1) as Hb1.
  assert (Hl1 := lookup_insert (abs h) l (SMat (Z.of_nat c) (Z.of_nat r), list.resize (Z.to_nat (Z.of_nat c * Z.of_nat r)) None cs)).
  rewrite <- A1 in Hl1.
  wbind. eapply wp_data_ptr; [exact Ha1|]. intros p Hp.
  wbind. eapply wp_data_ptr; [exact Hb1|]. intros q Hq.
  wbind. eapply wp_data_ptr; [exact Hl1|]. intros po Hpo.
  wbind. eapply wp_m_data_size; [exact Ha1|].
  replace (Z.of_nat c * Z.of_nat r) with (Z.of_nat (length xs)) by lia.
  eapply wp_loop2 with (la := a) (lb := b) (lo := l); [exact W1|exact Ha1|exact Hp|exact Hb1|exact Hq|exact Hl1|exact Hpo|].
  intros h' W O A. apply HQ; auto. rewrite A, A1, insert_insert. reflexivity.
Qed.

Lemma wp_m_op2b_mismatch f h l a b c r c' r' xs ys (Q : unit -> heap F -> Prop) :
  abs h !! a = Some (AMat c r xs) -> abs h !! b = Some (AMat c' r' ys) -> (c, r) <> (c', r') -> Q tt h ->
  wp (m_op2b f l (Some a) (Some b)) h Q.
Proof.
  intros Ha Hb Hne HQ. unfold m_op2b. wbind. eapply wp_m_size; [exact Ha|]. wbind. eapply wp_m_size; [exact Hb|].
  rewrite size_eq_true, bool_decide_false by (intros [? ?]; congruence). exact HQ.
Qed.

End matproofs.
