(** Proofs about the tensor model, part 1: sizes, addressing, element-wise operations. *)
From Verif Require Export MatProofs2 MatProofs3 Ten TenSpec.
From Coq Require Import ZifyBool ZifyNat.
Ltac Zify.zify_post_hook ::= Z.to_euclidean_division_equations.

Section tlist.
Context {A : Type}.
Implicit Types (T : nat -> nat -> nat -> A).
Lemma tlist_length x y z T : length (tlist x y z T) = (z * (y * x))%nat.
Proof. apply mlist_length. Qed.
Lemma tlist_lookup x y z T k j i : (k < z)%nat -> (j < y)%nat -> (i < x)%nat -> tlist x y z T !! (k * (y * x) + (j * x + i))%nat = Some (T k j i).
Proof. intros Hk Hj Hi. unfold tlist. rewrite mlist_lookup by (auto; apply idx_lt; auto). rewrite idx_div, idx_mod by auto. reflexivity. Qed.
(** Every flat position is that of exactly one entry. *)
Lemma tidx_inv x y z q : (q < z * (y * x))%nat -> exists k j i, (k < z)%nat /\ (j < y)%nat /\ (i < x)%nat /\ q = (k * (y * x) + (j * x + i))%nat.
Proof.
  intros Hq. destruct (idx_inv (y * x) z q Hq) as (H1 & H2 & H3). destruct (idx_inv x y _ H2) as (H4 & H5 & H6).
  exists (q / (y * x))%nat, (q mod (y * x) / x)%nat, (q mod (y * x) mod x)%nat. split; [exact H1|]. split; [exact H4|]. split; [exact H5|]. rewrite <- H6. exact H3.
Qed.
Lemma tidx_inj x y k j i k' j' i' : (j < y)%nat -> (i < x)%nat -> (j' < y)%nat -> (i' < x)%nat ->
  (k * (y * x) + (j * x + i) = k' * (y * x) + (j' * x + i'))%nat -> k = k' /\ j = j' /\ i = i'.
Proof.
  intros Hj Hi Hj' Hi' E. pose proof (idx_lt x y j i Hj Hi) as L. pose proof (idx_lt x y j' i' Hj' Hi') as L'.
  pose proof (idx_div (y * x) k _ L) as D. rewrite E, idx_div in D by exact L'. pose proof (idx_mod (y * x) k _ L) as M0. rewrite E, idx_mod in M0 by exact L'.
  pose proof (idx_div x j i Hi) as D2. rewrite <- M0, idx_div in D2 by exact Hi'. pose proof (idx_mod x j i Hi) as M2. rewrite <- M0, idx_mod in M2 by exact Hi'. auto.
Qed.
(** A flat list is the tensor of entries it holds. *)
Lemma tlist_eq x y z T (cs : list A) : length cs = (z * (y * x))%nat ->
  (forall k j i, (k < z)%nat -> (j < y)%nat -> (i < x)%nat -> cs !! (k * (y * x) + (j * x + i))%nat = Some (T k j i)) -> cs = tlist x y z T.
Proof.
  intros Hl Hc. apply list_eq. intros q. destruct (decide (q < z * (y * x))%nat) as [Hq|Hq].
  - destruct (tidx_inv x y z q Hq) as (k & j & i & Hk & Hj & Hi & ->). rewrite Hc, tlist_lookup by auto. reflexivity.
  - rewrite !lookup_ge_None_2; [reflexivity|rewrite tlist_length; lia|lia].
Qed.
Lemma tlist_ext x y z T T' : (forall k j i, (k < z)%nat -> (j < y)%nat -> (i < x)%nat -> T k j i = T' k j i) -> tlist x y z T = tlist x y z T'.
Proof. intros E. apply tlist_eq; [apply tlist_length|]. intros k j i Hk Hj Hi. rewrite tlist_lookup, E by auto. reflexivity. Qed.
Lemma tlist_inj x y z T T' : tlist x y z T = tlist x y z T' -> forall k j i, (k < z)%nat -> (j < y)%nat -> (i < x)%nat -> T k j i = T' k j i.
Proof. intros E k j i Hk Hj Hi. pose proof (tlist_lookup x y z T k j i Hk Hj Hi) as L. rewrite E, tlist_lookup in L by auto. congruence. Qed.
Lemma tlist_const x y z (v : A) : tlist x y z (fun _ _ _ => v) = replicate (z * (y * x)) v.
Proof. unfold tlist. apply (mlist_const (y * x) z v). Qed.
Lemma tlist_eta (d : A) x y z (cs : list A) : length cs = (z * (y * x))%nat -> cs = tlist x y z (fun k j i => nth (k * (y * x) + (j * x + i)) cs d).
Proof. intros Hl. apply tlist_eq; [exact Hl|]. intros k j i Hk Hj Hi. assert (k * (y * x) + (j * x + i) < length cs)%nat by (pose proof (idx_lt x y j i Hj Hi); rewrite Hl; apply idx_lt; auto). destruct (lookup_lt_is_Some_2 cs _ H) as [v Hv]. rewrite Hv. symmetry. f_equal. apply nth_lookup_Some. exact Hv. Qed.
End tlist.
Lemma tlist_fmap {A B} (h : A -> B) x y z (T : nat -> nat -> nat -> A) : h <$> tlist x y z T = tlist x y z (fun k j i => h (T k j i)).
Proof. unfold tlist. rewrite mlist_fmap. reflexivity. Qed.
Lemma tlist_zip {A B C} (h : A -> B -> C) x y z (T : nat -> nat -> nat -> A) (U : nat -> nat -> nat -> B) : zip_with h (tlist x y z T) (tlist x y z U) = tlist x y z (fun k j i => h (T k j i) (U k j i)).
Proof. unfold tlist. rewrite mlist_zip. reflexivity. Qed.

Section tenproofs.
Context {F : Type} `{Scalar F}.
Implicit Types (h : heap F) (l a b : loc) (xs ys : list F) (x y z : nat) (cs : list (option F)).

Lemma wp_t_size h l sx sy sz cs (Q : Z * Z * Z -> heap F -> Prop) : abs h !! l = Some (STen sx sy sz, cs) -> Q (sx, sy, sz) h -> wp (t_size l) h Q.
Proof. intros Ha HQ. unfold t_size. wbind. eapply wp_get_obj; [exact Ha|]. intros p Hp. cbn. exact HQ. Qed.
Notation S3 x y z := (STen (Z.of_nat x) (Z.of_nat y) (Z.of_nat z)).
Lemma ten_len h l x y z cs : wf h -> abs h !! l = Some (S3 x y z, cs) -> length cs = (z * (y * x))%nat /\ Z.of_nat (z * (y * x)) <= int_max.
Proof. intros W Ha. destruct (wf_abs_len h l _ _ W Ha) as [H1 H2]. cbn [shape_size] in *. lia. Qed.
Lemma ten_fits h l x y z cs : wf h -> abs h !! l = Some (S3 x y z, cs) -> (0 < z)%nat -> fits x y.
Proof. intros W Ha Hz. destruct (ten_len h l x y z cs W Ha) as [_ H2]. unfold fits. nia. Qed.
Lemma wp_t_zds h l x y z cs (Q : Z -> heap F -> Prop) : abs h !! l = Some (S3 x y z, cs) -> fits x y -> Q (Z.of_nat (y * x)) h -> wp (t_zds l) h Q.
Proof. intros Ha Hf HQ. unfold t_zds. wbind. eapply wp_t_size; [exact Ha|]. cbv beta iota zeta. unfold fits in Hf. replace (Z.of_nat x * Z.of_nat y) with (Z.of_nat (y * x)) by lia. apply wp_chk; [unfold int_max in *; lia|]. exact HQ. Qed.
Lemma wp_t_data_size h l x y z cs (Q : Z -> heap F -> Prop) : wf h -> abs h !! l = Some (S3 x y z, cs) -> fits x y -> Q (Z.of_nat (length cs)) h -> wp (t_data_size l) h Q.
Proof.
  intros W Ha Hf HQ. destruct (ten_len h l x y z cs W Ha) as [H1 H2]. unfold t_data_size. wbind. eapply wp_t_size; [exact Ha|]. cbv beta iota zeta. unfold fits in Hf. replace (Z.of_nat x * Z.of_nat y) with (Z.of_nat (y * x)) by lia.
  wbind. apply wp_chk; [unfold int_max in *; lia|]. replace (Z.of_nat (y * x) * Z.of_nat z) with (Z.of_nat (length cs)) by lia. apply wp_chk; [unfold int_max in *; lia|]. exact HQ.
Qed.
Lemma wp_t_new h (Q : loc -> heap F -> Prop) : wf h ->
  (forall r h', wf h' -> abs h !! r = None -> abs h' = <[r := (STen 0 0 0, [])]> (abs h) -> Q r h') -> wp t_new h Q.
Proof. intros Hwf HQ. unfold t_new. apply wp_new; [exact Hwf|reflexivity|]. intros r h' W N O A. apply HQ; auto. Qed.
Lemma wp_t_resize h l sh cs x y z (Q : unit -> heap F -> Prop) : wf h -> abs h !! l = Some (sh, cs) -> fits x y -> Z.of_nat (z * (y * x)) <= int_max ->
  (forall h', wf h' -> abs h' = <[l := (S3 x y z, list.resize (z * (y * x)) None cs)]> (abs h) -> Q tt h') ->
  wp (t_resize l (Z.of_nat x, Z.of_nat y, Z.of_nat z)) h Q.
Proof.
  intros Hwf Ha Hf Hn HQ. unfold fits in Hf. unfold t_resize. cbn [fst snd]. wbind. apply wp_chk; [unfold int_max in *; lia|]. wbind. apply wp_chk; [unfold int_max in *; lia|].
  destruct (Z.eqb_spec (Z.of_nat x * Z.of_nat y * Z.of_nat z) 0) as [E|Hne].
  - eapply wp_obj_free; [exact Hwf|exact Ha|exact E|]. intros h' W A P. apply HQ; auto. replace (z * (y * x))%nat with 0%nat by lia. rewrite resize_0. exact A.
  - eapply wp_obj_realloc; [exact Hwf|exact Ha|simpl; lia|]. intros h' W A P. apply HQ; auto. rewrite A. cbn [shape_size]. do 3 f_equal. lia.
Qed.
Lemma size3_eq_true x y z x' y' z' : size3_eq (Z.of_nat x, Z.of_nat y, Z.of_nat z) (Z.of_nat x', Z.of_nat y', Z.of_nat z') = bool_decide (x = x' /\ y = y' /\ z = z').
Proof. unfold size3_eq. cbn [fst snd]. case_bool_decide; lia. Qed.
Lemma wp_t_resize_if h l (x0 y0 z0 : Z) cs x y z (Q : unit -> heap F -> Prop) : wf h -> abs h !! l = Some (STen x0 y0 z0, cs) -> fits x y -> Z.of_nat (z * (y * x)) <= int_max ->
  (forall h', wf h' -> abs h' = <[l := (S3 x y z, list.resize (z * (y * x)) None cs)]> (abs h) -> Q tt h') ->
  wp (t_resize_if l (Z.of_nat x, Z.of_nat y, Z.of_nat z)) h Q.
Proof.
  intros Hwf Ha Hf Hn HQ. unfold t_resize_if. wbind. eapply wp_t_size; [exact Ha|]. unfold size3_eq. cbn [fst snd].
  destruct ((x0 =? Z.of_nat x) && (y0 =? Z.of_nat y) && (z0 =? Z.of_nat z)) eqn:E; [|eapply wp_t_resize; eauto].
  assert (x0 = Z.of_nat x /\ y0 = Z.of_nat y /\ z0 = Z.of_nat z) as (-> & -> & ->) by lia. apply wp_ret. apply HQ; auto.
  destruct (ten_len h l x y z cs Hwf Ha) as [H1 _]. rewrite resize_same by lia. rewrite insert_id; auto.
Qed.
Lemma t_resize_operand h h' l (x0 y0 z0 : Z) cs a x y z ys : wf h -> abs h !! l = Some (STen x0 y0 z0, cs) -> abs h !! a = Some (ATen x y z ys) ->
  abs h' = <[l := (S3 x y z, list.resize (z * (y * x)) None cs)]> (abs h) -> abs h' !! a = Some (ATen x y z ys).
Proof.
  intros Hwf Hl Ha A. rewrite A. destruct (decide (a = l)) as [->|Hne].
  - rewrite lookup_insert. assert (E : (STen x0 y0 z0, cs) = ATen x y z ys) by congruence. unfold ATen in E. injection E as -> -> -> ->.
    destruct (ten_len h l x y z _ Hwf Hl) as [H1 _]. rewrite resize_same by lia. reflexivity.
  - rewrite lookup_insert_ne by congruence. exact Ha.
Qed.
Lemma aten_len h l x y z xs : wf h -> abs h !! l = Some (ATen x y z xs) -> length xs = (z * (y * x))%nat /\ Z.of_nat (z * (y * x)) <= int_max.
Proof. intros W Ha. destruct (ten_len h l x y z _ W Ha) as [E1 E2]. rewrite fmap_length in E1. auto. Qed.
Lemma aten_Ten h l x y z xs : wf h -> abs h !! l = Some (ATen x y z xs) -> ATen x y z xs = Ten x y z (fun k j i => nth (k * (y * x) + (j * x + i)) xs s_zero).
Proof. intros W Ha. destruct (aten_len h l x y z xs W Ha) as [Hl _]. unfold Ten. rewrite <- tlist_eta by exact Hl. reflexivity. Qed.
Lemma Ten_TenP x y z (T : nat -> nat -> nat -> F) : Ten x y z T = TenP x y z (fun k j i => Some (T k j i)).
Proof. unfold Ten, ATen, TenP. rewrite tlist_fmap. reflexivity. Qed.
Lemma Ten_ext x y z (T T' : nat -> nat -> nat -> F) : (forall k j i, (k < z)%nat -> (j < y)%nat -> (i < x)%nat -> T k j i = T' k j i) -> Ten x y z T = Ten x y z T'.
Proof. intros E. unfold Ten. f_equal. apply tlist_ext, E. Qed.
Lemma TenP_ext x y z (T T' : nat -> nat -> nat -> option F) : (forall k j i, (k < z)%nat -> (j < y)%nat -> (i < x)%nat -> T k j i = T' k j i) -> TenP x y z T = TenP x y z T'.
Proof. intros E. unfold TenP. f_equal. apply tlist_ext, E. Qed.
Lemma ten_flat x y z (T : nat -> nat -> nat -> F) cs : length cs = (z * (y * x))%nat ->
  (forall k j i, (k < z)%nat -> (j < y)%nat -> (i < x)%nat -> cs !! (k * (y * x) + (j * x + i))%nat = Some (Some (T k j i))) -> (S3 x y z, cs) = Ten x y z T.
Proof. intros Hl Hc. rewrite Ten_TenP. unfold TenP. f_equal. apply tlist_eq; assumption. Qed.

(** ** element_get / element_set *)
Definition in3 x y z (zi yi xi : Z) : Prop := 0 <= zi < Z.of_nat z /\ 0 <= yi < Z.of_nat y /\ 0 <= xi < Z.of_nat x.
Lemma addr x y z zi yi xi : in3 x y z zi yi xi ->
  Z.to_nat (yi * Z.of_nat x + xi + Z.of_nat x * Z.of_nat y * zi) = (Z.to_nat zi * (y * x) + (Z.to_nat yi * x + Z.to_nat xi))%nat.
Proof. intros (H1 & H2 & H3). nia. Qed.
Lemma addr_pos x y z zi yi xi : in3 x y z zi yi xi -> 0 <= yi * Z.of_nat x + xi + Z.of_nat x * Z.of_nat y * zi.
Proof. intros (H1 & H2 & H3). nia. Qed.
Lemma wp_t_get h l x y z T zi yi xi (Q : F -> heap F -> Prop) : wf h -> abs h !! l = Some (Ten x y z T) ->
  Q (if decide (in3 x y z zi yi xi) then T (Z.to_nat zi) (Z.to_nat yi) (Z.to_nat xi) else s_zero) h -> wp (t_get l zi yi xi) h Q.
Proof.
  intros W Ha HQ. unfold t_get. wbind. eapply wp_t_size; [exact Ha|]. cbv beta iota zeta.
  destruct ((xi <? 0) || (Z.of_nat x <=? xi)) eqn:E1; [rewrite decide_False in HQ by (unfold in3; lia); exact HQ|].
  destruct ((yi <? 0) || (Z.of_nat y <=? yi)) eqn:E2; [rewrite decide_False in HQ by (unfold in3; lia); exact HQ|].
  destruct ((zi <? 0) || (Z.of_nat z <=? zi)) eqn:E3; [rewrite decide_False in HQ by (unfold in3; lia); exact HQ|].
  assert (I : in3 x y z zi yi xi) by (unfold in3; lia). rewrite decide_True in HQ by exact I.
  wbind. eapply wp_data_ptr; [exact Ha|]. intros p Hp. eapply wp_load; [exact W|exact Hp|exact Ha|eapply addr_pos; exact I| |exact HQ].
  rewrite (addr x y z) by exact I. apply fmap_Some_lookup. apply tlist_lookup; unfold in3 in I; lia.
Qed.
Lemma wp_t_set h l x y z T zi yi xi v (Q : unit -> heap F -> Prop) : wf h -> abs h !! l = Some (TenP x y z T) ->
  (forall h', wf h' -> h_obj h' = h_obj h -> abs h' = <[l := TenP x y z (fun k j i => if decide (Z.of_nat k = zi /\ Z.of_nat j = yi /\ Z.of_nat i = xi) then Some v else T k j i)]> (abs h) -> Q tt h') -> wp (t_set l zi yi xi v) h Q.
Proof.
  intros W Ha HQ. destruct (decide (in3 x y z zi yi xi)) as [I|I].
  - pose proof I as (I1 & I2 & I3). unfold t_set. wbind. eapply wp_t_size; [exact Ha|]. cbv beta iota zeta.
    replace ((xi <? 0) || (Z.of_nat x <=? xi)) with false by lia. replace ((yi <? 0) || (Z.of_nat y <=? yi)) with false by lia. replace ((zi <? 0) || (Z.of_nat z <=? zi)) with false by lia.
    wbind. eapply wp_data_ptr; [exact Ha|]. intros p Hp. pose proof (addr x y z zi yi xi I) as E. pose proof (addr_pos x y z zi yi xi I) as Ep.
    eapply wp_store; [exact W|exact Hp|exact Ha| |].
    { rewrite tlist_length. assert (Z.to_nat zi * (y * x) + (Z.to_nat yi * x + Z.to_nat xi) < z * (y * x))%nat by (apply idx_lt; [lia|apply idx_lt; lia]). lia. }
    intros h' W' O' _ A'. apply HQ; auto. rewrite A'. f_equal. unfold TenP. f_equal. rewrite E. apply tlist_eq; [rewrite insert_length; apply tlist_length|].
    intros k j i Hk Hj Hi. destruct (decide (Z.of_nat k = zi /\ Z.of_nat j = yi /\ Z.of_nat i = xi)) as [(<- & <- & <-)|Hne].
    + rewrite !Nat2Z.id. apply list_lookup_insert. rewrite tlist_length. apply idx_lt; [lia|apply idx_lt; lia].
    + rewrite list_lookup_insert_ne; [apply tlist_lookup; auto|]. intros E'. apply tidx_inj in E' as (<- & <- & <-); try lia.
  - assert (Hq : Q tt h). { apply HQ; [exact W|reflexivity|]. rewrite insert_id; [reflexivity|]. rewrite Ha. f_equal. apply TenP_ext. intros k j i Hk Hj Hi. rewrite decide_False; [reflexivity|]. intros (<- & <- & <-). apply I. unfold in3. lia. }
    unfold t_set. wbind. eapply wp_t_size; [exact Ha|]. cbv beta iota zeta.
    destruct ((xi <? 0) || (Z.of_nat x <=? xi)) eqn:E1; [exact Hq|]. destruct ((yi <? 0) || (Z.of_nat y <=? yi)) eqn:E2; [exact Hq|]. destruct ((zi <? 0) || (Z.of_nat z <=? zi)) eqn:E3; [exact Hq|].
    exfalso. apply I. unfold in3. lia.
Qed.

(** ** Element-wise templates *)
Lemma wp_t_map f h l x y z xs (Q : unit -> heap F -> Prop) : wf h -> abs h !! l = Some (ATen x y z xs) -> fits x y ->
  (forall h', wf h' -> abs h' = <[l := ATen x y z (f <$> xs)]> (abs h) -> Q tt h') -> wp (t_map f l) h Q.
Proof.
  intros Hwf Ha Hf HQ. unfold t_map. wbind. eapply wp_t_data_size; [exact Hwf|exact Ha|exact Hf|]. rewrite fmap_length.
  wbind. eapply wp_data_ptr; [exact Ha|]. intros p Hp.
  eapply wp_loop1; [exact Hwf|exact Ha|exact Hp|exact Ha|exact Hp|]. intros h' W O A. apply HQ; auto.
Qed.
Lemma wp_t_mapn f h l x y z xs (Q : loc -> heap F -> Prop) : wf h -> abs h !! l = Some (ATen x y z xs) -> fits x y ->
  (forall d h', wf h' -> abs h !! d = None -> abs h' = <[d := ATen x y z (f <$> xs)]> (abs h) -> Q d h') -> wp (t_mapn f l) h Q.
Proof.
  intros Hwf Ha Hf HQ. destruct (aten_len h l _ _ _ _ Hwf Ha) as [Hlen Hle].
  unfold t_mapn. wbind. apply wp_t_new; [exact Hwf|]. intros d h1 W1 N1 A1. assert (l <> d) as Hne by congruence.
  assert (Ha1 : abs h1 !! l = Some (ATen x y z xs)) by (rewrite A1, lookup_insert_ne by congruence; exact Ha).
  wbind. eapply wp_t_size; [exact Ha1|].
  wbind. eapply wp_t_resize; [exact W1|rewrite A1; apply lookup_insert|exact Hf|exact Hle|]. intros h2 W2 A2.
  assert (Ha2 : abs h2 !! l = Some (ATen x y z xs)) by (rewrite A2, lookup_insert_ne by congruence; exact Ha1).
  wbind. eapply wp_t_data_size; [exact W2|exact Ha2|exact Hf|]. rewrite fmap_length.
  wbind. eapply wp_data_ptr; [exact Ha2|]. intros p Hp.
  wbind. eapply wp_data_ptr; [rewrite A2; apply lookup_insert|]. intros po Hpo. wbind.
  eapply wp_loop1 with (la := l) (lo := d); [exact W2|exact Ha2|exact Hp|rewrite A2; apply lookup_insert|exact Hpo|].
  intros h3 W3 O3 A3. apply wp_ret. apply HQ; auto. rewrite A3, A2, A1, !insert_insert. reflexivity.
Qed.
Lemma wp_t_mapb f h l (x0 y0 z0 : Z) cs a x y z xs (Q : unit -> heap F -> Prop) : wf h -> abs h !! l = Some (STen x0 y0 z0, cs) -> abs h !! a = Some (ATen x y z xs) -> fits x y ->
  (forall h', wf h' -> abs h' = <[l := ATen x y z (f <$> xs)]> (abs h) -> Q tt h') -> wp (t_mapb f l (Some a)) h Q.
Proof.
  intros Hwf Hl Ha Hf HQ. destruct (aten_len h a _ _ _ _ Hwf Ha) as [Hlen Hle].
  unfold t_mapb. wbind. eapply wp_t_size; [exact Ha|].
  wbind. eapply wp_t_resize_if; [exact Hwf|exact Hl|exact Hf|exact Hle|]. intros h1 W1 A1.
  pose proof (t_resize_operand h h1 l x0 y0 z0 cs a _ _ _ xs Hwf Hl Ha A1) as Ha1.
  assert (Hl1 := lookup_insert (abs h) l (S3 x y z, list.resize (z * (y * x)) None cs)). rewrite <- A1 in Hl1.
  wbind. eapply wp_t_data_size; [exact W1|exact Hl1|exact Hf|]. rewrite resize_length, <- Hlen.
  wbind. eapply wp_data_ptr; [exact Ha1|]. intros q Hq.
  wbind. eapply wp_data_ptr; [exact Hl1|]. intros p Hp.
  eapply (wp_loop1 h1 a q xs l p); [exact W1|exact Ha1|exact Hq|exact Hl1|exact Hp|].
  intros h' W O A. apply HQ; auto. rewrite A, A1, insert_insert. reflexivity.
Qed.
Lemma wp_t_mapb_own f h l a x y z xs ys (Q : unit -> heap F -> Prop) : wf h -> abs h !! l = Some (ATen x y z xs) -> abs h !! a = Some (ATen x y z ys) -> fits x y ->
  (forall h', wf h' -> abs h' = <[l := ATen x y z (f <$> xs)]> (abs h) -> Q tt h') -> wp (t_mapb_own f l (Some a)) h Q.
Proof.
  intros Hwf Hl Ha Hf HQ. destruct (aten_len h l _ _ _ _ Hwf Hl) as [Hlen Hle].
  unfold t_mapb_own. wbind. eapply wp_t_size; [exact Ha|].
  wbind. eapply wp_t_resize_if; [exact Hwf|exact Hl|exact Hf|exact Hle|]. intros h1 W1 A1.
  pose proof (t_resize_operand h h1 l _ _ _ _ l _ _ _ xs Hwf Hl Hl A1) as Hl1.
  eapply wp_t_map; [exact W1|exact Hl1|exact Hf|]. intros h2 W2 A2. apply HQ; auto. rewrite A2, A1, insert_insert. reflexivity.
Qed.
Lemma wp_t_op2 f h l b x y z xs ys (Q : unit -> heap F -> Prop) : wf h -> abs h !! l = Some (ATen x y z xs) -> abs h !! b = Some (ATen x y z ys) -> fits x y ->
  (forall h', wf h' -> abs h' = <[l := ATen x y z (zip_with f xs ys)]> (abs h) -> Q tt h') -> wp (t_op2 f l (Some b)) h Q.
Proof.
  intros Hwf Ha Hb Hf HQ. unfold t_op2. wbind. eapply wp_t_size; [exact Ha|]. wbind. eapply wp_t_size; [exact Hb|].
  rewrite size3_eq_true, bool_decide_true by auto. cbn [negb].
  wbind. eapply wp_data_ptr; [exact Hb|]. intros q Hq. wbind. eapply wp_data_ptr; [exact Ha|]. intros p Hp.
  wbind. eapply wp_t_data_size; [exact Hwf|exact Ha|exact Hf|]. rewrite fmap_length.
  eapply wp_loop2; [exact Hwf|exact Ha|exact Hp|exact Hb|exact Hq|exact Ha|exact Hp|]. intros h' W O A. apply HQ; auto.
Qed.
Lemma wp_t_op2n f h l b x y z xs ys (Q : option loc -> heap F -> Prop) : wf h -> abs h !! l = Some (ATen x y z xs) -> abs h !! b = Some (ATen x y z ys) -> fits x y ->
  (forall d h', wf h' -> abs h !! d = None -> abs h' = <[d := ATen x y z (zip_with f xs ys)]> (abs h) -> Q (Some d) h') -> wp (t_op2n f l (Some b)) h Q.
Proof.
  intros Hwf Ha Hb Hf HQ. destruct (aten_len h l _ _ _ _ Hwf Ha) as [Hlen Hle].
  unfold t_op2n. wbind. eapply wp_t_size; [exact Ha|]. wbind. eapply wp_t_size; [exact Hb|].
  rewrite size3_eq_true, bool_decide_true by auto. cbn [negb].
  wbind. apply wp_t_new; [exact Hwf|]. intros d h1 W1 N1 A1.
  wbind. eapply wp_t_resize; [exact W1|rewrite A1; apply lookup_insert|exact Hf|exact Hle|]. intros h2 W2 A2.
  assert (Ha2 : abs h2 !! l = Some (ATen x y z xs)) by (rewrite A2, A1, !lookup_insert_ne by congruence; exact Ha).
  assert (Hb2 : abs h2 !! b = Some (ATen x y z ys)) by (rewrite A2, A1, !lookup_insert_ne by congruence; exact Hb).
  wbind. eapply wp_data_ptr; [exact Ha2|]. intros p Hp. wbind. eapply wp_data_ptr; [exact Hb2|]. intros q Hq.
  wbind. eapply wp_data_ptr; [rewrite A2; apply lookup_insert|]. intros po Hpo.
  wbind. eapply wp_t_data_size; [exact W2|exact Ha2|exact Hf|]. rewrite fmap_length. wbind.
  eapply wp_loop2 with (la := l) (lb := b) (lo := d); [exact W2|exact Ha2|exact Hp|exact Hb2|exact Hq|rewrite A2; apply lookup_insert|exact Hpo|].
  intros h3 W3 O3 A3. apply wp_ret. apply HQ; auto. rewrite A3, A2, A1, !insert_insert. reflexivity.
Qed.
Lemma wp_t_op2b f h l (x0 y0 z0 : Z) cs a b x y z xs ys (Q : unit -> heap F -> Prop) : wf h ->
  abs h !! l = Some (STen x0 y0 z0, cs) -> abs h !! a = Some (ATen x y z xs) -> abs h !! b = Some (ATen x y z ys) -> fits x y ->
  (forall h', wf h' -> abs h' = <[l := ATen x y z (zip_with f xs ys)]> (abs h) -> Q tt h') -> wp (t_op2b f l (Some a) (Some b)) h Q.
Proof.
  intros Hwf Hl Ha Hb Hf HQ. destruct (aten_len h a _ _ _ _ Hwf Ha) as [Hlen Hle].
  unfold t_op2b. wbind. eapply wp_t_size; [exact Ha|]. wbind. eapply wp_t_size; [exact Hb|].
  rewrite size3_eq_true, bool_decide_true by auto. cbn [negb].
  wbind. eapply wp_t_resize_if; [exact Hwf|exact Hl|exact Hf|exact Hle|]. intros h1 W1 A1.
  pose proof (t_resize_operand h h1 l x0 y0 z0 cs a _ _ _ xs Hwf Hl Ha A1) as Ha1.
  pose proof (t_resize_operand h h1 l x0 y0 z0 cs b _ _ _ ys Hwf Hl Hb A1) as Hb1.
  assert (Hl1 := lookup_insert (abs h) l (S3 x y z, list.resize (z * (y * x)) None cs)). rewrite <- A1 in Hl1.
  wbind. eapply wp_data_ptr; [exact Ha1|]. intros p Hp. wbind. eapply wp_data_ptr; [exact Hb1|]. intros q Hq. wbind. eapply wp_data_ptr; [exact Hl1|]. intros po Hpo.
  wbind. eapply wp_t_data_size; [exact W1|exact Ha1|exact Hf|]. rewrite fmap_length.
  eapply wp_loop2 with (la := a) (lb := b) (lo := l); [exact W1|exact Ha1|exact Hp|exact Hb1|exact Hq|exact Hl1|exact Hpo|].
  intros h' W O A. apply HQ; auto. rewrite A, A1, insert_insert. reflexivity.
Qed.
Lemma wp_t_fill h l x y z cs v (Q : unit -> heap F -> Prop) : wf h -> abs h !! l = Some (S3 x y z, cs) -> fits x y ->
  (forall h', wf h' -> abs h' = <[l := Ten x y z (fun _ _ _ => v)]> (abs h) -> Q tt h') -> wp (t_fill l v) h Q.
Proof.
  intros Hwf Ha Hf HQ. destruct (ten_len h l _ _ _ _ Hwf Ha) as [H1 H2]. unfold t_fill. wbind. eapply wp_data_ptr; [exact Ha|]. intros p Hp.
  assert (E : Ten x y z (fun _ _ _ => v) = (S3 x y z, replicate (length cs) (Some v))) by (unfold Ten, ATen; rewrite tlist_const, fmap_replicate, H1; reflexivity).
  destruct p as [q|].
  - wbind. eapply wp_t_data_size; [exact Hwf|exact Ha|exact Hf|].
    eapply wp_map_loop with (new := replicate (length cs) v); [exact Hwf|exact Hp|exact Ha|rewrite replicate_length; reflexivity|lia| |].
    + intros i hi w Q' Hi Hm Hw Hs. apply lookup_replicate in Hw as [<- _]. exact Hs.
    + intros h' W O A. apply HQ; auto. rewrite A, fmap_replicate, E. reflexivity.
  - apply wp_ret. pose proof (proj1 (wf_ptr_nil h l _ _ Hwf Ha) Hp) as ->. apply HQ; auto. rewrite E. cbn. rewrite insert_id; auto.
Qed.
End tenproofs.
