(** Proofs about the tensor model, part 7: x and y slices, tensor times vector. *)
From Verif Require Export TenProofs6.
From Verif Require Import CostProofs ActProofs2.
From Coq Require Import ZifyBool ZifyNat.
Ltac Zify.zify_post_hook ::= Z.to_euclidean_division_equations.

Section tenproofs7.
Context {F : Type} `{Scalar F}.
Implicit Types (h : heap F) (l a b t : loc) (xs ys v : list F) (x y z k : nat) (cs : list (option F)) (sl : list (list F)) (idx : Z) (T : nat -> nat -> nat -> F).
Notation S3 x y z := (STen (Z.of_nat x) (Z.of_nat y) (Z.of_nat z)).

Lemma wp_m_set_store h t c r g hi p i j (u : F) (Q : unit -> heap F -> Prop) : mst h t c r g hi -> ptr_of h t = Some p -> (i < r)%nat -> (j < c)%nat ->
  wp (store p (Z.of_nat i * Z.of_nat c + Z.of_nat j) u) hi Q -> wp (m_set t (Z.of_nat i) (Z.of_nat j) u) hi Q.
Proof.
  intros [W O A] Hp Hi Hj HQ. unfold m_set. wbind. eapply wp_m_size; [rewrite A; apply lookup_insert|]. cbv beta iota. rewrite !good_idx by lia.
  wbind. eapply wp_data_ptr; [rewrite A; apply lookup_insert|]. intros p' Hp'. rewrite (ptr_of_obj h hi) in Hp' by exact O. assert (p' = p) as -> by congruence. exact HQ.
Qed.
(** What [element_get] returns, as a function of the entries. *)
Definition tget (x y z : nat) (T : nat -> nat -> nat -> F) (k j i : nat) : F := if decide (k < z /\ j < y /\ i < x)%nat then T k j i else s_zero.
Lemma wp_t_get_nat h l x y z T k j i (Q : F -> heap F -> Prop) : wf h -> abs h !! l = Some (Ten x y z T) -> Q (tget x y z T k j i) h -> wp (t_get l (Z.of_nat k) (Z.of_nat j) (Z.of_nat i)) h Q.
Proof.
  intros W Ha HQ. eapply wp_t_get; [exact W|exact Ha|]. unfold tget in HQ. destruct (decide (in3 x y z (Z.of_nat k) (Z.of_nat j) (Z.of_nat i))) as [I|I]; unfold in3 in I.
  - rewrite decide_True in HQ by lia. rewrite !Nat2Z.id. exact HQ.
  - rewrite decide_False in HQ by lia. exact HQ.
Qed.
(** Rectangular loop writing a matrix from entries of a tensor. *)
Lemma wp_m_collect h l x y z T t c r g0 (f : nat -> nat -> nat * nat * nat) (G : Z -> Z -> M F F) (Q : unit -> heap F -> Prop) : wf h -> abs h !! l = Some (Ten x y z T) -> abs h !! t = Some (MatP c r g0) ->
  (forall i j, G (Z.of_nat i) (Z.of_nat j) = t_get l (Z.of_nat (f i j).1.1) (Z.of_nat (f i j).1.2) (Z.of_nat (f i j).2)) ->
  (forall h', wf h' -> abs h' = <[t := Mat c r (fun i j => tget x y z T (f i j).1.1 (f i j).1.2 (f i j).2)]> (abs h) -> Q tt h') ->
  wp (for_ 0 (Z.of_nat r) (fun i => for_ 0 (Z.of_nat c) (fun j => let! u := G i j in m_set t i j u))) h Q.
Proof.
  intros Hwf Ha Ht HG HQ. assert (t <> l) as Hne by (intros ->; rewrite Ha in Ht; discriminate).
  apply abs_lookup_Some in Ht as Ht'. destruct Ht' as (o & Ho & _ & _). assert (Hp : ptr_of h t = Some (o_data o)) by (unfold ptr_of; rewrite Ho; reflexivity).
  eapply wp_mfill with (u := fun i j => tget x y z T (f i j).1.1 (f i j).1.2 (f i j).2); [exact Hwf|exact Ht|exact Hp| |].
  - intros i j g hi Q' Hi Hj HI Hs. rewrite HG. pose proof HI as [W O A]. wbind. eapply wp_t_get_nat; [exact W|rewrite A, lookup_insert_ne by congruence; exact Ha|].
    eapply wp_m_set_store; [exact HI|exact Hp|exact Hi|exact Hj|exact Hs].
  - intros h' W O A. apply HQ; auto.
Qed.
Lemma cells_ex h t c r cs : wf h -> abs h !! t = Some (SMat (Z.of_nat c) (Z.of_nat r), cs) -> exists g0, abs h !! t = Some (MatP c r g0).
Proof. intros W Ha. destruct (cells_MatP h t c r cs W Ha) as [g0 Hg]. eauto. Qed.

(** x_slice_get: entry (k, j) of the result is element (k, x index, j), i.e. the x index is used as a row number. *)
Lemma wp_t_xslice_get_into h l x y z T xi t (x0 y0 : Z) cs (Q : unit -> heap F -> Prop) : wf h -> abs h !! l = Some (Ten x y z T) -> 0 <= xi < Z.of_nat x -> abs h !! t = Some (SMat x0 y0, cs) ->
  (forall h', wf h' -> abs h' = <[t := Mat y z (fun k j => tget x y z T k (Z.to_nat xi) j)]> (abs h) -> Q tt h') -> wp (t_xslice_get_into l xi (Some t)) h Q.
Proof.
  intros Hwf Ha Hx Ht HQ. destruct (aten_len h l _ _ _ _ Hwf Ha) as [_ Hle]. assert (t <> l) as Hne by (intros ->; rewrite Ha in Ht; discriminate).
  unfold t_xslice_get_into. wbind. eapply wp_t_size; [exact Ha|]. cbv beta iota zeta. rewrite good_idx by exact Hx.
  wbind. eapply wp_m_resize_if; [exact Hwf|exact Ht|nia|]. intros h1 W1 A1 _.
  destruct (cells_ex h1 t y z _ W1 ltac:(rewrite A1; apply lookup_insert)) as [g0 Ht1].
  eapply wp_m_collect with (l := l) (t := t) (f := fun k j => (k, Z.to_nat xi, j)); [exact W1|rewrite A1, lookup_insert_ne by congruence; exact Ha|exact Ht1| |].
  - intros k j. cbn [fst snd]. rewrite Z2Nat.id by lia. reflexivity.
  - intros h2 W2 A2. apply HQ; auto. rewrite A2, A1, insert_insert. reflexivity.
Qed.
Lemma wp_t_xslice_get h l x y z T xi (Q : option loc -> heap F -> Prop) : wf h -> abs h !! l = Some (Ten x y z T) -> 0 <= xi < Z.of_nat x ->
  (forall d h', wf h' -> abs h !! d = None -> abs h' = <[d := Mat y z (fun k j => tget x y z T k (Z.to_nat xi) j)]> (abs h) -> Q (Some d) h') -> wp (t_xslice_get l xi) h Q.
Proof.
  intros Hwf Ha Hx HQ. unfold t_xslice_get. wbind. eapply wp_t_size; [exact Ha|]. cbv beta iota zeta. rewrite good_idx by exact Hx.
  wbind. apply wp_m_new; [exact Hwf|]. intros d h1 W1 N1 A1 _. wbind. eapply wp_t_xslice_get_into; [exact W1|rewrite A1, lookup_insert_ne by congruence; exact Ha|exact Hx|rewrite A1; apply lookup_insert|].
  intros h2 W2 A2. apply wp_ret, HQ; auto. rewrite A2, A1, insert_insert. reflexivity.
Qed.
(** y_slice_get into a new matrix: entry (k, i) is element (k, i, y index). *)
Lemma wp_t_yslice_get h l x y z T yi (Q : option loc -> heap F -> Prop) : wf h -> abs h !! l = Some (Ten x y z T) -> 0 <= yi < Z.of_nat y -> (0 < z)%nat ->
  (forall d h', wf h' -> abs h !! d = None -> abs h' = <[d := Mat x z (fun k i => tget x y z T k i (Z.to_nat yi))]> (abs h) -> Q (Some d) h') -> wp (t_yslice_get l yi) h Q.
Proof.
  intros Hwf Ha Hy Hz HQ. destruct (aten_len h l _ _ _ _ Hwf Ha) as [_ Hle]. unfold t_yslice_get. wbind. eapply wp_t_size; [exact Ha|]. cbv beta iota zeta. rewrite good_idx by exact Hy.
  wbind. apply wp_m_new; [exact Hwf|]. intros d h1 W1 N1 A1 _. wbind. unfold t_yslice_get_into.
  assert (Ha1 : abs h1 !! l = Some (Ten x y z T)) by (rewrite A1, lookup_insert_ne by congruence; exact Ha).
  wbind. eapply wp_t_size; [exact Ha1|]. cbv beta iota zeta. rewrite good_idx by exact Hy.
  wbind. eapply wp_m_size; [rewrite A1; apply lookup_insert|]. unfold size_eq. cbn [fst snd]. replace (0 =? Z.of_nat y) with false by lia. cbn [andb].
  wbind. eapply wp_m_resize; [exact W1|rewrite A1; apply lookup_insert|nia|]. intros h2 W2 A2 _.
  destruct (cells_ex h2 d x z _ W2 ltac:(rewrite A2; apply lookup_insert)) as [g0 Ht1].
  eapply wp_m_collect with (l := l) (t := d) (f := fun k i => (k, i, Z.to_nat yi)); [exact W2|rewrite A2, lookup_insert_ne by congruence; exact Ha1|exact Ht1| |].
  - intros k j. cbn [fst snd]. rewrite Z2Nat.id by lia. reflexivity.
  - intros h3 W3 A3. apply wp_ret, HQ; auto. rewrite A3, A2, A1, !insert_insert. reflexivity.
Qed.
(** Rectangular loop writing entries of a tensor from a matrix [g]. *)
Lemma wp_t_scatter h l x y z T b c r (g : nat -> nat -> F) (K : Z -> Z -> F -> M F unit) (P : nat -> nat -> nat -> nat -> nat -> Prop) `{forall i j k' j' i', Decision (P i j k' j' i')} (Q : unit -> heap F -> Prop) : wf h ->
  abs h !! l = Some (Ten x y z T) -> abs h !! b = Some (Mat c r g) -> b <> l ->
  (forall i j hi (T0 : nat -> nat -> nat -> option F) (Q' : unit -> heap F -> Prop) (u : F), wf hi -> abs hi !! l = Some (TenP x y z T0) ->
     (forall h', wf h' -> h_obj h' = h_obj hi -> abs h' = <[l := TenP x y z (fun k' j' i' => if decide (P i j k' j' i') then Some u else T0 k' j' i')]> (abs hi) -> Q' tt h') -> wp (K (Z.of_nat i) (Z.of_nat j) u) hi Q') ->
  (forall T' h', wf h' -> abs h' = <[l := Ten x y z T']> (abs h) ->
     (forall k' j' i', (forall i j, (i < r)%nat -> (j < c)%nat -> ~ P i j k' j' i') -> T' k' j' i' = T k' j' i') ->
     (forall i j k' j' i', (i < r)%nat -> (j < c)%nat -> P i j k' j' i' -> (forall i2 j2, (i2 < r)%nat -> (j2 < c)%nat -> P i2 j2 k' j' i' -> i2 = i /\ j2 = j) -> T' k' j' i' = g i j) -> Q tt h') ->
  wp (for_ 0 (Z.of_nat r) (fun i => for_ 0 (Z.of_nat c) (fun j => let! u := m_get b i j in K i j u))) h Q.
Proof.
  intros Hwf Ha Hb Hne HK HQ.
  set (done := fun i j i2 j2 : nat => (i2 < i \/ i2 = i /\ j2 < j)%nat).
  set (I := fun i j hi => wf hi /\ exists T', abs hi = <[l := Ten x y z T']> (abs h) /\
     (forall k' j' i', (forall i2 j2, done i j i2 j2 -> (i2 < r)%nat -> (j2 < c)%nat -> ~ P i2 j2 k' j' i') -> T' k' j' i' = T k' j' i') /\
     (forall i1 j1 k' j' i', done i j i1 j1 -> (i1 < r)%nat -> (j1 < c)%nat -> P i1 j1 k' j' i' -> (forall i2 j2, done i j i2 j2 -> (i2 < r)%nat -> (j2 < c)%nat -> P i2 j2 k' j' i' -> i2 = i1 /\ j2 = j1) -> T' k' j' i' = g i1 j1)).
  apply wp_for_n with (I := fun i hi => I i 0%nat hi).
  - split; [exact Hwf|]. exists T. split; [rewrite insert_id; auto|]. split; [auto|]. unfold done. intros i1 j1 k' j' i' D. lia.
  - intros i hi Hi HI. apply wp_for_n with (I := fun j hi => I i j hi).
    + exact HI.
    + clear hi HI. intros j hi Hj (W & T' & A & I1 & I2).
      wbind. eapply wp_m_get; [exact W|rewrite A, lookup_insert_ne by congruence; exact Hb|]. rewrite decide_True by lia. rewrite !Nat2Z.id.
      eapply HK; [exact W|rewrite A, lookup_insert, Ten_TenP; reflexivity|]. intros h' W' O' A'. split; [exact W'|].
      exists (fun k' j' i' => if decide (P i j k' j' i') then g i j else T' k' j' i'). split; [|split].
      * rewrite A', A, insert_insert. f_equal. rewrite Ten_TenP. apply TenP_ext. intros k' j' i' _ _ _. destruct (decide (P i j k' j' i')); reflexivity.
      * intros k' j' i' N. rewrite decide_False by (apply N; unfold done; lia). apply I1. intros i2 j2 D. apply N. unfold done in *. lia.
      * intros i1 j1 k' j' i' D Hi1 Hj1 Hp U. destruct (decide (P i j k' j' i')) as [Hp'|Hp'].
        -- destruct (U i j) as [-> ->]; auto. unfold done. lia.
        -- apply I2; auto.
           ++ unfold done in *. assert (~ (i1 = i /\ j1 = j)) by (intros [-> ->]; contradiction). lia.
           ++ intros i2 j2 D2. apply U. unfold done in *. lia.
    + intros h' (W & T' & A & I1 & I2). split; [exact W|]. exists T'. split; [exact A|]. split.
      * intros k' j' i' N. apply I1. intros i2 j2 D H2 H3. apply N; auto. unfold done in *. lia.
      * intros i1 j1 k' j' i' D H1 H2 Hp U. apply I2; auto; [unfold done in *; lia|]. intros i2 j2 D2 H3 H4. apply U; auto. unfold done in *. lia.
  - intros h' (W & T' & A & I1 & I2). eapply HQ; [exact W|exact A| |].
    + intros k' j' i' N. apply I1. intros i2 j2 _. apply N.
    + intros i1 j1 k' j' i' H1 H2 Hp U. apply I2; auto. unfold done. lia.
Qed.
(** x_slice_set: matrix entry (k, j) goes to element (k, x index, j), if there is one. *)
Lemma wp_t_xslice_set h l x y z T xi b g (Q : unit -> heap F -> Prop) : wf h -> abs h !! l = Some (Ten x y z T) -> 0 <= xi < Z.of_nat x -> abs h !! b = Some (Mat y z g) ->
  (forall h', wf h' -> abs h' = <[l := Ten x y z (fun k j i => if decide (j = Z.to_nat xi /\ i < y)%nat then g k i else T k j i)]> (abs h) -> Q tt h') -> wp (t_xslice_set l xi (Some b)) h Q.
Proof.
  intros Hwf Ha Hx Hb HQ. assert (b <> l) as Hne by (intros ->; rewrite Ha in Hb; discriminate).
  unfold t_xslice_set. wbind. eapply wp_t_size; [exact Ha|]. cbv beta iota zeta. rewrite good_idx by exact Hx.
  wbind. eapply wp_m_size; [exact Hb|]. unfold size_eq. cbn [fst snd]. rewrite !Z.eqb_refl. cbn [andb negb].
  eapply wp_t_scatter with (l := l) (b := b) (P := fun k j k' j' i' => k' = k /\ j' = Z.to_nat xi /\ i' = j) (K := fun (zk j0 : Z) (u : F) => t_set l zk xi j0 u); [exact Hwf|exact Ha|exact Hb|exact Hne| |].
  - intros i j hi T0 Q' u W A HQ'. eapply wp_t_set; [exact W|exact A|]. intros h' W' O' A'. apply HQ'; auto. rewrite A'. f_equal. apply TenP_ext. intros k' j' i' _ _ _.
    destruct (decide (Z.of_nat k' = Z.of_nat i /\ Z.of_nat j' = xi /\ Z.of_nat i' = Z.of_nat j)) as [E|E]; [rewrite decide_True by lia; reflexivity|rewrite decide_False by lia; reflexivity].
  - intros T' h' W A I1 I2. apply HQ; auto. rewrite A. f_equal. apply Ten_ext. intros k j i Hk Hj Hi. destruct (decide (j = Z.to_nat xi /\ i < y)%nat) as [[-> Hy]|E].
    + apply (I2 k i k (Z.to_nat xi) i Hk Hy); [auto|]. intros; lia.
    + apply I1. intros i2 j2 H1 H2 (-> & -> & ->). apply E. auto.
Qed.
(** y_slice_set, for a tensor whose slices are square: entry (k, i) goes to element (k, i, y index). *)
Lemma wp_t_yslice_set h l x y z T yi b g (Q : unit -> heap F -> Prop) : wf h -> abs h !! l = Some (Ten x y z T) -> 0 <= yi < Z.of_nat y -> abs h !! b = Some (Mat y z g) ->
  (forall h', wf h' -> abs h' = <[l := Ten x y z (fun k j i => if decide (i = Z.to_nat yi /\ j < x)%nat then (if decide (j < y)%nat then g k j else s_zero) else T k j i)]> (abs h) -> Q tt h') -> wp (t_yslice_set l yi (Some b)) h Q.
Proof.
  intros Hwf Ha Hx Hb HQ. assert (b <> l) as Hne by (intros ->; rewrite Ha in Hb; discriminate).
  unfold t_yslice_set. wbind. eapply wp_t_size; [exact Ha|]. cbv beta iota zeta. rewrite good_idx by exact Hx.
  wbind. eapply wp_m_size; [exact Hb|]. unfold size_eq. cbn [fst snd]. rewrite !Z.eqb_refl. cbn [andb negb].
  set (T1 := fun n m k j i => if decide ((k < n \/ k = n /\ j < m) /\ i = Z.to_nat yi /\ j < x)%nat then (if decide (j < y)%nat then g k j else s_zero) else T k j i).
  apply wp_for_n with (I := fun n hi => wf hi /\ abs hi = <[l := Ten x y z (T1 n 0%nat)]> (abs h)).
  - split; [exact Hwf|]. rewrite insert_id; [reflexivity|]. rewrite Ha. f_equal. apply Ten_ext. intros k j i _ _ _. unfold T1. rewrite decide_False by lia. reflexivity.
  - intros n hi Hn (W & A). apply wp_for_n with (I := fun m hi => wf hi /\ abs hi = <[l := Ten x y z (T1 n m)]> (abs h)); [auto| |].
    + clear hi W A. intros m hi Hm (W & A). wbind. eapply wp_m_get; [exact W|rewrite A, lookup_insert_ne by congruence; exact Hb|].
      eapply wp_t_set; [exact W|rewrite A, lookup_insert, Ten_TenP; reflexivity|]. intros h' W' _ A'. split; [exact W'|]. rewrite A', A, insert_insert. f_equal. rewrite Ten_TenP. apply TenP_ext.
      intros k j i Hk Hj Hi. unfold T1. destruct (decide (Z.of_nat k = Z.of_nat n /\ Z.of_nat j = Z.of_nat m /\ Z.of_nat i = yi)) as [E|E].
      * assert (k = n /\ j = m) as [-> ->] by lia. rewrite (decide_True (P := (_ /\ i = _ /\ (m < x)%nat))) by lia. rewrite !Nat2Z.id.
        destruct (decide (m < y)%nat); [rewrite decide_True by lia; reflexivity|rewrite decide_False by lia; reflexivity].
      * f_equal. destruct (decide ((k < n \/ k = n /\ j < m) /\ i = Z.to_nat yi /\ j < x)%nat) as [E2|E2]; [rewrite (decide_True (P := (_ /\ i = _ /\ (j < x)%nat))) by lia; reflexivity|rewrite (decide_False (P := (_ /\ i = _ /\ (j < x)%nat))) by lia; reflexivity].
    + intros h' (W' & A'). split; [exact W'|]. rewrite A'. f_equal. apply Ten_ext. intros k j i Hk Hj Hi. unfold T1.
      destruct (decide ((k < n \/ k = n /\ j < x) /\ i = Z.to_nat yi /\ j < x)%nat) as [E2|E2]; [rewrite (decide_True (P := (_ /\ i = _ /\ (j < x)%nat))) by lia; reflexivity|rewrite (decide_False (P := (_ /\ i = _ /\ (j < x)%nat))) by lia; reflexivity].
  - intros h' (W & A). apply HQ; auto. rewrite A. f_equal. apply Ten_ext. intros k j i Hk Hj Hi. unfold T1.
    destruct (decide (i = Z.to_nat yi /\ j < x)%nat) as [E2|E2]; [rewrite (decide_True (P := (_ /\ i = _ /\ (j < x)%nat))) by lia; reflexivity|rewrite (decide_False (P := (_ /\ i = _ /\ (j < x)%nat))) by lia; reflexivity].
Qed.
(** tensor_vec_mult: entry (i, j) of the result is the dot product of row j of slice i with the vector. *)
Lemma wp_t_vec_mult h l x y z T b v (Q : loc -> heap F -> Prop) : wf h -> abs h !! l = Some (Ten x y z T) -> abs h !! b = Some (AVec v) -> length v = x -> Z.of_nat (z * y) <= int_max ->
  (forall d h', wf h' -> abs h !! d = None -> abs h' = <[d := Mat y z (fun k j => foldl (fun acc '(u, w) => s_add acc (s_mul u w)) s_zero (zip (vlist x (T k j)) v))]> (abs h) -> Q d h') -> wp (t_vec_mult l (Some b)) h Q.
Proof.
  intros Hwf Ha Hb Hv Hle HQ. pose proof (wf_abs_len h b _ _ Hwf Hb) as [_ Hlx]. cbn [shape_size] in Hlx.
  unfold t_vec_mult. wbind. eapply wp_t_size; [exact Ha|]. cbv beta iota zeta.
  wbind. apply wp_m_new; [exact Hwf|]. intros c h1 W1 N1 A1 _. wbind. eapply wp_m_resize; [exact W1|rewrite A1; apply lookup_insert|lia|]. intros h2 W2 A2 _. rewrite A1, insert_insert in A2.
  wbind. apply wp_v_new; [exact W2|]. intros row h3 W3 N3 A3 _. wbind. eapply wp_v_resize; [exact W3|rewrite A3; apply lookup_insert|lia|]. intros h4 W4 A4 _. rewrite A3, insert_insert in A4.
  assert (Hrc : row <> c) by (intros ->; rewrite A2, lookup_insert in N3; discriminate). assert (N3' : abs h !! row = None) by (rewrite A2, lookup_insert_ne in N3 by congruence; exact N3).
  destruct (cells_ex h4 c y z _ W4 ltac:(rewrite A4, lookup_insert_ne, A2, lookup_insert by congruence; reflexivity)) as [g0 Hc4].
  set (u := fun k j => foldl (fun acc '(u, w) => s_add acc (s_mul u w)) s_zero (zip (vlist x (T k j)) v)).
  set (inv := fun i j i' j' => if decide (i' < i \/ i' = i /\ j' < j)%nat then Some (u i' j') else g0 i' j').
  set (I := fun i j hi => wf hi /\ exists n cs, abs hi = <[row := (SVec n, cs)]> (<[c := MatP y z (inv i j)]> (abs h))).
  assert (Hcl : forall hi n cs i j, abs hi = <[row := (SVec n, cs)]> (<[c := MatP y z (inv i j)]> (abs h)) -> abs hi !! l = Some (Ten x y z T) /\ abs hi !! b = Some (AVec v) /\ abs hi !! c = Some (MatP y z (inv i j)) /\ abs hi !! row = Some (SVec n, cs)).
  { intros hi n cs i j A. rewrite A. rewrite !(lookup_insert_ne _ row) by congruence. rewrite !(lookup_insert_ne _ c l), !(lookup_insert_ne _ c b) by congruence. rewrite !lookup_insert. auto. }
  wbind. apply wp_for_n with (I := fun i hi => I i 0%nat hi).
  - split; [exact W4|]. eexists _, _. rewrite A4, A2. f_equal. apply map_eq. intros q. destruct (decide (q = c)) as [->|Hq]; [|rewrite !lookup_insert_ne by congruence; reflexivity].
    rewrite A4, lookup_insert_ne, A2 in Hc4 by congruence. rewrite Hc4, lookup_insert. f_equal. apply MatP_ext. intros i j _ _. unfold inv. rewrite decide_False by lia. reflexivity.
  - intros i hi Hi HI. apply wp_for_n with (I := fun j hi => I i j hi); [exact HI| |].
    + clear hi HI. intros j hi Hj (W & n & cs & A). destruct (Hcl _ _ _ _ _ A) as (Cl & Cb & Cc & Cr).
      wbind. eapply wp_t_row_get_into; [exact W|exact Cl|lia|lia|exact Cr|]. rewrite !Nat2Z.id. intros h5 W5 A5. rewrite A, insert_insert in A5.
      assert (A5' := A5). unfold AVec in A5'. destruct (Hcl _ _ _ _ _ A5') as (Dl & Db & Dc & Dr).
      wbind. eapply wp_v_dot; [exact W5|exact Dr|exact Db|]. rewrite decide_True by (rewrite vlist_length; lia). fold (u i j).
      eapply wp_m_set; [exact W5|exact Dc|]. intros h6 W6 _ A6. rewrite decide_True in A6 by lia. rewrite !Nat2Z.id in A6. split; [exact W6|]. eexists _, _. rewrite A6, A5'.
      rewrite insert_commute by congruence. rewrite insert_insert. do 2 f_equal. apply MatP_ext. intros i' j' _ _. unfold upd, inv.
      destruct (decide (i' = i /\ j' = j)) as [[-> ->]|E]; [rewrite decide_True by lia; reflexivity|].
      destruct (decide (i' < i \/ i' = i /\ j' < j)%nat); [rewrite decide_True by lia; reflexivity|rewrite decide_False by lia; reflexivity].
    + intros h' (W & n & cs & A). split; [exact W|]. exists n, cs. rewrite A. do 2 f_equal. apply MatP_ext. intros i' j' Hi' Hj'. unfold inv.
      destruct (decide (i' < i \/ i' = i /\ j' < y)%nat); [rewrite decide_True by lia; reflexivity|rewrite decide_False by lia; reflexivity].
  - intros h5 (W & n & cs & A). destruct (Hcl _ _ _ _ _ A) as (Cl & Cb & Cc & Cr).
    wbind. eapply wp_del; [exact W|exact Cr|]. intros h6 W6 A6 _. apply wp_ret. apply HQ; [exact W6|exact N1|]. rewrite A6, A. rewrite delete_insert by (rewrite lookup_insert_ne by congruence; exact N3').
    f_equal. rewrite Mat_MatP. apply MatP_ext. intros i j Hi Hj. unfold inv. rewrite decide_True by lia. reflexivity.
Qed.
End tenproofs7.
