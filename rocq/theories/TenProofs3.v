(** Proofs about the tensor model, part 3: removing, swapping, reading and writing slices and rows. *)
From Verif Require Export TenProofs2.
From Coq Require Import ZifyBool ZifyNat.
Ltac Zify.zify_post_hook ::= Z.to_euclidean_division_equations.

Section tenproofs3.
Context {F : Type} `{Scalar F}.
Implicit Types (h : heap F) (l a b t : loc) (xs ys v : list F) (x y z k : nat) (cs : list (option F)) (sl : list (list F)) (idx : Z).

Lemma bad_idx idx n : ~ (0 <= idx < n) -> (idx <? 0) || (n <=? idx) = true. Proof. lia. Qed.
Lemma good_idx idx n : 0 <= idx < n -> (idx <? 0) || (n <=? idx) = false. Proof. lia. Qed.

(** ** z_slice_remove *)
Lemma wp_t_slice_remove h l x y sl idx (Q : unit -> heap F -> Prop) : wf h -> abs h !! l = Some (Slices x y sl) -> width (y * x) sl ->
  0 <= idx < Z.of_nat (length sl) ->
  (forall h', wf h' -> abs h' = <[l := Slices x y (delete (Z.to_nat idx) sl)]> (abs h) -> Q tt h') -> wp (t_slice_remove l idx) h Q.
Proof.
  intros Hwf Ha Hw Hidx HQ. destruct (slices_len h l x y sl Hwf Ha Hw) as [Hcl Hle].
  unfold t_slice_remove. wbind. eapply wp_t_size; [exact Ha|]. cbv beta iota zeta. rewrite good_idx by exact Hidx.
  replace (Z.of_nat x * Z.of_nat y) with (Z.of_nat (y * x)) by lia. remember (y * x)%nat as c eqn:Ec.
  pose proof (length_delete_lt sl (Z.to_nat idx) ltac:(lia)) as Hdl.
  pose proof (concat_len c _ (width_delete c sl (Z.to_nat idx) Hw)) as Hdc.
  assert (Hsz : Z.of_nat c * (Z.of_nat (length sl) - 1) = Z.of_nat (length (concat (delete (Z.to_nat idx) sl)))) by nia.
  assert (Esh : STen (Z.of_nat x) (Z.of_nat y) (Z.of_nat (length sl) - 1) = STen (Z.of_nat x) (Z.of_nat y) (Z.of_nat (length (delete (Z.to_nat idx) sl)))) by (f_equal; lia).
  assert (Ess : shape_size (STen (Z.of_nat x) (Z.of_nat y) (Z.of_nat (length sl) - 1)) = Z.of_nat c * (Z.of_nat (length sl) - 1)) by (cbn [shape_size]; subst c; lia).
  destruct (Z.eqb_spec (Z.of_nat c * (Z.of_nat (length sl) - 1)) 0) as [E|E].
  - eapply wp_obj_free; [exact Hwf|exact Ha|rewrite Ess; exact E|]. intros h1 W1 A1 _. apply HQ; auto. rewrite A1. f_equal.
    unfold Slices, ATen. rewrite <- Esh. destruct (concat (delete (Z.to_nat idx) sl)); [reflexivity|cbn in Hsz; lia].
  - set (old := Some <$> concat sl : list (option F)). set (nw := Some <$> concat (delete (Z.to_nat idx) sl) : list (option F)).
    assert (Hc : (0 < c)%nat) by nia.
    wbind. eapply wp_data_ptr; [exact Ha|]. intros p Hp. wbind.
    assert (Hshift : forall k, (Z.to_nat idx * c <= k)%nat -> (k < length (concat (delete (Z.to_nat idx) sl)))%nat ->
       exists u, concat sl !! (k + c)%nat = Some u /\ concat (delete (Z.to_nat idx) sl) !! k = Some u).
    { intros k Hk1 Hk2. rewrite Hdc in Hk2.
      destruct (concat_take_lookup c _ k (width_delete c sl (Z.to_nat idx) Hw) Hk2) as (row & u & R1 & R2 & R3).
      exists u. split; [|exact R3]. rewrite delete_lookup in R1 by (apply Nat.div_le_lower_bound; lia).
      destruct (idx_inv c _ k Hk2) as (_ & H2 & H3).
      replace (k + c)%nat with (S (k / c) * c + k mod c)%nat by lia. rewrite (concat_lookup c sl _ row); auto. }
    assert (Hpre : forall k, (k < Z.to_nat idx * c)%nat -> concat (delete (Z.to_nat idx) sl) !! k = concat sl !! k).
    { intros k Hk. destruct (concat_take_lookup c sl k Hw ltac:(nia)) as (row & u & R1 & R2 & R3). rewrite R3.
      destruct (idx_inv c (length sl) k ltac:(nia)) as (_ & H2 & H3). rewrite H3.
      rewrite (concat_lookup c _ _ row); auto; [apply width_delete; exact Hw|].
      rewrite lookup_delete_lt; [exact R1|]. apply Nat.div_lt_upper_bound; lia. }
    apply wp_for with (I := fun i hi => wf hi /\ h_obj hi = h_obj h /\
       abs hi = <[l := (STen (Z.of_nat x) (Z.of_nat y) (Z.of_nat (length sl)), take (Z.to_nat i) nw ++ drop (Z.to_nat i) old)]> (abs h)).
    + split; [assumption|]. split; [reflexivity|]. rewrite insert_id; [reflexivity|]. rewrite Ha. unfold Slices, ATen. do 2 f_equal.
      transitivity (take (Z.to_nat (Z.of_nat c * idx)) old ++ drop (Z.to_nat (Z.of_nat c * idx)) old); [symmetry; apply take_drop|].
      f_equal. unfold old, nw. rewrite <- !fmap_take. f_equal.
      apply list_eq. intros k. destruct (decide (k < Z.to_nat idx * c)%nat).
      * rewrite !lookup_take by nia. symmetry. auto.
      * rewrite !lookup_take_ge by nia. reflexivity.
    + intros i hi Hi (W & O & A).
      destruct (Hshift (Z.to_nat i)) as (u & X1 & X2); [nia|lia|].
      assert (Hlt : length (take (Z.to_nat i) nw) = Z.to_nat i) by (rewrite take_length; unfold nw; rewrite fmap_length; lia).
      wbind. eapply wp_load with (l := l) (v := u); [exact W|rewrite (ptr_of_obj h hi); assumption|rewrite A; apply lookup_insert|lia| |].
      { rewrite lookup_app_r by lia. rewrite lookup_drop, Hlt. unfold old. apply fmap_Some_lookup. rewrite <- X1. f_equal. lia. }
      eapply wp_store with (l := l); [exact W|rewrite (ptr_of_obj h hi); assumption|rewrite A; apply lookup_insert| |].
      { rewrite app_length, Hlt, drop_length. unfold old. rewrite fmap_length. lia. }
      intros h' W' O' _ A'. split; [assumption|]. split; [congruence|]. rewrite A', A, insert_insert. do 2 f_equal.
      replace (Z.to_nat (i + 1)) with (S (Z.to_nat i)) by lia.
      assert (Hnw : nw !! Z.to_nat i = Some (Some u)) by (apply fmap_Some_lookup, X2).
      rewrite (take_S_r _ _ _ Hnw). rewrite insert_app_r_alt by lia. rewrite Hlt, Nat.sub_diag. rewrite <- app_assoc. f_equal.
      destruct (lookup_lt_is_Some_2 old (Z.to_nat i)) as [w Hy]; [unfold old; rewrite fmap_length; lia|].
      rewrite (drop_S _ _ _ Hy). reflexivity.
    + intros hi (W & O & A).
      eapply wp_obj_realloc; [exact W|rewrite A; apply lookup_insert|rewrite Ess; lia|]. intros h2 W2 A2 _. apply HQ; auto.
      rewrite A2, A, insert_insert. f_equal. rewrite Ess. unfold Slices, ATen. rewrite <- Esh. f_equal.
      fold nw. rewrite Hsz, Nat2Z.id. replace (length (concat (delete (Z.to_nat idx) sl))) with (length nw) by (unfold nw; apply fmap_length).
      rewrite take_ge by (unfold nw; rewrite fmap_length; nia).
      rewrite resize_le by (rewrite app_length; lia). rewrite take_app. reflexivity.
Qed.

(** ** z_slice_set *)
Lemma wp_t_slice_set h l x y sl idx v (Q : unit -> heap F -> Prop) : wf h -> abs h !! l = Some (Slices x y sl) -> width (y * x) sl ->
  0 <= idx < Z.of_nat (length sl) -> length v = (y * x)%nat ->
  (forall h', wf h' -> abs h' = <[l := Slices x y (<[Z.to_nat idx := v]> sl)]> (abs h) -> Q tt h') -> wp (t_slice_set l idx v) h Q.
Proof.
  intros Hwf Ha Hw Hidx Hv HQ. destruct (slices_len h l x y sl Hwf Ha Hw) as [Hcl Hle]. pose proof (ten_fits h l x y _ _ Hwf Ha ltac:(lia)) as Hf.
  unfold t_slice_set. wbind. eapply wp_t_size; [exact Ha|]. cbv beta iota zeta. rewrite good_idx by exact Hidx.
  wbind. eapply wp_t_zds; [exact Ha|exact Hf|]. rewrite Hv, Z.eqb_refl. cbn [negb].
  eapply wp_m_copy_list; [exact Hwf|exact Ha|lia|rewrite fmap_length; nia|]. intros h' W A. apply HQ; auto. rewrite A. f_equal. unfold Slices, ATen. rewrite insert_length. f_equal.
  rewrite Hv. replace (Z.to_nat (Z.of_nat x * Z.of_nat y * idx)) with (Z.to_nat idx * (y * x))%nat by nia. apply splice_slice; auto; lia.
Qed.
Lemma wp_t_copy_slice h l x y sl k b shb v (Q : unit -> heap F -> Prop) : wf h -> abs h !! l = Some (Slices x y sl) -> width (y * x) sl -> abs h !! b = Some (shb, Some <$> v) -> b <> l ->
  (k < length sl)%nat -> length v = (y * x)%nat ->
  (forall h', wf h' -> h_obj h' = h_obj h -> abs h' = <[l := Slices x y (<[k := v]> sl)]> (abs h) -> Q tt h') -> wp (t_copy l (Z.of_nat (k * (y * x))) b 0 (Z.of_nat (y * x))) h Q.
Proof.
  intros Hwf Ha Hw Hb Hne Hk Hv HQ. destruct (slices_len h l x y sl Hwf Ha Hw) as [Hcl Hle]. change 0 with (Z.of_nat 0).
  eapply wp_t_copy; [exact Hwf|exact Ha|exact Hb|exact Hne|rewrite fmap_length; nia|lia|]. intros h' W O A. apply HQ; auto. rewrite A. f_equal. unfold Slices, ATen. rewrite insert_length. f_equal.
  rewrite drop_0, (take_ge v) by lia. apply splice_slice; auto.
Qed.
Lemma wp_t_slice_set_vec h l x y sl idx b v (Q : unit -> heap F -> Prop) : wf h -> abs h !! l = Some (Slices x y sl) -> width (y * x) sl ->
  0 <= idx < Z.of_nat (length sl) -> abs h !! b = Some (AVec v) -> length v = (y * x)%nat ->
  (forall h', wf h' -> abs h' = <[l := Slices x y (<[Z.to_nat idx := v]> sl)]> (abs h) -> Q tt h') -> wp (t_slice_set_vec l idx (Some b)) h Q.
Proof.
  intros Hwf Ha Hw Hidx Hb Hv HQ. pose proof (ten_fits h l x y _ _ Hwf Ha ltac:(lia)) as Hf. assert (b <> l) as Hne by (intros ->; rewrite Ha in Hb; discriminate).
  unfold t_slice_set_vec. wbind. eapply wp_t_size; [exact Ha|]. cbv beta iota zeta. rewrite good_idx by exact Hidx.
  wbind. eapply wp_t_zds; [exact Ha|exact Hf|]. wbind. eapply wp_v_size_vec; [exact Hb|]. rewrite Hv, Z.eqb_refl. cbn [negb].
  replace (Z.of_nat x * Z.of_nat y * idx) with (Z.of_nat (Z.to_nat idx * (y * x))) by nia. eapply wp_t_copy_slice; eauto. lia.
Qed.
Lemma wp_t_slice_set_mat h l x y sl idx b v (Q : unit -> heap F -> Prop) : wf h -> abs h !! l = Some (Slices x y sl) -> width (y * x) sl ->
  0 <= idx < Z.of_nat (length sl) -> abs h !! b = Some (AMat x y v) ->
  (forall h', wf h' -> abs h' = <[l := Slices x y (<[Z.to_nat idx := v]> sl)]> (abs h) -> Q tt h') -> wp (t_slice_set_mat l idx (Some b)) h Q.
Proof.
  intros Hwf Ha Hw Hidx Hb HQ. pose proof (ten_fits h l x y _ _ Hwf Ha ltac:(lia)) as Hf. assert (b <> l) as Hne by (intros ->; rewrite Ha in Hb; discriminate). destruct (amat_len h b _ _ _ Hwf Hb) as [Hv _].
  unfold t_slice_set_mat. wbind. eapply wp_t_size; [exact Ha|]. cbv beta iota zeta. rewrite good_idx by exact Hidx.
  wbind. eapply wp_t_zds; [exact Ha|exact Hf|]. wbind. eapply wp_m_size; [exact Hb|]. unfold size_eq. cbn [fst snd]. rewrite !Z.eqb_refl. cbn [andb negb].
  replace (Z.of_nat x * Z.of_nat y * idx) with (Z.of_nat (Z.to_nat idx * (y * x))) by nia. eapply wp_t_copy_slice; eauto. lia.
Qed.

(** ** z_slice_get *)
Lemma wp_t_slice_get h l x y sl idx s (Q : list F -> heap F -> Prop) : wf h -> abs h !! l = Some (Slices x y sl) -> width (y * x) sl ->
  0 <= idx -> sl !! Z.to_nat idx = Some s -> Q s h -> wp (t_slice_get l idx) h Q.
Proof.
  intros Hwf Ha Hw Hidx Hs HQ. destruct (slices_len h l x y sl Hwf Ha Hw) as [Hcl Hle]. pose proof (lookup_lt_Some _ _ _ Hs) as Hk. pose proof (ten_fits h l x y _ _ Hwf Ha ltac:(lia)) as Hf.
  assert (Ls : length s = (y * x)%nat) by exact (width_row _ _ _ _ Hw Hs).
  unfold t_slice_get. wbind. eapply wp_t_size; [exact Ha|]. cbv beta iota zeta. rewrite good_idx by lia. wbind. eapply wp_t_zds; [exact Ha|exact Hf|].
  destruct (Z.eqb_spec (Z.of_nat (y * x)) 0) as [E|E]; [apply wp_ret; destruct s; [exact HQ|cbn in Ls; lia]|].
  wbind. eapply wp_data_ptr; [exact Ha|]. intros p Hp.
  apply wp_for_acc_n with (I := fun j acc h' => h' = h /\ acc = take j s).
  - auto.
  - intros j acc h' Hj [-> ->]. destruct (lookup_lt_is_Some_2 s j) as [u Hu]; [lia|].
    wbind. eapply wp_load with (v := u); [exact Hwf|exact Hp|exact Ha|lia| |].
    { apply fmap_Some_lookup. replace (Z.to_nat (Z.of_nat x * Z.of_nat y * idx + Z.of_nat j)) with (Z.to_nat idx * (y * x) + j)%nat by nia.
      rewrite (concat_lookup (y * x) sl _ s); auto. }
    apply wp_ret. split; [reflexivity|]. symmetry. apply take_S_r. exact Hu.
  - intros acc h' [-> ->]. rewrite take_ge by lia. exact HQ.
Qed.
Lemma wp_t_copy_out h l x y sl k s t sh cs (Q : unit -> heap F -> Prop) : wf h -> abs h !! l = Some (Slices x y sl) -> width (y * x) sl -> sl !! k = Some s ->
  abs h !! t = Some (sh, cs) -> length cs = (y * x)%nat -> t <> l ->
  (forall h', wf h' -> h_obj h' = h_obj h -> abs h' = <[t := (sh, Some <$> s)]> (abs h) -> Q tt h') -> wp (t_copy t 0 l (Z.of_nat (k * (y * x))) (Z.of_nat (y * x))) h Q.
Proof.
  intros Hwf Ha Hw Hs Ht Hc Hne HQ. destruct (slices_len h l x y sl Hwf Ha Hw) as [Hcl Hle]. pose proof (lookup_lt_Some _ _ _ Hs) as Hk.
  eapply wp_t_copy_all; [exact Hwf|exact Ht|exact Ha|congruence|exact Hc|nia|]. intros h' W O A. apply HQ; auto. rewrite A. rewrite (pick_slice _ _ _ _ Hw Hs). reflexivity.
Qed.
Lemma wp_t_slice_get_vec h l x y sl idx s (Q : option loc -> heap F -> Prop) : wf h -> abs h !! l = Some (Slices x y sl) -> width (y * x) sl ->
  0 <= idx -> sl !! Z.to_nat idx = Some s -> (forall d h', wf h' -> abs h !! d = None -> abs h' = <[d := AVec s]> (abs h) -> Q (Some d) h') -> wp (t_slice_get_vec l idx) h Q.
Proof.
  intros Hwf Ha Hw Hidx Hs HQ. pose proof (lookup_lt_Some _ _ _ Hs) as Hk. pose proof (ten_fits h l x y _ _ Hwf Ha ltac:(lia)) as Hf.
  assert (Ls : length s = (y * x)%nat) by exact (width_row _ _ _ _ Hw Hs).
  unfold t_slice_get_vec. wbind. eapply wp_t_size; [exact Ha|]. cbv beta iota zeta. rewrite good_idx by lia.
  wbind. apply wp_v_new; [exact Hwf|]. intros d h1 W1 N1 A1 _.
  assert (Ha1 : abs h1 !! l = Some (Slices x y sl)) by (rewrite A1, lookup_insert_ne by congruence; exact Ha).
  wbind. eapply wp_t_zds; [exact Ha1|exact Hf|].
  destruct (Z.eqb_spec (Z.of_nat (y * x)) 0) as [E|E]; [apply wp_ret; apply HQ; auto; rewrite A1; destruct s; [reflexivity|cbn in Ls; lia]|].
  wbind. eapply wp_v_resize; [exact W1|rewrite A1; apply lookup_insert|unfold fits in Hf; lia|]. intros h2 W2 A2 _.
  replace (Z.of_nat x * Z.of_nat y * idx) with (Z.of_nat (Z.to_nat idx * (y * x))) by nia.
  wbind. eapply wp_t_copy_out with (t := d); [exact W2|rewrite A2, lookup_insert_ne by congruence; exact Ha1|exact Hw|exact Hs|rewrite A2; apply lookup_insert|rewrite resize_length; lia|congruence|].
  intros h3 W3 O3 A3. apply wp_ret. apply HQ; auto. rewrite A3, A2, A1, !insert_insert. unfold AVec. rewrite Ls. reflexivity.
Qed.
Lemma wp_t_slice_get_into_vec h l x y sl idx s t n cs (Q : unit -> heap F -> Prop) : wf h -> abs h !! l = Some (Slices x y sl) -> width (y * x) sl ->
  0 <= idx -> sl !! Z.to_nat idx = Some s -> abs h !! t = Some (SVec n, cs) -> (forall h', wf h' -> abs h' = <[t := AVec s]> (abs h) -> Q tt h') -> wp (t_slice_get_into_vec l idx (Some t)) h Q.
Proof.
  intros Hwf Ha Hw Hidx Hs Ht HQ. pose proof (lookup_lt_Some _ _ _ Hs) as Hk. pose proof (ten_fits h l x y _ _ Hwf Ha ltac:(lia)) as Hf.
  assert (Ls : length s = (y * x)%nat) by exact (width_row _ _ _ _ Hw Hs). assert (t <> l) as Hne by (intros ->; rewrite Ha in Ht; discriminate).
  unfold t_slice_get_into_vec. wbind. eapply wp_t_size; [exact Ha|]. cbv beta iota zeta. rewrite good_idx by lia.
  wbind. eapply wp_t_zds; [exact Ha|exact Hf|]. wbind. cbn [deref]. apply wp_ret. wbind. eapply wp_v_size; [exact Ht|].
  wbind. eapply wp_v_resize_cond; [exact Hwf|exact Ht|unfold fits in Hf; lia|]. intros h2 W2 A2 P2.
  replace (Z.of_nat x * Z.of_nat y * idx) with (Z.of_nat (Z.to_nat idx * (y * x))) by nia.
  eapply wp_t_copy_out with (t := t); [exact W2|rewrite A2, lookup_insert_ne by congruence; exact Ha|exact Hw|exact Hs|rewrite A2; apply lookup_insert|rewrite resize_length; lia|exact Hne|].
  intros h3 W3 O3 A3. apply HQ; auto. rewrite A3, A2, !insert_insert. unfold AVec. rewrite Ls. reflexivity.
Qed.
Lemma wp_t_slice_get_into_mat h l x y sl idx s t (x0 y0 : Z) cs (Q : unit -> heap F -> Prop) : wf h -> abs h !! l = Some (Slices x y sl) -> width (y * x) sl ->
  0 <= idx -> sl !! Z.to_nat idx = Some s -> abs h !! t = Some (SMat x0 y0, cs) -> (forall h', wf h' -> abs h' = <[t := AMat x y s]> (abs h) -> Q tt h') -> wp (t_slice_get_into_mat l idx (Some t)) h Q.
Proof.
  intros Hwf Ha Hw Hidx Hs Ht HQ. pose proof (lookup_lt_Some _ _ _ Hs) as Hk. pose proof (ten_fits h l x y _ _ Hwf Ha ltac:(lia)) as Hf.
  assert (Ls : length s = (y * x)%nat) by exact (width_row _ _ _ _ Hw Hs). assert (t <> l) as Hne by (intros ->; rewrite Ha in Ht; discriminate).
  unfold t_slice_get_into_mat. wbind. eapply wp_t_size; [exact Ha|]. cbv beta iota zeta. rewrite good_idx by lia.
  wbind. eapply wp_t_zds; [exact Ha|exact Hf|]. wbind. cbn [deref]. apply wp_ret.
  wbind. eapply wp_m_resize_if; [exact Hwf|exact Ht|unfold fits in Hf; lia|]. intros h2 W2 A2 _.
  replace (Z.of_nat x * Z.of_nat y * idx) with (Z.of_nat (Z.to_nat idx * (y * x))) by nia.
  eapply wp_t_copy_out with (t := t); [exact W2|rewrite A2, lookup_insert_ne by congruence; exact Ha|exact Hw|exact Hs|rewrite A2; apply lookup_insert|rewrite resize_length; lia|exact Hne|].
  intros h3 W3 O3 A3. apply HQ; auto. rewrite A3, A2, !insert_insert. reflexivity.
Qed.
Lemma wp_t_slice_get_mat h l x y sl idx s (Q : option loc -> heap F -> Prop) : wf h -> abs h !! l = Some (Slices x y sl) -> width (y * x) sl ->
  0 <= idx -> sl !! Z.to_nat idx = Some s -> (0 < y * x)%nat -> (forall d h', wf h' -> abs h !! d = None -> abs h' = <[d := AMat x y s]> (abs h) -> Q (Some d) h') -> wp (t_slice_get_mat l idx) h Q.
Proof.
  intros Hwf Ha Hw Hidx Hs Hpos HQ. pose proof (lookup_lt_Some _ _ _ Hs) as Hk. pose proof (ten_fits h l x y _ _ Hwf Ha ltac:(lia)) as Hf.
  assert (Ls : length s = (y * x)%nat) by exact (width_row _ _ _ _ Hw Hs).
  unfold t_slice_get_mat. wbind. eapply wp_t_size; [exact Ha|]. cbv beta iota zeta. rewrite good_idx by lia.
  wbind. apply wp_m_new; [exact Hwf|]. intros d h1 W1 N1 A1 _.
  assert (Ha1 : abs h1 !! l = Some (Slices x y sl)) by (rewrite A1, lookup_insert_ne by congruence; exact Ha).
  wbind. eapply wp_t_zds; [exact Ha1|exact Hf|]. replace (Z.of_nat (y * x) =? 0) with false by lia.
  wbind. eapply wp_m_resize; [exact W1|rewrite A1; apply lookup_insert|unfold fits in Hf; lia|]. intros h2 W2 A2 _.
  replace (Z.of_nat x * Z.of_nat y * idx) with (Z.of_nat (Z.to_nat idx * (y * x))) by nia.
  wbind. eapply wp_t_copy_out with (t := d); [exact W2|rewrite A2, lookup_insert_ne by congruence; exact Ha1|exact Hw|exact Hs|rewrite A2; apply lookup_insert|rewrite resize_length; lia|congruence|].
  intros h3 W3 O3 A3. apply wp_ret. apply HQ; auto. rewrite A3, A2, A1, !insert_insert. reflexivity.
Qed.
End tenproofs3.
