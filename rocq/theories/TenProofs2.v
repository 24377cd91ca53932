(** Proofs about the tensor model, part 2: copies, slices and rows. *)
From Verif Require Export TenProofs.
From Coq Require Import ZifyBool ZifyNat.
Ltac Zify.zify_post_hook ::= Z.to_euclidean_division_equations.

Section tenproofs2.
Context {F : Type} `{Scalar F}.
Implicit Types (h : heap F) (l a b : loc) (xs ys v : list F) (x y z k : nat) (cs : list (option F)) (sl : list (list F)).

(** ** Splicing flat lists *)
Lemma splice_slice w sl k v : width w sl -> (k < length sl)%nat -> length v = w ->
  take (k * w) (Some <$> concat sl) ++ (Some <$> v) ++ drop (k * w + w) (Some <$> concat sl) = Some <$> concat (<[k := v]> sl).
Proof.
  intros Hw Hk Hv. rewrite <- fmap_take, <- fmap_drop, <- !fmap_app. f_equal.
  destruct (lookup_lt_is_Some_2 sl k Hk) as [s Hs]. pose proof (take_drop_middle sl k s Hs) as E.
  assert (Hw1 : width w (take k sl)) by (apply width_take; exact Hw). pose proof (concat_len w _ Hw1) as L1. rewrite take_length in L1. replace (min k (length sl)) with k in L1 by lia.
  assert (Ls : length s = w) by (exact (width_row _ _ _ _ Hw Hs)).
  rewrite insert_take_drop by exact Hk. rewrite concat_app. cbn [concat].
  rewrite <- E at 1 2. rewrite concat_app. cbn [concat]. rewrite take_app_alt by lia. f_equal. f_equal.
  rewrite app_assoc. rewrite drop_app_alt; [reflexivity|]. rewrite app_length. lia.
Qed.
Lemma pick_slice w sl k s : width w sl -> sl !! k = Some s -> take w (drop (k * w) (concat sl)) = s.
Proof.
  intros Hw Hs. pose proof (take_drop_middle sl k s Hs) as E. pose proof (lookup_lt_Some _ _ _ Hs) as Hk.
  assert (Hw1 : width w (take k sl)) by (apply width_take; exact Hw). pose proof (concat_len w _ Hw1) as L1. rewrite take_length in L1. replace (min k (length sl)) with k in L1 by lia.
  assert (Ls : length s = w) by (exact (width_row _ _ _ _ Hw Hs)).
  rewrite <- E, concat_app. cbn [concat]. rewrite drop_app_alt by lia. rewrite take_app_alt by lia. reflexivity.
Qed.

(** ** The copy loop between two objects *)
Lemma wp_t_copy h l sh cs po b shb ys qo n (Q : unit -> heap F -> Prop) : wf h ->
  abs h !! l = Some (sh, cs) -> abs h !! b = Some (shb, Some <$> ys) -> b <> l -> (po + n <= length cs)%nat -> (qo + n <= length ys)%nat ->
  (forall h', wf h' -> h_obj h' = h_obj h -> abs h' = <[l := (sh, take po cs ++ (Some <$> take n (drop qo ys)) ++ drop (po + n) cs)]> (abs h) -> Q tt h') ->
  wp (t_copy l (Z.of_nat po) b (Z.of_nat qo) (Z.of_nat n)) h Q.
Proof.
  intros Hwf Ha Hb Hne H1 H2 HQ. unfold t_copy. wbind. eapply wp_data_ptr; [exact Ha|]. intros p Hp. wbind. eapply wp_data_ptr; [exact Hb|]. intros q Hq.
  set (xs := take n (drop qo ys)). assert (Lx : length xs = n) by (unfold xs; rewrite take_length, drop_length; lia).
  set (new := take po cs ++ (Some <$> xs) ++ drop (po + n) cs).
  assert (Hnl : length new = length cs) by (unfold new; rewrite !app_length, take_length, drop_length, fmap_length; lia).
  eapply wp_write_loop with (new := new) (off := Z.of_nat po); [exact Hwf|exact Hp|exact Ha|exact Hnl|lia|lia|lia| | |].
  - rewrite Nat2Z.id. unfold new. rewrite take_app_le by (rewrite take_length; lia). rewrite take_take. f_equal. lia.
  - intros i hi Q' Hi W O A Hs. destruct (lookup_lt_is_Some_2 xs (Z.to_nat i)) as [u Hu]; [lia|].
    wbind. eapply wp_load with (l := b) (v := u); [exact W|rewrite (ptr_of_obj h hi); assumption|rewrite A, lookup_insert_ne by congruence; exact Hb|lia| |].
    { apply fmap_Some_lookup. unfold xs in Hu. rewrite lookup_take, lookup_drop in Hu by lia. rewrite <- Hu. f_equal. lia. }
    apply Hs. unfold new. rewrite lookup_app_r by (rewrite take_length; lia). rewrite take_length, lookup_app_l by (rewrite fmap_length; lia).
    replace (Z.to_nat (Z.of_nat po + i) - min po (length cs))%nat with (Z.to_nat i) by lia. apply fmap_Some_lookup, Hu.
  - intros h' W O A. apply HQ; auto. rewrite A. do 2 f_equal. unfold upto, new.
    replace (Z.to_nat (Z.of_nat po + Z.of_nat n)) with (po + n)%nat by lia.
    fold xs. rewrite app_assoc, take_app_alt; [reflexivity|]. rewrite app_length, take_length, fmap_length. lia.
Qed.
(** Whole object overwritten. *)
Lemma wp_t_copy_all h l sh cs b shb ys qo n (Q : unit -> heap F -> Prop) : wf h ->
  abs h !! l = Some (sh, cs) -> abs h !! b = Some (shb, Some <$> ys) -> b <> l -> length cs = n -> (qo + n <= length ys)%nat ->
  (forall h', wf h' -> h_obj h' = h_obj h -> abs h' = <[l := (sh, Some <$> take n (drop qo ys))]> (abs h) -> Q tt h') ->
  wp (t_copy l 0 b (Z.of_nat qo) (Z.of_nat n)) h Q.
Proof.
  intros Hwf Ha Hb Hne H1 H2 HQ. change 0 with (Z.of_nat 0). eapply wp_t_copy; [exact Hwf|exact Ha|exact Hb|exact Hne|lia|exact H2|].
  intros h' W O A. apply HQ; auto. rewrite A, take_0. cbn [app plus]. rewrite (drop_ge cs n) by lia. rewrite app_nil_r. reflexivity.
Qed.
(** Copying an object onto itself, same place. *)
Lemma wp_t_copy_self h l sh ys n (Q : unit -> heap F -> Prop) : wf h -> abs h !! l = Some (sh, Some <$> ys) -> (n <= length ys)%nat ->
  (forall h', wf h' -> h_obj h' = h_obj h -> abs h' = abs h -> Q tt h') -> wp (t_copy l 0 l 0 (Z.of_nat n)) h Q.
Proof.
  intros Hwf Ha Hn HQ. unfold t_copy. wbind. eapply wp_data_ptr; [exact Ha|]. intros p Hp. wbind. eapply wp_data_ptr; [exact Ha|]. intros q Hq.
  apply wp_for_n with (I := fun _ hi => wf hi /\ h_obj hi = h_obj h /\ abs hi = abs h).
  - auto.
  - intros i hi Hi (W & O & A). destruct (lookup_lt_is_Some_2 ys i) as [u Hu]; [lia|].
    wbind. eapply wp_load with (l := l) (v := u); [exact W|rewrite (ptr_of_obj h hi); assumption|rewrite A; exact Ha|lia| |].
    { apply fmap_Some_lookup. rewrite <- Hu. f_equal. lia. }
    eapply wp_store with (l := l); [exact W|rewrite (ptr_of_obj h hi); assumption|rewrite A; exact Ha|rewrite fmap_length; lia|].
    intros h' W' O' _ A'. split; [exact W'|]. split; [congruence|]. rewrite A', A. rewrite list_insert_id; [apply insert_id; exact Ha|].
    apply fmap_Some_lookup. rewrite <- Hu. f_equal. lia.
  - intros hi (W & O & A). apply HQ; auto.
Qed.

(** ** Tensors as lists of slices *)
Lemma Slices_snoc x y sl v : length v = (y * x)%nat -> (STen (Z.of_nat x) (Z.of_nat y) (Z.of_nat (length sl) + 1), (Some <$> concat sl) ++ (Some <$> v)) = Slices x y (sl ++ [v]).
Proof. intros Hv. unfold Slices, ATen. rewrite app_length, concat_app. cbn [length concat]. rewrite app_nil_r, fmap_app. f_equal. f_equal; lia. Qed.
Lemma Slices_Ten x y sl : width (y * x) sl -> Slices x y sl = Ten x y (length sl) (fun k j i => nth (j * x + i) (nth k sl []) s_zero).
Proof.
  intros Hw. unfold Slices, Ten. f_equal. apply tlist_eq; [apply (concat_len _ _ Hw)|]. intros k j i Hk Hj Hi.
  destruct (lookup_lt_is_Some_2 sl k Hk) as [s Hs]. pose proof (idx_lt x y j i Hj Hi) as Hl.
  rewrite (concat_lookup (y * x) sl k s) by auto. rewrite (nth_lookup_Some sl k [] s Hs). assert (length s = (y * x)%nat) by (exact (width_row _ _ _ _ Hw Hs)).
  destruct (lookup_lt_is_Some_2 s (j * x + i)) as [u Hu]; [lia|]. rewrite Hu. f_equal. symmetry. apply nth_lookup_Some. exact Hu.
Qed.
Lemma Ten_Slices x y z (T : nat -> nat -> nat -> F) : Ten x y z T = Slices x y (slice_of x y T <$> seq 0 z) /\ width (y * x) (slice_of x y T <$> seq 0 z).
Proof.
  assert (Hw : width (y * x) (slice_of x y T <$> seq 0 z)).
  { apply list.Forall_forall. intros s Hs. apply elem_of_list_fmap in Hs as (k & -> & _). apply mlist_length. }
  split; [|exact Hw]. unfold Slices. rewrite fmap_length, seq_length. unfold Ten. f_equal. symmetry. apply tlist_eq.
  - rewrite (concat_len _ _ Hw), fmap_length, seq_length. reflexivity.
  - intros k j i Hk Hj Hi. rewrite (concat_lookup (y * x) _ k (slice_of x y T k)); [apply mlist_lookup; auto|exact Hw| |apply idx_lt; auto].
    rewrite list_lookup_fmap, lookup_seq_lt by exact Hk. reflexivity.
Qed.
Lemma slices_len h l x y sl : wf h -> abs h !! l = Some (Slices x y sl) -> width (y * x) sl -> length (concat sl) = (length sl * (y * x))%nat /\ Z.of_nat (length sl * (y * x)) <= int_max.
Proof. intros W Ha Hw. destruct (aten_len h l _ _ _ _ W Ha) as [H1 H2]. auto. Qed.

(** ** z_slice_add *)
Lemma wp_t_slice_add h l x y sl v (Q : unit -> heap F -> Prop) : wf h -> abs h !! l = Some (Slices x y sl) -> width (y * x) sl -> fits x y ->
  length v = (y * x)%nat -> v <> [] -> Z.of_nat ((length sl + 1) * (y * x)) <= int_max ->
  (forall h', wf h' -> abs h' = <[l := Slices x y (sl ++ [v])]> (abs h) -> Q tt h') -> wp (t_slice_add l v) h Q.
Proof.
  intros Hwf Ha Hw Hf Hv Hne Hle HQ. unfold t_slice_add. destruct (slices_len h l x y sl Hwf Ha Hw) as [Hcl _].
  destruct (Z.eqb_spec (Z.of_nat (length v)) 0) as [E|_]; [destruct v; [congruence|cbn in E; lia]|].
  wbind. eapply wp_t_zds; [exact Ha|exact Hf|]. replace (Z.of_nat (y * x) =? Z.of_nat (length v)) with true by lia. cbn [negb].
  wbind. eapply wp_t_data_size; [exact Hwf|exact Ha|exact Hf|]. wbind. eapply wp_t_size; [exact Ha|]. cbv beta iota zeta.
  wbind. apply wp_chk; [unfold int_max in *; nia|].
  assert (Hpos : (0 < y * x)%nat) by (destruct v; [congruence|cbn in Hv; lia]).
  wbind. eapply wp_obj_realloc; [exact Hwf|exact Ha|cbn [shape_size]; nia|]. intros h1 W1 A1 _. cbn [shape_size] in A1.
  replace (Z.to_nat (Z.of_nat x * Z.of_nat y * (Z.of_nat (length sl) + 1))) with (length (Some <$> concat sl) + length v)%nat in A1 by (rewrite fmap_length; nia).
  rewrite resize_grow in A1.
  eapply wp_m_copy_list; [exact W1|rewrite A1; apply lookup_insert|lia| |].
  { rewrite app_length, replicate_length. lia. }
  intros h2 W2 A2. apply HQ; auto. rewrite A2, A1, insert_insert. f_equal. rewrite <- Slices_snoc by auto. f_equal.
  rewrite Nat2Z.id, take_app. f_equal. rewrite drop_ge; [apply app_nil_r|]. rewrite app_length, replicate_length. lia.
Qed.
Lemma wp_t_append_obj h l x y sl b shb v (Q : unit -> heap F -> Prop) : wf h -> abs h !! l = Some (Slices x y sl) -> width (y * x) sl ->
  abs h !! b = Some (shb, Some <$> v) -> b <> l -> length v = (y * x)%nat -> v <> [] -> Z.of_nat ((length sl + 1) * (y * x)) <= int_max ->
  (forall h', wf h' -> abs h' = <[l := Slices x y (sl ++ [v])]> (abs h) -> Q tt h') ->
  wp (obj_realloc l (STen (Z.of_nat x) (Z.of_nat y) (Z.of_nat (length sl) + 1)) ;;; t_copy l (Z.of_nat (length (concat sl))) b 0 (Z.of_nat (y * x))) h Q.
Proof.
  intros Hwf Ha Hw Hb Hbl Hv Hne Hle HQ. destruct (slices_len h l x y sl Hwf Ha Hw) as [Hcl _].
  assert (Hpos : (0 < y * x)%nat) by (destruct v; [congruence|cbn in Hv; lia]).
  wbind. eapply wp_obj_realloc; [exact Hwf|exact Ha|cbn [shape_size]; nia|]. intros h1 W1 A1 _. cbn [shape_size] in A1.
  replace (Z.to_nat (Z.of_nat x * Z.of_nat y * (Z.of_nat (length sl) + 1))) with (length (Some <$> concat sl) + length v)%nat in A1 by (rewrite fmap_length; nia).
  rewrite resize_grow in A1. change 0 with (Z.of_nat 0).
  eapply wp_t_copy with (b := b); [exact W1|rewrite A1; apply lookup_insert|rewrite A1, lookup_insert_ne by congruence; exact Hb|exact Hbl|rewrite app_length, fmap_length, replicate_length; lia|lia|].
  intros h2 W2 O2 A2. apply HQ; auto. rewrite A2, A1, insert_insert. f_equal. rewrite <- Slices_snoc by auto. f_equal.
  rewrite drop_0, (take_ge v) by lia. rewrite take_app_alt by (rewrite fmap_length; reflexivity). f_equal. rewrite drop_ge; [apply app_nil_r|]. rewrite app_length, fmap_length, replicate_length. lia.
Qed.
Lemma wp_t_slice_add_vec h l x y sl b v (Q : unit -> heap F -> Prop) : wf h -> abs h !! l = Some (Slices x y sl) -> width (y * x) sl -> fits x y ->
  abs h !! b = Some (AVec v) -> length v = (y * x)%nat -> v <> [] -> Z.of_nat ((length sl + 1) * (y * x)) <= int_max ->
  (forall h', wf h' -> abs h' = <[l := Slices x y (sl ++ [v])]> (abs h) -> Q tt h') -> wp (t_slice_add_vec l (Some b)) h Q.
Proof.
  intros Hwf Ha Hw Hf Hb Hv Hne Hle HQ. unfold t_slice_add_vec. destruct (slices_len h l x y sl Hwf Ha Hw) as [Hcl _].
  wbind. eapply wp_v_size_vec; [exact Hb|]. destruct (Z.eqb_spec (Z.of_nat (length v)) 0) as [E|_]; [destruct v; [congruence|cbn in E; lia]|].
  wbind. eapply wp_t_zds; [exact Ha|exact Hf|]. replace (Z.of_nat (y * x) =? Z.of_nat (length v)) with true by lia. cbn [negb].
  wbind. eapply wp_t_data_size; [exact Hwf|exact Ha|exact Hf|]. wbind. eapply wp_t_size; [exact Ha|]. cbv beta iota zeta. rewrite fmap_length.
  wbind. apply wp_chk; [unfold int_max in *; nia|]. rewrite Hv. eapply wp_t_append_obj; eauto. intros ->. rewrite Ha in Hb. discriminate.
Qed.
Lemma wp_t_slice_add_mat h l x y sl b v (Q : unit -> heap F -> Prop) : wf h -> abs h !! l = Some (Slices x y sl) -> width (y * x) sl -> fits x y ->
  abs h !! b = Some (AMat x y v) -> v <> [] -> Z.of_nat ((length sl + 1) * (y * x)) <= int_max ->
  (forall h', wf h' -> abs h' = <[l := Slices x y (sl ++ [v])]> (abs h) -> Q tt h') -> wp (t_slice_add_mat l (Some b)) h Q.
Proof.
  intros Hwf Ha Hw Hf Hb Hne Hle HQ. unfold t_slice_add_mat. destruct (slices_len h l x y sl Hwf Ha Hw) as [Hcl _]. destruct (amat_len h b _ _ _ Hwf Hb) as [Hv _].
  wbind. eapply wp_m_data_size; [exact Hb|]. replace (Z.of_nat x * Z.of_nat y) with (Z.of_nat (length v)) by lia. destruct (Z.eqb_spec (Z.of_nat (length v)) 0) as [E|_]; [destruct v; [congruence|cbn in E; lia]|].
  wbind. eapply wp_m_size; [exact Hb|]. wbind. eapply wp_t_size; [exact Ha|]. cbv beta iota zeta.
  unfold size_eq. cbn [fst snd]. rewrite !Z.eqb_refl. cbn [andb negb].
  wbind. eapply wp_t_data_size; [exact Hwf|exact Ha|exact Hf|]. rewrite fmap_length.
  wbind. apply wp_chk; [unfold int_max in *; nia|]. rewrite Hv. eapply wp_t_append_obj; eauto. intros ->. rewrite Ha in Hb. discriminate.
Qed.
End tenproofs2.
