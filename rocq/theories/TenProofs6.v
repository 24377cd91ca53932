(** Proofs about the tensor model, part 6: copies between containers, reshaping, serialisation, flattening, products. *)
From Verif Require Export TenProofs5.
From Verif Require Import CostProofs ActProofs2.
From Coq Require Import ZifyBool ZifyNat.
Ltac Zify.zify_post_hook ::= Z.to_euclidean_division_equations.

Section tenproofs6.
Context {F : Type} `{Scalar F}.
Implicit Types (h : heap F) (l a b t : loc) (xs ys v : list F) (x y z k : nat) (cs : list (option F)) (sl : list (list F)) (idx : Z) (T : nat -> nat -> nat -> F).
Notation S3 x y z := (STen (Z.of_nat x) (Z.of_nat y) (Z.of_nat z)).

(** ** shape_set *)
Lemma wp_reshape h l sh cs sh' (Q : unit -> heap F -> Prop) : wf h -> abs h !! l = Some (sh, cs) -> shape_size sh' = shape_size sh ->
  (forall h', wf h' -> abs h' = <[l := (sh', cs)]> (abs h) -> Q tt h') -> wp (let! o := get_obj l in put_obj l (Obj sh' (o_data o))) h Q.
Proof.
  intros Hwf Ha Hs HQ. apply abs_lookup_Some in Ha as (o & Ho & <- & Hc). unfold wp, bind, get_obj. rewrite Ho. unfold put_obj. apply HQ; cbn.
  - destruct Hwf as [W1 W2 W3 W4 W5 W6]. constructor; cbn.
    + intros l1 o1 b1. destruct (decide (l1 = l)) as [->|Hne]; [|rewrite lookup_insert_ne by congruence; eauto]. rewrite lookup_insert. intros [= <-]. cbn. rewrite Hs. eauto.
    + intros l1 o1. destruct (decide (l1 = l)) as [->|Hne]; [|rewrite lookup_insert_ne by congruence; eauto]. rewrite lookup_insert. intros [= <-]. cbn. rewrite Hs. eauto.
    + intros l1 l2 o1 o2 b1 H1 H2 H3 H4. assert (E : forall l0 o0, <[l := Obj sh' (o_data o)]> (h_obj h) !! l0 = Some o0 -> exists o', h_obj h !! l0 = Some o' /\ o_data o' = o_data o0).
      { intros l0 o0. destruct (decide (l0 = l)) as [->|Hne]; [rewrite lookup_insert; intros [= <-]; eauto|rewrite lookup_insert_ne by congruence; eauto]. }
      destruct (E _ _ H1) as (o1' & G1 & G2). destruct (E _ _ H2) as (o2' & G3 & G4). eapply W3; [exact G1|exact G3|rewrite G2; exact H3|rewrite G4; exact H4].
    + intros b1 cs1 Hb. destruct (W4 b1 cs1 Hb) as (l1 & o1 & G1 & G2). destruct (decide (l1 = l)) as [->|Hne].
      * exists l, (Obj sh' (o_data o)). rewrite lookup_insert. split; [reflexivity|]. cbn. congruence.
      * exists l1, o1. rewrite lookup_insert_ne by congruence. auto.
    + exact W5.
    + intros l1 o1. destruct (decide (l1 = l)) as [->|Hne]; [eauto|rewrite lookup_insert_ne by congruence; eauto].
  - apply map_eq. intros l1. unfold abs. cbn. rewrite lookup_fmap. destruct (decide (l1 = l)) as [->|Hne].
    + rewrite !lookup_insert. cbn. unfold abs_obj. cbn. rewrite <- Hc. reflexivity.
    + rewrite !lookup_insert_ne by congruence. rewrite lookup_fmap. reflexivity.
Qed.
Lemma wp_t_shape_set h l x y z cs x' y' z' (Q : unit -> heap F -> Prop) : wf h -> abs h !! l = Some (S3 x y z, cs) -> fits x y -> fits x' y' -> Z.of_nat (z' * (y' * x')) <= int_max ->
  (forall h', wf h' -> abs h' = <[l := if decide (z' * (y' * x') = z * (y * x))%nat then (S3 x' y' z', cs) else (S3 x y z, cs)]> (abs h) -> Q tt h') ->
  wp (t_shape_set l (Z.of_nat x', Z.of_nat y', Z.of_nat z')) h Q.
Proof.
  intros Hwf Ha Hf Hf' Hle HQ. destruct (ten_len h l _ _ _ _ Hwf Ha) as [H1 _]. unfold t_shape_set. cbn [fst snd]. wbind. eapply wp_t_data_size; [exact Hwf|exact Ha|exact Hf|]. unfold fits in Hf'.
  wbind. apply wp_chk; [unfold int_max in *; lia|]. wbind. apply wp_chk; [unfold int_max in *; lia|]. rewrite H1.
  destruct (Z.eqb_spec (Z.of_nat (z * (y * x))) (Z.of_nat x' * Z.of_nat y' * Z.of_nat z')) as [E|E]; cbn [negb].
  - rewrite decide_True in HQ by lia. eapply wp_reshape; [exact Hwf|exact Ha|cbn [shape_size]; lia|exact HQ].
  - rewrite decide_False in HQ by lia. apply wp_ret, HQ; auto. rewrite insert_id; auto.
Qed.

(** ** Copies *)
Lemma wp_t_set_from_ten h l (x0 y0 z0 : Z) cs b x y z ys (Q : unit -> heap F -> Prop) : wf h -> abs h !! l = Some (STen x0 y0 z0, cs) -> abs h !! b = Some (ATen x y z ys) -> fits x y ->
  (forall h', wf h' -> abs h' = <[l := ATen x y z ys]> (abs h) -> Q tt h') -> wp (t_set_from_ten l b) h Q.
Proof.
  intros Hwf Hl Hb Hf HQ. destruct (aten_len h b _ _ _ _ Hwf Hb) as [Hlen Hle]. unfold t_set_from_ten. wbind. eapply wp_t_size; [exact Hb|].
  wbind. eapply wp_t_resize; [exact Hwf|exact Hl|exact Hf|exact Hle|]. intros h1 W1 A1.
  pose proof (t_resize_operand h h1 l x0 y0 z0 cs b _ _ _ ys Hwf Hl Hb A1) as Hb1.
  wbind. eapply wp_t_data_size; [exact W1|exact Hb1|exact Hf|]. rewrite fmap_length.
  destruct (decide (b = l)) as [->|Hne].
  - eapply wp_t_copy_self; [exact W1|exact Hb1|lia|]. intros h2 W2 O2 A2. apply HQ; auto. rewrite A2, A1.
    rewrite A1, lookup_insert in Hb1. injection Hb1 as Hb1. unfold ATen. rewrite <- Hb1. reflexivity.
  - change 0 with (Z.of_nat 0) at 2. eapply wp_t_copy_all with (b := b); [exact W1|rewrite A1; apply lookup_insert|exact Hb1|exact Hne|rewrite resize_length; lia|lia|].
    intros h2 W2 O2 A2. apply HQ; auto. rewrite A2, A1, insert_insert. rewrite drop_0, take_ge by lia. reflexivity.
Qed.
Lemma wp_t_duplicate h l x y z xs (Q : loc -> heap F -> Prop) : wf h -> abs h !! l = Some (ATen x y z xs) -> fits x y ->
  (forall d h', wf h' -> abs h !! d = None -> abs h' = <[d := ATen x y z xs]> (abs h) -> Q d h') -> wp (t_duplicate l) h Q.
Proof.
  intros Hwf Ha Hf HQ. unfold t_duplicate. wbind. apply wp_t_new; [exact Hwf|]. intros d h1 W1 N1 A1.
  wbind. eapply wp_t_set_from_ten; [exact W1|rewrite A1; apply lookup_insert|rewrite A1, lookup_insert_ne by congruence; exact Ha|exact Hf|].
  intros h2 W2 A2. apply wp_ret. apply HQ; auto. rewrite A2, A1, insert_insert. reflexivity.
Qed.
Lemma wp_t_mapn_dup f h l x y z xs (Q : loc -> heap F -> Prop) : wf h -> abs h !! l = Some (ATen x y z xs) -> fits x y ->
  (forall d h', wf h' -> abs h !! d = None -> abs h' = <[d := ATen x y z (f <$> xs)]> (abs h) -> Q d h') -> wp (t_mapn_dup f l) h Q.
Proof.
  intros Hwf Ha Hf HQ. unfold t_mapn_dup. wbind. eapply wp_t_duplicate; [exact Hwf|exact Ha|exact Hf|]. intros d h1 W1 N1 A1.
  wbind. eapply wp_t_map; [exact W1|rewrite A1; apply lookup_insert|exact Hf|]. intros h2 W2 A2. apply wp_ret. apply HQ; auto. rewrite A2, A1, insert_insert. reflexivity.
Qed.
Lemma wp_t_set_from_mat h l (x0 y0 z0 : Z) cs b x y ys (Q : unit -> heap F -> Prop) : wf h -> abs h !! l = Some (STen x0 y0 z0, cs) -> abs h !! b = Some (AMat x y ys) ->
  (forall h', wf h' -> abs h' = <[l := Slices x y [ys]]> (abs h) -> Q tt h') -> wp (t_set_from_mat l (Some b)) h Q.
Proof.
  intros Hwf Hl Hb HQ. destruct (amat_len h b _ _ _ Hwf Hb) as [Hlen Hle]. assert (b <> l) as Hne by (intros ->; rewrite Hl in Hb; discriminate).
  assert (Hf : fits x y) by (unfold fits; lia).
  unfold t_set_from_mat. wbind. eapply wp_m_size; [exact Hb|]. cbn [fst snd]. change 1 with (Z.of_nat 1).
  wbind. eapply wp_t_resize; [exact Hwf|exact Hl|exact Hf|lia|]. intros h1 W1 A1.
  assert (Hb1 : abs h1 !! b = Some (AMat x y ys)) by (rewrite A1, lookup_insert_ne by congruence; exact Hb).
  wbind. eapply wp_m_data_size; [exact Hb1|]. replace (Z.of_nat x * Z.of_nat y) with (Z.of_nat (y * x)) by lia.
  change 0 with (Z.of_nat 0) at 2. eapply wp_t_copy_all with (b := b); [exact W1|rewrite A1; apply lookup_insert|exact Hb1|exact Hne|rewrite resize_length; lia|lia|].
  intros h2 W2 O2 A2. apply HQ; auto. rewrite A2, A1, insert_insert. rewrite drop_0, take_ge by lia. unfold Slices, ATen. cbn [concat length]. rewrite app_nil_r. reflexivity.
Qed.
(** Filling an object part by part from other objects. *)
Lemma wp_gather h l sh cs c sl n (body : Z -> M F unit) (Q : unit -> heap F -> Prop) : wf h -> abs h !! l = Some (sh, cs) -> length cs = (length sl * c)%nat -> width c sl -> n = length sl ->
  (forall i s, sl !! i = Some s -> exists b shb, b <> l /\ abs h !! b = Some (shb, Some <$> s) /\
    (forall hi cs' (Q' : unit -> heap F -> Prop), wf hi -> abs hi = <[l := (sh, cs')]> (abs h) -> wp (t_copy l (Z.of_nat (i * c)) b 0 (Z.of_nat c)) hi Q' -> wp (body (Z.of_nat i)) hi Q')) ->
  (forall h', wf h' -> abs h' = <[l := (sh, Some <$> concat sl)]> (abs h) -> Q tt h') -> wp (for_ 0 (Z.of_nat n) body) h Q.
Proof.
  intros Hwf Ha Hlen Hw -> Hb HQ.
  apply wp_for_n with (I := fun i hi => wf hi /\ abs hi = <[l := (sh, (Some <$> concat (take i sl)) ++ drop (i * c) cs)]> (abs h)).
  - split; [exact Hwf|]. rewrite take_0. cbn. rewrite insert_id; auto.
  - intros i hi Hi (W & A). destruct (lookup_lt_is_Some_2 sl i Hi) as [s Hs]. destruct (Hb i s Hs) as (b & shb & Hne & Hbb & Hstep).
    assert (Hls : length s = c) by exact (width_row _ _ _ _ Hw Hs). assert (Ht : length (concat (take i sl)) = (i * c)%nat) by (rewrite (concat_len c) by (apply width_take; exact Hw); rewrite take_length; f_equal; lia).
    assert (Hi' : (i * c + c <= length sl * c)%nat) by nia.
    eapply Hstep; [exact W|exact A|]. change 0 with (Z.of_nat 0).
    eapply wp_t_copy with (b := b); [exact W|rewrite A; apply lookup_insert|rewrite A, lookup_insert_ne by congruence; exact Hbb|exact Hne|rewrite app_length, fmap_length, drop_length; lia|lia|].
    intros h' W' O' A'. split; [exact W'|]. rewrite A', A, insert_insert. do 2 f_equal.
    rewrite drop_0, (take_ge s) by lia. rewrite take_app_alt by (rewrite fmap_length; lia). rewrite (take_S_r _ _ _ Hs), concat_app, fmap_app. cbn [concat]. rewrite app_nil_r, <- app_assoc. f_equal. f_equal.
    rewrite <- drop_drop. rewrite drop_app_alt by (rewrite fmap_length; lia). rewrite drop_drop. f_equal. lia.
  - intros hi (W & A). apply HQ; auto. rewrite A, take_ge by lia. rewrite drop_ge by lia. rewrite app_nil_r. reflexivity.
Qed.
Lemma wp_t_set_from_vecs h l (x0 y0 z0 : Z) cs x vs rows (Q : unit -> heap F -> Prop) : wf h -> abs h !! l = Some (STen x0 y0 z0, cs) ->
  Forall2 (fun q row => exists w, q = Some w /\ abs h !! w = Some (AVec row)) vs rows -> width x rows -> (0 < x)%nat -> rows <> [] -> Z.of_nat (length rows * x) <= int_max ->
  (forall h', wf h' -> abs h' = <[l := Slices x (length rows) [concat rows]]> (abs h) -> Q tt h') -> wp (t_set_from_vecs l vs) h Q.
Proof.
  intros Hwf Ha HF Hw Hx Hne Hle HQ. pose proof (Forall2_length _ _ _ HF) as Elen. assert (Hn : (0 < length rows)%nat) by (destruct rows; cbn; [congruence|lia]).
  destruct vs as [|q0 vs'] eqn:Evs; [cbn in Elen; lia|]. rewrite <- Evs in *.
  assert (H0 : exists w row, q0 = Some w /\ abs h !! w = Some (AVec row) /\ length row = x).
  { destruct (lookup_lt_is_Some_2 rows 0 Hn) as [row Hr]. destruct (Forall2_lookup_r _ _ _ _ _ HF Hr) as (q & Hq & w & -> & Hv). rewrite Evs in Hq. injection Hq as ->. exists w, row. split; [reflexivity|]. split; [exact Hv|]. exact (width_row _ _ _ _ Hw Hr). }
  destruct H0 as (w & row & -> & Hv & Hrow).
  unfold t_set_from_vecs. rewrite Evs at 1. rewrite Elen. wbind. eapply wp_v_size_vec; [exact Hv|]. rewrite Hrow. change 1 with (Z.of_nat 1).
  wbind. eapply wp_t_resize; [exact Hwf|exact Ha|unfold fits; lia|lia|]. intros h1 W1 A1.
  wbind. eapply wp_t_data_size; [exact W1|rewrite A1; apply lookup_insert|unfold fits; lia|]. rewrite resize_length. destruct (Z.eqb_spec (Z.of_nat (1 * (length rows * x))) 0) as [E|_]; [nia|].
  eapply wp_gather with (c := x) (sl := rows); [exact W1|rewrite A1; apply lookup_insert|rewrite resize_length; lia|exact Hw|reflexivity| |].
  - intros i s Hs. destruct (Forall2_lookup_r _ _ _ _ _ HF Hs) as (q & Hq & b & -> & Hb). assert (Hls : length s = x) by exact (width_row _ _ _ _ Hw Hs).
    assert (b <> l) as Hbl by (intros ->; rewrite Ha in Hb; discriminate). assert (Hb1 : abs h1 !! b = Some (AVec s)) by (rewrite A1, lookup_insert_ne by congruence; exact Hb).
    exists b, (SVec (Z.of_nat (length s))). split; [exact Hbl|]. split; [exact Hb1|]. intros hi cs' Q' W A Hc. rewrite Nat2Z.id, Hq.
    wbind. eapply wp_v_size_vec; [rewrite A, lookup_insert_ne by congruence; exact Hb1|]. rewrite Hls, Z.eqb_refl. cbn [negb]. rewrite <- Nat2Z.inj_mul. exact Hc.
  - intros h2 W2 A2. apply HQ; auto. rewrite A2, A1, insert_insert. unfold Slices, ATen. cbn [concat length]. rewrite app_nil_r. reflexivity.
Qed.
Lemma wp_t_set_from_mats h l (x0 y0 z0 : Z) cs x y ms sl (Q : unit -> heap F -> Prop) : wf h -> abs h !! l = Some (STen x0 y0 z0, cs) ->
  Forall2 (fun q s => exists w, q = Some w /\ abs h !! w = Some (AMat x y s)) ms sl -> (0 < y * x)%nat -> sl <> [] -> Z.of_nat (length sl * (y * x)) <= int_max ->
  (forall h', wf h' -> abs h' = <[l := Slices x y sl]> (abs h) -> Q tt h') -> wp (t_set_from_mats l ms) h Q.
Proof.
  intros Hwf Ha HF Hx Hne Hle HQ. pose proof (Forall2_length _ _ _ HF) as Elen. assert (Hn : (0 < length sl)%nat) by (destruct sl; cbn; [congruence|lia]).
  assert (Hf : fits x y) by (unfold fits; nia).
  assert (Hw : width (y * x) sl). { apply Forall_lookup. intros i s Hs. destruct (Forall2_lookup_r _ _ _ _ _ HF Hs) as (q & Hq & w & -> & Hv). destruct (amat_len h w _ _ _ Hwf Hv) as [E _]. lia. }
  destruct ms as [|q0 ms'] eqn:Evs; [cbn in Elen; lia|]. rewrite <- Evs in *.
  assert (H0 : exists w s, q0 = Some w /\ abs h !! w = Some (AMat x y s)).
  { destruct (lookup_lt_is_Some_2 sl 0 Hn) as [row Hr]. destruct (Forall2_lookup_r _ _ _ _ _ HF Hr) as (q & Hq & w & -> & Hv). rewrite Evs in Hq. injection Hq as ->. eauto. }
  destruct H0 as (w & s0 & -> & Hv).
  unfold t_set_from_mats. rewrite Evs at 1. rewrite Elen. wbind. eapply wp_m_size; [exact Hv|]. cbn [fst snd].
  wbind. eapply wp_t_resize; [exact Hwf|exact Ha|exact Hf|exact Hle|]. intros h1 W1 A1.
  wbind. eapply wp_t_data_size; [exact W1|rewrite A1; apply lookup_insert|exact Hf|]. rewrite resize_length. destruct (Z.eqb_spec (Z.of_nat (length sl * (y * x))) 0) as [E|_]; [nia|].
  eapply wp_gather with (c := (y * x)%nat) (sl := sl); [exact W1|rewrite A1; apply lookup_insert|rewrite resize_length; lia|exact Hw|reflexivity| |].
  - intros i s Hs. destruct (Forall2_lookup_r _ _ _ _ _ HF Hs) as (q & Hq & b & -> & Hb).
    assert (b <> l) as Hbl by (intros ->; rewrite Ha in Hb; discriminate). assert (Hb1 : abs h1 !! b = Some (AMat x y s)) by (rewrite A1, lookup_insert_ne by congruence; exact Hb).
    exists b, (SMat (Z.of_nat x) (Z.of_nat y)). split; [exact Hbl|]. split; [exact Hb1|]. intros hi cs' Q' W A Hc. rewrite Nat2Z.id, Hq.
    wbind. eapply wp_m_size; [rewrite A, lookup_insert_ne by congruence; exact Hb1|]. unfold size_eq. cbn [fst snd]. rewrite !Z.eqb_refl. cbn [andb negb].
    replace (Z.of_nat x * Z.of_nat y * Z.of_nat i) with (Z.of_nat (i * (y * x))) by lia. replace (Z.of_nat x * Z.of_nat y) with (Z.of_nat (y * x)) by lia. exact Hc.
  - intros h2 W2 A2. apply HQ; auto. rewrite A2, A1, insert_insert. reflexivity.
Qed.

(** ** flatten, get_data, set_data *)
Lemma wp_t_flatten h l x y z xs (Q : loc -> heap F -> Prop) : wf h -> abs h !! l = Some (ATen x y z xs) -> fits x y ->
  (forall d h', wf h' -> abs h !! d = None -> abs h' = <[d := AVec xs]> (abs h) -> Q d h') -> wp (t_flatten l) h Q.
Proof.
  intros Hwf Ha Hf HQ. destruct (aten_len h l _ _ _ _ Hwf Ha) as [Hlen Hle]. unfold t_flatten. wbind. eapply wp_t_data_size; [exact Hwf|exact Ha|exact Hf|]. rewrite fmap_length.
  wbind. apply wp_v_new; [exact Hwf|]. intros d h1 W1 N1 A1 _. wbind. eapply wp_v_resize; [exact W1|rewrite A1; apply lookup_insert|lia|]. intros h2 W2 A2 _.
  change 0 with (Z.of_nat 0) at 2. wbind. eapply wp_t_copy_all with (b := l); [exact W2|rewrite A2; apply lookup_insert|rewrite A2, A1, !lookup_insert_ne by congruence; exact Ha|congruence|rewrite resize_length; lia|lia|].
  intros h3 W3 O3 A3. apply wp_ret. apply HQ; auto. rewrite A3, A2, A1, !insert_insert. rewrite drop_0, take_ge by lia. reflexivity.
Qed.
Lemma wp_t_flatteno h l x y z xs t n cs (Q : unit -> heap F -> Prop) : wf h -> abs h !! l = Some (ATen x y z xs) -> fits x y -> abs h !! t = Some (SVec n, cs) ->
  (forall h', wf h' -> abs h' = <[t := AVec xs]> (abs h) -> Q tt h') -> wp (t_flatteno l (Some t)) h Q.
Proof.
  intros Hwf Ha Hf Ht HQ. destruct (aten_len h l _ _ _ _ Hwf Ha) as [Hlen Hle]. assert (t <> l) as Hne by (intros ->; rewrite Ha in Ht; discriminate).
  unfold t_flatteno. wbind. eapply wp_t_data_size; [exact Hwf|exact Ha|exact Hf|]. rewrite fmap_length. wbind. eapply wp_v_size; [exact Ht|].
  wbind. eapply wp_v_resize_cond; [exact Hwf|exact Ht|lia|]. intros h2 W2 A2 P2.
  change 0 with (Z.of_nat 0) at 2. eapply wp_t_copy_all with (b := l); [exact W2|rewrite A2; apply lookup_insert|rewrite A2, lookup_insert_ne by congruence; exact Ha|congruence|rewrite resize_length; lia|lia|].
  intros h3 W3 O3 A3. apply HQ; auto. rewrite A3, A2, !insert_insert. rewrite drop_0, take_ge by lia. reflexivity.
Qed.
Lemma wp_t_get_data h l x y z xs (Q : (Z * Z * Z) * list F -> heap F -> Prop) : wf h -> abs h !! l = Some (ATen x y z xs) -> fits x y ->
  Q ((Z.of_nat x, Z.of_nat y, Z.of_nat z), xs) h -> wp (t_get_data l) h Q.
Proof.
  intros Hwf Ha Hf HQ. unfold t_get_data. wbind. eapply wp_t_data_size; [exact Hwf|exact Ha|exact Hf|]. rewrite fmap_length. wbind. eapply wp_data_ptr; [exact Ha|]. intros p Hp.
  wbind. eapply wp_read_loop with (q := 0%nat) (f := fun i => i); [exact Hwf|exact Ha|exact Hp|lia|reflexivity|]. rewrite drop_0, take_ge by lia.
  wbind. eapply wp_t_size; [exact Ha|]. apply wp_ret. exact HQ.
Qed.
Lemma wp_t_set_data h l (x0 y0 z0 : Z) cs x y z xs (Q : unit -> heap F -> Prop) : wf h -> abs h !! l = Some (STen x0 y0 z0, cs) -> fits x y -> length xs = (z * (y * x))%nat -> Z.of_nat (z * (y * x)) <= int_max ->
  (forall h', wf h' -> abs h' = <[l := ATen x y z xs]> (abs h) -> Q tt h') -> wp (t_set_data l (Some ((Z.of_nat x, Z.of_nat y, Z.of_nat z), xs))) h Q.
Proof.
  intros Hwf Ha Hf Hlen Hle HQ. unfold t_set_data. cbn [fst snd]. pose proof Hf as Hf'. unfold fits in Hf'. wbind. apply wp_chk; [unfold int_max in *; lia|]. wbind. apply wp_chk; [unfold int_max in *; lia|].
  replace (Z.of_nat x * Z.of_nat y * Z.of_nat z =? Z.of_nat (length xs)) with true by lia. cbn [negb].
  wbind. eapply wp_t_resize_if; [exact Hwf|exact Ha|exact Hf|exact Hle|]. intros h1 W1 A1.
  eapply wp_m_copy_list; [exact W1|rewrite A1; apply lookup_insert|lia|rewrite resize_length; lia|]. intros h2 W2 A2. apply HQ; auto. rewrite A2, A1, insert_insert. f_equal. unfold ATen. f_equal.
  cbn [Z.to_nat]. rewrite take_0. cbn [app plus]. rewrite drop_ge by (rewrite resize_length; lia). apply app_nil_r.
Qed.

(** ** is_equal_approx *)
Lemma wp_t_is_equal_approx h l b x y z xs ys tol (Q : bool -> heap F -> Prop) : wf h -> abs h !! l = Some (ATen x y z xs) -> abs h !! b = Some (ATen x y z ys) -> fits x y -> l <> b ->
  Q (forallb (fun '(u, w) => s_equal_approx tol u w) (zip xs ys)) h -> wp (t_is_equal_approx l (Some b) tol) h Q.
Proof.
  intros Hwf Ha Hb Hf Hne HQ. unfold t_is_equal_approx. replace (Nat.eqb l b) with false by (symmetry; apply Nat.eqb_neq; exact Hne).
  destruct (aten_len h l _ _ _ _ Hwf Ha) as [L1 _]. destruct (aten_len h b _ _ _ _ Hwf Hb) as [L2 _].
  wbind. eapply wp_t_size; [exact Ha|]. wbind. eapply wp_t_size; [exact Hb|]. rewrite size3_eq_true, bool_decide_true by auto. cbn [negb].
  wbind. eapply wp_t_data_size; [exact Hwf|exact Ha|exact Hf|]. rewrite fmap_length. wbind. eapply wp_data_ptr; [exact Ha|]. intros p Hp. wbind. eapply wp_data_ptr; [exact Hb|]. intros q Hq.
  rewrite Nat2Z.id. change 0 with (Z.of_nat 0). eapply wp_equal_approx_loop; [exact Hwf|exact Ha|exact Hp|exact Hb|exact Hq|lia|lia|]. rewrite !drop_0. exact HQ.
Qed.
End tenproofs6.
