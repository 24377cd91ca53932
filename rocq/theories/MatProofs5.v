(** Matrix proofs, part 5: Kronecker products. *)
From Verif Require Export MatProofs4.
From Coq Require Import ZifyBool ZifyNat.

Section matproofs5.
Context {F : Type} `{Scalar F}.
Implicit Types (h : heap F) (l a b d : loc) (c r i j k : nat) (f u : nat -> nat -> F) (xs ys v : list F) (rows : list (list F)).

(** ** Undefined behaviour after a run of well-behaved steps *)
Lemma bind_UB {A B} (m : M F A) (k : A -> M F B) h : wp m h (fun x h' => k x h' = UB) -> bind m k h = UB.
Proof. unfold wp, bind. destruct (m h); tauto. Qed.
Lemma bind_UB_first {A B} (m : M F A) (k : A -> M F B) h : m h = UB -> bind m k h = UB.
Proof. unfold bind. intros ->. reflexivity. Qed.
Lemma for_acc_UB {A} (I : nat -> A -> heap F -> Prop) (body : Z -> A -> M F A) n i0 x0 h :
  (i0 < n)%nat -> I 0%nat x0 h ->
  (forall i x h, (i < i0)%nat -> I i x h -> wp (body (Z.of_nat i) x) h (fun x' h' => I (S i) x' h')) ->
  (forall x h, I i0 x h -> body (Z.of_nat i0) x h = UB) ->
  for_acc 0 (Z.of_nat n) x0 body h = UB.
Proof.
  intros Hn H0 Hb Hu. unfold for_acc. replace (Z.to_nat (Z.of_nat n - 0)) with n by lia.
  assert (Hgen : forall m i x h, (i + m = n)%nat -> (i <= i0)%nat -> I i x h -> for_nat m (Z.of_nat i) x body h = UB).
  { intros m. induction m as [|m IH]; intros i x h1 Hm Hi HI; [lia|]. cbn [for_nat].
    destruct (decide (i = i0)) as [->|Hne].
    - apply bind_UB_first, Hu, HI.
    - apply bind_UB. eapply wp_mono; [apply Hb; [lia|exact HI]|]. cbv beta. intros x' h' HI'.
      replace (Z.of_nat i + 1) with (Z.of_nat (S i)) by lia. apply IH; [lia|lia|exact HI']. }
  apply (Hgen n 0%nat); [lia|lia|exact H0].
Qed.
Lemma for_UB (I : nat -> heap F -> Prop) (body : Z -> M F unit) n i0 h :
  (i0 < n)%nat -> I 0%nat h ->
  (forall i h, (i < i0)%nat -> I i h -> wp (body (Z.of_nat i)) h (fun _ h' => I (S i) h')) ->
  (forall h, I i0 h -> body (Z.of_nat i0) h = UB) ->
  for_ 0 (Z.of_nat n) body h = UB.
Proof. intros Hn H0 Hb Hu. unfold for_. apply for_acc_UB with (I := fun i _ h => I i h) (i0 := i0); auto. Qed.

Lemma load_UB h l p sh cs i : wf h -> ptr_of h l = Some p -> abs h !! l = Some (sh, cs) -> (length cs <= i)%nat -> load p (Z.of_nat i) h = UB.
Proof.
  intros Hwf Hp (o & Ho & <- & Hc)%abs_lookup_Some Hi. unfold ptr_of in Hp. rewrite Ho in Hp. injection Hp as <-.
  unfold load. destruct (o_data o) as [bk|]; [|reflexivity]. destruct (h_blk h !! bk) as [cs'|]; [|reflexivity]. cbn in Hc. subst cs'.
  replace (Z.of_nat i <? 0) with false by lia. rewrite Nat2Z.id, lookup_ge_None_2 by lia. reflexivity.
Qed.

(** ** Writing one row of a possibly uninitialised matrix *)
Lemma wp_m_row_set_vecP h l b c r g (y : Z) v (Q : unit -> heap F -> Prop) : wf h -> abs h !! l = Some (MatP c r g) ->
  abs h !! b = Some (AVec v) ->
  (forall h', wf h' -> h_obj h' = h_obj h -> abs h' = <[l := if decide (length v = c /\ 0 <= y < Z.of_nat r)
        then MatP c r (fun i j => if decide (i = Z.to_nat y) then Some (nth j v s_zero) else g i j) else MatP c r g]> (abs h) -> Q tt h') ->
  wp (m_row_set_vec l y (Some b)) h Q.
Proof.
  intros Hwf Ha Hb HQ. assert (b <> l) as Hbl by (intros ->; rewrite Ha in Hb; discriminate).
  unfold m_row_set_vec. wbind. eapply wp_v_size_vec; [exact Hb|]. wbind. eapply wp_m_size; [exact Ha|]. cbv beta iota zeta.
  destruct (Z.eqb_spec (Z.of_nat (length v)) (Z.of_nat c)) as [E|E]; cbn [negb].
  2: { apply wp_ret. apply HQ; auto. rewrite decide_False by lia. rewrite insert_id; auto. }
  destruct (decide (0 <= y < Z.of_nat r)) as [Hy|Hy].
  2: { replace ((y <? 0) || (Z.of_nat r <=? y)) with true by lia. apply wp_ret. apply HQ; auto. rewrite decide_False by tauto. rewrite insert_id; auto. }
  replace ((y <? 0) || (Z.of_nat r <=? y)) with false by lia.
  wbind. eapply wp_data_ptr; [exact Hb|]. intros q Hq. wbind. eapply wp_data_ptr; [exact Ha|]. intros p Hp.
  eapply wp_row_write with (y := Z.to_nat y) (u := fun j => nth j v s_zero); [exact Hwf|exact Ha|exact Hp|lia|reflexivity| |].
  - intros j hi Q' Hj HI Hs. destruct (lookup_lt_is_Some_2 v j ltac:(lia)) as [x Hx].
    wbind. eapply wp_mload_vec with (la := b); [exact HI|exact Hq|exact Hbl|exact Hb|exact Hx|].
    rewrite (nth_lookup_Some v j s_zero x Hx) in Hs. replace (Z.of_nat (Z.to_nat y)) with y in Hs by lia. exact Hs.
  - intros h' W O A. apply HQ; auto. rewrite A. rewrite decide_True by lia. reflexivity.
Qed.

(** ** One output row *)
Definition scaled (row : list F) (x : F) : list F := (fun y => s_mul y x) <$> row.
(** The [nk] scaled copies of [row] by the elements of [xs] from [o] on. *)
Definition kvals (row xs : list F) (o nk : nat) : list (list F) := scaled row <$> take nk (drop o xs).

(** State in the middle of the loop over [k]: [acc] lists the fresh temporaries. *)
Record kst h (row xs : list F) (o : nat) k (acc : list loc) hi : Prop := {
  kst_wf : wf hi;
  kst_len : length acc = k;
  kst_nodup : NoDup acc;
  kst_fresh : forall x, x ∈ acc -> abs h !! x = None;
  kst_val : forall t x, acc !! t = Some x -> exists y, xs !! (o + t)%nat = Some y /\ abs hi !! x = Some (AVec (scaled row y));
  kst_other : forall x, x ∉ acc -> abs hi !! x = abs h !! x;
  kst_ptr : forall x, is_Some (abs h !! x) -> ptr_of hi x = ptr_of h x
}.

Lemma live_abs_obj h l : is_Some (abs h !! l) -> is_Some (h_obj h !! l).
Proof. unfold abs. rewrite lookup_fmap. intros Hs. rewrite fmap_is_Some in Hs. exact Hs. Qed.

Lemma kst_step h row xs o k acc hi t pa a sha y (Q : list loc -> heap F -> Prop) : kst h row xs o k acc hi ->
  abs h !! t = Some (AVec row) -> abs h !! a = Some (sha, Some <$> xs) -> ptr_of h a = Some pa ->
  xs !! (o + k)%nat = Some y ->
  (forall acc' h', kst h row xs o (S k) acc' h' -> Q acc' h') ->
  wp (let! x := load pa (Z.of_nat (o + k)) in let! w := v_scalar_multiplyn x t in ret (acc ++ [w])) hi Q.
Proof.
  intros [W L N Fr V O P] Ht Ha Hpa Hy HQ.
  assert (Hta : t ∉ acc) by (intros E; apply Fr in E; congruence). assert (Haa : a ∉ acc) by (intros E; apply Fr in E; congruence).
  assert (Hti : abs hi !! t = Some (AVec row)) by (rewrite O; assumption).
  assert (Hai : abs hi !! a = Some (sha, Some <$> xs)) by (rewrite O; assumption).
  wbind. eapply wp_load with (l := a) (v := y); [exact W|rewrite P by eauto; exact Hpa|exact Hai|lia|rewrite Nat2Z.id; apply fmap_Some_lookup, Hy|].
  wbind. unfold v_scalar_multiplyn. eapply (wp_pfr (fun _ => False)); [exact W|apply pfr_v_mapn|].
  eapply wp_v_mapn; [exact W|exact Hti|]. intros w h1 W1 N1 A1 P1.
  assert (Hw : w ∉ acc). { intros E. apply elem_of_list_lookup in E as [t' E]. destruct (V _ _ E) as (? & _ & E2). congruence. }
  assert (Hwf : abs h !! w = None) by (rewrite <- O; assumption).
  apply wp_ret. apply HQ. constructor.
  - exact W1.
  - rewrite app_length. cbn. lia.
  - apply NoDup_app. split; [exact N|]. split; [|apply NoDup_singleton]. intros x Hx Hx'. apply elem_of_list_singleton in Hx'. congruence.
  - intros x [Hx|Hx]%elem_of_app; [auto|]. apply elem_of_list_singleton in Hx as ->. exact Hwf.
  - intros t' x Hx. apply lookup_app_Some in Hx as [Hx|[Hx1 Hx2]].
    + destruct (V _ _ Hx) as (y' & E1 & E2). exists y'. split; [exact E1|]. rewrite A1, lookup_insert_ne; [exact E2|]. intros ->. apply Hw. eapply elem_of_list_lookup_2; eauto.
    + destruct (t' - length acc)%nat eqn:E; [|discriminate]. injection Hx2 as <-. exists y. replace (o + t')%nat with (o + k)%nat by lia.
      split; [exact Hy|]. rewrite A1. apply lookup_insert.
  - intros x Hx. rewrite not_elem_of_app in Hx. destruct Hx as [H1 H2]. rewrite not_elem_of_cons in H2. destruct H2 as [H2 _]. rewrite A1, lookup_insert_ne by congruence. auto.
  - intros x Hx. rewrite <- P by assumption. apply P1; [|tauto]. apply live_abs_obj. rewrite O; [exact Hx|]. intros E. apply Fr in E. destruct Hx. congruence.
Qed.

Lemma kst_init h row xs o : wf h -> kst h row xs o 0 [] h.
Proof. intros W. constructor; auto; [constructor|intros x Hx; inversion Hx|intros t x Hx; rewrite lookup_nil in Hx; discriminate]. Qed.

(** Releasing the temporaries. *)
Lemma wp_del_all (accs : list loc) : forall h (Q : unit -> heap F -> Prop), wf h -> NoDup accs -> (forall x, x ∈ accs -> is_Some (abs h !! x)) ->
  (forall h', wf h' -> (forall x, abs h' !! x = if decide (x ∈ accs) then None else abs h !! x) -> (forall x, x ∉ accs -> ptr_of h' x = ptr_of h x) -> Q tt h') ->
  wp (for_ 0 (Z.of_nat (length accs)) (fun z => match accs !! Z.to_nat z with Some w => del_obj w | None => ub end)) h Q.
Proof.
  intros h Q Hwf Hnd Hlive HQ.
  apply wp_for_n with (I := fun n hi => wf hi /\ (forall x, abs hi !! x = if decide (x ∈ take n accs) then None else abs h !! x) /\ (forall x, x ∉ take n accs -> ptr_of hi x = ptr_of h x)).
  - split; [exact Hwf|]. split; [|auto]. intros x. rewrite decide_False; [reflexivity|]. apply not_elem_of_nil.
  - intros n hi Hn (W & A & P). rewrite Nat2Z.id. destruct (lookup_lt_is_Some_2 accs n Hn) as [w Hw]. rewrite Hw.
    assert (Hwt : w ∉ take n accs).
    { intros E. apply elem_of_list_lookup in E as [m E]. apply lookup_take_Some in E as [E Hm]. pose proof (NoDup_lookup _ _ _ _ Hnd E Hw). lia. }
    destruct (Hlive w) as [ob Hob]; [eapply elem_of_list_lookup_2; eauto|].
    eapply wp_del; [exact W|rewrite A, decide_False by assumption; exact Hob|]. intros h' W' A' P'. split; [exact W'|].
    rewrite (take_S_r _ _ _ Hw). split.
    + intros x. rewrite A'. destruct (decide (x = w)) as [->|Hne].
      * rewrite lookup_delete, decide_True; [reflexivity|]. apply elem_of_app. right. apply elem_of_list_singleton. reflexivity.
      * rewrite lookup_delete_ne by congruence. rewrite A. destruct (decide (x ∈ take n accs)) as [E|E].
        -- rewrite decide_True by (apply elem_of_app; auto). reflexivity.
        -- rewrite decide_False; [reflexivity|]. rewrite not_elem_of_app, elem_of_list_singleton. auto.
    + intros x Hx. rewrite not_elem_of_app, elem_of_list_singleton in Hx. destruct Hx. rewrite P' by assumption. auto.
  - intros hi (W & A & P). rewrite take_ge in A, P by lia. apply HQ; auto.
Qed.

Lemma kvals_Forall2 h row xs o k acc hi : kst h row xs o k acc hi -> (o + k <= length xs)%nat ->
  Forall2 (fun (q : option loc) v => exists b, q = Some b /\ abs hi !! b = Some (AVec v)) (Some <$> acc) (kvals row xs o k).
Proof.
  intros [W L N Fr V O P] Hle. apply Forall2_fmap_l. apply Forall2_same_length_lookup. split.
  - unfold kvals. rewrite fmap_length, take_length, drop_length. lia.
  - intros t x v Hx Hv. destruct (V _ _ Hx) as (y & E1 & E2). exists x. split; [reflexivity|]. rewrite E2. do 2 f_equal.
    unfold kvals in Hv. apply list_lookup_fmap_inv in Hv as (y' & -> & Hy'). apply lookup_take_Some in Hy' as [Hy' _]. rewrite lookup_drop in Hy'. congruence.
Qed.

Lemma wp_kron_row h l b t pa a ca ra xs cb rowsb i j nk cl rl g n0 cs row (by' : Z) (Q : unit -> heap F -> Prop) : wf h ->
  abs h !! b = Some (Rows cb rowsb) -> width cb rowsb -> rowsb !! j = Some row -> abs h !! t = Some (SVec n0, cs) ->
  abs h !! a = Some (AMat ca ra xs) -> ptr_of h a = Some pa -> abs h !! l = Some (MatP cl rl g) -> a <> l ->
  Z.of_nat cb <= int_max -> Z.of_nat (nk * cb) <= int_max -> (i * ca + nk <= length xs)%nat ->
  let v := concat (kvals row xs (i * ca) nk) in
  let y := Z.of_nat i * by' + Z.of_nat j in
  (forall h', wf h' -> abs h' = <[l := if decide (length v = cl /\ 0 <= y < Z.of_nat rl)
        then MatP cl rl (fun i j => if decide (i = Z.to_nat y) then Some (nth j v s_zero) else g i j) else MatP cl rl g]> (<[t := AVec row]> (abs h)) ->
     ptr_of h' a = Some pa -> Q tt h') ->
  wp (kron_row l b t pa (Z.of_nat ca) (Z.of_nat i) (Z.of_nat j) (Z.of_nat nk) by') h Q.
Proof.
  intros Hwf Hb Hw Hr Ht Ha Hpa Hl Hal Hcb Hnk Hin v y HQ.
  assert (Hlr : length row = cb) by (eapply width_row; eauto).
  assert (t <> a) as Hta by (intros ->; rewrite Ha in Ht; discriminate). assert (t <> l) as Htl by (intros ->; rewrite Hl in Ht; discriminate).
  unfold kron_row. wbind. eapply wp_m_row_get_into; [exact Hwf|exact Hb|exact Hw|exact Ht|lia|rewrite Nat2Z.id; exact Hr|exact Hcb|].
  intros h1 W1 A1 P1. wbind.
  assert (Hlt : abs h1 !! t = Some (AVec row)) by (rewrite A1; apply lookup_insert).
  assert (Ha1 : abs h1 !! a = Some (AMat ca ra xs)) by (rewrite A1, lookup_insert_ne by congruence; exact Ha).
  assert (Hpa1 : ptr_of h1 a = Some pa) by (rewrite P1 by congruence; exact Hpa).
  assert (Hl1 : abs h1 !! l = Some (MatP cl rl g)) by (rewrite A1, lookup_insert_ne by congruence; exact Hl).
  apply wp_for_acc_n with (I := fun k acc hi => kst h1 row xs (i * ca) k acc hi).
  { apply kst_init. exact W1. }
  { intros k acc hi Hk HI. destruct (lookup_lt_is_Some_2 xs (i * ca + k)) as [z Hz]; [lia|].
    replace (Z.of_nat i * Z.of_nat ca + Z.of_nat k) with (Z.of_nat (i * ca + k)) by lia.
    eapply kst_step; [exact HI|exact Hlt|exact Ha1|exact Hpa1|exact Hz|auto]. }
  intros acc h2 HI. pose proof (kvals_Forall2 _ _ _ _ _ _ _ HI Hin) as HF2. pose proof HI as [W2 L2 N2 Fr2 V2 O2 P2].
  assert (Hvl : length v = (nk * cb)%nat).
  { unfold v. rewrite (concat_len cb).
    - unfold kvals. rewrite fmap_length, take_length, drop_length. f_equal. lia.
    - unfold kvals. apply list.Forall_forall. intros w Hwm. apply elem_of_list_fmap in Hwm as (z & -> & _). unfold scaled. rewrite fmap_length. exact Hlr. }
  wbind. eapply (wp_pfr (fun _ => False)); [exact W2|apply pfr_v_flattenn|].
  eapply wp_v_flattenn; [exact W2|exact HF2|fold v; lia|]. fold v. intros fl h3 W3 N3 A3 P3.
  assert (Hlacc : l ∉ acc) by (intros E; apply Fr2 in E; congruence).
  assert (Haacc : a ∉ acc) by (intros E; apply Fr2 in E; congruence).
  assert (Hl2 : abs h2 !! l = Some (MatP cl rl g)) by (rewrite O2; assumption).
  assert (Ha2 : abs h2 !! a = Some (AMat ca ra xs)) by (rewrite O2; assumption).
  assert (fl <> l) as Hfl by congruence. assert (fl <> a) as Hfa by congruence.
  assert (Hflacc : fl ∉ acc). { intros E. apply elem_of_list_lookup in E as [t' E]. destruct (V2 _ _ E) as (? & _ & E2). congruence. }
  wbind. eapply wp_m_row_set_vecP; [exact W3|rewrite A3, lookup_insert_ne by congruence; exact Hl2|rewrite A3; apply lookup_insert|].
  intros h4 W4 O4 A4. wbind.
  eapply wp_del; [exact W4|rewrite A4, lookup_insert_ne, A3 by congruence; apply lookup_insert|]. intros h5 W5 A5 P5.
  eapply wp_del_all; [exact W5|exact N2| |].
  { intros x Hx. assert (x <> l) by congruence. assert (x <> fl) by congruence.
    rewrite A5, lookup_delete_ne, A4, lookup_insert_ne, A3, lookup_insert_ne by congruence.
    apply elem_of_list_lookup in Hx as [t' E]. destruct (V2 _ _ E) as (? & _ & E2). rewrite E2. eauto. }
  intros h6 W6 A6 P6. apply HQ; [exact W6| |].
  - apply map_eq. intros x. rewrite A6. destruct (decide (x ∈ acc)) as [E|E].
    + assert (x <> l) by congruence. assert (x <> t). { intros ->. apply Fr2 in E. congruence. }
      rewrite !lookup_insert_ne by congruence. symmetry. apply Fr2 in E. rewrite A1 in E. rewrite lookup_insert_ne in E by congruence. exact E.
    + rewrite A5. destruct (decide (x = fl)) as [->|Hne].
      * rewrite lookup_delete. rewrite lookup_insert_ne by congruence. rewrite <- A1. rewrite <- O2 by assumption. symmetry. exact N3.
      * rewrite lookup_delete_ne by congruence. rewrite A4. destruct (decide (x = l)) as [->|Hxl]; [rewrite !lookup_insert; reflexivity|].
        rewrite !(lookup_insert_ne _ l) by congruence. rewrite A3, lookup_insert_ne by congruence. rewrite O2 by assumption. rewrite A1. reflexivity.
  - rewrite P6 by assumption. rewrite P5 by congruence. rewrite (ptr_of_obj h3 h4) by assumption. rewrite P3; [|apply live_abs_obj; eauto|tauto].
    rewrite P2 by eauto. exact Hpa1.
Qed.

(** A read past the end of the left operand's buffer. *)
Lemma kron_row_UB h l b t pa a ca ra xs cb rowsb i j nk n0 cs row (by' : Z) : wf h ->
  abs h !! b = Some (Rows cb rowsb) -> width cb rowsb -> rowsb !! j = Some row -> abs h !! t = Some (SVec n0, cs) ->
  abs h !! a = Some (AMat ca ra xs) -> ptr_of h a = Some pa ->
  Z.of_nat cb <= int_max -> (0 < nk)%nat -> (length xs < i * ca + nk)%nat ->
  kron_row l b t pa (Z.of_nat ca) (Z.of_nat i) (Z.of_nat j) (Z.of_nat nk) by' h = UB.
Proof.
  intros Hwf Hb Hw Hr Ht Ha Hpa Hcb Hnk Hout.
  assert (t <> a) as Hta by (intros ->; rewrite Ha in Ht; discriminate).
  unfold kron_row. apply bind_UB. eapply wp_m_row_get_into; [exact Hwf|exact Hb|exact Hw|exact Ht|lia|rewrite Nat2Z.id; exact Hr|exact Hcb|].
  intros h1 W1 A1 P1. apply bind_UB_first.
  assert (Hlt : abs h1 !! t = Some (AVec row)) by (rewrite A1; apply lookup_insert).
  assert (Ha1 : abs h1 !! a = Some (AMat ca ra xs)) by (rewrite A1, lookup_insert_ne by congruence; exact Ha).
  assert (Hpa1 : ptr_of h1 a = Some pa) by (rewrite P1 by congruence; exact Hpa).
  apply for_acc_UB with (I := fun k acc hi => kst h1 row xs (i * ca) k acc hi) (i0 := (length xs - i * ca)%nat).
  - lia.
  - apply kst_init. exact W1.
  - intros k acc hi Hk HI. destruct (lookup_lt_is_Some_2 xs (i * ca + k)) as [z Hz]; [lia|].
    replace (Z.of_nat i * Z.of_nat ca + Z.of_nat k) with (Z.of_nat (i * ca + k)) by lia.
    eapply kst_step; [exact HI|exact Hlt|exact Ha1|exact Hpa1|exact Hz|auto].
  - intros acc hi HI. apply bind_UB_first. destruct HI as [W2 L2 N2 Fr2 V2 O2 P2].
    assert (Haacc : a ∉ acc) by (intros E; apply Fr2 in E; congruence).
    replace (Z.of_nat i * Z.of_nat ca + Z.of_nat (length xs - i * ca)) with (Z.of_nat (i * ca + (length xs - i * ca))) by lia.
    eapply load_UB; [exact W2|rewrite P2 by eauto; exact Hpa1|rewrite O2 by assumption; exact Ha1|]. rewrite fmap_length. lia.
Qed.

(** ** The double loop of the [n] and [b] forms *)
Lemma kvals_lookup row xs o nk cb q x y : length row = cb -> (q < nk * cb)%nat ->
  row !! (q mod cb)%nat = Some y -> xs !! (o + q / cb)%nat = Some x ->
  concat (kvals row xs o nk) !! q = Some (s_mul y x).
Proof.
  intros Hlr Hq Hy Hx. destruct (idx_inv cb nk q Hq) as (H1 & H2 & H3).
  rewrite H3. rewrite (concat_lookup cb _ _ (scaled row x)); [unfold scaled; rewrite list_lookup_fmap, Hy; reflexivity| | |exact H2].
  - unfold kvals. apply list.Forall_forall. intros w Hwm. apply elem_of_list_fmap in Hwm as (z & -> & _). unfold scaled. rewrite fmap_length. exact Hlr.
  - unfold kvals. rewrite list_lookup_fmap, lookup_take by exact H1. rewrite lookup_drop, Hx. reflexivity.
Qed.
Lemma kvals_length row xs o nk cb : length row = cb -> (o + nk <= length xs)%nat -> length (concat (kvals row xs o nk)) = (nk * cb)%nat.
Proof.
  intros Hlr Hle. rewrite (concat_len cb).
  - unfold kvals. rewrite fmap_length, take_length, drop_length. f_equal. lia.
  - unfold kvals. apply list.Forall_forall. intros w Hwm. apply elem_of_list_fmap in Hwm as (z & -> & _). unfold scaled. rewrite fmap_length. exact Hlr.
Qed.

Lemma wp_kron_loops h l b t pa a ca ra fa cb rb fb g0 n0 cs (Q : unit -> heap F -> Prop) : wf h ->
  abs h !! b = Some (Mat cb rb fb) -> abs h !! t = Some (SVec n0, cs) ->
  abs h !! a = Some (Mat ca ra fa) -> ptr_of h a = Some pa -> abs h !! l = Some (MatP (cb * ca) (rb * ra) g0) -> a <> l -> b <> l ->
  Z.of_nat cb <= int_max -> Z.of_nat (ca * cb) <= int_max ->
  (forall h' n1 cs1, wf h' -> abs h' = <[l := Mat (cb * ca) (rb * ra) (mat_kron cb rb fa fb)]> (<[t := (SVec n1, cs1)]> (abs h)) -> Q tt h') ->
  wp (for_ 0 (Z.of_nat ra) (fun z => for_ 0 (Z.of_nat rb) (fun z' => kron_row l b t pa (Z.of_nat ca) z z' (Z.of_nat ca) (Z.of_nat rb)))) h Q.
Proof.
  intros Hwf Hb Ht Ha Hpa Hl Hal Hbl Hcb Hle HQ.
  assert (t <> a) as Hta by (intros ->; rewrite Ha in Ht; discriminate). assert (t <> l) as Htl by (intros ->; rewrite Hl in Ht; discriminate).
  assert (t <> b) as Htb by (intros ->; rewrite Hb in Ht; discriminate).
  set (K := mat_kron cb rb fa fb).
  set (rowsb := (fun i => vlist cb (fb i)) <$> seq 0 rb).
  assert (Hb' : abs h !! b = Some (Rows cb rowsb)) by (rewrite Hb, Mat_Rows; reflexivity).
  assert (Hwb : width cb rowsb). { apply list.Forall_forall. intros row Hr. apply elem_of_list_fmap in Hr as (i & -> & _). apply vlist_length. }
  assert (Hrb : forall j, (j < rb)%nat -> rowsb !! j = Some (vlist cb (fb j))).
  { intros j Hj. unfold rowsb. rewrite list_lookup_fmap, lookup_seq_lt by exact Hj. reflexivity. }
  pose (part := fun n i' j' => if (i' <? n)%nat then Some (K i' j') else g0 i' j').
  pose (st := fun n hi => wf hi /\ (exists n1 cs1, abs hi = <[l := MatP (cb * ca) (rb * ra) (part n)]> (<[t := (SVec n1, cs1)]> (abs h))) /\ ptr_of hi a = Some pa).
  assert (Hst : forall n m hi, n = m -> st n hi -> st m hi) by (intros n m hi ->; auto).
  apply wp_for_n with (I := fun i hi => st (i * rb)%nat hi).
  - split; [exact Hwf|]. split; [|exact Hpa]. exists n0, cs. rewrite (insert_id (abs h) t) by exact Ht. symmetry. apply insert_id. rewrite Hl. reflexivity.
  - intros i hi Hi HI. apply wp_for_n with (I := fun j hi => st (i * rb + j)%nat hi).
    + eapply Hst; [|exact HI]. lia.
    + clear hi HI. intros j hi Hj (W & (n1 & cs1 & A) & P).
      assert (Hin : (i * ca + ca <= length (mlist ca ra fa))%nat) by (rewrite mlist_length; nia).
      eapply wp_kron_row with (a := a) (xs := mlist ca ra fa) (row := vlist cb (fb j)) (ra := ra);
        [exact W|rewrite A, !lookup_insert_ne by congruence; exact Hb'|exact Hwb|apply Hrb; exact Hj|rewrite A, lookup_insert_ne by congruence; apply lookup_insert
        |rewrite A, !lookup_insert_ne by congruence; exact Ha|exact P|rewrite A; apply lookup_insert|exact Hal|exact Hcb|exact Hle|exact Hin|].
      cbv zeta. intros h' W' A' P'. split; [exact W'|]. split; [|exact P'].
      assert (Hij : (i * rb + j < rb * ra)%nat) by nia.
      rewrite decide_True in A' by (rewrite (kvals_length _ _ _ _ cb); [lia|apply vlist_length|exact Hin]).
      eexists _, _. rewrite A', A. rewrite (insert_commute _ t l) by congruence. rewrite !insert_insert. f_equal. apply MatP_ext.
      intros i' q Hi' Hq. unfold part. replace (Z.to_nat (Z.of_nat i * Z.of_nat rb + Z.of_nat j)) with (i * rb + j)%nat by lia.
      destruct (decide (i' = i * rb + j)%nat) as [->|Hne].
      * destruct (Nat.ltb_spec (i * rb + j) (i * rb + S j)); [|lia]. f_equal.
        assert (Hq' : (q < ca * cb)%nat) by lia. destruct (idx_inv cb ca q Hq') as (H1 & H2 & H3).
        apply nth_lookup_Some. erewrite kvals_lookup; [|apply vlist_length|exact Hq'|apply vlist_lookup; exact H2|apply mlist_lookup; [exact Hi|exact H1]].
        unfold K, mat_kron. replace ((i * rb + j) mod rb)%nat with j; [replace ((i * rb + j) / rb)%nat with i; [reflexivity|]|].
        -- apply (Nat.div_unique _ _ _ j); lia.
        -- apply (Nat.mod_unique _ _ i); lia.
      * destruct (Nat.ltb_spec i' (i * rb + j)); destruct (Nat.ltb_spec i' (i * rb + S j)); try lia; reflexivity.
    + intros h' HI'. eapply Hst; [|exact HI']. lia.
  - intros h' (W & (n1 & cs1 & A) & P). eapply HQ; [exact W|]. rewrite A, Mat_MatP. f_equal. apply MatP_ext. intros i j Hi Hj.
    unfold part. destruct (Nat.ltb_spec i (ra * rb)); [reflexivity|lia].
Qed.

Lemma wp_m_kronn h l b ca ra fa cb rb fb (Q : option loc -> heap F -> Prop) : wf h ->
  abs h !! l = Some (Mat ca ra fa) -> abs h !! b = Some (Mat cb rb fb) ->
  Z.of_nat cb <= int_max -> Z.of_nat (cb * ca) <= int_max -> Z.of_nat (rb * ra) <= int_max -> Z.of_nat (rb * ra * (cb * ca)) <= int_max ->
  (forall d h', wf h' -> abs h !! d = None -> abs h' = <[d := Mat (cb * ca) (rb * ra) (mat_kron cb rb fa fb)]> (abs h) -> Q (Some d) h') ->
  wp (m_kronn l (Some b)) h Q.
Proof.
  intros Hwf Ha Hb Hcb Hx Hy Hxy HQ. unfold m_kronn. wbind. eapply wp_m_size; [exact Ha|]. wbind. eapply wp_m_size; [exact Hb|]. cbn [fst snd].
  wbind. apply wp_m_new; [exact Hwf|]. intros d h1 W1 N1 A1 _.
  wbind. apply wp_chk; [unfold int_max in *; lia|]. wbind. apply wp_chk; [unfold int_max in *; lia|].
  wbind. replace (Z.of_nat cb * Z.of_nat ca) with (Z.of_nat (cb * ca)) by lia. replace (Z.of_nat rb * Z.of_nat ra) with (Z.of_nat (rb * ra)) by lia.
  eapply wp_m_resize; [exact W1|rewrite A1; apply lookup_insert|lia|]. intros h2 W2 A2 _.
  assert (Ha2 : abs h2 !! l = Some (Mat ca ra fa)) by (rewrite A2, A1, !lookup_insert_ne by congruence; exact Ha).
  assert (Hb2 : abs h2 !! b = Some (Mat cb rb fb)) by (rewrite A2, A1, !lookup_insert_ne by congruence; exact Hb).
  destruct (cells_MatP h2 d (cb * ca) (rb * ra) _ W2 ltac:(rewrite A2; apply lookup_insert)) as [g0 Hd].
  wbind. eapply wp_data_ptr; [exact Ha2|]. intros pa Hpa.
  wbind. apply wp_v_new; [exact W2|]. intros t h3 W3 N3 A3 P3.
  wbind. eapply wp_v_resize; [exact W3|rewrite A3; apply lookup_insert|lia|]. intros h4 W4 A4 P4. wbind.
  assert (Hlt : l <> t) by congruence.
  eapply wp_kron_loops with (a := l) (l := d) (t := t) (b := b); [exact W4|rewrite A4, A3, !lookup_insert_ne by congruence; exact Hb2|rewrite A4; apply lookup_insert
     |rewrite A4, A3, !lookup_insert_ne by congruence; exact Ha2|rewrite P4, P3 by congruence; exact Hpa|rewrite A4, A3, !lookup_insert_ne by congruence; exact Hd|congruence|congruence|lia|lia|].
  intros h5 n1 cs1 W5 A5.
  wbind. eapply wp_del; [exact W5|rewrite A5, lookup_insert_ne by congruence; apply lookup_insert|]. intros h6 W6 A6 _. apply wp_ret. apply HQ; [exact W6|exact N1|].
  assert (d <> t) by congruence.
  rewrite A6, A5, A4, A3, A2, A1. apply map_eq. intros x. destruct (decide (x = t)) as [->|].
  { rewrite lookup_delete. rewrite lookup_insert_ne by congruence. rewrite A2, A1, !lookup_insert_ne in N3 by congruence. congruence. }
  rewrite lookup_delete_ne by congruence. destruct (decide (x = d)) as [->|]; [rewrite !lookup_insert; reflexivity|].
  rewrite !lookup_insert_ne by congruence. reflexivity.
Qed.

Lemma wp_m_kronb h l x0 y0 cs a b ca ra fa cb rb fb (Q : unit -> heap F -> Prop) : wf h -> abs h !! l = Some (SMat x0 y0, cs) ->
  abs h !! a = Some (Mat ca ra fa) -> abs h !! b = Some (Mat cb rb fb) -> a <> l -> b <> l ->
  Z.of_nat cb <= int_max -> Z.of_nat (cb * ca) <= int_max -> Z.of_nat (rb * ra) <= int_max -> Z.of_nat (rb * ra * (cb * ca)) <= int_max ->
  (forall h', wf h' -> abs h' = <[l := Mat (cb * ca) (rb * ra) (mat_kron cb rb fa fb)]> (abs h) -> Q tt h') ->
  wp (m_kronb l (Some a) (Some b)) h Q.
Proof.
  intros Hwf Hl Ha Hb Hal Hbl Hcb Hx Hy Hxy HQ. unfold m_kronb. wbind. eapply wp_m_size; [exact Ha|]. wbind. eapply wp_m_size; [exact Hb|]. cbn [fst snd].
  wbind. apply wp_chk; [unfold int_max in *; lia|]. wbind. apply wp_chk; [unfold int_max in *; lia|].
  wbind. replace (Z.of_nat cb * Z.of_nat ca) with (Z.of_nat (cb * ca)) by lia. replace (Z.of_nat rb * Z.of_nat ra) with (Z.of_nat (rb * ra)) by lia.
  eapply wp_m_resize; [exact Hwf|exact Hl|lia|]. intros h2 W2 A2 _.
  assert (Ha2 : abs h2 !! a = Some (Mat ca ra fa)) by (rewrite A2, !lookup_insert_ne by congruence; exact Ha).
  assert (Hb2 : abs h2 !! b = Some (Mat cb rb fb)) by (rewrite A2, !lookup_insert_ne by congruence; exact Hb).
  destruct (cells_MatP h2 l (cb * ca) (rb * ra) _ W2 ltac:(rewrite A2; apply lookup_insert)) as [g0 Hd].
  wbind. eapply wp_data_ptr; [exact Ha2|]. intros pa Hpa.
  wbind. eapply wp_m_size; [exact Ha2|]. cbn [fst snd].
  wbind. apply wp_v_new; [exact W2|]. intros t h3 W3 N3 A3 P3.
  wbind. eapply wp_v_resize; [exact W3|rewrite A3; apply lookup_insert|lia|]. intros h4 W4 A4 P4. wbind.
  assert (Hlt : a <> t) by congruence.
  eapply wp_kron_loops with (a := a) (l := l) (t := t) (b := b); [exact W4|rewrite A4, A3, !lookup_insert_ne by congruence; exact Hb2|rewrite A4; apply lookup_insert
     |rewrite A4, A3, !lookup_insert_ne by congruence; exact Ha2|rewrite P4, P3 by congruence; exact Hpa|rewrite A4, A3, !lookup_insert_ne by congruence; exact Hd|congruence|congruence|lia|lia|].
  intros h5 n1 cs1 W5 A5. assert (t <> l) by (intros ->; congruence).
  eapply wp_del; [exact W5|rewrite A5, lookup_insert_ne by congruence; apply lookup_insert|]. intros h6 W6 A6 _. apply HQ; [exact W6|].
  rewrite A6, A5, A4, A3, A2. apply map_eq. intros x. destruct (decide (x = t)) as [->|].
  { rewrite lookup_delete. rewrite lookup_insert_ne by congruence. rewrite A2, !lookup_insert_ne in N3 by congruence. congruence. }
  rewrite lookup_delete_ne by congruence. destruct (decide (x = l)) as [->|]; [rewrite !lookup_insert; reflexivity|].
  rewrite !lookup_insert_ne by congruence. reflexivity.
Qed.

(** ** The in-place form *)
(** Everything before the loops. *)
Lemma m_kron_pre h l b ca ra fa cb rb fb : wf h ->
  abs h !! l = Some (Mat ca ra fa) -> abs h !! b = Some (Mat cb rb fb) -> l <> b ->
  Z.of_nat cb <= int_max -> Z.of_nat (cb * ca) <= int_max -> Z.of_nat (rb * ra) <= int_max -> Z.of_nat (rb * ra * (cb * ca)) <= int_max ->
  exists a t pa h4 g0, wf h4 /\ abs h !! a = None /\ abs h !! t = None /\ a <> t /\ a <> l /\ t <> l /\ a <> b /\ t <> b /\ ptr_of h4 a = Some pa /\
    (exists cst, abs h4 = <[t := (SVec (Z.of_nat cb), cst)]> (<[l := MatP (cb * ca) (rb * ra) g0]> (<[a := Mat ca ra fa]> (abs h)))) /\
    m_kron l (Some b) h =
      (for_ 0 (Z.of_nat (rb * ra)) (fun z => for_ 0 (Z.of_nat rb) (fun z' => kron_row l b t pa (Z.of_nat ca) z z' (Z.of_nat (cb * ca)) (Z.of_nat rb))) ;;;
       del_obj t ;;; del_obj a) h4.
Proof.
  intros Hwf Ha Hb Hlb Hcb Hx Hy Hxy.
  set (P := fun (rr : res F unit) => exists a t pa h4 g0, wf h4 /\ abs h !! a = None /\ abs h !! t = None /\ a <> t /\ a <> l /\ t <> l /\ a <> b /\ t <> b /\ ptr_of h4 a = Some pa /\
    (exists cst, abs h4 = <[t := (SVec (Z.of_nat cb), cst)]> (<[l := MatP (cb * ca) (rb * ra) g0]> (<[a := Mat ca ra fa]> (abs h)))) /\
    rr = (for_ 0 (Z.of_nat (rb * ra)) (fun z => for_ 0 (Z.of_nat rb) (fun z' => kron_row l b t pa (Z.of_nat ca) z z' (Z.of_nat (cb * ca)) (Z.of_nat rb))) ;;;
       del_obj t ;;; del_obj a) h4).
  change (P (m_kron l (Some b) h)).
  assert (Hbind : forall A (m : M F A) (k : A -> M F unit) h0, wp m h0 (fun x h1 => P (k x h1)) -> P (bind m k h0)).
  { intros A m k h0. unfold wp, bind. destruct (m h0); tauto. }
  unfold m_kron. apply Hbind. eapply wp_m_size; [exact Ha|]. apply Hbind. eapply wp_m_size; [exact Hb|]. cbn [fst snd].
  apply Hbind. eapply wp_m_duplicate; [exact Hwf|exact Ha|]. intros a h1 W1 N1 A1.
  apply Hbind. apply wp_chk; [unfold int_max in *; lia|]. apply Hbind. apply wp_chk; [unfold int_max in *; lia|].
  apply Hbind. replace (Z.of_nat cb * Z.of_nat ca) with (Z.of_nat (cb * ca)) by lia. replace (Z.of_nat rb * Z.of_nat ra) with (Z.of_nat (rb * ra)) by lia.
  assert (a <> l) by congruence. assert (a <> b) by congruence.
  eapply wp_m_resize; [exact W1|rewrite A1, lookup_insert_ne by congruence; exact Ha|lia|]. intros h2 W2 A2 _.
  destruct (cells_MatP h2 l (cb * ca) (rb * ra) _ W2 ltac:(rewrite A2; apply lookup_insert)) as [g0 Hd].
  assert (Ha2 : abs h2 !! a = Some (Mat ca ra fa)) by (rewrite A2, A1, lookup_insert_ne by congruence; apply lookup_insert).
  apply Hbind. eapply wp_data_ptr; [exact Ha2|]. intros pa Hpa.
  apply Hbind. apply wp_v_new; [exact W2|]. intros t h3 W3 N3 A3 P3.
  apply Hbind. eapply wp_v_resize; [exact W3|rewrite A3; apply lookup_insert|lia|]. intros h4 W4 A4 P4.
  assert (t <> l) by congruence. assert (t <> a) by congruence. assert (t <> b) by (intros ->; rewrite A2, A1, !lookup_insert_ne in N3 by congruence; congruence).
  exists a, t, pa, h4, g0. repeat (split; [solve [auto | congruence]|]).
  split; [rewrite A2, A1, !lookup_insert_ne in N3 by congruence; exact N3|]. repeat (split; [solve [auto | congruence]|]).
  split; [rewrite P4, P3 by congruence; exact Hpa|]. split; [|reflexivity].
  eexists. rewrite A4, A3, insert_insert. f_equal. rewrite A2 in Hd. rewrite lookup_insert in Hd. injection Hd as Hd. rewrite A2, A1. unfold MatP. rewrite Hd. reflexivity.
Qed.

(** Non-empty operands and a right operand other than 1x1: a read beyond the left operand. *)
Lemma m_kron_UB h l b ca ra fa cb rb fb : wf h ->
  abs h !! l = Some (Mat ca ra fa) -> abs h !! b = Some (Mat cb rb fb) -> l <> b ->
  Z.of_nat (cb * (cb * ca)) <= int_max -> Z.of_nat (rb * ra * (cb * ca)) <= int_max ->
  (0 < ca)%nat -> (0 < ra)%nat -> (0 < cb)%nat -> (0 < rb)%nat -> (cb, rb) <> (1, 1)%nat ->
  m_kron l (Some b) h = UB.
Proof.
  intros Hwf Ha Hb Hlb Hx Hxy Hca Hra Hcb Hrb Hne.
  assert (H1 : (cb <= cb * ca)%nat) by nia. assert (H2 : (cb * ca <= cb * (cb * ca))%nat) by nia.
  assert (H3 : (rb * ra <= rb * ra * (cb * ca))%nat) by (assert (1 <= cb * ca)%nat by nia; nia).
  destruct (m_kron_pre h l b ca ra fa cb rb fb) as (a & t & pa & h4 & g0 & W4 & Na & Nt & Hat & Hal & Htl & Hab & Htb & Hpa & (cst & A4) & ->); try assumption; try lia.
  apply bind_UB_first.
  set (rowsb := (fun i => vlist cb (fb i)) <$> seq 0 rb).
  assert (Hb' : abs h !! b = Some (Rows cb rowsb)) by (rewrite Hb, Mat_Rows; reflexivity).
  assert (Hwb : width cb rowsb). { apply list.Forall_forall. intros row Hr. apply elem_of_list_fmap in Hr as (i & -> & _). apply vlist_length. }
  assert (Hrb' : forall j, (j < rb)%nat -> rowsb !! j = Some (vlist cb (fb j))).
  { intros j Hj. unfold rowsb. rewrite list_lookup_fmap, lookup_seq_lt by exact Hj. reflexivity. }
  pose (st := fun hi => wf hi /\ abs hi !! b = Some (Rows cb rowsb) /\ abs hi !! a = Some (AMat ca ra (mlist ca ra fa)) /\ ptr_of hi a = Some pa /\
     (exists n1 cs1, abs hi !! t = Some (SVec n1, cs1)) /\ (exists g, abs hi !! l = Some (MatP (cb * ca) (rb * ra) g))).
  assert (Hst4 : st h4).
  { split; [exact W4|]. rewrite A4. split; [rewrite !lookup_insert_ne by congruence; exact Hb'|]. split; [rewrite !lookup_insert_ne by congruence; apply lookup_insert|].
    split; [exact Hpa|]. split; [eexists _, _; apply lookup_insert|]. eexists. rewrite lookup_insert_ne by congruence. apply lookup_insert. }
  assert (Hrow : forall i j hi, (j < rb)%nat -> (i * ca + cb * ca <= ra * ca)%nat -> st hi ->
      wp (kron_row l b t pa (Z.of_nat ca) (Z.of_nat i) (Z.of_nat j) (Z.of_nat (cb * ca)) (Z.of_nat rb)) hi (fun _ h' => st h')).
  { intros i j hi Hj Hin (W & Bb & Aa & Pa & (n1 & cs1 & Tt) & (g & Ll)).
    eapply wp_kron_row with (a := a) (row := vlist cb (fb j)); [exact W|exact Bb|exact Hwb|apply Hrb'; exact Hj|exact Tt|exact Aa|exact Pa|exact Ll|exact Hal|nia|nia|rewrite mlist_length; exact Hin|].
    cbv zeta. intros h' W' A' P'. split; [exact W'|]. rewrite A'. split; [rewrite !lookup_insert_ne by congruence; exact Bb|].
    split; [rewrite !lookup_insert_ne by congruence; exact Aa|]. split; [exact P'|].
    split; [eexists _, _; rewrite lookup_insert_ne by congruence; apply lookup_insert|]. rewrite lookup_insert. destruct (decide _); eauto. }
  (* the first row of A whose reads leave the buffer *)
  apply for_UB with (I := fun _ hi => st hi) (i0 := (ra + 1 - cb)%nat).
  - destruct (decide (cb = 1%nat)) as [->|]; [|nia]. destruct (decide (rb = 1%nat)) as [->|]; [congruence|]. nia.
  - exact Hst4.
  - intros i hi Hi HI. apply wp_for_n with (I := fun _ hi => st hi); [exact HI| |auto].
    intros j hj Hj HI'. apply Hrow; [exact Hj| |exact HI']. nia.
  - intros hi HI. apply for_UB with (I := fun _ hi => st hi) (i0 := 0%nat); [lia|exact HI|intros; lia|].
    intros hj (W & Bb & Aa & Pa & (n1 & cs1 & Tt) & (g & Ll)).
    eapply kron_row_UB with (a := a) (row := vlist cb (fb 0%nat)); [exact W|exact Bb|exact Hwb|apply Hrb'; exact Hrb|exact Tt|exact Aa|exact Pa|nia|nia|].
    rewrite mlist_length. nia.
Qed.

(** A 1x1 right operand: every element is scaled by it. *)
Lemma wp_m_kron_1x1 h l b ca ra fa fb (Q : unit -> heap F -> Prop) : wf h ->
  abs h !! l = Some (Mat ca ra fa) -> abs h !! b = Some (Mat 1 1 fb) -> l <> b -> Z.of_nat ca <= int_max -> Z.of_nat ra <= int_max ->
  (forall h', wf h' -> abs h' = <[l := Mat ca ra (mat_kron 1 1 fa fb)]> (abs h) -> Q tt h') ->
  wp (m_kron l (Some b)) h Q.
Proof.
  intros Hwf Ha Hb Hlb Hca Hra HQ. destruct (amat_len h l _ _ _ Hwf Ha) as [_ Hle].
  destruct (m_kron_pre h l b ca ra fa 1 1 fb) as (a & t & pa & h4 & g0 & W4 & Na & Nt & Hat & Hal & Htl & Hab & Htb & Hpa & (cst & A4) & E); rewrite ?Nat.mul_1_l; auto; try (unfold int_max; lia).
  enough (Hw : wp ((for_ 0 (Z.of_nat (1 * ra)) (fun z => for_ 0 (Z.of_nat 1) (fun z' => kron_row l b t pa (Z.of_nat ca) z z' (Z.of_nat (1 * ca)) (Z.of_nat 1))) ;;;
       del_obj t ;;; del_obj a)) h4 Q) by (unfold wp in *; rewrite E; exact Hw). clear E. rewrite !Nat.mul_1_l in *. wbind.
  eapply wp_kron_loops with (a := a) (ra := ra) (ca := ca) (cb := 1%nat) (rb := 1%nat) (g0 := g0) (fa := fa); [exact W4|rewrite A4, !lookup_insert_ne by congruence; exact Hb|rewrite A4; apply lookup_insert
     |rewrite A4, !lookup_insert_ne by congruence; apply lookup_insert|exact Hpa|rewrite A4, !Nat.mul_1_l, lookup_insert_ne by congruence; apply lookup_insert|congruence|congruence|unfold int_max; lia|lia|].
  intros h5 n1 cs1 W5 A5. rewrite !Nat.mul_1_l in A5. wbind.
  eapply wp_del; [exact W5|rewrite A5, lookup_insert_ne by congruence; apply lookup_insert|]. intros h6 W6 A6 _.
  eapply wp_del; [exact W6|rewrite A6, lookup_delete_ne, A5, !lookup_insert_ne, A4, !lookup_insert_ne by congruence; apply lookup_insert|]. intros h7 W7 A7 _.
  apply HQ; [exact W7|]. rewrite A7, A6, A5, A4. apply map_eq. intros x.
  destruct (decide (x = a)) as [->|]; [rewrite lookup_delete, lookup_insert_ne by congruence; congruence|]. rewrite lookup_delete_ne by congruence.
  destruct (decide (x = t)) as [->|]; [rewrite lookup_delete, lookup_insert_ne by congruence; congruence|]. rewrite lookup_delete_ne by congruence.
  destruct (decide (x = l)) as [->|]; [rewrite !lookup_insert; reflexivity|]. rewrite !lookup_insert_ne by congruence. reflexivity.
Qed.

End matproofs5.
