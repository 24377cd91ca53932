(** * C35: mode, range, midrange, for any scalars. *)
From Verif Require Import Stat StatProofs PropVec Frame MatProofs5 Inst.
From Coq Require Import Reals.
From Flocq Require Import Core IEEE754.BinarySingleNaN.
Close Scope R_scope.
Open Scope Z_scope.

Section c35.
Context {F : Type} `{Scalar F}.
Implicit Types (h : heap F) (xs ys ks : list F).

(** ** Specification *)
(** How many elements compare equal to [v]. *)
Definition occurrences (v : F) xs : nat := length (List.filter (fun a => s_eq a v) xs).
(** [ms] lists, without repetition, the values that occur most often in [xs]. *)
Record modes_of xs (ms : list F) : Prop := {
  mo_most : forall m, m ∈ ms -> m ∈ xs /\ forall v, v ∈ xs -> (occurrences v xs <= occurrences m xs)%nat;
  mo_all : forall v, v ∈ xs -> (forall u, u ∈ xs -> (occurrences u xs <= occurrences v xs)%nat) -> exists m, m ∈ ms /\ s_eq m v = true;
  mo_distinct : forall i j a b, (i < j)%nat -> ms !! i = Some a -> ms !! j = Some b -> s_eq a b = false
}.
(** [==] is an equivalence on the values satisfying [P] (e.g. the floats other than NaN). *)
Record eq_on (P : F -> Prop) : Prop := {
  eqo_refl : forall x, P x -> s_eq x x = true;
  eqo_sym : forall x y, P x -> P y -> s_eq x y = true -> s_eq y x = true;
  eqo_trans : forall x y z, P x -> P y -> P z -> s_eq x y = true -> s_eq y z = true -> s_eq x z = true
}.
(** Counts up to [n] convert to real_t without changing their order. *)
Definition counts_exact (n : Z) : Prop := forall a b, 0 <= a <= n -> 0 <= b <= n ->
  s_lt (s_of_Z a) (s_of_Z b) = (a <? b) /\ s_eq (s_of_Z a) (s_of_Z b) = (a =? b).

(** ** Proofs *)
Context (P : F -> Prop) (EP : eq_on P).

Lemma set_insert_eq ks v : set_insert ks v = if existsb (fun w => s_eq w v) ks then ks else ks ++ [v].
Proof.
  unfold set_insert. assert (G : forall b, foldl (fun is_new w => if s_eq w v then false else is_new) b ks = b && negb (existsb (fun w => s_eq w v) ks)).
  { induction ks as [|w ks IH]; intros b; cbn; [destruct b; reflexivity|]. rewrite IH. destruct (s_eq w v), b; reflexivity. }
  rewrite G. cbn. destruct (existsb _ ks); reflexivity.
Qed.
Definition nub xs := foldl set_insert [] xs.

Record nub_ok xs ks : Prop := {
  nk_in : forall k, k ∈ ks -> k ∈ xs;
  nk_all : forall v, v ∈ xs -> exists k, k ∈ ks /\ s_eq k v = true;
  nk_dist : forall i j a b, (i < j)%nat -> ks !! i = Some a -> ks !! j = Some b -> s_eq a b = false;
  nk_len : (length ks <= length xs)%nat
}.
Lemma nub_spec xs : Forall P xs -> nub_ok xs (nub xs).
Proof using EP.
  induction xs as [|v xs IH] using rev_ind; intros HF.
  - constructor; cbn; intros; try (rewrite lookup_nil in *; discriminate); try lia; inversion H0.
  - apply Forall_app in HF as [HF Hv]. apply Forall_cons_1 in Hv as [Hv _]. destruct (IH HF) as [I1 I2 I3 I4].
    unfold nub in *. rewrite foldl_app. cbn [foldl]. rewrite set_insert_eq. set (ks := foldl set_insert [] xs) in *.
    destruct (existsb (fun w => s_eq w v) ks) eqn:E.
    + apply existsb_exists in E as (k & Hk & Ek). apply elem_of_list_In in Hk. constructor.
      * intros k' Hk'. apply elem_of_app. left. auto.
      * intros u [Hu|Hu]%elem_of_app; [auto|]. apply elem_of_list_singleton in Hu as ->. eauto.
      * exact I3.
      * rewrite app_length. lia.
    + constructor.
      * intros k [Hk|Hk]%elem_of_app; apply elem_of_app; [left; auto|right; exact Hk].
      * intros u [Hu|Hu]%elem_of_app.
        -- destruct (I2 u Hu) as (k & Hk & Ek). exists k. split; [apply elem_of_app; auto|exact Ek].
        -- apply elem_of_list_singleton in Hu as ->. exists v. split; [apply elem_of_app; right; left|apply (eqo_refl P EP), Hv].
      * intros i j a b Hij Ha Hb. apply lookup_app_Some in Hb as [Hb|[Hj Hb]].
        -- rewrite lookup_app_l in Ha by (apply lookup_lt_Some in Hb; lia). eauto.
        -- destruct (j - length ks)%nat as [|m] eqn:Em; [|destruct m; discriminate]. injection Hb as <-.
           rewrite lookup_app_l in Ha by lia. apply not_true_is_false. intros Et. apply elem_of_list_lookup_2, elem_of_list_In in Ha.
           assert (existsb (fun w => s_eq w v) ks = true) by (apply existsb_exists; eauto). congruence.
      * rewrite !app_length. cbn. lia.
Qed.

(** Counting map. *)
Lemma hkey_P a b : P a -> P b -> hkey_eq a b = s_eq a b.
Proof using EP. intros Ha Hb. unfold hkey_eq. rewrite (eqo_refl P EP a Ha). cbn. rewrite orb_false_r. reflexivity. Qed.
Lemma eq_congr a b c : P a -> P b -> P c -> s_eq a b = true -> s_eq a c = s_eq b c.
Proof using EP.
  intros Pa Pb Pc E. destruct (s_eq a c) eqn:E1, (s_eq b c) eqn:E2; try reflexivity; exfalso.
  - assert (s_eq b c = true); [|congruence]. eapply (eqo_trans P EP b a c); eauto. apply (eqo_sym P EP); auto.
  - assert (s_eq a c = true); [|congruence]. eapply (eqo_trans P EP a b c); eauto.
Qed.
Lemma cnt_get_set m k c k' : Forall (fun e => P (fst e)) m -> P k -> P k' ->
  cnt_get (cnt_set m k c) k' = if s_eq k k' then c else cnt_get m k'.
Proof using EP.
  intros Hm Pk Pk'. induction m as [|[a n] m IH]; cbn.
  - rewrite hkey_P by assumption. reflexivity.
  - apply Forall_cons_1 in Hm as [Pa Hm]. cbn in Pa. specialize (IH Hm). rewrite hkey_P by assumption.
    destruct (s_eq a k) eqn:E; cbn; rewrite hkey_P by assumption.
    + rewrite (eq_congr a k k') by assumption. destruct (s_eq k k'); reflexivity.
    + destruct (s_eq a k') eqn:E2; [|exact IH]. destruct (s_eq k k') eqn:E3; [|reflexivity].
      exfalso. assert (s_eq a k = true); [|congruence]. eapply (eqo_trans P EP a k' k); eauto. apply (eqo_sym P EP); auto.
Qed.
Lemma cnt_set_P m k c : Forall (fun e => P (fst e)) m -> P k -> Forall (fun e => P (fst e)) (cnt_set m k c).
Proof.
  intros Hm Pk. induction m as [|[a n] m IH]; cbn; [constructor; auto|]. apply Forall_cons_1 in Hm as [Pa Hm].
  destruct (hkey_eq a k); constructor; auto.
Qed.
Lemma occ_snoc v xs a : occurrences v (xs ++ [a]) = (occurrences v xs + (if s_eq a v then 1 else 0))%nat.
Proof. unfold occurrences. rewrite List.filter_app, app_length. cbn. destruct (s_eq a v); reflexivity. Qed.
Lemma occ_le v xs : (occurrences v xs <= length xs)%nat.
Proof. unfold occurrences. induction xs as [|a xs IH]; cbn; [lia|]. destruct (s_eq a v); cbn; lia. Qed.
Lemma occ_congr u v xs : Forall P xs -> P u -> P v -> s_eq u v = true -> occurrences u xs = occurrences v xs.
Proof using EP.
  intros HF Pu Pv E. unfold occurrences. induction HF as [|a xs Pa HF IH]; [reflexivity|]. cbn.
  assert (s_eq a u = s_eq a v) as ->; [|destruct (s_eq a v); cbn; congruence].
  destruct (s_eq a u) eqn:E1, (s_eq a v) eqn:E2; try reflexivity; exfalso.
  - assert (s_eq a v = true); [|congruence]. eapply (eqo_trans P EP a u v); eauto.
  - assert (s_eq a u = true); [|congruence]. eapply (eqo_trans P EP a v u); eauto. apply (eqo_sym P EP); auto.
Qed.

(** vec_to_setnv *)
Lemma wp_d_vec_to_set h x xs (Q : loc -> heap F -> Prop) : wf h -> abs h !! x = Some (AVec xs) -> Forall P xs ->
  (forall o h', wf h' -> abs h !! o = None -> abs h' = <[o := AVec (nub xs)]> (abs h) -> Q o h') -> wp (d_vec_to_set (Some x)) h Q.
Proof using EP.
  intros Hw Hx HF HQ. unfold d_vec_to_set. wbind. apply wp_ret. wbind. eapply wp_v_size_vec; [exact Hx|]. wbind.
  apply wp_for_acc with (I := fun i s hi => hi = h /\ s = nub (take (Z.to_nat i) xs)).
  - split; reflexivity.
  - intros i s hi Hi [-> ->]. wbind. eapply wp_v_get; [exact Hw|exact Hx|]. apply wp_ret. split; [reflexivity|].
    destruct (Z.ltb_spec i 0); [lia|]. destruct (lookup_lt_is_Some_2 xs (Z.to_nat i)) as [v Hv]; [lia|]. rewrite Hv. cbn.
    replace (Z.to_nat (i + 1)) with (S (Z.to_nat i)) by lia. rewrite (take_S_r _ _ v) by exact Hv. unfold nub. rewrite foldl_app. reflexivity.
  - intros s hi [-> ->]. rewrite take_ge by lia. wbind. apply wp_v_new; [exact Hw|]. intros o h1 W1 N1 A1 _.
    wbind. eapply wp_v_set_from_vector; [exact W1|rewrite A1; apply lookup_insert| |].
    { pose proof (nk_len _ _ (nub_spec xs HF)). pose proof (avec_len h x xs Hw Hx). lia. }
    intros h2 W2 A2. apply wp_ret. apply HQ; auto. rewrite A2, A1, insert_insert. reflexivity.
Qed.

Lemma wp_v_at h x xs i v (Q : F -> heap F -> Prop) : wf h -> abs h !! x = Some (AVec xs) -> 0 <= i -> xs !! Z.to_nat i = Some v -> Q v h -> wp (v_at x i) h Q.
Proof.
  intros Hw Hx Hi Hv HQ. unfold v_at. wbind. eapply wp_v_size_vec; [exact Hx|]. pose proof (lookup_lt_Some _ _ _ Hv).
  destruct (Z.ltb_spec i 0); [lia|]. destruct (Z.leb_spec (Z.of_nat (length xs)) i); [lia|]. cbn.
  wbind. eapply wp_data_ptr; [exact Hx|]. intros p Hp. eapply wp_load; [exact Hw|exact Hp|exact Hx|lia|apply fmap_Some_lookup, Hv|exact HQ].
Qed.

Lemma pfr_v_push_back (S : loc -> Prop) (l : loc) (v : F) : S l -> pfr (F := F) S (v_push_back l v).
Proof. intros. unfold v_push_back. pfr_tac. apply pfr_v_size. Qed.
Lemma pfr_v_clear (S : loc -> Prop) (l : loc) : S l -> pfr (F := F) S (v_clear l).
Proof. intros. unfold v_clear. apply pfr_v_resize. assumption. Qed.

(** Selection of the maximal keys. *)
Lemma filter_none (c : F -> Z) (M : Z) ks : (forall k, k ∈ ks -> c k < M) -> List.filter (fun k => c k =? M) ks = [].
Proof.
  induction ks as [|k ks IH]; intros Hk; [reflexivity|]. cbn. pose proof (Hk k ltac:(left)). destruct (Z.eqb_spec (c k) M); [lia|].
  apply IH. intros k' Hk'. apply Hk. right. exact Hk'.
Qed.
Lemma filter_len (f : F -> bool) ks : (length (List.filter f ks) <= length ks)%nat.
Proof. induction ks as [|k ks IH]; cbn; [lia|]. destruct (f k); cbn; lia. Qed.
Lemma filter_distinct (f : F -> bool) ks : (forall i j a b, (i < j)%nat -> ks !! i = Some a -> ks !! j = Some b -> s_eq a b = false) ->
  forall i j a b, (i < j)%nat -> List.filter f ks !! i = Some a -> List.filter f ks !! j = Some b -> s_eq a b = false.
Proof.
  induction ks as [|k ks IH]; intros HD i j a b Hij Ha Hb; [cbn in Ha; rewrite lookup_nil in Ha; discriminate|].
  assert (HD' : forall i j a b, (i < j)%nat -> ks !! i = Some a -> ks !! j = Some b -> s_eq a b = false).
  { intros i' j' a' b' Hij' Ha' Hb'. apply (HD (S i') (S j') a' b'); [lia|exact Ha'|exact Hb']. }
  cbn in Ha, Hb. destruct (f k); [|exact (IH HD' i j a b Hij Ha Hb)].
  destruct i as [|i], j as [|j]; try lia.
  - cbn in Ha, Hb. injection Ha as <-. apply elem_of_list_lookup_2, elem_of_list_In, filter_In in Hb as [Hb _].
    apply elem_of_list_In, elem_of_list_lookup_1 in Hb as [n Hn]. apply (HD 0%nat (S n)); [lia|reflexivity|exact Hn].
  - cbn in Ha, Hb. apply (IH HD' i j a b); [lia|exact Ha|exact Hb].
Qed.

Lemma wp_st_mode h x xs (Q : option loc -> heap F -> Prop) : wf h -> abs h !! x = Some (AVec xs) -> Forall P xs -> xs <> [] ->
  counts_exact (Z.of_nat (length xs)) ->
  (forall o ms h', wf h' -> abs h !! o = None -> abs h' = <[o := AVec ms]> (abs h) -> modes_of xs ms -> Q (Some o) h') ->
  wp (st_mode (Some x)) h Q.
Proof using EP.
  intros Hw Hx HF Hne HC HQ. unfold st_mode. wbind. eapply wp_d_vec_to_set; [exact Hw|exact Hx|exact HF|]. intros s h1 W1 N1 A1.
  destruct (nub_spec xs HF) as [K1 K2 K3 K4]. set (ks := nub xs) in *.
  assert (Hs1 : abs h1 !! s = Some (AVec ks)) by (rewrite A1; apply lookup_insert).
  assert (Hsx : s <> x) by congruence.
  assert (Hx1 : abs h1 !! x = Some (AVec xs)) by (rewrite A1, lookup_insert_ne by congruence; exact Hx).
  assert (HFx : forall v, v ∈ xs -> P v) by (apply list.Forall_forall; exact HF).
  assert (HFk : forall k, k ∈ ks -> P k) by auto.
  wbind. eapply wp_data_ptr; [exact Hs1|]. intros ps Hps.
  wbind. eapply wp_v_size_vec; [exact Hs1|]. wbind. eapply wp_v_size_vec; [exact Hx1|].
  (* initial zeros *)
  wbind. apply wp_for_acc with (I := fun i m hi => hi = h1 /\ Forall (fun e => P (fst e)) m /\ forall k, P k -> cnt_get m k = 0).
  { split; [reflexivity|]. split; [constructor|]. reflexivity. }
  { intros i m hi Hi (-> & HP & H0). destruct (lookup_lt_is_Some_2 xs (Z.to_nat i)) as [v Hv]; [lia|].
    assert (Pv : P v) by (apply HFx, elem_of_list_lookup; eauto).
    wbind. eapply wp_v_at; [exact W1|exact Hx1|lia|exact Hv|]. apply wp_ret. split; [reflexivity|]. split; [apply cnt_set_P; assumption|].
    intros k Pk. rewrite cnt_get_set by assumption. destruct (s_eq v k); auto. }
  intros m0 hh (-> & HP0 & H0).
  (* counting *)
  wbind. apply wp_for_acc with (I := fun i m hi => hi = h1 /\ Forall (fun e => P (fst e)) m /\
     forall k, P k -> cnt_get m k = Z.of_nat (occurrences k (take (Z.to_nat i) xs))).
  { split; [reflexivity|]. split; [exact HP0|]. intros k Pk. rewrite H0 by exact Pk. reflexivity. }
  { intros i m hi Hi (-> & HPm & Hm). destruct (lookup_lt_is_Some_2 xs (Z.to_nat i)) as [v Hv]; [lia|].
    assert (Pv : P v) by (apply HFx, elem_of_list_lookup; eauto).
    wbind. eapply wp_v_at; [exact W1|exact Hx1|lia|exact Hv|]. apply wp_ret. split; [reflexivity|]. split; [apply cnt_set_P; assumption|].
    intros k Pk. rewrite cnt_get_set by assumption. replace (Z.to_nat (i + 1)) with (S (Z.to_nat i)) by lia.
    rewrite (take_S_r _ _ v), occ_snoc by exact Hv. destruct (s_eq v k) eqn:E.
    - rewrite Hm by exact Pv. assert (FT : Forall P (take (Z.to_nat i) xs)) by (apply Forall_take, HF).
      rewrite (occ_congr v k _ FT Pv Pk E). lia.
    - rewrite Hm by exact Pk. lia. }
  intros m hh (-> & HPm & Hm0). assert (Hm : forall k, P k -> cnt_get m k = Z.of_nat (occurrences k xs)).
  { intros k Pk. rewrite Hm0 by exact Pk. rewrite take_ge by lia. reflexivity. } clear Hm0 H0 HP0 m0.
  set (c := cnt_get m). assert (HcB : forall k, k ∈ ks -> 0 <= c k <= Z.of_nat (length xs)).
  { intros k Hk. unfold c. rewrite Hm by auto. pose proof (occ_le k xs). lia. }
  wbind. apply wp_v_new; [exact W1|]. intros o h2 W2 N2 A2 P2.
  assert (Hos : o <> s) by congruence. assert (Hox : o <> x) by congruence.
  assert (Hs2 : abs h2 !! s = Some (AVec ks)) by (rewrite A2, lookup_insert_ne by congruence; exact Hs1).
  assert (Hps2 : ptr_of h2 s = Some ps) by (rewrite P2 by congruence; exact Hps).
  assert (Hk0 : exists k0, ks !! 0%nat = Some k0).
  { destruct xs as [|v xs]; [congruence|]. destruct (K2 v ltac:(left)) as (k & Hk & _). destruct ks; [inversion Hk|eauto]. }
  destruct Hk0 as [k0 Hk0]. assert (Hk0' : k0 ∈ ks) by (apply elem_of_list_lookup; eauto).
  wbind. eapply wp_load with (l := s); [exact W2|exact Hps2|exact Hs2|lia|apply fmap_Some_lookup; exact Hk0|].
  (* selection *)
  wbind. apply wp_for_acc with (I := fun i mx hi => exists M, mx = s_of_Z M /\ (exists k, k ∈ ks /\ c k = M) /\ c k0 <= M /\
     (forall k, k ∈ take (Z.to_nat i) ks -> c k <= M) /\ wf hi /\ ptr_of hi s = Some ps /\
     abs hi = <[o := AVec (List.filter (fun k => c k =? M) (take (Z.to_nat i) ks))]> (abs h1)).
  { exists (c k0). split; [reflexivity|]. split; [eauto|]. split; [lia|]. split; [intros k Hk; inversion Hk|]. auto. }
  { intros i mx hi Hi (M & -> & (km & Hkm & EM) & HM0 & HM & W & Hp & A).
    destruct (lookup_lt_is_Some_2 ks (Z.to_nat i)) as [k Hk]; [lia|]. assert (Hk' : k ∈ ks) by (apply elem_of_list_lookup; eauto).
    assert (Hsi : abs hi !! s = Some (AVec ks)) by (rewrite A, lookup_insert_ne by congruence; exact Hs1).
    assert (Hoi : abs hi !! o = Some (AVec (List.filter (fun k => c k =? M) (take (Z.to_nat i) ks)))) by (rewrite A; apply lookup_insert).
    wbind. eapply wp_load with (l := s); [exact W|exact Hp|exact Hsi|lia|apply fmap_Some_lookup; exact Hk|].
    pose proof (HcB k Hk') as Bk. pose proof (HcB km Hkm) as Bm. rewrite EM in Bm. fold (c k).
    assert (Hlks : Z.of_nat (length ks) <= int_max) by (pose proof (avec_len h x xs Hw Hx); lia).
    destruct (HC M (c k) Bm Bk) as [-> _]. destruct (HC (c k) M Bk Bm) as [_ ->].
    replace (Z.to_nat (i + 1)) with (S (Z.to_nat i)) by lia. rewrite (take_S_r _ _ k) by exact Hk.
    assert (Hlive : is_Some (h_obj hi !! s)). { unfold ptr_of in Hp. destruct (h_obj hi !! s); [eauto|discriminate]. }
    assert (Hlt : (length (take (Z.to_nat i) ks) < length ks)%nat) by (rewrite take_length; lia).
    destruct (Z.ltb_spec M (c k)).
    - wbind. apply (wp_pfr (fun l => l = o)); [exact W|apply pfr_v_clear; reflexivity|]. unfold v_clear.
      eapply wp_v_resize; [exact W|exact Hoi|lia|]. intros h3 W3 A3 _ PC3.
      assert (Hp3 : ptr_of h3 s = Some ps) by (rewrite PC3 by auto; exact Hp).
      change (Z.to_nat 0) with 0%nat in A3. rewrite resize_0 in A3.
      assert (Hlive3 : is_Some (h_obj h3 !! s)). { unfold ptr_of in Hp3. destruct (h_obj h3 !! s); [eauto|discriminate]. }
      wbind. apply (wp_pfr (fun l => l = o)); [exact W3|apply pfr_v_push_back; reflexivity|].
      eapply (wp_v_push_back_vec h3 o []); [exact W3|rewrite A3; apply lookup_insert|cbn; lia|].
      intros h4 W4 A4 PC4. apply wp_ret. exists (c k). split; [reflexivity|]. split; [eauto|]. split; [lia|].
      split; [|split; [exact W4|split; [rewrite PC4 by auto; exact Hp3|]]].
      + intros k' [Hk1|Hk1]%elem_of_app; [specialize (HM k' Hk1); lia|]. apply elem_of_list_singleton in Hk1 as ->. lia.
      + rewrite List.filter_app, filter_none by (intros k' Hk1; specialize (HM k' Hk1); lia). cbn. rewrite Z.eqb_refl.
        rewrite A4, A3, A, !insert_insert. reflexivity.
    - assert (HM' : forall k', k' ∈ take (Z.to_nat i) ks ++ [k] -> c k' <= M).
      { intros k' [Hk1|Hk1]%elem_of_app; [auto|]. apply elem_of_list_singleton in Hk1 as ->. lia. }
      destruct (Z.eqb_spec (c k) M).
      + wbind. apply (wp_pfr (fun l => l = o)); [exact W|apply pfr_v_push_back; reflexivity|].
        eapply wp_v_push_back_vec; [exact W|exact Hoi|pose proof (filter_len (fun k => c k =? M) (take (Z.to_nat i) ks)); lia|].
        intros h4 W4 A4 PC4. apply wp_ret. exists M. split; [reflexivity|]. split; [eauto|]. split; [lia|]. split; [exact HM'|].
        split; [exact W4|]. split; [rewrite PC4 by auto; exact Hp|]. rewrite List.filter_app. cbn [List.filter]. rewrite (proj2 (Z.eqb_eq (c k) M)) by assumption. rewrite A4, A, insert_insert. reflexivity.
      + apply wp_ret. exists M. split; [reflexivity|]. split; [eauto|]. split; [lia|]. split; [exact HM'|].
        split; [exact W|]. split; [exact Hp|]. rewrite List.filter_app. cbn [List.filter]. rewrite (proj2 (Z.eqb_neq (c k) M)) by assumption. rewrite app_nil_r. exact A. }
  intros mx h3 (M & -> & (km & Hkm & EM) & HM0 & HM & W & Hp & A). rewrite take_ge in HM, A by lia.
  wbind. eapply wp_del; [exact W|rewrite A, lookup_insert_ne by congruence; exact Hs1|]. intros h4 W4 A4 _. apply wp_ret.
  eapply (HQ o (List.filter (fun k => c k =? M) ks)).
  - exact W4.
  - rewrite A1 in N2. rewrite lookup_insert_ne in N2 by congruence. exact N2.
  - rewrite A4, A, A1, delete_insert_ne, delete_insert by congruence. reflexivity.
  - assert (HcM : forall v, v ∈ xs -> Z.of_nat (occurrences v xs) <= M).
    { intros v Hv. destruct (K2 v Hv) as (k & Hk & Ek). rewrite <- (occ_congr k v xs) by auto. rewrite <- (Hm k) by auto. apply (HM k Hk). }
    assert (HkM : Z.of_nat (occurrences km xs) = M) by (rewrite <- Hm by auto; exact EM).
    constructor.
    + intros k Hk. apply elem_of_list_In, filter_In in Hk as [Hk E]. apply elem_of_list_In in Hk. apply Z.eqb_eq in E. split; [auto|].
      intros v Hv. specialize (HcM v Hv). unfold c in E. rewrite Hm in E by auto. lia.
    + intros v Hv Hmax. destruct (K2 v Hv) as (k & Hk & Ek). exists k. split; [|exact Ek]. apply elem_of_list_In, filter_In. split; [apply elem_of_list_In, Hk|].
      apply Z.eqb_eq. unfold c. rewrite Hm by auto. rewrite (occ_congr k v xs) by auto. specialize (HcM v Hv). specialize (Hmax km (K1 _ Hkm)). lia.
    + apply filter_distinct. exact K3.
Qed.

(** ** C35: mode *)
(** [mode(p_x)] returns a new vector listing every most frequent value exactly once, and changes nothing else. *)
Theorem C35_mode h x xs : wf h -> abs h !! x = Some (AVec xs) -> Forall P xs -> xs <> [] ->
  counts_exact (Z.of_nat (length xs)) ->
  runs (st_mode (Some x)) h (fun r h' => exists o ms, r = Some o /\ abs h !! o = None /\
    abs h' = <[o := AVec ms]> (abs h) /\ modes_of xs ms).
Proof using EP.
  intros Hw Hx HF Hne HC. apply runs_wp. eapply wp_st_mode; eauto. intros o ms h' W N A M. split; [exact W|]. exists o, ms. auto.
Qed.
(** A non-empty vector has a mode. *)
Lemma most_frequent xs : xs <> [] -> exists v, v ∈ xs /\ forall u, u ∈ xs -> (occurrences u xs <= occurrences v xs)%nat.
Proof.
  assert (G : forall zs, zs <> [] -> exists v, v ∈ zs /\ forall u, u ∈ zs -> (occurrences u xs <= occurrences v xs)%nat).
  { induction zs as [|a zs IH]; [congruence|]. intros _. destruct zs as [|b zs].
    - exists a. split; [left|]. intros u Hu. apply elem_of_list_singleton in Hu as ->. lia.
    - destruct IH as (v & Hv & Hm); [congruence|]. destruct (Nat.le_gt_cases (occurrences a xs) (occurrences v xs)).
      + exists v. split; [right; exact Hv|]. intros u [->|Hu]%elem_of_cons; auto.
      + exists a. split; [left|]. intros u [->|Hu]%elem_of_cons; [lia|]. specialize (Hm u Hu). lia. }
  intros. apply G. assumption.
Qed.
Theorem C35_mode_exists xs ms : xs <> [] -> modes_of xs ms -> ms <> [].
Proof.
  intros Hne M ->. destruct (most_frequent xs Hne) as (v & Hv & Hm). destruct (mo_all _ _ M v Hv Hm) as (m & Hin & _). inversion Hin.
Qed.
End c35.

Section c35'.
Context {F : Type} `{Scalar F}.
(** mode of an empty vector dereferences the null data pointer of the empty set. *)
Theorem C35_mode_empty_ub (h : heap F) x : wf h -> abs h !! x = Some (AVec []) -> st_mode (Some x) h = UB.
Proof.
  intros Hw Hx. assert (E0 : eq_on (fun _ : F => False)) by (constructor; contradiction).
  unfold st_mode. apply bind_UB. eapply (wp_d_vec_to_set _ E0); [exact Hw|exact Hx|constructor|]. intros s h1 W1 N1 A1.
  assert (Hs1 : abs h1 !! s = Some (AVec [])) by (rewrite A1; apply lookup_insert).
  assert (Hx1 : abs h1 !! x = Some (AVec [])) by (rewrite A1, lookup_insert_ne by congruence; exact Hx).
  apply bind_UB. eapply wp_data_ptr; [exact Hs1|]. intros ps Hps.
  apply bind_UB. eapply wp_v_size_vec; [exact Hs1|]. apply bind_UB. eapply wp_v_size_vec; [exact Hx1|].
  apply bind_UB. apply wp_ret. apply bind_UB. apply wp_ret.
  apply bind_UB. apply wp_v_new; [exact W1|]. intros o h2 W2 N2 A2 P2. apply bind_UB_first.
  apply (load_UB h2 s ps _ _ 0 W2 ltac:(rewrite P2 by congruence; exact Hps) ltac:(rewrite A2, lookup_insert_ne by congruence; exact Hs1)). cbn. lia.
Qed.

(** ** C35: range *)
Context (P : F -> Prop) (SP : swo_on P).

Lemma fold_scan (bt : F -> F -> bool) (m0 : F) xs :
  foldl (fun m v => if bt v m then v else m) m0 xs = (snd (foldl (fun '(i, (m, k)) x => (i + 1, if bt x m then (x, i) else (m, k))) (0, (m0, -1)) xs)).1.
Proof.
  assert (G : forall i m k, foldl (fun m v => if bt v m then v else m) m xs = (snd (foldl (fun '(i, (m, k)) x => (i + 1, if bt x m then (x, i) else (m, k))) (i, (m, k)) xs)).1); [|apply G].
  induction xs as [|v xs IH]; intros i m k; cbn; [reflexivity|]. destruct (bt v m); apply IH.
Qed.
Theorem C35_range h x xs : wf h -> abs h !! x = Some (AVec xs) -> Forall P xs -> xs <> [] ->
  (forall v, P v -> s_lt (s_opp s_inf) v = true /\ s_lt v s_inf = true) ->
  exists lo hi, lo ∈ xs /\ hi ∈ xs /\ (forall v, v ∈ xs -> s_lt v lo = false /\ s_lt hi v = false) /\
    st_range (Some x) h = Ok (s_sub hi lo) h /\ st_midrange (Some x) h = Ok (s_div (s_sub hi lo) (s_of_Z 2)) h.
Proof using SP.
  intros Hw Hx HF Hne Hinf.
  assert (HFx : forall v, v ∈ xs -> P v) by (apply list.Forall_forall; exact HF).
  destruct (scan_spec P (fun x m => s_lt m x) (s_opp s_inf)) with (xs := xs) as (hi & kh & Eh & HIh).
  { exact (swo_irrefl P SP). }
  { intros a b c Pa Pb Pc Hac. destruct (swo_cotrans P SP c b a Pc Pb Pa Hac) as [Hc|Hc]; [right|left]; exact Hc. }
  { intros a b c Pa Pb Pc H1 H2. exact (swo_trans P SP c b a Pc Pb Pa H2 H1). }
  { exact HF. }
  { intros a Ha. apply Hinf, HFx, Ha. }
  destruct (scan_spec P (fun x m => s_lt x m) s_inf) with (xs := xs) as (lo & kl & El & HIl).
  { exact (swo_irrefl P SP). }
  { intros a b c Pa Pb Pc Hac. exact (swo_cotrans P SP a b c Pa Pb Pc Hac). }
  { intros a b c Pa Pb Pc H1 H2. exact (swo_trans P SP a b c Pa Pb Pc H1 H2). }
  { exact HF. }
  { intros a Ha. apply Hinf, HFx, Ha. }
  destruct HIh as [(-> & _)|(_ & Hh & Mh & _)]; [congruence|]. destruct HIl as [(-> & _)|(_ & Hl & Ml & _)]; [congruence|].
  exists lo, hi. split; [apply elem_of_list_lookup; eauto|]. split; [apply elem_of_list_lookup; eauto|]. split.
  { intros v Hv. apply elem_of_list_lookup in Hv as [j Hj]. split; [apply (Ml j v Hj)|apply (Mh j v Hj)]. }
  assert (Er : st_range (Some x) h = Ok (s_sub hi lo) h).
  { unfold st_range, bind. rewrite (la_maxvr_eq h x xs), (la_minvr_eq h x xs) by assumption.
    rewrite (fold_scan (fun v m => s_lt m v)), (fold_scan (fun v m => s_lt v m)), Eh, El. reflexivity. }
  split; [exact Er|]. unfold st_midrange, bind. rewrite Er. reflexivity.
Qed.
End c35'.

(** ** For IEEE-754 floats: NaN-free vectors of at most 2^prec elements. *)
Section ieee.
Context (prec emax : Z) {Hprec : Prec_gt_0 prec} {Hmax : Prec_lt_emax prec emax}.
Notation flt := (binary_float prec emax).
Context (m : libm flt).
Local Instance S : Scalar flt := ieee_scalar prec emax m.

Lemma ieee_of_Z z : 0 <= z <= 2 ^ prec -> is_finite (s_of_Z (Scalar := S) z) = true /\ B2R (s_of_Z (Scalar := S) z) = IZR z.
Proof.
  intros Hz. cbn. pose proof (binary_normalize_correct prec emax Hprec Hmax mode_NE z 0 false) as B.
  assert (EF : F2R (Float radix2 z 0) = IZR z) by (unfold F2R; cbn; ring).
  assert (G : generic_format radix2 (SpecFloat.fexp prec emax) (IZR z)).
  { destruct (Z.eq_dec z (2 ^ prec)) as [->|Hne].
    - change (2 ^ prec) with (Zpower radix2 prec). rewrite (IZR_Zpower radix2 prec) by (unfold Prec_gt_0 in *; lia). apply generic_format_bpow.
      unfold SpecFloat.fexp, SpecFloat.emin. unfold Prec_gt_0, Prec_lt_emax in *. lia.
    - apply (generic_format_FLT radix2 (SpecFloat.emin prec emax) prec). exists (Float radix2 z 0); [symmetry; exact EF| |].
      + cbn. rewrite Z.abs_eq by lia. lia.
      + cbn. unfold SpecFloat.emin. unfold Prec_gt_0, Prec_lt_emax in *. lia. }
  cbv zeta in B. rewrite EF in B. rewrite round_generic in B; [|typeclasses eauto|exact G].
  rewrite Rlt_bool_true in B. { destruct B as (B1 & B2 & _). split; assumption. }
  rewrite Rabs_pos_eq by (apply IZR_le; lia). apply Rle_lt_trans with (bpow radix2 prec).
  - rewrite <- IZR_Zpower by (unfold Prec_gt_0 in *; lia). apply IZR_le. cbn. lia.
  - apply bpow_lt. exact Hmax.
Qed.
Lemma ieee_counts : counts_exact (H := S) (2 ^ prec).
Proof.
  intros a b Ha Hb. destruct (ieee_of_Z a Ha) as [Fa Ra]. destruct (ieee_of_Z b Hb) as [Fb Rb].
  cbn in *. rewrite Bltb_correct, Beqb_correct by assumption. rewrite Ra, Rb. split.
  - destruct (Z.ltb_spec a b).
    + apply Rlt_bool_true, IZR_lt. assumption.
    + apply Rlt_bool_false, IZR_le. assumption.
  - destruct (Z.eqb_spec a b) as [->|Hne].
    + apply Req_bool_true. reflexivity.
    + apply Req_bool_false. intros E. apply Hne, eq_IZR, E.
Qed.
Lemma ieee_eq_spec (x y : flt) : is_nan x = false -> is_nan y = false ->
  Beqb x y = true <-> rank prec emax x = rank prec emax y /\ (rank prec emax x = 0 -> B2R x = B2R y).
Proof.
  intros Hx Hy. destruct (is_finite x) eqn:Fx; destruct (is_finite y) eqn:Fy.
  - rewrite Beqb_correct by assumption.
    assert (Rx : rank prec emax x = 0) by (destruct x; try discriminate; reflexivity).
    assert (Ry : rank prec emax y = 0) by (destruct y; try discriminate; reflexivity).
    rewrite Rx, Ry. destruct (Req_bool_spec (B2R x) (B2R y)); split; auto; [discriminate|]. intros [_ E]. specialize (E eq_refl). contradiction.
  - destruct y as [| [] | |]; try discriminate; destruct x as [[]|[]| |[]]; try discriminate; cbn; split; try discriminate; intros [? _]; discriminate.
  - destruct x as [| [] | |]; try discriminate; destruct y as [[]|[]| |[]]; try discriminate; cbn; split; try discriminate; intros [? _]; discriminate.
  - destruct x as [| [] | |]; try discriminate; destruct y as [| [] | |]; try discriminate; cbn; split; try discriminate; intros ?; auto; try (destruct H; discriminate); split; auto; discriminate.
Qed.
Lemma ieee_eq_on : eq_on (H := S) (fun x : flt => is_nan x = false).
Proof.
  constructor; cbn.
  - intros x Hx. apply ieee_eq_spec; auto.
  - intros x y Hx Hy E. apply ieee_eq_spec in E; auto. apply ieee_eq_spec; auto. destruct E as [E1 E2]. split; [congruence|]. intros E0. symmetry. apply E2. congruence.
  - intros x y z Hx Hy Hz E E'. apply ieee_eq_spec in E, E'; auto. apply ieee_eq_spec; auto. destruct E as [E1 E2], E' as [E3 E4].
    split; [congruence|]. intros E0. rewrite E2 by exact E0. apply E4. congruence.
Qed.
Theorem C35_mode_ieee (h : heap flt) x xs : wf h -> abs h !! x = Some (AVec xs) ->
  Forall (fun x => is_nan x = false) xs -> xs <> [] -> Z.of_nat (length xs) <= 2 ^ prec ->
  runs (st_mode (H := S) (Some x)) h (fun r h' => exists o ms, r = Some o /\ abs h !! o = None /\
    abs h' = <[o := AVec ms]> (abs h) /\ modes_of (H := S) xs ms).
Proof.
  intros Hw Hx HF Hne Hl. apply (C35_mode (H := S) _ ieee_eq_on); auto.
  intros a b Ha Hb. apply ieee_counts; lia.
Qed.
Theorem C35_range_ieee (h : heap flt) x xs : wf h -> abs h !! x = Some (AVec xs) ->
  Forall (fun x => is_finite x = true) xs -> xs <> [] ->
  exists lo hi, lo ∈ xs /\ hi ∈ xs /\ (forall v, v ∈ xs -> (B2R lo <= B2R v <= B2R hi)%R) /\
    st_range (H := S) (Some x) h = Ok (Bminus mode_NE hi lo) h.
Proof.
  intros Hw Hx HF Hne. destruct (C35_range (H := S) _ (ieee_finite_swo prec emax m) h x xs Hw Hx HF Hne) as (lo & hi & Hlo & Hhi & Hb & E & _).
  { intros v Hv. destruct (ieee_inf prec emax v Hv). auto. }
  exists lo, hi. split; [exact Hlo|]. split; [exact Hhi|]. split; [|exact E]. rewrite list.Forall_forall in HF. intros v Hv. destruct (Hb v Hv) as [B1 B2].
  split; apply Rnot_lt_le; intros Hlt; apply Bltb_fin in Hlt; auto; cbn in B1, B2; congruence.
Qed.
End ieee.
