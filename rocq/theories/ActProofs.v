(** * What the vector / matrix expressions of activation.cpp evaluate to. *)
From Verif Require Import Base BaseProofs Vec VecSpec VecProofs VecProofs2 Mat MatSpec MatProofs MatProofs2 MatProofs3 MatProofs4 MatProofs5 Frame Act.

Section proofs.
Context {F : Type} `{Scalar F} `{Libm F}.
Implicit Types (h : heap F) (z o : loc) (r : option loc).

(** An initialised object of kind [k] (for matrices: [c] columns, [w] rows) holding [xs]. *)
Definition KObj (k : kind) (c w : nat) (xs : list F) : aobj F :=
  match k with KV => AVec xs | KM => AMat c w xs end.

(** Element-wise meaning of an expression. *)
Fixpoint asem (e : aexp) (x : F) : F :=
  match e with
  | AZ => x
  | AConst _ c => c
  | AUn _ _ f e1 => f (asem e1 x)
  | ABin _ f e1 e2 => f (asem e1 x) (asem e2 x)
  | ACast e1 => asem e1 x
  | ACall e2 e1 => asem e2 (asem e1 x)
  end.

Definition kflip k := match k with KV => KM | KM => KV end.
Definition keqb k k' := match k, k' with KV, KV => true | KM, KM => true | _, _ => false end.
Lemma keqb_eq k k' : keqb k k' = true -> k = k'.
Proof. destruct k, k'; cbn; congruence. Qed.
(** C++ static type of the expression when [z] has kind [zk]. *)
Fixpoint atyp (zk : kind) (e : aexp (F := F)) : option kind :=
  match e with
  | AZ => Some zk
  | AConst k _ => if keqb k zk then Some k else None
  | AUn k _ _ e1 => match atyp zk e1 with Some k1 => if keqb k k1 then Some k else None | None => None end
  | ABin k _ e1 e2 =>
      match atyp zk e1, atyp zk e2 with
      | Some k1, Some k2 => if keqb k k1 && keqb k k2 then Some k else None
      | _, _ => None
      end
  | ACast e1 => match atyp zk e1 with Some k1 => Some (kflip k1) | None => None end
  | ACall e2 e1 => match atyp zk e1 with Some k1 => atyp k1 e2 | None => None end
  end.

(** A value, a null reference, or undefined behaviour ([zn]: the argument is null). *)
Inductive aout := OVal | ONull | OUB.
Fixpoint aoutc (zn : bool) (e : aexp (F := F)) : aout :=
  match e with
  | AZ => if zn then ONull else OVal
  | AConst _ _ => if zn then OUB else OVal
  | AUn _ n _ e1 => match aoutc zn e1 with OVal => OVal | ONull => if n then ONull else OUB | OUB => OUB end
  | ABin _ _ e1 e2 =>
      match aoutc zn e1, aoutc zn e2 with
      | OUB, _ | _, OUB => OUB | OVal, OVal => OVal | _, _ => ONull
      end
  | ACast e1 => match aoutc zn e1 with OUB => OUB | _ => ONull end
  | ACall e2 e1 => match aoutc zn e1 with OUB => OUB | ONull => aoutc true e2 | OVal => aoutc false e2 end
  end.

Lemma aoutc_null e : aoutc true e <> OVal.
Proof.
  assert (G : forall zn e, aoutc zn e = OVal -> zn = false); [|intros E; apply G in E; discriminate].
  clear e. intros zn e. revert zn. induction e; intros zn; cbn; try (destruct zn; congruence).
  - specialize (IHe zn). destruct (aoutc zn e), nullok; auto; congruence.
  - specialize (IHe1 zn). specialize (IHe2 zn). destruct (aoutc zn e1), (aoutc zn e2); auto; congruence.
  - destruct (aoutc zn e); congruence.
  - specialize (IHe2 zn). destruct (aoutc zn e2); auto; try congruence. intros E. apply IHe1 in E. congruence.
Qed.
Lemma aoutc_kind zk e k zn : atyp zk e = Some k -> aoutc zn e = OVal -> k = zk.
Proof.
  revert zk k zn. induction e; intros zk k' zn; cbn; intros Ht Ho.
  - congruence.
  - destruct (keqb k zk) eqn:E; [|discriminate]. apply keqb_eq in E. congruence.
  - specialize (IHe zk). destruct (atyp zk e) as [k1|]; [|discriminate]. destruct (keqb k k1) eqn:E; [|discriminate]. apply keqb_eq in E. subst.
    injection Ht as <-. eapply IHe; [reflexivity|]. destruct (aoutc zn e) eqn:E; [exact E| |discriminate]. destruct nullok; discriminate.
  - specialize (IHe1 zk). destruct (atyp zk e1) as [k1|]; [|discriminate]. destruct (atyp zk e2) as [k2|]; [|discriminate].
    destruct (keqb k k1) eqn:E; [|discriminate]. cbn in Ht. destruct (keqb k k2); [|discriminate]. apply keqb_eq in E. subst. injection Ht as <-.
    eapply IHe1; [reflexivity|]. destruct (aoutc zn e1) eqn:E; [exact E| |discriminate]. destruct (aoutc zn e2); discriminate.
  - destruct (aoutc zn e); discriminate.
  - destruct (atyp zk e2) as [k1|] eqn:T2; [|discriminate]. destruct (aoutc zn e2) eqn:E; [|exfalso; eapply aoutc_null; eauto|discriminate].
    etransitivity; [eapply IHe1; [exact Ht|exact Ho]|]. eapply IHe2; eauto.
Qed.

Lemma la1_ok k n f h z c w xs (Q : option loc -> heap F -> Prop) : wf h -> abs h !! z = Some (KObj k c w xs) ->
  (forall o h', wf h' -> abs h !! o = None -> abs h' = <[o := KObj k c w (f <$> xs)]> (abs h) -> Q (Some o) h') ->
  wp (la1 k n f (Some z)) h Q.
Proof.
  intros Hw Hz HQ. unfold la1. destruct k, n; wbind; cbn in *.
  - eapply wp_v_mapn; [exact Hw|exact Hz|]. intros o h' W N A. apply wp_ret. auto.
  - eapply wp_v_mapn; [exact Hw|exact Hz|]. intros o h' W N A. apply wp_ret. auto.
  - eapply wp_m_mapn; [exact Hw|exact Hz|]. intros o h' W N A. apply wp_ret. auto.
  - eapply wp_m_mapn_dup; [exact Hw|exact Hz|]. intros o h' W N A. apply wp_ret. auto.
Qed.
Lemma la2_ok k f h z z' c w xs ys (Q : option loc -> heap F -> Prop) : wf h -> abs h !! z = Some (KObj k c w xs) ->
  abs h !! z' = Some (KObj k c w ys) -> length xs = length ys ->
  (forall o h', wf h' -> abs h !! o = None -> abs h' = <[o := KObj k c w (zip_with f xs ys)]> (abs h) -> Q (Some o) h') ->
  wp (la2 k f (Some z) (Some z')) h Q.
Proof.
  intros Hw Hz Hz' Hl HQ. unfold la2. destruct k; cbn in *.
  - eapply wp_v_op2n; [exact Hw|exact Hz|exact Hz'| |congruence]. intros _ o h' W N A. auto.
  - eapply wp_m_op2n; [exact Hw|exact Hz|exact Hz'|]. auto.
Qed.
Lemma mlist_const c w (v : F) : mlist c w (fun _ _ => v) = replicate (w * c) v.
Proof.
  unfold mlist. apply list_eq. intros i. destruct (decide (i < w * c)%nat) as [Hi|Hi].
  - rewrite list_lookup_fmap, lookup_seq_lt, lookup_replicate_2 by lia. reflexivity.
  - rewrite !lookup_ge_None_2; [reflexivity| |]; rewrite ?fmap_length, ?seq_length, ?replicate_length; lia.
Qed.
Lemma la_full_ok k v h z c w xs (Q : option loc -> heap F -> Prop) : wf h -> abs h !! z = Some (KObj k c w xs) ->
  (forall o h', wf h' -> abs h !! o = None -> abs h' = <[o := KObj k c w ((fun _ => v) <$> xs)]> (abs h) -> Q (Some o) h') ->
  wp (la_full k v (Some z)) h Q.
Proof.
  intros Hw Hz HQ. unfold la_full. wbind. apply wp_ret. destruct k; cbn in *; destruct (wf_abs_len h z _ _ Hw Hz) as [Hl Hm]; cbn in Hl, Hm.
  - rewrite fmap_length in Hl. wbind. eapply wp_v_size_vec; [exact Hz|]. wbind. apply wp_v_full; [exact Hw|lia|]. intros o h' W N A. apply wp_ret.
    apply HQ; auto. rewrite A. do 2 f_equal. rewrite Nat2Z.id. symmetry. apply const_fmap. auto.
  - rewrite fmap_length in Hl. wbind. eapply wp_m_size; [exact Hz|]. cbn. wbind. apply wp_m_full; [exact Hw|lia|]. intros o h' W N A. apply wp_ret.
    apply HQ; auto. rewrite A. do 2 f_equal. unfold Mat. f_equal. rewrite mlist_const. transitivity (replicate (length xs) v); [f_equal; lia|]. symmetry. apply const_fmap. auto.
Qed.

(** Outcome of evaluating with the argument [rz] from [h]. *)
Definition ares_ok (zn : bool) (v : aout) k c w (xs ys : list F) z h (p : option loc * bool) h' : Prop :=
  wf h' /\
  match v with
  | OVal => exists o, p.1 = Some o /\
      (if p.2 then abs h !! o = None /\ abs h' = <[o := KObj k c w ys]> (abs h) else o = z /\ h' = h /\ xs = ys)
  | _ => p.1 = None /\ abs h' = abs h /\ (zn = false -> p.2 = true)
  end.

Lemma zip_with_fmap_same {A} (f : F -> F -> F) (g1 g2 : A -> F) (xs : list A) : zip_with f (g1 <$> xs) (g2 <$> xs) = (fun x => f (g1 x) (g2 x)) <$> xs.
Proof. induction xs as [|x xs IH]; cbn; [reflexivity|]. f_equal. exact IH. Qed.

Ltac mapeq := apply map_eq; intros i_;
  repeat match goal with
      | |- context [ (<[i_ := _]> _) !! i_ ] => rewrite !lookup_insert
      | |- context [ (delete i_ _) !! i_ ] => rewrite !lookup_delete
      | |- context [ (<[?k := _]> _) !! i_ ] => destruct (decide (k = i_)) as [->|?]; [rewrite !lookup_insert | rewrite !(lookup_insert_ne _ k i_) by assumption]
      | |- context [ (delete ?k _) !! i_ ] => destruct (decide (k = i_)) as [->|?]; [rewrite !lookup_delete | rewrite !(lookup_delete_ne _ k i_) by assumption]
      end; try reflexivity; try congruence.

Ltac nul := split; [assumption|]; cbn [fst snd]; split; [reflexivity|]; split; [first [congruence|idtac]|intros; first [reflexivity|assumption|auto; fail|congruence]].

Lemma aeval_ok e : forall zk (zn : bool) k h rz z c w xs, wf h -> atyp zk e = Some k ->
  (if zn then rz = None else rz = Some z /\ abs h !! z = Some (KObj zk c w xs)) ->
  match aoutc zn e with
  | OUB => aeval e rz h = UB
  | v => wp (aeval e rz) h (ares_ok zn v k c w xs (asem e <$> xs) z h)
  end.
Proof.
  induction e as [|k0 v|k0 n f e IH|k0 f e1 IH1 e2 IH2|e IH|e2 IH2 e1 IH1]; intros zk zn k h rz z c w xs Hw Ht Hz.
  - cbn in *. injection Ht as <-. destruct zn.
    + subst rz. apply wp_ret. split; [exact Hw|]. cbn. split; [reflexivity|]. split; [reflexivity|]. congruence.
    + destruct Hz as [-> Hz]. apply wp_ret. split; [exact Hw|]. cbn. exists z. split; [reflexivity|]. split; [reflexivity|]. split; [reflexivity|].
      symmetry. apply list_fmap_id.
  - cbn in *. destruct (keqb k0 zk) eqn:E; [|discriminate]. apply keqb_eq in E. subst. injection Ht as <-. destruct zn.
    + subst rz. reflexivity.
    + destruct Hz as [-> Hz]. wbind. eapply la_full_ok; [exact Hw|exact Hz|]. intros o h' W N A. apply wp_ret. split; [exact W|]. cbn. eauto.
  - cbn [atyp aoutc aeval] in *. specialize (IH zk zn). destruct (atyp zk e) as [k1|] eqn:T1; [|discriminate].
    destruct (keqb k0 k1) eqn:E; [|discriminate]. apply keqb_eq in E. subst k1. injection Ht as <-.
    specialize (IH k0 h rz z c w xs Hw eq_refl Hz). destruct (aoutc zn e) eqn:E.
    + pose proof (aoutc_kind _ _ _ _ T1 E) as ->. destruct zn; [exfalso; eapply aoutc_null; eauto|]. destruct Hz as [-> Hz].
      wbind. eapply wp_mono; [exact IH|]. cbv beta. intros [a b] h1 [W1 (o1 & E1 & Hb)]. cbn [fst snd] in *. subst a.
      assert (Ho1 : abs h1 !! o1 = Some (KObj zk c w (asem e <$> xs))).
      { destruct b; [destruct Hb as [N1 A1]; rewrite A1; apply lookup_insert|]. destruct Hb as (-> & -> & <-). exact Hz. }
      wbind. eapply la1_ok; [exact W1|exact Ho1|]. intros o h2 W2 N2 A2.
      assert (Hoo : o <> o1) by congruence. wbind. destruct b; cbn [drop_ref].
      * destruct Hb as [N1 A1]. eapply wp_del; [exact W2|rewrite A2, lookup_insert_ne by congruence; exact Ho1|]. intros h3 W3 A3 _. apply wp_ret.
        split; [exact W3|]. cbn. exists o. split; [reflexivity|].
        rewrite A1 in N2. rewrite lookup_insert_ne in N2 by congruence. split; [exact N2|].
        rewrite A3, A2, A1. rewrite <- list_fmap_compose. mapeq.
      * destruct Hb as (-> & -> & Hxs). apply wp_ret. apply wp_ret. split; [exact W2|]. cbn. exists o. split; [reflexivity|]. split; [exact N2|].
        rewrite A2. rewrite <- list_fmap_compose. reflexivity.
    + destruct n.
      * wbind. eapply wp_mono; [exact IH|]. cbv beta. intros [a b] h1 [W1 (E1 & A1 & B1)]. cbn [fst snd] in *. subst a.
        wbind. unfold la1. destruct k0; apply wp_ret; wbind; destruct b; cbn [drop_ref]; apply wp_ret, wp_ret; nul.
      * apply bind_UB. eapply wp_mono; [exact IH|]. cbv beta. intros [a b] h1 [W1 (E1 & A1 & B1)]. cbn [fst snd] in *. subst a.
        apply bind_UB_first. destruct k0; reflexivity.
    + apply bind_UB_first. exact IH.
  - cbn [atyp aoutc aeval] in *. specialize (IH1 zk zn). specialize (IH2 zk zn). destruct (atyp zk e1) as [k1|] eqn:T1; [|discriminate].
    destruct (atyp zk e2) as [k2|] eqn:T2; [|discriminate].
    destruct (keqb k0 k1) eqn:E; [|discriminate]. apply keqb_eq in E. subst k1. destruct (keqb k0 k2) eqn:E; [|discriminate]. apply keqb_eq in E. subst k2. injection Ht as <-.
    specialize (IH1 k0 h rz z c w xs Hw eq_refl Hz). destruct (aoutc zn e1) eqn:E1.
    + pose proof (aoutc_kind _ _ _ _ T1 E1) as ->. destruct zn; [exfalso; eapply aoutc_null; eauto|]. destruct Hz as [-> Hz].
      assert (P1 : wp (aeval e1 (Some z)) h (fun p h1 => ares_ok false OVal zk c w xs (asem e1 <$> xs) z h p h1 /\ exists o1, p.1 = Some o1 /\ abs h1 !! o1 = Some (KObj zk c w (asem e1 <$> xs)) /\ abs h1 !! z = Some (KObj zk c w xs))).
      { eapply wp_mono; [exact IH1|]. intros [a b] h1 Hp. split; [exact Hp|]. destruct Hp as [W1 (o1 & Eo1 & Hb)]. exists o1. split; [exact Eo1|]. cbn [snd] in Hb.
        destruct b; [destruct Hb as [N1 A1]; rewrite A1, lookup_insert; split; [reflexivity|]; rewrite lookup_insert_ne by congruence; exact Hz|]. destruct Hb as (-> & -> & <-). auto. }
      destruct (aoutc false e2) eqn:E2.
      * wbind. eapply wp_mono; [exact P1|]. cbv beta. intros [a b] h1 [[W1 (o1 & Ea & Hb)] (o1' & Ea' & Ho1 & Hz1)]. cbn [fst snd] in *. subst a. injection Ea' as <-.
        specialize (IH2 zk h1 (Some z) z c w xs W1 eq_refl (conj eq_refl Hz1)). wbind. eapply wp_mono; [exact IH2|]. cbv beta.
        intros [a2 b2] h2 [W2 (o2 & Ea2 & Hb2)]. cbn [fst snd] in *. subst a2.
        assert (Ho2 : abs h2 !! o2 = Some (KObj zk c w (asem e2 <$> xs))).
        { destruct b2; [destruct Hb2 as [N2 A2]; rewrite A2; apply lookup_insert|]. destruct Hb2 as (-> & -> & <-). exact Hz1. }
        assert (Ho12 : abs h2 !! o1 = Some (KObj zk c w (asem e1 <$> xs))).
        { destruct b2; [destruct Hb2 as [N2 A2]; rewrite A2, lookup_insert_ne by congruence; exact Ho1|]. destruct Hb2 as (-> & -> & _). exact Ho1. }
        wbind. eapply la2_ok; [exact W2|exact Ho12|exact Ho2|rewrite !fmap_length; reflexivity|]. intros o h3 W3 N3 A3.
        rewrite zip_with_fmap_same in A3.
        assert (o <> o1) by congruence. assert (o <> o2) by congruence.
        wbind. destruct b; cbn [drop_ref].
        -- destruct Hb as [N1 A1]. eapply wp_del; [exact W3|rewrite A3, lookup_insert_ne by congruence; exact Ho12|]. intros h4 W4 A4 _.
           wbind. destruct b2; cbn [drop_ref].
           ++ destruct Hb2 as [N2 A2]. assert (o1 <> o2) by congruence.
              eapply wp_del; [exact W4|rewrite A4, lookup_delete_ne, A3, lookup_insert_ne by congruence; exact Ho2|]. intros h5 W5 A5 _. apply wp_ret.
              split; [exact W5|]. cbn. exists o. split; [reflexivity|]. rewrite A2, A1, !lookup_insert_ne in N3 by congruence. split; [exact N3|].
              rewrite A1, lookup_insert_ne in N2 by congruence.
              rewrite A5, A4, A3, A2, A1. mapeq.
           ++ destruct Hb2 as (-> & -> & _). apply wp_ret, wp_ret. split; [exact W4|]. cbn. exists o. split; [reflexivity|].
              rewrite A1, !lookup_insert_ne in N3 by congruence. split; [exact N3|]. rewrite A4, A3, A1. mapeq.
        -- destruct Hb as (-> & -> & _). apply wp_ret. wbind. destruct b2; cbn [drop_ref].
           ++ destruct Hb2 as [N2 A2]. eapply wp_del; [exact W3|rewrite A3, lookup_insert_ne by congruence; exact Ho2|]. intros h5 W5 A5 _. apply wp_ret.
              split; [exact W5|]. cbn. exists o. split; [reflexivity|]. rewrite A2, !lookup_insert_ne in N3 by congruence. split; [exact N3|].
              rewrite A5, A3, A2. mapeq.
           ++ destruct Hb2 as (-> & -> & _). apply wp_ret, wp_ret. split; [exact W3|]. cbn. exists o. split; [reflexivity|]. split; [exact N3|]. rewrite A3. reflexivity.
      * wbind. eapply wp_mono; [exact P1|]. cbv beta. intros [a b] h1 [[W1 (o1 & Ea & Hb)] (o1' & Ea' & Ho1 & Hz1)]. cbn [fst snd] in *. subst a. injection Ea' as <-.
        specialize (IH2 zk h1 (Some z) z c w xs W1 eq_refl (conj eq_refl Hz1)). wbind. eapply wp_mono; [exact IH2|]. cbv beta.
        intros [a2 b2] h2 [W2 (Ea2 & A2 & B2)]. cbn [fst snd] in *. subst a2. wbind. unfold la2.
        assert (G : forall (Q : option loc -> heap F -> Prop), Q None h2 -> wp (match zk with KV => v_op2n f o1 None | KM => m_op2n f o1 None end) h2 Q) by (intros Q HQ; destruct zk; apply wp_ret; exact HQ).
        apply G. wbind. destruct b; cbn [drop_ref].
        -- destruct Hb as [N1 A1]. eapply wp_del; [exact W2|rewrite A2; exact Ho1|]. intros h3 W3 A3 _. wbind. destruct b2; cbn [drop_ref]; apply wp_ret, wp_ret; (nul; rewrite A3, A2, A1; mapeq).
        -- destruct Hb as (-> & -> & _). apply wp_ret. wbind. destruct b2; cbn [drop_ref]; apply wp_ret, wp_ret; nul.
      * apply bind_UB. eapply wp_mono; [exact P1|]. cbv beta. intros [a b] h1 [[W1 _] (o1' & Ea' & Ho1 & Hz1)]. apply bind_UB_first.
        apply (IH2 zk h1 (Some z) z c w xs W1 eq_refl (conj eq_refl Hz1)).
    + assert (Hz1 : forall h1, abs h1 = abs h -> if zn then rz = None else rz = Some z /\ abs h1 !! z = Some (KObj zk c w xs)) by (intros h1 ->; exact Hz).
      assert (G : forall a b h1, ares_ok zn ONull k0 c w xs (asem e1 <$> xs) z h (a, b) h1 -> a = None /\ wf h1 /\ abs h1 = abs h /\ (zn = false -> b = true)) by (intros a b h1 [W1 (E & A & B)]; auto).
      destruct (aoutc zn e2) eqn:E2.
      * wbind. eapply wp_mono; [exact IH1|]. cbv beta. intros [a b] h1 (-> & W1 & A1 & B1)%G. cbn [fst snd].
        specialize (IH2 k0 h1 rz z c w xs W1 eq_refl (Hz1 h1 A1)). wbind. eapply wp_mono; [exact IH2|]. cbv beta.
        intros [a2 b2] h2 [W2 (o2 & Ea2 & Hb2)]. cbn [fst snd] in *. subst a2. wbind. cbn [la2]. apply wp_ret. wbind.
        assert (D : forall (Q : unit -> heap F -> Prop), Q tt h2 -> wp (drop_ref b None) h2 Q) by (intros Q HQ; destruct b; apply wp_ret; exact HQ).
        apply D. wbind. destruct b2; cbn [drop_ref].
        -- destruct Hb2 as [N2 A2]. eapply wp_del; [exact W2|rewrite A2; apply lookup_insert|]. intros h3 W3 A3 _. apply wp_ret.
           nul. rewrite A3, A2, delete_insert by exact N2. exact A1.
        -- destruct Hb2 as (-> & -> & _). apply wp_ret, wp_ret. nul.
      * wbind. eapply wp_mono; [exact IH1|]. cbv beta. intros [a b] h1 (-> & W1 & A1 & B1)%G. cbn [fst snd].
        specialize (IH2 k0 h1 rz z c w xs W1 eq_refl (Hz1 h1 A1)). wbind. eapply wp_mono; [exact IH2|]. cbv beta.
        intros [a2 b2] h2 [W2 (Ea2 & A2 & B2)]. cbn [fst snd] in *. subst a2. wbind. cbn [la2]. apply wp_ret. wbind.
        destruct b, b2; cbn [drop_ref]; apply wp_ret; wbind; apply wp_ret, wp_ret; nul.
      * apply bind_UB. eapply wp_mono; [exact IH1|]. cbv beta. intros [a b] h1 (-> & W1 & A1 & B1)%G. apply bind_UB_first.
        apply (IH2 k0 h1 rz z c w xs W1 eq_refl (Hz1 h1 A1)).
    + apply bind_UB_first. exact IH1.
  - cbn [atyp aoutc aeval] in *. specialize (IH zk zn). destruct (atyp zk e) as [k1|] eqn:T1; [|discriminate]. injection Ht as <-.
    specialize (IH k1 h rz z c w xs Hw eq_refl Hz). destruct (aoutc zn e) eqn:E.
    + wbind. eapply wp_mono; [exact IH|]. cbv beta. intros [a b] h1 [W1 (o1 & E1 & Hb)]. cbn [fst snd] in *. subst a. wbind. destruct b; cbn [drop_ref].
      * destruct Hb as [N1 A1]. eapply wp_del; [exact W1|rewrite A1; apply lookup_insert|]. intros h3 W3 A3 _. apply wp_ret.
        nul. rewrite A3, A1, delete_insert by exact N1. reflexivity.
      * destruct Hb as (-> & -> & _). apply wp_ret, wp_ret. nul.
    + wbind. eapply wp_mono; [exact IH|]. cbv beta. intros [a b] h1 [W1 (E1 & A1 & B1)]. cbn [fst snd] in *. subst a. wbind. destruct b; apply wp_ret, wp_ret; nul.
    + apply bind_UB_first. exact IH.
  - cbn [atyp aoutc aeval asem] in *. destruct (atyp zk e1) as [k1|] eqn:T1; [|discriminate].
    specialize (IH1 zk zn k1 h rz z c w xs Hw T1 Hz). destruct (aoutc zn e1) eqn:E1.
    + pose proof (aoutc_kind _ _ _ _ T1 E1) as ->. destruct zn; [exfalso; eapply aoutc_null; eauto|]. destruct Hz as [-> Hz].
      assert (P1 : wp (aeval e1 (Some z)) h (fun p h1 => ares_ok false OVal zk c w xs (asem e1 <$> xs) z h p h1 /\ exists o1, p.1 = Some o1 /\ abs h1 !! o1 = Some (KObj zk c w (asem e1 <$> xs)))).
      { eapply wp_mono; [exact IH1|]. intros [a b] h1 Hp. split; [exact Hp|]. destruct Hp as [W1 (o1 & Eo1 & Hb)]. exists o1. split; [exact Eo1|]. cbn [snd] in Hb.
        destruct b; [destruct Hb as [N1 A1]; rewrite A1, lookup_insert; reflexivity|]. destruct Hb as (-> & -> & <-). auto. }
      destruct (aoutc false e2) eqn:E2.
      * wbind. eapply wp_mono; [exact P1|]. cbv beta. intros [a b] h1 [[W1 (o1 & Ea & Hb)] (o1' & Ea' & Ho1)]. cbn [fst snd] in *. subst a. injection Ea' as <-.
        specialize (IH2 zk false k h1 (Some o1) o1 c w (asem e1 <$> xs) W1 Ht (conj eq_refl Ho1)). rewrite E2 in IH2. wbind. eapply wp_mono; [exact IH2|]. cbv beta.
        intros [a2 b2] h2 [W2 (o2 & Ea2 & Hb2)]. cbn [fst snd] in *. subst a2. rewrite <- list_fmap_compose in Hb2.
        destruct b2.
        -- destruct Hb2 as [N2 A2]. wbind. destruct b; cbn [drop_ref].
           ++ destruct Hb as [N1 A1]. eapply wp_del; [exact W2|rewrite A2, lookup_insert_ne by congruence; exact Ho1|]. intros h3 W3 A3 _. apply wp_ret.
              split; [exact W3|]. cbn. exists o2. split; [reflexivity|]. assert (o2 <> o1) by congruence. rewrite A1, lookup_insert_ne in N2 by congruence. split; [exact N2|].
              rewrite A3, A2, A1. mapeq.
           ++ destruct Hb as (-> & -> & _). apply wp_ret, wp_ret. split; [exact W2|]. cbn. exists o2. auto.
        -- destruct Hb2 as (-> & -> & Hxs). apply wp_ret. split; [exact W1|]. cbn. exists o1. split; [reflexivity|].
           pose proof (aoutc_kind _ _ _ _ Ht E2) as ->. destruct b.
           ++ destruct Hb as [N1 A1]. split; [exact N1|]. rewrite A1. rewrite Hxs. reflexivity.
           ++ destruct Hb as (-> & -> & Hx). split; [reflexivity|]. split; [reflexivity|]. rewrite Hx at 1. exact Hxs.
      * wbind. eapply wp_mono; [exact P1|]. cbv beta. intros [a b] h1 [[W1 (o1 & Ea & Hb)] (o1' & Ea' & Ho1)]. cbn [fst snd] in *. subst a. injection Ea' as <-.
        specialize (IH2 zk false k h1 (Some o1) o1 c w (asem e1 <$> xs) W1 Ht (conj eq_refl Ho1)). rewrite E2 in IH2. wbind. eapply wp_mono; [exact IH2|]. cbv beta.
        intros [a2 b2] h2 [W2 (Ea2 & A2 & B2)]. cbn [fst snd] in *. subst a2.
        (* a null result of a callee is always a temporary *)
        destruct b2.
        -- wbind. destruct b; cbn [drop_ref].
           ++ destruct Hb as [N1 A1]. eapply wp_del; [exact W2|rewrite A2; exact Ho1|]. intros h3 W3 A3 _. apply wp_ret.
              nul. rewrite A3, A2, A1, delete_insert by exact N1. reflexivity.
           ++ destruct Hb as (-> & -> & _). apply wp_ret, wp_ret. nul.
        -- discriminate (B2 eq_refl).
      * apply bind_UB. eapply wp_mono; [exact P1|]. cbv beta. intros [a b] h1 [[W1 _] (o1' & Ea' & Ho1)]. cbn [fst snd] in *. subst a. apply bind_UB_first.
        specialize (IH2 zk false k h1 (Some o1') o1' c w (asem e1 <$> xs) W1 Ht (conj eq_refl Ho1)). rewrite E2 in IH2. exact IH2.
    + assert (G : forall a b h1, ares_ok zn ONull k1 c w xs (asem e1 <$> xs) z h (a, b) h1 -> a = None /\ wf h1 /\ abs h1 = abs h /\ (zn = false -> b = true)) by (intros a b h1 [W1 (E & A & B)]; auto).
      destruct (aoutc true e2) eqn:E2; [exfalso; eapply aoutc_null; eauto| |].
      * wbind. eapply wp_mono; [exact IH1|]. cbv beta. intros [a b] h1 (-> & W1 & A1 & B1)%G. cbn [fst snd].
        specialize (IH2 k1 true k h1 None z c w xs W1 Ht eq_refl). rewrite E2 in IH2. wbind. eapply wp_mono; [exact IH2|]. cbv beta.
        intros [a2 b2] h2 [W2 (Ea2 & A2 & B2)]. cbn [fst snd] in *. subst a2. destruct b2.
        -- wbind. destruct b; cbn [drop_ref]; apply wp_ret, wp_ret; nul.
        -- apply wp_ret. nul.
      * apply bind_UB. eapply wp_mono; [exact IH1|]. cbv beta. intros [a b] h1 (-> & W1 & A1 & B1)%G. cbn [fst snd]. apply bind_UB_first.
        specialize (IH2 k1 true k h1 None z c w xs W1 Ht eq_refl). rewrite E2 in IH2. exact IH2.
    + apply bind_UB_first. exact IH1.
Qed.
End proofs.
