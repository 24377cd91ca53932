(** Proof infrastructure for the heap model: weakest preconditions, primitive rules, loop rules. *)
From Verif Require Export Base.

Section wp.
Context {F : Type}.
Implicit Types (h : heap F) (l : loc).

Definition wp {A} (m : M F A) (h : heap F) (Q : A -> heap F -> Prop) : Prop :=
  match m h with Ok a h' => Q a h' | _ => False end.

Lemma wp_ok {A} (m : M F A) h (Q : A -> heap F -> Prop) : wp m h Q <-> exists a h', m h = Ok a h' /\ Q a h'.
Proof.
  unfold wp. destruct (m h); split; try tauto; try (intros (?&?&?&?); discriminate); eauto.
  intros (?&?&E&?); inversion E; subst; auto.
Qed.
Lemma wp_ret {A} (a : A) h (Q : A -> heap F -> Prop) : Q a h -> wp (ret a) h Q.
Proof. auto. Qed.
Lemma wp_bind {A B} (m : M F A) (k : A -> M F B) h (Q : B -> heap F -> Prop) :
  wp m h (fun a h' => wp (k a) h' Q) -> wp (bind m k) h Q.
Proof. unfold wp, bind. destruct (m h); auto. Qed.
Lemma wp_bind_inv {A B} (m : M F A) (k : A -> M F B) h (Q : B -> heap F -> Prop) :
  wp (bind m k) h Q -> wp m h (fun a h' => wp (k a) h' Q).
Proof. unfold wp, bind. destruct (m h); auto. Qed.
Lemma wp_mono {A} (m : M F A) h (Q Q' : A -> heap F -> Prop) :
  wp m h Q -> (forall a h', Q a h' -> Q' a h') -> wp m h Q'.
Proof. unfold wp. destruct (m h); auto. Qed.

Lemma wp_for_nat {A} (I : Z -> A -> heap F -> Prop) (body : Z -> A -> M F A) n : forall lo a h (Q : A -> heap F -> Prop),
  I lo a h ->
  (forall i a h, lo <= i < lo + Z.of_nat n -> I i a h -> wp (body i a) h (fun a' h' => I (i + 1) a' h')) ->
  (forall a h, I (lo + Z.of_nat n) a h -> Q a h) ->
  wp (for_nat n lo a body) h Q.
Proof.
  induction n as [|n IH]; intros lo a h Q HI Hb HQ; cbn [for_nat].
  - apply HQ. rewrite Z.add_0_r. exact HI.
  - apply wp_bind. eapply wp_mono; [apply Hb; [lia|exact HI]|].
    cbn beta. intros a' h' HI'. apply IH.
    + exact HI'.
    + intros i a1 h1 Hi HI1. apply Hb; [lia|exact HI1].
    + intros a1 h1 HI1. apply HQ. replace (lo + Z.of_nat (S n)) with (lo + 1 + Z.of_nat n) by lia. exact HI1.
Qed.

Lemma wp_for_acc {A} (I : Z -> A -> heap F -> Prop) (body : Z -> A -> M F A) lo hi a h (Q : A -> heap F -> Prop) :
  I lo a h ->
  (forall i a h, lo <= i < hi -> I i a h -> wp (body i a) h (fun a' h' => I (i + 1) a' h')) ->
  (forall a h, I (Z.max lo hi) a h -> Q a h) ->
  wp (for_acc lo hi a body) h Q.
Proof.
  intros HI Hb HQ. unfold for_acc. eapply wp_for_nat with (I := I); [exact HI| |].
  - intros i a1 h1 Hi. apply Hb. lia.
  - intros a1 h1 HI1. apply HQ. replace (Z.max lo hi) with (lo + Z.of_nat (Z.to_nat (hi - lo))) by lia. exact HI1.
Qed.

Lemma wp_for (I : Z -> heap F -> Prop) (body : Z -> M F unit) lo hi h (Q : unit -> heap F -> Prop) :
  I lo h ->
  (forall i h, lo <= i < hi -> I i h -> wp (body i) h (fun _ h' => I (i + 1) h')) ->
  (forall h, I (Z.max lo hi) h -> Q tt h) ->
  wp (for_ lo hi body) h Q.
Proof.
  intros HI Hb HQ. unfold for_. eapply wp_for_acc with (I := fun i _ h => I i h); auto.
  intros [] h1 H1; auto.
Qed.

(** ** Lookups *)
Definition ptr_of h l : option (option blk) := o_data <$> h_obj h !! l.

Lemma abs_lookup_Some h l sh cs :
  abs h !! l = Some (sh, cs) <->
  exists o, h_obj h !! l = Some o /\ o_shape o = sh /\
            match o_data o with None => [] | Some b => default [] (h_blk h !! b) end = cs.
Proof.
  unfold abs. rewrite lookup_fmap. destruct (h_obj h !! l) as [o|]; simpl; split.
  - intros E. inversion E; subst. eauto.
  - intros (o' & E & E1 & E2). inversion E; subst. reflexivity.
  - discriminate.
  - intros (o' & E & _). discriminate.
Qed.
Lemma abs_lookup_None h l : abs h !! l = None <-> h_obj h !! l = None.
Proof. unfold abs. rewrite lookup_fmap. destruct (h_obj h !! l); simpl; split; congruence. Qed.

Lemma abs_obj_ex h l a : abs h !! l = Some a -> exists o, h_obj h !! l = Some o /\ o_shape o = a.1.
Proof. destruct a as [sh cs]. intros (o & ? & ? & ?)%abs_lookup_Some. eauto. Qed.

Lemma abs_ptr_ex h l a : abs h !! l = Some a -> exists p, ptr_of h l = Some p.
Proof. intros (o & Ho & _)%abs_obj_ex. unfold ptr_of. rewrite Ho. simpl. eauto. Qed.

Lemma wf_abs_len h l sh cs : wf h -> abs h !! l = Some (sh, cs) ->
  shape_size sh = Z.of_nat (length cs) /\ shape_size sh <= int_max.
Proof.
  intros Hwf (o & Ho & <- & Hc)%abs_lookup_Some. destruct (o_data o) as [b|] eqn:Hd.
  - destruct (wf_some h Hwf l o b Ho Hd) as (cs' & Hb & Hl & Hs). rewrite Hb in Hc. simpl in Hc. subst. lia.
  - subst cs. rewrite (wf_none h Hwf l o Ho Hd). simpl. unfold int_max. lia.
Qed.

Lemma wf_ptr_nil h l sh cs : wf h -> abs h !! l = Some (sh, cs) -> ptr_of h l = Some None <-> cs = [].
Proof.
  intros Hwf (o & Ho & <- & Hc)%abs_lookup_Some. unfold ptr_of. rewrite Ho. simpl.
  destruct (o_data o) as [b|] eqn:Hd.
  - destruct (wf_some h Hwf l o b Ho Hd) as (cs' & Hb & Hl & Hs). rewrite Hb in Hc. simpl in Hc. subst.
    split; [congruence|]. intros ->. simpl in Hl. lia.
  - subst. tauto.
Qed.

(** ** Primitive rules *)
Lemma wp_get_obj h l sh cs (Q : obj -> heap F -> Prop) : abs h !! l = Some (sh, cs) ->
  (forall p, ptr_of h l = Some p -> Q (Obj sh p) h) -> wp (get_obj l) h Q.
Proof.
  intros (o & Ho & <- & Hc)%abs_lookup_Some HQ. unfold wp, get_obj. rewrite Ho.
  destruct o as [s p]. apply HQ. unfold ptr_of. rewrite Ho. reflexivity.
Qed.

Lemma wp_data_ptr h l a (Q : option blk -> heap F -> Prop) : abs h !! l = Some a ->
  (forall p, ptr_of h l = Some p -> Q p h) -> wp (data_ptr l) h Q.
Proof.
  destruct a as [sh cs]. intros Ha HQ. unfold data_ptr. apply wp_bind. eapply wp_get_obj; [exact Ha|].
  intros p Hp. apply wp_ret. simpl. auto.
Qed.

Lemma wp_chk h z (Q : Z -> heap F -> Prop) : - int_max - 1 <= z <= int_max -> Q z h -> wp (chk z) h Q.
Proof.
  intros Hz HQ. unfold chk.
  replace (- int_max - 1 <=? z) with true by lia. replace (z <=? int_max) with true by lia. exact HQ.
Qed.

Lemma wp_load h l p sh cs i v (Q : F -> heap F -> Prop) : wf h -> ptr_of h l = Some p -> abs h !! l = Some (sh, cs) ->
  0 <= i -> cs !! Z.to_nat i = Some (Some v) -> Q v h -> wp (load p i) h Q.
Proof.
  intros Hwf Hp (o & Ho & <- & Hc)%abs_lookup_Some Hi Hv HQ.
  unfold ptr_of in Hp. rewrite Ho in Hp. simpl in Hp. inversion Hp; subst p. clear Hp.
  unfold wp, load. destruct (o_data o) as [b|] eqn:Hd.
  - destruct (h_blk h !! b) as [cs'|]; simpl in Hc; subst.
    + replace (i <? 0) with false by lia. rewrite Hv. exact HQ.
    + rewrite lookup_nil in Hv. discriminate.
  - subst. rewrite lookup_nil in Hv. discriminate.
Qed.

Lemma wp_store h l p sh cs i v (Q : unit -> heap F -> Prop) : wf h -> ptr_of h l = Some p -> abs h !! l = Some (sh, cs) ->
  0 <= i < Z.of_nat (length cs) ->
  (forall h', wf h' -> h_obj h' = h_obj h -> h_nobj h' = h_nobj h ->
     abs h' = <[l := (sh, <[Z.to_nat i := Some v]> cs)]> (abs h) -> Q tt h') ->
  wp (store p i v) h Q.
Proof.
  intros Hwf Hp (o & Ho & <- & Hc)%abs_lookup_Some Hi HQ.
  unfold ptr_of in Hp. rewrite Ho in Hp. simpl in Hp. inversion Hp; subst p. clear Hp.
  unfold wp, store. destruct (o_data o) as [b|] eqn:Hd; [|subst; simpl in Hi; lia].
  destruct (wf_some h Hwf l o b Ho Hd) as (cs' & Hb & Hl & Hs). cbn. rewrite Hb in Hc |- *. simpl in Hc. subst cs'.
  replace (i <? 0) with false by lia. replace (Z.of_nat (length cs) <=? i) with false by lia. simpl.
  apply HQ; try reflexivity.
  - destruct Hwf as [W1 W2 W3 W4 W5 W6]. constructor; simpl; auto.
    + intros l1 o1 b1 H1 H2. destruct (decide (b1 = b)) as [->|Hne].
      * rewrite lookup_insert. eexists; split; [reflexivity|]. rewrite insert_length.
        assert (l1 = l) as -> by eauto. assert (o1 = o) as -> by congruence. split; [assumption|lia].
      * rewrite lookup_insert_ne by congruence. eauto.
    + intros b1 cs1. destruct (decide (b1 = b)) as [->|Hne]; [eauto|].
      rewrite lookup_insert_ne by congruence. eauto.
    + intros b1 cs1. destruct (decide (b1 = b)) as [->|Hne]; [eauto|].
      rewrite lookup_insert_ne by congruence. eauto.
  - apply map_eq. intros l1. unfold abs. simpl. rewrite lookup_fmap.
    destruct (decide (l1 = l)) as [->|Hne].
    + rewrite lookup_insert, Ho. simpl. unfold abs_obj. rewrite Hd, lookup_insert. reflexivity.
    + rewrite lookup_insert_ne by congruence. rewrite lookup_fmap.
      destruct (h_obj h !! l1) as [o1|] eqn:Ho1; simpl; [|reflexivity]. f_equal. unfold abs_obj.
      destruct (o_data o1) as [b1|] eqn:Hd1; [|reflexivity].
      rewrite lookup_insert_ne; [reflexivity|]. intros ->. apply Hne. symmetry.
      eapply (wf_inj h Hwf); eauto.
Qed.

Lemma wp_new h s (Q : loc -> heap F -> Prop) : wf h -> shape_size s = 0 ->
  (forall r h', wf h' -> abs h !! r = None -> h_obj h' = <[r := Obj s None]> (h_obj h) ->
     abs h' = <[r := (s, [])]> (abs h) -> Q r h') ->
  wp (new_obj s) h Q.
Proof.
  intros Hwf Hs HQ. unfold wp, new_obj.
  assert (Hn : h_obj h !! h_nobj h = None).
  { destruct (h_obj h !! h_nobj h) eqn:E; [|reflexivity]. apply (wf_fresh_obj h Hwf) in E. lia. }
  apply HQ; simpl; auto.
  - destruct Hwf as [W1 W2 W3 W4 W5 W6]. constructor; simpl; auto.
    + intros l o b. destruct (decide (l = h_nobj h)) as [->|Hne].
      * rewrite lookup_insert. intros [= <-]. discriminate.
      * rewrite lookup_insert_ne by congruence. eauto.
    + intros l o. destruct (decide (l = h_nobj h)) as [->|Hne].
      * rewrite lookup_insert. intros [= <-]. auto.
      * rewrite lookup_insert_ne by congruence. eauto.
    + intros l1 l2 o1 o2 b. destruct (decide (l1 = h_nobj h)) as [->|Hne1].
      * rewrite lookup_insert. intros [= <-]. discriminate.
      * rewrite lookup_insert_ne by congruence. destruct (decide (l2 = h_nobj h)) as [->|Hne2].
        -- rewrite lookup_insert. intros ? [= <-]. discriminate.
        -- rewrite lookup_insert_ne by congruence. eauto.
    + intros b cs Hb. destruct (W4 b cs Hb) as (l & o & Ho & Hd). exists l, o. split; [|assumption].
      rewrite lookup_insert_ne; [assumption|]. intros <-. congruence.
    + intros l o. destruct (decide (l = h_nobj h)) as [->|Hne]; [lia|].
      rewrite lookup_insert_ne by congruence. intros Hl. apply W6 in Hl. lia.
  - apply abs_lookup_None. assumption.
  - unfold abs. simpl. rewrite fmap_insert. reflexivity.
Qed.

End wp.

Section wp2.
Context {F : Type}.
Implicit Types (h : heap F) (l : loc).

Lemma wp_obj_realloc h l sh cs s (Q : unit -> heap F -> Prop) : wf h -> abs h !! l = Some (sh, cs) ->
  0 < shape_size s <= int_max ->
  (forall h', wf h' -> abs h' = <[l := (s, list.resize (Z.to_nat (shape_size s)) None cs)]> (abs h) ->
     (forall l', l' <> l -> ptr_of h' l' = ptr_of h l') -> Q tt h') ->
  wp (obj_realloc l s) h Q.
Proof.
  intros Hwf Ha Hs HQ. pose proof Ha as (o & Ho & Hsh & Hc)%abs_lookup_Some.
  unfold wp, obj_realloc, bind, get_obj. rewrite Ho. unfold mem_realloc.
  replace (shape_size s <? 0) with false by lia.
  assert (Hfb : forall b cs, h_blk h !! b = Some cs -> b <> h_nblk h).
  { intros b cs' Hb ->. apply (wf_fresh_blk h Hwf) in Hb. lia. }
  assert (Hol : forall l1 o1 b, l1 <> l -> h_obj h !! l1 = Some o1 -> o_data o1 = Some b ->
     o_data o <> Some b /\ b <> h_nblk h).
  { intros l1 o1 b Hne H1 H2. split.
    - intros H3. apply Hne. eapply (wf_inj h Hwf); eauto.
    - destruct (wf_some h Hwf _ _ _ H1 H2) as (cs1 & Hb1 & _). eauto. }
  destruct (o_data o) as [b|] eqn:Hd.
  - destruct (wf_some h Hwf l o b Ho Hd) as (cs' & Hb & Hl & Hss). cbn. rewrite Hb in Hc |- *. simpl in Hc. subst cs'.
    unfold put_obj. apply HQ; simpl.
    + destruct Hwf as [W1 W2 W3 W4 W5 W6]. constructor; simpl.
      * intros l1 o1 b1. destruct (decide (l1 = l)) as [->|Hne].
        -- rewrite lookup_insert. intros [= <-]. simpl. intros [= <-]. rewrite lookup_insert.
           eexists; split; [reflexivity|]. rewrite resize_length. lia.
        -- rewrite lookup_insert_ne by congruence. intros H1 H2.
           destruct (Hol _ _ _ Hne H1 H2) as [H3 H4].
           rewrite lookup_insert_ne by congruence. rewrite lookup_delete_ne by congruence. eauto.
      * intros l1 o1. destruct (decide (l1 = l)) as [->|Hne].
        -- rewrite lookup_insert. intros [= <-]. discriminate.
        -- rewrite lookup_insert_ne by congruence. eauto.
      * intros l1 l2 o1 o2 b1. destruct (decide (l1 = l)) as [->|Hne1]; destruct (decide (l2 = l)) as [->|Hne2]; auto.
        -- rewrite lookup_insert, lookup_insert_ne by congruence. intros [= <-] H2. simpl. intros [= <-] H4.
           destruct (Hol _ _ _ Hne2 H2 H4) as [_ H5]. congruence.
        -- rewrite lookup_insert, lookup_insert_ne by congruence. intros H1 [= <-] H3. simpl. intros [= <-].
           destruct (Hol _ _ _ Hne1 H1 H3) as [_ H5]. congruence.
        -- rewrite !lookup_insert_ne by congruence. eauto.
      * intros b1 cs1. destruct (decide (b1 = h_nblk h)) as [->|Hne].
        -- intros _. exists l. eexists. rewrite lookup_insert. split; reflexivity.
        -- rewrite lookup_insert_ne by congruence. intros Hb1.
           apply lookup_delete_Some in Hb1 as [Hbb Hb1]. destruct (W4 _ _ Hb1) as (l1 & o1 & H1 & H2).
           exists l1, o1. rewrite lookup_insert_ne; [auto|]. intros ->. congruence.
      * intros b1 cs1. destruct (decide (b1 = h_nblk h)) as [->|Hne]; [lia|].
        rewrite lookup_insert_ne by congruence. intros Hb1. apply lookup_delete_Some in Hb1 as [_ Hb1].
        apply W5 in Hb1. lia.
      * intros l1 o1. destruct (decide (l1 = l)) as [->|Hne]; [eauto|].
        rewrite lookup_insert_ne by congruence. eauto.
    + apply map_eq. intros l1. unfold abs. simpl. rewrite lookup_fmap.
      destruct (decide (l1 = l)) as [->|Hne].
      * rewrite !lookup_insert. simpl. unfold abs_obj. simpl. rewrite lookup_insert. reflexivity.
      * rewrite !lookup_insert_ne by congruence. rewrite lookup_fmap.
        destruct (h_obj h !! l1) as [o1|] eqn:Ho1; simpl; [|reflexivity]. f_equal. unfold abs_obj.
        destruct (o_data o1) as [b1|] eqn:Hd1; [|reflexivity].
        destruct (Hol _ _ _ Hne Ho1 Hd1) as [H3 H4].
        rewrite lookup_insert_ne by congruence. rewrite lookup_delete_ne by congruence. reflexivity.
    + intros l' Hne. unfold ptr_of. simpl. rewrite lookup_insert_ne by congruence. reflexivity.
  - subst cs. unfold put_obj. apply HQ; simpl.
    + destruct Hwf as [W1 W2 W3 W4 W5 W6]. constructor; simpl.
      * intros l1 o1 b1. destruct (decide (l1 = l)) as [->|Hne].
        -- rewrite lookup_insert. intros [= <-]. simpl. intros [= <-]. rewrite lookup_insert.
           eexists; split; [reflexivity|]. rewrite replicate_length. lia.
        -- rewrite lookup_insert_ne by congruence. intros H1 H2.
           destruct (Hol _ _ _ Hne H1 H2) as [H3 H4].
           rewrite lookup_insert_ne by congruence. eauto.
      * intros l1 o1. destruct (decide (l1 = l)) as [->|Hne].
        -- rewrite lookup_insert. intros [= <-]. discriminate.
        -- rewrite lookup_insert_ne by congruence. eauto.
      * intros l1 l2 o1 o2 b1. destruct (decide (l1 = l)) as [->|Hne1]; destruct (decide (l2 = l)) as [->|Hne2]; auto.
        -- rewrite lookup_insert, lookup_insert_ne by congruence. intros [= <-] H2. simpl. intros [= <-] H4.
           destruct (Hol _ _ _ Hne2 H2 H4) as [_ H5]. congruence.
        -- rewrite lookup_insert, lookup_insert_ne by congruence. intros H1 [= <-] H3. simpl. intros [= <-].
           destruct (Hol _ _ _ Hne1 H1 H3) as [_ H5]. congruence.
        -- rewrite !lookup_insert_ne by congruence. eauto.
      * intros b1 cs1. destruct (decide (b1 = h_nblk h)) as [->|Hne].
        -- intros _. exists l. eexists. rewrite lookup_insert. split; reflexivity.
        -- rewrite lookup_insert_ne by congruence. intros Hb1.
           destruct (W4 _ _ Hb1) as (l1 & o1 & H1 & H2).
           exists l1, o1. rewrite lookup_insert_ne; [auto|]. intros ->. congruence.
      * intros b1 cs1. destruct (decide (b1 = h_nblk h)) as [->|Hne]; [lia|].
        rewrite lookup_insert_ne by congruence. intros Hb1. apply W5 in Hb1. lia.
      * intros l1 o1. destruct (decide (l1 = l)) as [->|Hne]; [eauto|].
        rewrite lookup_insert_ne by congruence. eauto.
    + apply map_eq. intros l1. unfold abs. simpl. rewrite lookup_fmap.
      destruct (decide (l1 = l)) as [->|Hne].
      * rewrite !lookup_insert. simpl. unfold abs_obj. simpl. rewrite lookup_insert, resize_nil. reflexivity.
      * rewrite !lookup_insert_ne by congruence. rewrite lookup_fmap.
        destruct (h_obj h !! l1) as [o1|] eqn:Ho1; simpl; [|reflexivity]. f_equal. unfold abs_obj.
        destruct (o_data o1) as [b1|] eqn:Hd1; [|reflexivity].
        destruct (Hol _ _ _ Hne Ho1 Hd1) as [H3 H4].
        rewrite lookup_insert_ne by congruence. reflexivity.
    + intros l' Hne. unfold ptr_of. simpl. rewrite lookup_insert_ne by congruence. reflexivity.
Qed.

Lemma wp_obj_free h l sh cs s (Q : unit -> heap F -> Prop) : wf h -> abs h !! l = Some (sh, cs) -> shape_size s = 0 ->
  (forall h', wf h' -> abs h' = <[l := (s, [])]> (abs h) ->
     (forall l', l' <> l -> ptr_of h' l' = ptr_of h l') -> Q tt h') ->
  wp (obj_free l s) h Q.
Proof.
  intros Hwf Ha Hs HQ. pose proof Ha as (o & Ho & Hsh & Hc)%abs_lookup_Some.
  unfold wp, obj_free, bind, get_obj. rewrite Ho. unfold mem_free.
  assert (Hol : forall l1 o1 b, l1 <> l -> h_obj h !! l1 = Some o1 -> o_data o1 = Some b -> o_data o <> Some b).
  { intros l1 o1 b Hne H1 H2 H3. apply Hne. eapply (wf_inj h Hwf); eauto. }
  destruct (o_data o) as [b|] eqn:Hd.
  - destruct (wf_some h Hwf l o b Ho Hd) as (cs' & Hb & Hl & Hss). cbn. rewrite Hb in Hc |- *. simpl in Hc. subst cs'.
    unfold put_obj. apply HQ; simpl.
    + destruct Hwf as [W1 W2 W3 W4 W5 W6]. constructor; simpl.
      * intros l1 o1 b1. destruct (decide (l1 = l)) as [->|Hne].
        -- rewrite lookup_insert. intros [= <-]. discriminate.
        -- rewrite lookup_insert_ne by congruence. intros H1 H2.
           pose proof (Hol _ _ _ Hne H1 H2) as H3. rewrite lookup_delete_ne by congruence. eauto.
      * intros l1 o1. destruct (decide (l1 = l)) as [->|Hne].
        -- rewrite lookup_insert. intros [= <-]. auto.
        -- rewrite lookup_insert_ne by congruence. eauto.
      * intros l1 l2 o1 o2 b1. destruct (decide (l1 = l)) as [->|Hne1]; destruct (decide (l2 = l)) as [->|Hne2]; auto.
        -- rewrite lookup_insert, lookup_insert_ne by congruence. intros [= <-]. discriminate.
        -- rewrite lookup_insert, lookup_insert_ne by congruence. intros ? [= <-]. discriminate.
        -- rewrite !lookup_insert_ne by congruence. eauto.
      * intros b1 cs1 Hb1. apply lookup_delete_Some in Hb1 as [Hbb Hb1].
        destruct (W4 _ _ Hb1) as (l1 & o1 & H1 & H2).
        exists l1, o1. rewrite lookup_insert_ne; [auto|]. intros ->. congruence.
      * intros b1 cs1 Hb1. apply lookup_delete_Some in Hb1 as [_ Hb1]. eauto.
      * intros l1 o1. destruct (decide (l1 = l)) as [->|Hne]; [eauto|].
        rewrite lookup_insert_ne by congruence. eauto.
    + apply map_eq. intros l1. unfold abs. simpl. rewrite lookup_fmap.
      destruct (decide (l1 = l)) as [->|Hne].
      * rewrite !lookup_insert. reflexivity.
      * rewrite !lookup_insert_ne by congruence. rewrite lookup_fmap.
        destruct (h_obj h !! l1) as [o1|] eqn:Ho1; simpl; [|reflexivity]. f_equal. unfold abs_obj.
        destruct (o_data o1) as [b1|] eqn:Hd1; [|reflexivity].
        pose proof (Hol _ _ _ Hne Ho1 Hd1) as H3. rewrite lookup_delete_ne by congruence. reflexivity.
    + intros l' Hne. unfold ptr_of. simpl. rewrite lookup_insert_ne by congruence. reflexivity.
  - subst cs. unfold put_obj. apply HQ; simpl.
    + destruct Hwf as [W1 W2 W3 W4 W5 W6]. constructor; simpl; auto.
      * intros l1 o1 b1. destruct (decide (l1 = l)) as [->|Hne].
        -- rewrite lookup_insert. intros [= <-]. discriminate.
        -- rewrite lookup_insert_ne by congruence. eauto.
      * intros l1 o1. destruct (decide (l1 = l)) as [->|Hne].
        -- rewrite lookup_insert. intros [= <-]. auto.
        -- rewrite lookup_insert_ne by congruence. eauto.
      * intros l1 l2 o1 o2 b1. destruct (decide (l1 = l)) as [->|Hne1]; destruct (decide (l2 = l)) as [->|Hne2]; auto.
        -- rewrite lookup_insert, lookup_insert_ne by congruence. intros [= <-]. discriminate.
        -- rewrite lookup_insert, lookup_insert_ne by congruence. intros ? [= <-]. discriminate.
        -- rewrite !lookup_insert_ne by congruence. eauto.
      * intros b1 cs1 Hb1. destruct (W4 _ _ Hb1) as (l1 & o1 & H1 & H2).
        exists l1, o1. rewrite lookup_insert_ne; [auto|]. intros ->. congruence.
      * intros l1 o1. destruct (decide (l1 = l)) as [->|Hne]; [eauto|].
        rewrite lookup_insert_ne by congruence. eauto.
    + apply map_eq. intros l1. unfold abs. simpl. rewrite lookup_fmap.
      destruct (decide (l1 = l)) as [->|Hne].
      * rewrite !lookup_insert. reflexivity.
      * rewrite !lookup_insert_ne by congruence. rewrite lookup_fmap. reflexivity.
    + intros l' Hne. unfold ptr_of. simpl. rewrite lookup_insert_ne by congruence. reflexivity.
Qed.

Lemma wp_del h l a (Q : unit -> heap F -> Prop) : wf h -> abs h !! l = Some a ->
  (forall h', wf h' -> abs h' = delete l (abs h) ->
     (forall l', l' <> l -> ptr_of h' l' = ptr_of h l') -> Q tt h') ->
  wp (del_obj l) h Q.
Proof.
  destruct a as [sh cs].
  intros Hwf Ha HQ. pose proof Ha as (o & Ho & Hsh & Hc)%abs_lookup_Some.
  unfold wp, del_obj, bind, get_obj. rewrite Ho. unfold mem_free.
  assert (Hol : forall l1 o1 b, l1 <> l -> h_obj h !! l1 = Some o1 -> o_data o1 = Some b -> o_data o <> Some b).
  { intros l1 o1 b Hne H1 H2 H3. apply Hne. eapply (wf_inj h Hwf); eauto. }
  set (bs := match o_data o with None => h_blk h | Some b => delete b (h_blk h) end).
  assert (Hcase : match o_data o with
     | None => Ok tt h
     | Some b => match h_blk h !! b with
       | Some _ => Ok tt (Heap (delete b (h_blk h)) (h_nblk h) (h_obj h) (h_nobj h))
       | None => UB end end = Ok tt (Heap bs (h_nblk h) (h_obj h) (h_nobj h))).
  { subst bs. destruct (o_data o) as [b|] eqn:Hd.
    - destruct (wf_some h Hwf l o b Ho Hd) as (cs' & Hb & _). cbn. rewrite Hb. reflexivity.
    - destruct h; reflexivity. }
  rewrite Hcase.
  assert (Hbs : forall b, o_data o <> Some b -> bs !! b = h_blk h !! b).
  { intros b Hne. subst bs. destruct (o_data o); [|reflexivity]. rewrite lookup_delete_ne by congruence. reflexivity. }
  assert (Hbs2 : forall b cs, bs !! b = Some cs -> o_data o <> Some b /\ h_blk h !! b = Some cs).
  { intros b cs1. subst bs. destruct (o_data o) as [b0|]; [|intros; split; [congruence|assumption]].
    intros [H1 H2]%lookup_delete_Some. split; [congruence|assumption]. }
  apply HQ; simpl.
  - destruct Hwf as [W1 W2 W3 W4 W5 W6]. constructor; simpl.
    + intros l1 o1 b1 H1 H2. apply lookup_delete_Some in H1 as [Hne H1].
      rewrite (Hbs b1) by (eapply (Hol l1); eauto). eauto.
    + intros l1 o1 H1. apply lookup_delete_Some in H1 as [Hne H1]. eauto.
    + intros l1 l2 o1 o2 b H1 H2. apply lookup_delete_Some in H1 as [? H1]. apply lookup_delete_Some in H2 as [? H2]. eauto.
    + intros b1 cs1 [H1 H2]%Hbs2. destruct (W4 _ _ H2) as (l1 & o1 & H3 & H4). exists l1, o1.
      split; [|assumption]. rewrite lookup_delete_ne; [assumption|]. intros <-. congruence.
    + intros b1 cs1 [H1 H2]%Hbs2. eauto.
    + intros l1 o1 H1. apply lookup_delete_Some in H1 as [Hne H1]. eauto.
  - apply map_eq. intros l1. unfold abs. simpl. rewrite lookup_fmap.
    destruct (decide (l1 = l)) as [->|Hne].
    + rewrite !lookup_delete. reflexivity.
    + rewrite !lookup_delete_ne by congruence. rewrite lookup_fmap.
      destruct (h_obj h !! l1) as [o1|] eqn:Ho1; simpl; [|reflexivity]. f_equal. unfold abs_obj.
      destruct (o_data o1) as [b1|] eqn:Hd1; [|reflexivity].
      rewrite Hbs; [reflexivity|]. eapply (Hol l1); eauto.
  - intros l' Hne. unfold ptr_of. simpl. rewrite lookup_delete_ne by congruence. reflexivity.
Qed.

(** ** Element-wise loops *)
Definition upto {A} (i : nat) (new old : list A) : list A := take i new ++ drop i old.

Lemma upto_length {A} i (new old : list A) : length new = length old -> length (upto i new old) = length old.
Proof. intros H. unfold upto. rewrite app_length, take_length, drop_length. lia. Qed.
Lemma upto_0 {A} (new old : list A) : upto 0 new old = old.
Proof. unfold upto. rewrite take_0, drop_0. reflexivity. Qed.
Lemma upto_all {A} n (new old : list A) : length new = length old -> (length old <= n)%nat -> upto n new old = new.
Proof. intros H Hn. unfold upto. rewrite take_ge by lia. rewrite drop_ge by lia. apply app_nil_r. Qed.
Lemma upto_lookup_ge {A} i j (new old : list A) : length new = length old -> (i <= j)%nat ->
  upto i new old !! j = old !! j.
Proof.
  intros H Hij. unfold upto. destruct (decide (j < length old)%nat) as [Hj|Hj].
  - rewrite lookup_app_r by (rewrite take_length; lia). rewrite lookup_drop, take_length.
    f_equal. lia.
  - rewrite !lookup_ge_None_2; [reflexivity|lia|]. rewrite app_length, take_length, drop_length. lia.
Qed.
Lemma upto_lookup_lt {A} i j (new old : list A) : (j < i)%nat -> (j < length new)%nat ->
  upto i new old !! j = new !! j.
Proof.
  intros Hij Hj. unfold upto. rewrite lookup_app_l by (rewrite take_length; lia).
  apply lookup_take. lia.
Qed.
Lemma upto_S {A} i (new old : list A) v : length new = length old -> new !! i = Some v ->
  <[i := v]> (upto i new old) = upto (S i) new old.
Proof.
  intros H Hv. pose proof (lookup_lt_Some _ _ _ Hv) as Hi. apply list_eq. intros j.
  destruct (decide (j = i)) as [->|Hne].
  - rewrite list_lookup_insert by (rewrite upto_length; lia). rewrite upto_lookup_lt by lia. congruence.
  - rewrite list_lookup_insert_ne by congruence. destruct (decide (j < i)%nat).
    + rewrite !upto_lookup_lt by lia. reflexivity.
    + rewrite !upto_lookup_ge by lia. reflexivity.
Qed.

(** A heap in the middle of an element-wise loop writing [new] over [old] in object [lo]. *)
Record mid h (lo : loc) (sh : shape) (old : list (cell F)) (new : list F) (i : Z) hi : Prop := {
  mid_wf : wf hi;
  mid_obj : h_obj hi = h_obj h;
  mid_abs : abs hi = <[lo := (sh, upto (Z.to_nat i) (Some <$> new) old)]> (abs h)
}.

Lemma ptr_of_obj h h' l : h_obj h' = h_obj h -> ptr_of h' l = ptr_of h l.
Proof. unfold ptr_of. intros ->. reflexivity. Qed.

Lemma wp_load_mid h lo sh old new i hi la pa sha xs x j (Q : F -> heap F -> Prop) :
  mid h lo sh old new i hi -> length new = length old -> abs h !! lo = Some (sh, old) ->
  ptr_of h la = Some pa -> abs h !! la = Some (sha, xs) ->
  0 <= i <= j -> xs !! Z.to_nat j = Some (Some x) -> Q x hi -> wp (load pa j) hi Q.
Proof.
  intros [H1 H2 H3] Hl Hlo Hpa Hla Hi Hx HQ.
  destruct (decide (la = lo)) as [->|Hne].
  - assert ((sha, xs) = (sh, old)) as [= -> ->] by congruence.
    eapply wp_load; [exact H1| |rewrite H3; apply lookup_insert|lia| |exact HQ].
    + rewrite <- Hpa. apply ptr_of_obj. assumption.
    + rewrite upto_lookup_ge; [assumption|rewrite fmap_length; assumption|lia].
  - eapply wp_load with (l := la); [exact H1| |rewrite H3, lookup_insert_ne by congruence; exact Hla|lia|exact Hx|exact HQ].
    rewrite <- Hpa. apply ptr_of_obj. assumption.
Qed.

Lemma wp_map_loop h lo po sh old new n body (Q : unit -> heap F -> Prop) :
  wf h -> ptr_of h lo = Some po -> abs h !! lo = Some (sh, old) ->
  length new = length old -> n = Z.of_nat (length old) ->
  (forall i hi v (Q' : unit -> heap F -> Prop), 0 <= i < n -> mid h lo sh old new i hi -> new !! Z.to_nat i = Some v ->
      wp (store po i v) hi Q' -> wp (body i) hi Q') ->
  (forall h', wf h' -> h_obj h' = h_obj h -> abs h' = <[lo := (sh, Some <$> new)]> (abs h) -> Q tt h') ->
  wp (for_ 0 n body) h Q.
Proof.
  intros Hwf Hp Ha Hlen Hn Hbody HQ.
  apply wp_for with (I := fun i hi => mid h lo sh old new i hi).
  - constructor; auto. change (Z.to_nat 0) with 0%nat. rewrite upto_0, insert_id; auto.
  - intros i hi Hi Hm.
    destruct (lookup_lt_is_Some_2 new (Z.to_nat i)) as [v Hv]; [lia|].
    eapply Hbody; [lia|exact Hm|exact Hv|].
    destruct Hm as [M1 M2 M3].
    eapply wp_store; [exact M1| |rewrite M3; apply lookup_insert| |].
    + rewrite (ptr_of_obj h hi); assumption.
    + rewrite upto_length; [lia|]. rewrite fmap_length. assumption.
    + intros h' W' O' _ A'. constructor; auto; [congruence|].
      rewrite A', M3, insert_insert. f_equal. f_equal.
      replace (Z.to_nat (i + 1)) with (S (Z.to_nat i)) by lia.
      apply upto_S; [rewrite fmap_length; assumption|]. rewrite list_lookup_fmap, Hv. reflexivity.
  - intros hi [M1 M2 M3]. apply HQ; auto. rewrite M3. f_equal. f_equal.
    apply upto_all; [rewrite fmap_length; assumption|lia].
Qed.

End wp2.
