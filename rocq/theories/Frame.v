(** Pointer frame: which objects' data pointers a computation can change. *)
From Verif Require Export VecProofs2.
From Coq Require Import ZifyBool ZifyNat.

Section frame.
Context {F : Type} `{Scalar F}.
Implicit Types (h : heap F) (l : loc) (S : loc -> Prop).

Definition fo h : Prop := forall l o, h_obj h !! l = Some o -> (l < h_nobj h)%nat.
Lemma wf_fo h : wf h -> fo h.
Proof. intros W. exact (wf_fresh_obj h W). Qed.

Definition pfr S {A} (m : M F A) : Prop := forall h a h', fo h -> m h = Ok a h' ->
  fo h' /\ forall l, is_Some (h_obj h !! l) -> ~ S l -> ptr_of h' l = ptr_of h l.

Lemma ptr_live h h' l : ptr_of h' l = ptr_of h l -> is_Some (h_obj h !! l) -> is_Some (h_obj h' !! l).
Proof. unfold ptr_of. intros E [o Ho]. rewrite Ho in E. destruct (h_obj h' !! l); [eauto|discriminate]. Qed.

Lemma pfr_ret S {A} (x : A) : pfr S (ret x).
Proof. intros h a h' Ho [= <- <-]. auto. Qed.
Lemma pfr_ub S {A} : pfr S (@ub F A).
Proof. intros h a h' Ho E. discriminate. Qed.
Lemma pfr_crash S {A} : pfr S (@crash F A).
Proof. intros h a h' Ho E. discriminate. Qed.
Lemma pfr_nofuel S {A} : pfr S (@nofuel F A).
Proof. intros h a h' Ho E. discriminate. Qed.
Lemma pfr_bind S {A B} (m : M F A) (k : A -> M F B) : pfr S m -> (forall x, pfr S (k x)) -> pfr S (bind m k).
Proof.
  intros Hm Hk h a h' Ho E. unfold bind in E. destruct (m h) as [x h1| | |] eqn:E1; try discriminate.
  destruct (Hm _ _ _ Ho E1) as [Ho1 P1]. destruct (Hk _ _ _ _ Ho1 E) as [Ho2 P2]. split; [exact Ho2|].
  intros l Hl Hn. pose proof (P1 l Hl Hn) as E2. rewrite (P2 l); [exact E2|eapply ptr_live; eauto|exact Hn].
Qed.
Lemma pfr_same S {A} (m : M F A) : (forall h a h', m h = Ok a h' -> h_obj h' = h_obj h /\ h_nobj h' = h_nobj h) -> pfr S m.
Proof.
  intros Hs h a h' Ho E. destruct (Hs _ _ _ E) as [E1 E2]. split.
  - intros l o. rewrite E1, E2. apply Ho.
  - intros l _ _. apply ptr_of_obj. exact E1.
Qed.
Lemma pfr_get_obj S l : pfr S (@get_obj F l).
Proof. apply pfr_same. intros h a h' E. unfold get_obj in E. destruct (h_obj h !! l); [|discriminate]. injection E as <- <-. auto. Qed.
Lemma pfr_data_ptr S l : pfr S (@data_ptr F l).
Proof. apply pfr_bind; [apply pfr_get_obj|]. intros x. apply pfr_ret. Qed.
Lemma pfr_load S p i : pfr S (@load F p i).
Proof.
  apply pfr_same. intros h a h' E. unfold load in E. destruct p as [b|]; [|discriminate]. destruct (h_blk h !! b) as [cs|]; [|discriminate].
  destruct (i <? 0); [discriminate|]. destruct (cs !! Z.to_nat i) as [[v|]|]; try discriminate. injection E as <- <-. auto.
Qed.
Lemma pfr_store S p i v : pfr S (@store F p i v).
Proof.
  apply pfr_same. intros h a h' E. unfold store in E. destruct p as [b|]; [|discriminate]. destruct (h_blk h !! b) as [cs|]; [|discriminate].
  destruct (_ || _); [discriminate|]. injection E as <- <-. auto.
Qed.
Lemma pfr_chk S z : pfr S (@chk F z).
Proof. unfold chk. destruct (_ && _); [apply pfr_ret|apply pfr_ub]. Qed.
Lemma pfr_obj_realloc S l s : S l -> pfr S (@obj_realloc F l s).
Proof.
  intros HS h a h' Ho E. unfold obj_realloc, bind, get_obj in E. destruct (h_obj h !! l) as [o|] eqn:Eo; [|discriminate].
  unfold mem_realloc in E. destruct (shape_size s <? 0); [discriminate|].
  assert (Hgoal : forall b n bs, h' = Heap bs n (<[l := Obj s b]> (h_obj h)) (h_nobj h) ->
     fo h' /\ forall l0, is_Some (h_obj h !! l0) -> ~ S l0 -> ptr_of h' l0 = ptr_of h l0).
  { intros b n bs ->. split.
    - intros l1 o1. cbn. destruct (decide (l1 = l)) as [->|Hne]; [intros _; eapply Ho; eauto|]. rewrite lookup_insert_ne by congruence. apply Ho.
    - intros l0 _ Hn. unfold ptr_of. cbn. rewrite lookup_insert_ne; [reflexivity|]. intros <-. auto. }
  destruct (o_data o) as [b|].
  - destruct (h_blk h !! b) as [cs|]; [|discriminate]. cbn in E. injection E as <- <-. eapply Hgoal. reflexivity.
  - cbn in E. injection E as <- <-. eapply Hgoal. reflexivity.
Qed.
Lemma pfr_obj_free S l s : S l -> pfr S (@obj_free F l s).
Proof.
  intros HS h a h' Ho E. unfold obj_free, bind, get_obj in E. destruct (h_obj h !! l) as [o|] eqn:Eo; [|discriminate].
  unfold mem_free in E.
  assert (Hgoal : forall b n bs, h' = Heap bs n (<[l := Obj s b]> (h_obj h)) (h_nobj h) ->
     fo h' /\ forall l0, is_Some (h_obj h !! l0) -> ~ S l0 -> ptr_of h' l0 = ptr_of h l0).
  { intros b n bs ->. split.
    - intros l1 o1. cbn. destruct (decide (l1 = l)) as [->|Hne]; [intros _; eapply Ho; eauto|]. rewrite lookup_insert_ne by congruence. apply Ho.
    - intros l0 _ Hn. unfold ptr_of. cbn. rewrite lookup_insert_ne; [reflexivity|]. intros <-. auto. }
  destruct (o_data o) as [b|].
  - destruct (h_blk h !! b) as [cs|]; [|discriminate]. cbn in E. injection E as <- <-. eapply Hgoal. reflexivity.
  - cbn in E. injection E as <- <-. eapply Hgoal. reflexivity.
Qed.
Lemma pfr_del S l : S l -> pfr S (@del_obj F l).
Proof.
  intros HS h a h' Ho E. unfold del_obj, bind, get_obj in E. destruct (h_obj h !! l) as [o|] eqn:Eo; [|discriminate].
  unfold mem_free in E.
  assert (Hgoal : forall n bs, h' = Heap bs n (delete l (h_obj h)) (h_nobj h) ->
     fo h' /\ forall l0, is_Some (h_obj h !! l0) -> ~ S l0 -> ptr_of h' l0 = ptr_of h l0).
  { intros n bs ->. split.
    - intros l1 o1. cbn. intros [_ E1]%lookup_delete_Some. eapply Ho; eauto.
    - intros l0 _ Hn. unfold ptr_of. cbn. rewrite lookup_delete_ne; [reflexivity|]. intros <-. auto. }
  destruct (o_data o) as [b|].
  - destruct (h_blk h !! b) as [cs|]; [|discriminate]. cbn in E. injection E as <- <-. eapply Hgoal. reflexivity.
  - cbn in E. injection E as <- <-. eapply Hgoal. reflexivity.
Qed.
Lemma pfr_new_bind S s {B} (k : loc -> M F B) : (forall d, pfr (fun x => x = d \/ S x) (k d)) -> pfr S (bind (new_obj s) k).
Proof.
  intros Hk h a h' Ho E. unfold bind, new_obj in E.
  edestruct Hk as [H1 H2]; [|exact E|].
  { intros l o. cbn. destruct (decide (l = h_nobj h)) as [->|Hne]; [intros _; lia|].
    rewrite lookup_insert_ne by congruence. intros E1. apply Ho in E1. lia. }
  split; [exact H1|]. intros l Hl Hn.
  assert (l <> h_nobj h) as Hne by (destruct Hl as [o Hl]; apply Ho in Hl; lia).
  rewrite (H2 l).
  - unfold ptr_of. cbn. rewrite lookup_insert_ne by congruence. reflexivity.
  - cbn. rewrite lookup_insert_ne by congruence. exact Hl.
  - intros [?|?]; auto.
Qed.
Lemma pfr_new S s : pfr S (@new_obj F s).
Proof.
  intros h a h' Ho [= <- <-]. split.
  - intros l o. cbn. destruct (decide (l = h_nobj h)) as [->|Hne]; [intros _; lia|]. rewrite lookup_insert_ne by congruence. intros E1. apply Ho in E1. lia.
  - intros l [o Hl] _. unfold ptr_of. cbn. rewrite lookup_insert_ne; [reflexivity|]. apply Ho in Hl. lia.
Qed.
Lemma pfr_for_nat S {A} (body : Z -> A -> M F A) : (forall i a, pfr S (body i a)) -> forall n i a, pfr S (for_nat n i a body).
Proof. intros Hb n. induction n; intros i a; cbn [for_nat]; [apply pfr_ret|]. apply pfr_bind; auto. Qed.
Lemma pfr_for_acc S {A} lo hi (a : A) (body : Z -> A -> M F A) : (forall i a, pfr S (body i a)) -> pfr S (for_acc lo hi a body).
Proof. intros. apply pfr_for_nat. assumption. Qed.
Lemma pfr_for S lo hi (body : Z -> M F unit) : (forall i, pfr S (body i)) -> pfr S (for_ lo hi body).
Proof. intros. apply pfr_for_acc. auto. Qed.
Lemma pfr_deref S r : pfr S (@deref F r).
Proof. destruct r; [apply pfr_ret|apply pfr_ub]. Qed.

(** Use: add the pointer frame to a wp. *)
Lemma wp_pfr S {A} (m : M F A) h (Q : A -> heap F -> Prop) : wf h -> pfr S m ->
  wp m h (fun a h' => (forall l, is_Some (h_obj h !! l) -> ~ S l -> ptr_of h' l = ptr_of h l) -> Q a h') -> wp m h Q.
Proof.
  intros W Hp Hw. unfold wp in *. destruct (m h) as [a h'| | |] eqn:E; auto. apply Hw.
  destruct (Hp _ _ _ (wf_fo _ W) E). assumption.
Qed.
End frame.

Ltac pfr_step :=
  lazymatch goal with
  | |- pfr _ (bind (new_obj _) _) => apply pfr_new_bind; intros
  | |- pfr _ (bind v_new _) => unfold v_new at 1; apply pfr_new_bind; intros
  | |- pfr _ (bind _ _) => apply pfr_bind; [|intros]
  | |- pfr _ (ret _) => apply pfr_ret
  | |- pfr _ ub => apply pfr_ub
  | |- pfr _ crash => apply pfr_crash
  | |- pfr _ nofuel => apply pfr_nofuel
  | |- pfr _ (get_obj _) => apply pfr_get_obj
  | |- pfr _ (data_ptr _) => apply pfr_data_ptr
  | |- pfr _ (load _ _) => apply pfr_load
  | |- pfr _ (store _ _ _) => apply pfr_store
  | |- pfr _ (chk _) => apply pfr_chk
  | |- pfr _ (deref _) => apply pfr_deref
  | |- pfr _ (obj_realloc _ _) => apply pfr_obj_realloc; cbv beta; intuition congruence
  | |- pfr _ (obj_free _ _) => apply pfr_obj_free; cbv beta; intuition congruence
  | |- pfr _ (del_obj _) => apply pfr_del; cbv beta; intuition congruence
  | |- pfr _ (new_obj _) => apply pfr_new
  | |- pfr _ (for_ _ _ _) => apply pfr_for; intros
  | |- pfr _ (for_acc _ _ _ _) => apply pfr_for_acc; intros
  | |- pfr _ (match ?x with _ => _ end) => destruct x
  | |- pfr _ (let _ := _ in _) => cbv zeta
  end.
Ltac pfr_tac := repeat (pfr_step; cbv beta).

Section frame2.
Context {F : Type} `{Scalar F}.
Implicit Types (S : loc -> Prop).
Lemma pfr_v_size S l : pfr (F := F) S (v_size l). Proof. unfold v_size. pfr_tac. Qed.
Lemma pfr_v_resize S l n : S l -> pfr (F := F) S (v_resize l n). Proof. intros. unfold v_resize. pfr_tac. Qed.
Lemma pfr_v_mapn S f l : pfr (F := F) S (v_mapn f l).
Proof. unfold v_mapn. pfr_tac; try apply pfr_v_size; try (apply pfr_v_resize; cbv beta; auto). unfold loop1. pfr_tac. Qed.
Lemma pfr_v_total_size S A : forall acc, pfr (F := F) S (v_total_size A acc).
Proof. induction A; intros; cbn [v_total_size]; pfr_tac; auto. apply pfr_v_size. Qed.
Lemma pfr_v_flatten_loop S A : forall p i, pfr (F := F) S (v_flatten_loop A p i).
Proof. induction A; intros; cbn [v_flatten_loop]; pfr_tac; auto. apply pfr_v_size. Qed.
Lemma pfr_v_flattenn S A : pfr (F := F) S (v_flattenn A).
Proof. unfold v_flattenn. pfr_tac; try apply pfr_v_total_size; try apply pfr_v_flatten_loop. apply pfr_v_resize. cbv beta. auto. Qed.
End frame2.
