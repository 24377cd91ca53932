(** Coherence ([wf]) is preserved by every model primitive that returns normally, whatever the
    contents, indices and aliasing. *)
From Verif Require Export BaseProofs Vec Sort.
From Coq Require Import ZifyBool ZifyNat.

Section pres.
Context {F : Type} `{Scalar F}.
Implicit Types (h : heap F) (l : loc) (p : option blk).

Definition pres {A} (m : M F A) : Prop := forall h a h', wf h -> m h = Ok a h' -> wf h'.

Lemma pres_ret {A} (x : A) : pres (ret x).
Proof. intros h a h' W [= <- <-]. exact W. Qed.
Lemma pres_ub {A} : pres (@ub F A).
Proof. intros h a h' W [=]. Qed.
Lemma pres_crash {A} : pres (@crash F A).
Proof. intros h a h' W [=]. Qed.
Lemma pres_nofuel {A} : pres (@nofuel F A).
Proof. intros h a h' W [=]. Qed.
Lemma pres_bind {A B} (m : M F A) (k : A -> M F B) : pres m -> (forall x, pres (k x)) -> pres (bind m k).
Proof.
  intros Hm Hk h a h' W E. unfold bind in E. destruct (m h) as [x h1| | |] eqn:E1; try discriminate.
  eapply Hk; [|exact E]. eapply Hm; eauto.
Qed.
Lemma pres_get_obj l : pres (@get_obj F l).
Proof. intros h a h' W E. unfold get_obj in E. destruct (h_obj h !! l); [|discriminate]. injection E as _ <-. exact W. Qed.
Lemma pres_data_ptr l : pres (@data_ptr F l).
Proof. apply pres_bind; [apply pres_get_obj|intros; apply pres_ret]. Qed.
Lemma pres_deref r : pres (@deref F r).
Proof. destruct r; [apply pres_ret|apply pres_ub]. Qed.
Lemma pres_load p i : pres (@load F p i).
Proof.
  intros h a h' W E. unfold load in E. destruct p; [|discriminate]. destruct (h_blk h !! _); [|discriminate].
  destruct (i <? 0); [discriminate|]. destruct (_ !! _) as [[|]|]; try discriminate. injection E as _ <-. exact W.
Qed.
Lemma pres_store p i v : pres (@store F p i v).
Proof.
  intros h a h' W E. unfold store in E. destruct p as [b|]; [|discriminate]. destruct (h_blk h !! b) as [cs|] eqn:Hb; [|discriminate].
  destruct (_ || _); [discriminate|]. injection E as _ <-. destruct W as [W1 W2 W3 W4 W5 W6]. constructor; simpl; auto.
  - intros l1 o1 b1 H1 H2. destruct (decide (b1 = b)) as [->|Hne].
    + rewrite lookup_insert. destruct (W1 _ _ _ H1 H2) as (cs' & Hb' & Hl & Hs). eexists. split; [reflexivity|].
      rewrite insert_length. assert (cs' = cs) as -> by congruence. auto.
    + rewrite lookup_insert_ne by congruence. eauto.
  - intros b1 cs1. destruct (decide (b1 = b)) as [->|Hne]; [eauto|]. rewrite lookup_insert_ne by congruence. eauto.
  - intros b1 cs1. destruct (decide (b1 = b)) as [->|Hne]; [eauto|]. rewrite lookup_insert_ne by congruence. eauto.
Qed.
Lemma pres_chk z : pres (@chk F z).
Proof. unfold chk. destruct (_ && _); [apply pres_ret|apply pres_ub]. Qed.
Lemma pres_new s : shape_size s = 0 -> pres (@new_obj F s).
Proof.
  intros Hs h a h' W E.
  destruct (proj1 (wp_ok (new_obj s) h (fun _ h' => wf h'))) as (? & ? & E1 & W1).
  { apply wp_new; auto. }
  congruence.
Qed.

Lemma live_abs h l o : h_obj h !! l = Some o -> exists cs, abs h !! l = Some (o_shape o, cs).
Proof. intros Ho. eexists. apply abs_lookup_Some. eauto. Qed.

Lemma pres_obj_realloc l s : shape_size s <> 0 -> shape_size s <= int_max -> pres (@obj_realloc F l s).
Proof.
  intros Hs Hs2 h a h' W E. destruct (h_obj h !! l) as [o|] eqn:Ho.
  - destruct (decide (shape_size s < 0)).
    + unfold obj_realloc, bind, get_obj, mem_realloc in E. rewrite Ho in E. replace (shape_size s <? 0) with true in E by lia. discriminate.
    + destruct (live_abs h l o Ho) as [cs Ha].
      destruct (proj1 (wp_ok (obj_realloc l s) h (fun _ h' => wf h'))) as (? & ? & E1 & W1).
      { eapply wp_obj_realloc; [exact W|exact Ha|lia|]. auto. }
      congruence.
  - unfold obj_realloc, bind, get_obj in E. rewrite Ho in E. discriminate.
Qed.
Lemma pres_obj_free l s : shape_size s = 0 -> pres (@obj_free F l s).
Proof.
  intros Hs h a h' W E. destruct (h_obj h !! l) as [o|] eqn:Ho.
  - destruct (live_abs h l o Ho) as [cs Ha].
    destruct (proj1 (wp_ok (obj_free l s) h (fun _ h' => wf h'))) as (? & ? & E1 & W1).
    { eapply wp_obj_free; [exact W|exact Ha|lia|]. auto. }
    congruence.
  - unfold obj_free, bind, get_obj in E. rewrite Ho in E. discriminate.
Qed.
Lemma pres_del l : pres (@del_obj F l).
Proof.
  intros h a h' W E. destruct (h_obj h !! l) as [o|] eqn:Ho.
  - destruct (live_abs h l o Ho) as [cs Ha].
    destruct (proj1 (wp_ok (del_obj l) h (fun _ h' => wf h'))) as (? & ? & E1 & W1).
    { eapply wp_del; [exact W|exact Ha|]. auto. }
    congruence.
  - unfold del_obj, bind, get_obj in E. rewrite Ho in E. discriminate.
Qed.

Lemma pres_for_nat {A} (body : Z -> A -> M F A) : (forall i a, pres (body i a)) -> forall n i a, pres (for_nat n i a body).
Proof.
  intros Hb. induction n as [|n IH]; intros i a; cbn [for_nat]; [apply pres_ret|].
  apply pres_bind; auto.
Qed.
Lemma pres_for_acc {A} lo hi (a : A) (body : Z -> A -> M F A) : (forall i a, pres (body i a)) -> pres (for_acc lo hi a body).
Proof. intros Hb. apply pres_for_nat, Hb. Qed.
Lemma pres_for lo hi (body : Z -> M F unit) : (forall i, pres (body i)) -> pres (for_ lo hi body).
Proof. intros Hb. apply pres_for_acc. auto. Qed.

(** Continuations that may use the fact that a live vector has a size in [0, int_max]. *)
Lemma pres_size_bind {B} l (k : Z -> M F B) : (forall n, 0 <= n <= int_max -> pres (k n)) -> pres (bind (v_size l) k).
Proof.
  intros Hk h a h' W E. unfold bind, v_size, bind, get_obj in E. destruct (h_obj h !! l) as [o|] eqn:Ho; [|discriminate].
  destruct (live_abs h l o Ho) as [cs Ha]. destruct (wf_abs_len h l _ _ W Ha) as [Hl Hl2].
  destruct (o_shape o) as [n| |] eqn:Hsh; try discriminate. simpl in *. eapply Hk; [|exact W|exact E]. lia.
Qed.
Lemma pres_chk_bind {B} z (k : Z -> M F B) : (z <= int_max -> pres (k z)) -> pres (bind (chk z) k).
Proof.
  intros Hk h a h' W E. unfold bind, chk in E. destruct ((- int_max - 1 <=? z) && (z <=? int_max)) eqn:E1; [|discriminate].
  eapply Hk; [|exact W|exact E]. lia.
Qed.

Lemma pres_v_size l : pres (v_size l).
Proof. apply pres_bind; [apply pres_get_obj|]. intros o. destruct (o_shape o); [apply pres_ret|apply pres_ub|apply pres_ub]. Qed.
Lemma pres_v_new : pres v_new.
Proof. apply pres_new. reflexivity. Qed.
Lemma pres_v_resize l n : n <= int_max -> pres (v_resize l n).
Proof.
  intros Hn. unfold v_resize. destruct (Z.eqb_spec n 0) as [->|Hne]; [apply pres_obj_free; reflexivity|].
  apply pres_obj_realloc; simpl; lia.
Qed.
End pres.

(** Structural automation: decompose binds, tests and loops. *)
Ltac pres_step :=
  match goal with
  | |- pres (ret _) => apply pres_ret
  | |- pres ub => apply pres_ub
  | |- pres crash => apply pres_crash
  | |- pres nofuel => apply pres_nofuel
  | |- pres (bind (v_size _) _) => apply pres_size_bind; intros
  | |- pres (bind (chk _) _) => apply pres_chk_bind; intros
  | |- pres (bind _ _) => apply pres_bind; [|intros]
  | |- pres (get_obj _) => apply pres_get_obj
  | |- pres (data_ptr _) => apply pres_data_ptr
  | |- pres (deref _) => apply pres_deref
  | |- pres (load _ _) => apply pres_load
  | |- pres (store _ _ _) => apply pres_store
  | |- pres (chk _) => apply pres_chk
  | |- pres (v_size _) => apply pres_v_size
  | |- pres v_new => apply pres_v_new
  | |- pres (v_resize _ _) => apply pres_v_resize; lia
  | |- pres (obj_free _ _) => apply pres_obj_free; reflexivity
  | |- pres (obj_realloc _ _) => apply pres_obj_realloc; simpl; lia
  | |- pres (del_obj _) => apply pres_del
  | |- pres (for_ _ _ _) => apply pres_for; intros
  | |- pres (for_acc _ _ _ _) => apply pres_for_acc; intros
  | |- pres (if ?b then _ else _) => let E := fresh "E" in destruct b eqn:E
  | |- pres (match ?x with _ => _ end) => destruct x
  end.
Ltac pres_tac := repeat pres_step; auto.

Section presv.
Context {F : Type} `{Scalar F}.
Implicit Types (l : loc) (p : option blk).

Lemma pres_v_get l i : pres (F := F) (v_get l i). Proof. unfold v_get. pres_tac. Qed.
Lemma pres_v_set l i x : pres (F := F) (v_set l i x). Proof. unfold v_set. pres_tac. Qed.
Lemma pres_v_push_back l x : pres (F := F) (v_push_back l x). Proof. unfold v_push_back. pres_tac. Qed.
Lemma pres_v_append l r : pres (F := F) (v_append l r).
Proof. unfold v_append. destruct r; pres_tac. Qed.
Lemma pres_v_remove l i : pres (F := F) (v_remove l i). Proof. unfold v_remove. pres_tac. Qed.
Lemma pres_v_remove_unordered l i : pres (F := F) (v_remove_unordered l i). Proof. unfold v_remove_unordered. pres_tac. Qed.
Lemma pres_find_loop k : forall p i v, pres (F := F) (v_find_loop k p i v).
Proof. induction k; intros; cbn [v_find_loop]; pres_tac. Qed.
Lemma pres_v_find l v from : pres (F := F) (v_find l v from). Proof. unfold v_find. pres_tac. apply pres_find_loop. Qed.
Lemma pres_v_erase l v : pres (F := F) (v_erase l v).
Proof. unfold v_erase. apply pres_bind; [apply pres_v_find|]. intros i. pres_tac. apply pres_v_remove. Qed.
Lemma pres_erase_mult_loop fuel : forall l v from count, pres (F := F) (v_erase_mult_loop fuel l v from count).
Proof.
  induction fuel; intros; cbn [v_erase_mult_loop]; [apply pres_nofuel|]. apply pres_bind; [apply pres_v_find|]. intros i. pres_tac.
  apply pres_v_remove_unordered.
Qed.
Lemma pres_v_erase_multiple l v : pres (F := F) (v_erase_multiple_unordered l v).
Proof. unfold v_erase_multiple_unordered. pres_tac. apply pres_erase_mult_loop. Qed.
Lemma pres_v_invert l : pres (F := F) (v_invert l). Proof. unfold v_invert. pres_tac. Qed.
Lemma pres_v_fill l x : pres (F := F) (v_fill l x). Proof. unfold v_fill. pres_tac. Qed.
Lemma pres_v_clear l : pres (F := F) (v_clear l). Proof. apply pres_v_resize. unfold int_max. lia. Qed.
Lemma pres_v_reset l : pres (F := F) (v_reset l). Proof. unfold v_reset. pres_tac. Qed.
Lemma pres_v_insert l i x : pres (F := F) (v_insert l i x).
Proof. unfold v_insert. pres_tac. apply pres_v_push_back. Qed.
Lemma pres_upper_loop k : forall p i v, pres (F := F) (v_upper_loop k p i v).
Proof. induction k; intros; cbn [v_upper_loop]; pres_tac. Qed.
Lemma pres_v_ordered_insert l v : pres (F := F) (v_ordered_insert l v).
Proof. unfold v_ordered_insert. pres_tac; [apply pres_upper_loop|apply pres_v_insert]. Qed.
Lemma pres_v_set_from_vec l b : pres (F := F) (v_set_from_vec l b). Proof. unfold v_set_from_vec. pres_tac. Qed.
Lemma pres_v_set_from l r : pres (F := F) (v_set_from l r). Proof. unfold v_set_from. pres_tac. apply pres_v_set_from_vec. Qed.
Lemma pres_v_duplicate l : pres (F := F) (v_duplicate l). Proof. unfold v_duplicate. pres_tac. apply pres_v_set_from_vec. Qed.
Lemma pres_loop2 f n pa pb po : pres (F := F) (loop2 (F := F) f n pa pb po). Proof. unfold loop2. pres_tac. Qed.
Lemma pres_loop1 f n pa po : pres (F := F) (loop1 (F := F) f n pa po). Proof. unfold loop1. pres_tac. Qed.
Lemma pres_v_op2 f l r : pres (F := F) (v_op2 f l r). Proof. unfold v_op2. pres_tac. apply pres_loop2. Qed.
Lemma pres_v_op2n f l r : pres (F := F) (v_op2n f l r). Proof. unfold v_op2n. pres_tac. apply pres_loop2. Qed.
Lemma pres_v_op2n_early f l r : pres (F := F) (v_op2n_early f l r).
Proof. unfold v_op2n_early. pres_tac; apply pres_loop2. Qed.
Lemma pres_v_op2b f l ra rb : pres (F := F) (v_op2b f l ra rb).
Proof. unfold v_op2b. pres_tac; apply pres_loop2. Qed.
Lemma pres_v_dot l r : pres (F := F) (v_dot l r). Proof. unfold v_dot. pres_tac. Qed.
Lemma pres_v_sum l : pres (F := F) (v_sum l). Proof. unfold v_sum. pres_tac. Qed.

(** sort *)
Lemma pres_bitlog fuel : forall n k, pres (F := F) (@bitlog_loop F fuel n k).
Proof. induction fuel; intros; cbn [bitlog_loop]; pres_tac. Qed.
Lemma pres_push_heap_loop fuel : forall p f hl t v, pres (F := F) (push_heap_loop fuel p f hl t v).
Proof. induction fuel; intros; cbn [push_heap_loop]; pres_tac. Qed.
Lemma pres_adjust_loop fuel : forall p f hl sc n, pres (F := F) (adjust_loop fuel p f hl sc n).
Proof. induction fuel; intros; cbn [adjust_loop]; pres_tac. Qed.
Lemma pres_adjust_heap p f hl n v : pres (F := F) (adjust_heap p f hl n v).
Proof.
  unfold adjust_heap, push_heap. apply pres_bind; [apply pres_adjust_loop|]. intros [? ?].
  pres_tac; apply pres_push_heap_loop.
Qed.
Lemma pres_pop_heap4 p a b c v : pres (F := F) (pop_heap4 p a b c v).
Proof. unfold pop_heap4. pres_tac. apply pres_adjust_heap. Qed.
Lemma pres_sort_heap_loop fuel : forall p a b, pres (F := F) (sort_heap_loop fuel p a b).
Proof. induction fuel; intros; cbn [sort_heap_loop]; unfold pop_heap; pres_tac. apply pres_pop_heap4. Qed.
Lemma pres_make_heap_loop fuel : forall p a b c, pres (F := F) (make_heap_loop fuel p a b c).
Proof. induction fuel; intros; cbn [make_heap_loop]; pres_tac. apply pres_adjust_heap. Qed.
Lemma pres_partial_sort p a b c : pres (F := F) (partial_sort p a b c).
Proof.
  unfold partial_sort, make_heap, sort_heap. pres_tac;
  first [apply pres_make_heap_loop|apply pres_pop_heap4|apply pres_sort_heap_loop].
Qed.
Lemma pres_up_loop vd fuel : forall p a b c, pres (F := F) (up_loop vd fuel p a b c).
Proof. induction fuel; intros; cbn [up_loop]; pres_tac. Qed.
Lemma pres_down_loop vd fuel : forall p a b c, pres (F := F) (down_loop vd fuel p a b c).
Proof. induction fuel; intros; cbn [down_loop]; pres_tac. Qed.
Lemma pres_partition_loop vd fuel : forall p a b c d e, pres (F := F) (partition_loop vd fuel p a b c d e).
Proof.
  induction fuel; intros; cbn [partition_loop]; [pres_tac|].
  apply pres_bind; [apply pres_up_loop|]. intros. apply pres_bind; [apply pres_down_loop|]. intros. pres_tac.
Qed.
Lemma pres_introsort vd d : forall p a b, pres (F := F) (introsort vd d p a b).
Proof.
  induction d as [|d IH]; intros; cbn [introsort]; pres_tac; [apply pres_partial_sort|].
  apply pres_partition_loop.
Qed.
Lemma pres_ul_insert vd fuel : forall p a v, pres (F := F) (ul_insert_loop vd fuel p a v).
Proof. induction fuel; intros; cbn [ul_insert_loop]; pres_tac. Qed.
Lemma pres_insertion_sort vd p a b : pres (F := F) (insertion_sort vd p a b).
Proof. unfold insertion_sort, linear_insert. pres_tac. apply pres_ul_insert. Qed.
Lemma pres_v_sort vd l : pres (F := F) (v_sort vd l).
Proof.
  unfold v_sort, sort_range, bitlog, final_insertion_sort, unguarded_insertion_sort. pres_tac;
  first [apply pres_bitlog|apply pres_introsort|apply pres_insertion_sort|apply pres_ul_insert].
Qed.
End presv.
