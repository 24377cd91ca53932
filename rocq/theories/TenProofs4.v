(** Proofs about the tensor model, part 4: swapping slices, rows, building from other containers, flattening, serialisation. *)
From Verif Require Export TenProofs3 MatProofs5.
From Coq Require Import ZifyBool ZifyNat.
Ltac Zify.zify_post_hook ::= Z.to_euclidean_division_equations.

Section tenproofs4.
Context {F : Type} `{Scalar F}.
Implicit Types (h : heap F) (l a b t : loc) (xs ys v : list F) (x y z k : nat) (cs : list (option F)) (sl : list (list F)) (idx : Z) (T : nat -> nat -> nat -> F).
Notation S3 x y z := (STen (Z.of_nat x) (Z.of_nat y) (Z.of_nat z)).

Lemma concat_mlist c sl : width c sl -> concat sl = mlist c (length sl) (fun k q => nth q (nth k sl []) s_zero).
Proof. intros Hw. pose proof (Rows_Mat c sl Hw) as E. unfold Rows, Mat, AMat in E. injection E as E. apply (inj (fmap Some)) in E. exact E. Qed.

(** ** z_slice_swap *)
Lemma wp_t_slice_swap h l x y sl i1 i2 (Q : unit -> heap F -> Prop) : wf h -> abs h !! l = Some (Slices x y sl) -> width (y * x) sl ->
  0 <= i1 < Z.of_nat (length sl) -> 0 <= i2 < Z.of_nat (length sl) ->
  (forall h', wf h' -> abs h' = <[l := Slices x y (swap_rows (Z.to_nat i1) (Z.to_nat i2) sl)]> (abs h) -> Q tt h') -> wp (t_slice_swap l i1 i2) h Q.
Proof.
  intros Hwf Ha Hw H1 H2 HQ. unfold t_slice_swap. wbind. eapply wp_t_size; [exact Ha|]. cbv beta iota zeta. rewrite !good_idx by assumption.
  wbind. eapply wp_data_ptr; [exact Ha|]. intros p Hp.
  replace (Z.of_nat x * Z.of_nat y) with (Z.of_nat (y * x)) by lia. remember (y * x)%nat as c eqn:Ec.
  set (n1 := Z.to_nat i1) in *. set (n2 := Z.to_nat i2) in *. replace i1 with (Z.of_nat n1) by lia. replace i2 with (Z.of_nat n2) by lia.
  set (f := fun i j => nth j (nth i sl []) s_zero).
  set (tau := fun i => if decide (i = n1) then n2 else if decide (i = n2) then n1 else i).
  set (g := fun j i' j' => if (j' <? j)%nat then f (tau i') j' else f i' j').
  apply wp_for_n with (I := fun j hi => wf hi /\ h_obj hi = h_obj h /\ abs hi = <[l := (S3 x y (length sl), Some <$> mlist c (length sl) (g j))]> (abs h)).
  - split; [assumption|]. split; [reflexivity|]. rewrite insert_id; [reflexivity|]. rewrite Ha. unfold Slices, ATen. rewrite (concat_mlist c) by exact Hw. reflexivity.
  - intros j hi Hj (W & O & A).
    assert (Hl : abs hi !! l = Some (S3 x y (length sl), Some <$> mlist c (length sl) (g j))) by (rewrite A; apply lookup_insert).
    assert (Hpi : ptr_of hi l = Some p) by (rewrite (ptr_of_obj h hi); assumption).
    assert (E1 : Z.to_nat (Z.of_nat c * Z.of_nat n1 + Z.of_nat j) = (n1 * c + j)%nat) by lia. assert (E2 : Z.to_nat (Z.of_nat c * Z.of_nat n2 + Z.of_nat j) = (n2 * c + j)%nat) by lia.
    assert (L1 : (n1 * c + j < length sl * c)%nat) by (apply idx_lt; lia). assert (L2 : (n2 * c + j < length sl * c)%nat) by (apply idx_lt; lia).
    wbind. eapply wp_load with (l := l) (v := f n1 j); [exact W|exact Hpi|exact Hl|lia| |].
    { rewrite E1. apply fmap_Some_lookup. rewrite mlist_lookup by lia. unfold g. rewrite Nat.ltb_irrefl. reflexivity. }
    wbind. eapply wp_load with (l := l) (v := f n2 j); [exact W|exact Hpi|exact Hl|lia| |].
    { rewrite E2. apply fmap_Some_lookup. rewrite mlist_lookup by lia. unfold g. rewrite Nat.ltb_irrefl. reflexivity. }
    wbind. eapply wp_store with (l := l); [exact W|exact Hpi|exact Hl|rewrite fmap_length, mlist_length; lia|]. intros h1 W1 O1 _ A1.
    rewrite E1, <- list_fmap_insert, mlist_insert in A1 by lia.
    eapply wp_store with (l := l); [exact W1|rewrite (ptr_of_obj h h1); [assumption|congruence]|rewrite A1; apply lookup_insert|rewrite fmap_length, mlist_length; lia|]. intros h2 W2 O2 _ A2.
    rewrite E2, <- list_fmap_insert, mlist_insert in A2 by lia.
    split; [exact W2|]. split; [congruence|]. rewrite A2, A1, A, !insert_insert. do 3 f_equal. apply mlist_ext.
    intros i' j' Hi' Hj'. unfold g, tau.
    destruct (decide (i' = n2 /\ j' = j)) as [[-> ->]|N1].
    + replace (j <? S j)%nat with true by lia. destruct (decide (n2 = n1)) as [<-|]; [reflexivity|]. rewrite decide_True by reflexivity. reflexivity.
    + destruct (decide (i' = n1 /\ j' = j)) as [[-> ->]|N2].
      * replace (j <? S j)%nat with true by lia. rewrite decide_True by reflexivity. reflexivity.
      * destruct (Nat.ltb_spec j' j); destruct (Nat.ltb_spec j' (S j)); try lia; auto.
        assert (j' = j) as -> by lia. rewrite !decide_False by tauto. reflexivity.
  - intros h1 (W & O & A). apply HQ; auto. rewrite A. f_equal.
    destruct (lookup_lt_is_Some_2 sl n1) as [a1 E1]; [lia|]. destruct (lookup_lt_is_Some_2 sl n2) as [a2 E2]; [lia|].
    unfold swap_rows. rewrite E1, E2.
    assert (Hwa : forall (i : nat) (a0 : list F), sl !! i = Some a0 -> length a0 = c) by (intros i a0 Hi; exact (width_row _ _ _ _ Hw Hi)).
    unfold Slices, ATen. rewrite !insert_length. f_equal. f_equal.
    rewrite (concat_mlist c) by (apply width_insert; [apply width_insert; eauto|eauto]). rewrite !insert_length.
    apply mlist_ext. intros i j Hi Hj. unfold g. replace (j <? c)%nat with true by lia. unfold f. f_equal. unfold tau.
    destruct (decide (i = n1)) as [->|N1].
    + rewrite (nth_lookup_Some sl n2 [] a2 E2). symmetry. apply nth_lookup_Some. apply list_lookup_insert. rewrite insert_length. lia.
    + destruct (decide (i = n2)) as [->|N2].
      * rewrite (nth_lookup_Some sl n1 [] a1 E1). symmetry. apply nth_lookup_Some. rewrite list_lookup_insert_ne by congruence. apply list_lookup_insert. lia.
      * destruct (lookup_lt_is_Some_2 sl i Hi) as [a0 E0]. rewrite (nth_lookup_Some sl i [] a0 E0). symmetry. apply nth_lookup_Some.
        rewrite !list_lookup_insert_ne by congruence. exact E0.
Qed.

(** ** z_slice_remove_unordered: right for slice 0, undefined for every other slice. *)
Lemma t_slice_remove_unordered_UB h l x y sl idx : wf h -> abs h !! l = Some (Slices x y sl) -> width (y * x) sl -> (0 < y * x)%nat ->
  1 <= idx < Z.of_nat (length sl) -> t_slice_remove_unordered l idx h = UB.
Proof.
  intros Hwf Ha Hw Hpos Hidx. destruct (slices_len h l x y sl Hwf Ha Hw) as [Hcl Hle].
  unfold t_slice_remove_unordered. apply bind_UB. eapply wp_t_size; [exact Ha|]. cbv beta iota zeta. rewrite good_idx by lia.
  replace (Z.of_nat x * Z.of_nat y) with (Z.of_nat (y * x)) by lia. remember (y * x)%nat as c eqn:Ec.
  destruct (Z.eqb_spec (Z.of_nat c * (Z.of_nat (length sl) - 1)) 0); [nia|].
  apply bind_UB. eapply wp_data_ptr; [exact Ha|]. intros p Hp. apply bind_UB_first.
  unfold for_, for_acc. replace (Z.to_nat (Z.of_nat c * (idx + 1) - Z.of_nat c * idx)) with (S (c - 1)) by lia. cbn [for_nat]. apply bind_UB_first, bind_UB_first.
  replace (Z.of_nat c * (Z.of_nat (length sl) - 1) + Z.of_nat c * idx) with (Z.of_nat (c * (length sl - 1) + c * Z.to_nat idx)) by nia.
  eapply load_UB; [exact Hwf|exact Hp|exact Ha|]. rewrite fmap_length. nia.
Qed.
End tenproofs4.
