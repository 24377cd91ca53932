(** Proofs about the tensor model, part 5: rows, copies between containers, serialisation, x and y slices, tensor times vector. *)
From Verif Require Export TenProofs4.
From Verif Require Import CostProofs.
From Coq Require Import ZifyBool ZifyNat.
Ltac Zify.zify_post_hook ::= Z.to_euclidean_division_equations.

Section tenproofs5.
Context {F : Type} `{Scalar F}.
Implicit Types (h : heap F) (l a b t : loc) (xs ys v : list F) (x y z k : nat) (cs : list (option F)) (sl : list (list F)) (idx : Z) (T : nat -> nat -> nat -> F).
Notation S3 x y z := (STen (Z.of_nat x) (Z.of_nat y) (Z.of_nat z)).

Lemma wp_t_slice_remove_unordered0 h l x y sl v (Q : unit -> heap F -> Prop) : wf h -> abs h !! l = Some (Slices x y (sl ++ [v])) -> width (y * x) (sl ++ [v]) ->
  (forall h', wf h' -> abs h' = <[l := Slices x y (<[0%nat := v]> sl)]> (abs h) -> Q tt h') -> wp (t_slice_remove_unordered l 0) h Q.
Proof.
  intros Hwf Ha Hw HQ. destruct (slices_len h l x y _ Hwf Ha Hw) as [Hcl Hle]. pose proof Hw as Hw'. apply Forall_app in Hw' as [Hws Hwv]. pose proof (Forall_inv Hwv) as Hv. cbv beta in Hv.
  rewrite app_length in Hcl, Hle. cbn [length] in Hcl, Hle. pose proof (concat_len _ _ Hws) as Hcs.
  unfold t_slice_remove_unordered. wbind. eapply wp_t_size; [exact Ha|]. cbv beta iota zeta. rewrite app_length. cbn [length]. rewrite good_idx by lia.
  replace (Z.of_nat (length sl + 1) - 1) with (Z.of_nat (length sl)) by lia.
  replace (Z.of_nat x * Z.of_nat y) with (Z.of_nat (y * x)) by lia. remember (y * x)%nat as c eqn:Ec.
  assert (Ess : shape_size (S3 x y (length sl)) = Z.of_nat (c * length sl)) by (cbn [shape_size]; subst c; lia).
  destruct (Z.eqb_spec (Z.of_nat c * Z.of_nat (length sl)) 0) as [E|E].
  - eapply wp_obj_free; [exact Hwf|exact Ha|rewrite Ess; lia|]. intros h1 W1 A1 _. apply HQ; auto. rewrite A1. f_equal. unfold Slices, ATen. rewrite insert_length. f_equal.
    destruct (concat (<[0%nat:=v]> sl)) eqn:E2; [reflexivity|]. assert (Hl : length (concat (<[0%nat := v]> sl)) = (length (<[0%nat := v]> sl) * c)%nat) by (apply concat_len, width_insert; auto).
    rewrite E2, insert_length in Hl. cbn in Hl. nia.
  - destruct sl as [|s0 sl']; [cbn in E; lia|]. pose proof (Forall_inv Hws) as Hs0. cbv beta in Hs0. pose proof (Forall_inv_tail Hws) as Hws'. set (sl := s0 :: sl') in *.
    wbind. eapply wp_data_ptr; [exact Ha|]. intros p Hp. wbind.
    replace (Z.of_nat c * 0) with 0 by lia. replace (Z.of_nat c * (0 + 1)) with (Z.of_nat c) by lia.
    set (old := Some <$> concat (sl ++ [v]) : list (option F)). set (nw := (Some <$> v) ++ drop c old : list (option F)).
    assert (Lo : length old = (c * length sl + c)%nat) by (unfold old; rewrite fmap_length; lia).
    assert (Ln : length nw = length old) by (unfold nw; rewrite app_length, drop_length, fmap_length; nia).
    eapply wp_write_loop with (lo := l) (old := old) (new := nw) (off := 0); [exact Hwf|exact Hp|exact Ha|exact Ln|lia|lia|nia|reflexivity| |].
    + intros i hi Q' Hi W O A Hs. destruct (lookup_lt_is_Some_2 v (Z.to_nat i)) as [u Hu]; [lia|].
      assert (Hn : (0 < length sl)%nat) by (unfold sl; cbn; lia).
      wbind. eapply wp_load with (l := l) (v := u); [exact W|rewrite (ptr_of_obj h hi); assumption|rewrite A; apply lookup_insert|lia| |].
      { rewrite upto_lookup_ge by (try exact Ln; nia). unfold old. apply fmap_Some_lookup. rewrite concat_app, lookup_app_r by nia. cbn [concat]. rewrite app_nil_r. rewrite <- Hu. f_equal. nia. }
      apply Hs. unfold nw. rewrite lookup_app_l by (rewrite fmap_length; lia). apply fmap_Some_lookup. exact Hu.
    + intros hi W O A.
      eapply wp_obj_realloc; [exact W|rewrite A; apply lookup_insert|rewrite Ess; nia|]. intros h2 W2 A2 _. apply HQ; auto.
      rewrite A2, A, insert_insert. f_equal. rewrite Ess. unfold Slices, ATen. rewrite insert_length. f_equal. rewrite Nat2Z.id, Z.add_0_l, Nat2Z.id.
      unfold upto, nw. rewrite take_app_alt by (rewrite fmap_length; lia).
      unfold sl at 2. cbn [insert list_insert concat]. rewrite fmap_app. unfold old, sl. rewrite <- app_comm_cons. cbn [concat]. rewrite fmap_app, drop_app_alt by (rewrite fmap_length; lia).
      rewrite concat_app, fmap_app. assert (Hcs' : length (concat sl') = (c * length sl')%nat) by (rewrite (concat_len c) by exact Hws'; lia).
      rewrite resize_le by (rewrite !app_length, !fmap_length; cbn [length]; nia). rewrite app_assoc. apply take_app_alt. rewrite app_length, !fmap_length. cbn [length]. nia.
Qed.

(** ** Rows *)
Lemma pick_row x y z T k j : (k < z)%nat -> (j < y)%nat -> take x (drop (k * (y * x) + j * x) (tlist x y z T)) = vlist x (T k j).
Proof.
  intros Hk Hj. apply list_eq. intros i. destruct (decide (i < x)%nat) as [Hi|Hi].
  - rewrite lookup_take, lookup_drop, vlist_lookup by exact Hi. rewrite <- Nat.add_assoc. apply tlist_lookup; auto.
  - rewrite lookup_take_ge by lia. symmetry. apply lookup_ge_None_2. rewrite vlist_length. lia.
Qed.
Lemma row_fits x y z k j : (k < z)%nat -> (j < y)%nat -> (k * (y * x) + j * x + x <= z * (y * x))%nat.
Proof. intros Hk Hj. assert (j * x + x <= y * x)%nat by nia. assert (k * (y * x) + y * x <= z * (y * x))%nat by nia. lia. Qed.
Lemma row_off x y zi yi : 0 <= zi -> 0 <= yi -> yi * Z.of_nat x + Z.of_nat x * Z.of_nat y * zi = Z.of_nat (Z.to_nat zi * (y * x) + Z.to_nat yi * x).
Proof. intros Hz Hy. rewrite Nat2Z.inj_add, !Nat2Z.inj_mul, !Z2Nat.id by assumption. ring. Qed.
Lemma splice_row x y z T k j v : (k < z)%nat -> (j < y)%nat -> length v = x ->
  take (k * (y * x) + j * x) (Some <$> tlist x y z T) ++ (Some <$> v) ++ drop (k * (y * x) + j * x + x) (Some <$> tlist x y z T) =
  Some <$> tlist x y z (fun k' j' i => if decide (k' = k /\ j' = j) then nth i v s_zero else T k' j' i).
Proof.
  intros Hk Hj Hv. rewrite <- fmap_take, <- fmap_drop, <- !fmap_app. f_equal. pose proof (row_fits x y z k j Hk Hj) as Hf.
  apply tlist_eq; [rewrite !app_length, take_length, drop_length, tlist_length; lia|]. intros k' j' i Hk' Hj' Hi.
  set (po := (k * (y * x) + j * x)%nat) in *. set (q := (k' * (y * x) + (j' * x + i))%nat).
  assert (Hq : (q < z * (y * x))%nat) by (apply idx_lt; [exact Hk'|apply idx_lt; auto]).
  assert (Lt : length (take po (tlist x y z T)) = po) by (rewrite take_length, tlist_length; lia).
  destruct (decide (k' = k /\ j' = j)) as [[-> ->]|Hne].
  - rewrite lookup_app_r by (unfold q, po in *; lia). rewrite Lt. replace (q - po)%nat with i by (unfold q, po; lia). rewrite lookup_app_l by lia.
    destruct (lookup_lt_is_Some_2 v i) as [u Hu]; [lia|]. rewrite Hu. f_equal. symmetry. apply nth_lookup_Some. exact Hu.
  - assert (N : ~ (po <= q < po + x)%nat).
    { intros [N1 N2]. apply Hne. assert (E : q = (k * (y * x) + (j * x + (q - po)))%nat) by (unfold po in *; lia).
      apply tidx_inj in E as (-> & -> & _); auto. lia. }
    destruct (decide (q < po)%nat) as [L|L].
    + rewrite lookup_app_l by lia. rewrite lookup_take by exact L. apply tlist_lookup; auto.
    + rewrite lookup_app_r by lia. rewrite lookup_app_r by lia. rewrite lookup_drop, Lt. replace (po + x + (q - po - length v))%nat with q by lia. apply tlist_lookup; auto.
Qed.
Lemma wp_t_row_set h l x y z T zi yi v (Q : unit -> heap F -> Prop) : wf h -> abs h !! l = Some (Ten x y z T) -> 0 <= zi < Z.of_nat z -> 0 <= yi < Z.of_nat y -> length v = x ->
  (forall h', wf h' -> abs h' = <[l := Ten x y z (fun k j i => if decide (k = Z.to_nat zi /\ j = Z.to_nat yi) then nth i v s_zero else T k j i)]> (abs h) -> Q tt h') -> wp (t_row_set l zi yi v) h Q.
Proof.
  intros Hwf Ha Hz Hy Hv HQ. pose proof (row_fits x y z (Z.to_nat zi) (Z.to_nat yi) ltac:(lia) ltac:(lia)) as Hf. unfold t_row_set. wbind. eapply wp_t_size; [exact Ha|]. cbv beta iota zeta.
  rewrite Hv, Z.eqb_refl. cbn [negb]. rewrite !good_idx by assumption.
  rewrite row_off by lia.
  eapply wp_m_copy_list; [exact Hwf|exact Ha|lia|rewrite fmap_length, tlist_length; lia|]. intros h' W A. apply HQ; auto. rewrite A. f_equal. unfold Ten, ATen. f_equal.
  rewrite Nat2Z.id. rewrite Hv. apply splice_row; auto; lia.
Qed.
Lemma wp_t_row_set_vec h l x y z T zi yi b v (Q : unit -> heap F -> Prop) : wf h -> abs h !! l = Some (Ten x y z T) -> 0 <= zi < Z.of_nat z -> 0 <= yi < Z.of_nat y -> abs h !! b = Some (AVec v) -> length v = x ->
  (forall h', wf h' -> abs h' = <[l := Ten x y z (fun k j i => if decide (k = Z.to_nat zi /\ j = Z.to_nat yi) then nth i v s_zero else T k j i)]> (abs h) -> Q tt h') -> wp (t_row_set_vec l zi yi (Some b)) h Q.
Proof.
  intros Hwf Ha Hz Hy Hb Hv HQ. pose proof (row_fits x y z (Z.to_nat zi) (Z.to_nat yi) ltac:(lia) ltac:(lia)) as Hf. assert (b <> l) as Hne by (intros ->; rewrite Ha in Hb; discriminate).
  unfold t_row_set_vec. wbind. eapply wp_v_size_vec; [exact Hb|]. wbind. eapply wp_t_size; [exact Ha|]. cbv beta iota zeta.
  rewrite Hv, Z.eqb_refl. cbn [negb]. rewrite !good_idx by assumption.
  rewrite row_off by lia. change 0 with (Z.of_nat 0).
  eapply wp_t_copy with (b := b); [exact Hwf|exact Ha|exact Hb|exact Hne|rewrite fmap_length, tlist_length; lia|lia|]. intros h' W _ A. apply HQ; auto. rewrite A. f_equal. unfold Ten, ATen. f_equal.
  rewrite drop_0, (take_ge v) by lia. apply splice_row; auto; lia.
Qed.
(** The reading loops of rows and slices into a list. *)
Lemma wp_read_loop h l sh ys p (q n : nat) (f : Z -> Z) (Q : list F -> heap F -> Prop) : wf h -> abs h !! l = Some (sh, Some <$> ys) -> ptr_of h l = Some p -> (q + n <= length ys)%nat ->
  (forall i, (i < n)%nat -> f (Z.of_nat i) = Z.of_nat (q + i)) -> Q (take n (drop q ys)) h ->
  wp (for_acc 0 (Z.of_nat n) [] (fun i acc => let! u := load p (f i) in ret (acc ++ [u]))) h Q.
Proof.
  intros Hwf Ha Hp Hn Hf HQ. apply wp_for_acc_n with (I := fun j acc h' => h' = h /\ acc = take j (drop q ys)).
  - auto.
  - intros j acc h' Hj [-> ->]. destruct (lookup_lt_is_Some_2 ys (q + j)) as [u Hu]; [lia|]. rewrite Hf by exact Hj.
    wbind. eapply wp_load with (v := u); [exact Hwf|exact Hp|exact Ha|lia|rewrite Nat2Z.id; apply fmap_Some_lookup, Hu|].
    apply wp_ret. split; [reflexivity|]. symmetry. apply take_S_r. rewrite lookup_drop. exact Hu.
  - intros acc h' [-> ->]. exact HQ.
Qed.
Lemma wp_t_row_get_pool h l x y z T zi yi (Q : list F -> heap F -> Prop) : wf h -> abs h !! l = Some (Ten x y z T) -> 0 <= zi < Z.of_nat z -> 0 <= yi < Z.of_nat y ->
  Q (vlist x (T (Z.to_nat zi) (Z.to_nat yi))) h -> wp (t_row_get_pool l zi yi) h Q.
Proof.
  intros Hwf Ha Hz Hy HQ. pose proof (row_fits x y z (Z.to_nat zi) (Z.to_nat yi) ltac:(lia) ltac:(lia)) as Hf. unfold t_row_get_pool. wbind. eapply wp_t_size; [exact Ha|]. cbv beta iota zeta. rewrite !good_idx by assumption.
  destruct (Z.eqb_spec (Z.of_nat x) 0) as [E|E]; [replace x with 0%nat in HQ by lia; exact HQ|].
  wbind. eapply wp_data_ptr; [exact Ha|]. intros p Hp.
  eapply wp_read_loop with (q := (Z.to_nat zi * (y * x) + Z.to_nat yi * x)%nat) (f := fun i => yi * Z.of_nat x + Z.of_nat x * Z.of_nat y * zi + i); [exact Hwf|exact Ha|exact Hp|rewrite tlist_length; lia|intros i Hi; rewrite ?row_off by lia; lia|].
  rewrite pick_row by lia. exact HQ.
Qed.
Lemma wp_t_row_get h l x y z T zi yi (Q : list F -> heap F -> Prop) : wf h -> abs h !! l = Some (Ten x y z T) -> 0 <= zi < Z.of_nat z -> 0 <= yi < Z.of_nat y ->
  Q (vlist x (T 0%nat (Z.to_nat yi))) h -> wp (t_row_get l zi yi) h Q.
Proof.
  intros Hwf Ha Hz Hy HQ. pose proof (row_fits x y z 0 (Z.to_nat yi) ltac:(lia) ltac:(lia)) as Hf. unfold t_row_get. wbind. eapply wp_t_size; [exact Ha|]. cbv beta iota zeta. rewrite !good_idx by assumption.
  destruct (Z.eqb_spec (Z.of_nat x) 0) as [E|E]; [replace x with 0%nat in HQ by lia; exact HQ|].
  wbind. eapply wp_data_ptr; [exact Ha|]. intros p Hp.
  eapply wp_read_loop with (q := (0 * (y * x) + Z.to_nat yi * x)%nat) (f := fun i => yi * Z.of_nat x + i); [exact Hwf|exact Ha|exact Hp|rewrite tlist_length; lia|intros i Hi; rewrite ?row_off by lia; lia|].
  rewrite pick_row by lia. exact HQ.
Qed.
Lemma x_le_int h l x y z T : wf h -> abs h !! l = Some (Ten x y z T) -> (0 < z)%nat -> (0 < y)%nat -> Z.of_nat x <= int_max.
Proof. intros W Ha Hz Hy. destruct (aten_len h l _ _ _ _ W Ha) as [_ H2]. assert (x <= y * x)%nat by nia. assert (y * x <= z * (y * x))%nat by nia. lia. Qed.
Lemma wp_t_row_get_vec h l x y z T zi yi (Q : option loc -> heap F -> Prop) : wf h -> abs h !! l = Some (Ten x y z T) -> 0 <= zi < Z.of_nat z -> 0 <= yi < Z.of_nat y ->
  (forall d h', wf h' -> abs h !! d = None -> abs h' = <[d := AVec (vlist x (T (Z.to_nat zi) (Z.to_nat yi)))]> (abs h) -> Q (Some d) h') -> wp (t_row_get_vec l zi yi) h Q.
Proof.
  intros Hwf Ha Hz Hy HQ. pose proof (row_fits x y z (Z.to_nat zi) (Z.to_nat yi) ltac:(lia) ltac:(lia)) as Hf. pose proof (x_le_int h l x y z T Hwf Ha ltac:(lia) ltac:(lia)) as Hx.
  unfold t_row_get_vec. wbind. eapply wp_t_size; [exact Ha|]. cbv beta iota zeta. rewrite !good_idx by assumption.
  wbind. apply wp_v_new; [exact Hwf|]. intros d h1 W1 N1 A1 _.
  destruct (Z.eqb_spec (Z.of_nat x) 0) as [E|E]; [apply wp_ret, HQ; auto; rewrite A1; replace x with 0%nat by lia; reflexivity|].
  wbind. eapply wp_v_resize; [exact W1|rewrite A1; apply lookup_insert|lia|]. intros h2 W2 A2 _.
  rewrite row_off by lia.
  wbind. eapply wp_t_copy_all with (b := l) (l := d); [exact W2|rewrite A2; apply lookup_insert|rewrite A2, A1, !lookup_insert_ne by congruence; exact Ha|congruence|rewrite resize_length; lia|rewrite tlist_length; lia|].
  intros h3 W3 O3 A3. apply wp_ret, HQ; auto. rewrite A3, A2, A1, !insert_insert. rewrite pick_row by lia. unfold AVec. rewrite vlist_length. reflexivity.
Qed.
Lemma wp_t_row_get_into h l x y z T zi yi t n cs (Q : unit -> heap F -> Prop) : wf h -> abs h !! l = Some (Ten x y z T) -> 0 <= zi < Z.of_nat z -> 0 <= yi < Z.of_nat y -> abs h !! t = Some (SVec n, cs) ->
  (forall h', wf h' -> abs h' = <[t := AVec (vlist x (T (Z.to_nat zi) (Z.to_nat yi)))]> (abs h) -> Q tt h') -> wp (t_row_get_into l zi yi (Some t)) h Q.
Proof.
  intros Hwf Ha Hz Hy Ht HQ. pose proof (row_fits x y z (Z.to_nat zi) (Z.to_nat yi) ltac:(lia) ltac:(lia)) as Hf. pose proof (x_le_int h l x y z T Hwf Ha ltac:(lia) ltac:(lia)) as Hx.
  assert (t <> l) as Hne by (intros ->; rewrite Ha in Ht; discriminate).
  unfold t_row_get_into. wbind. eapply wp_t_size; [exact Ha|]. cbv beta iota zeta. rewrite !good_idx by assumption.
  wbind. eapply wp_v_size; [exact Ht|]. wbind. eapply wp_v_resize_cond; [exact Hwf|exact Ht|lia|]. intros h2 W2 A2 P2.
  rewrite row_off by lia.
  eapply wp_t_copy_all with (b := l) (l := t); [exact W2|rewrite A2; apply lookup_insert|rewrite A2, !lookup_insert_ne by congruence; exact Ha|congruence|rewrite resize_length; lia|rewrite tlist_length; lia|].
  intros h3 W3 O3 A3. apply HQ; auto. rewrite A3, A2, !insert_insert. rewrite pick_row by lia. unfold AVec. rewrite vlist_length. reflexivity.
Qed.
End tenproofs5.
