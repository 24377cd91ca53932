(** * Properties C57 (tensor addressing), C58 (tensor slices), C59 (tensor arithmetic, copies, persistence): theorems.

    [Ten x y z T] is the fully initialised tensor object with [x] columns, [y] rows, [z] slices and entry [T k j i] in
    slice [k], row [j], column [i]; [Slices x y sl] is the tensor whose z-slices are the flat lists [sl] (TenSpec.v).
    [runs m h Q]: the call [m] made in heap [h] returns normally, memory stays coherent and [Q] holds of the result and
    the final heap.  [fits x y]: the int product of the sizes of one slice does not overflow. *)
From Verif Require Export PropMat TenProofs7.

Section props.
Context {F : Type} `{Scalar F}.
Implicit Types (h : heap F) (l a b d t : loc) (x y z k j i : nat) (T U : nat -> nat -> nat -> F) (xs ys v row : list F)
  (sl : list (list F)) (cs : list (option F)) (zi yi xi idx : Z).
Notation S3 x y z := (STen (Z.of_nat x) (Z.of_nat y) (Z.of_nat z)).

Ltac r_ := apply runs_wp.

Lemma t_get_val h l x y z T zi yi xi : wf h -> abs h !! l = Some (Ten x y z T) ->
  t_get l zi yi xi h = Ok (if decide (in3 x y z zi yi xi) then T (Z.to_nat zi) (Z.to_nat yi) (Z.to_nat xi) else s_zero) h.
Proof.
  intros Hw Hl.
  assert (W : wp (t_get l zi yi xi) h (fun w h' => w = (if decide (in3 x y z zi yi xi) then T (Z.to_nat zi) (Z.to_nat yi) (Z.to_nat xi) else s_zero) /\ h' = h)) by (eapply wp_t_get; eauto).
  unfold wp in W. destruct (t_get l zi yi xi h); try contradiction. destruct W as [-> ->]. reflexivity.
Qed.

(** ** C57: reading and writing single entries *)
Theorem C57_element_get h l x y z T zi yi xi : wf h -> abs h !! l = Some (Ten x y z T) ->
  (0 <= zi < Z.of_nat z /\ 0 <= yi < Z.of_nat y /\ 0 <= xi < Z.of_nat x ->
    t_get l zi yi xi h = Ok (T (Z.to_nat zi) (Z.to_nat yi) (Z.to_nat xi)) h) /\
  (~ (0 <= zi < Z.of_nat z /\ 0 <= yi < Z.of_nat y /\ 0 <= xi < Z.of_nat x) -> t_get l zi yi xi h = Ok s_zero h).
Proof.
  intros Hw Hl. rewrite (t_get_val h l x y z T zi yi xi Hw Hl). split; intros HH.
  - rewrite decide_True by exact HH. reflexivity.
  - rewrite decide_False by exact HH. reflexivity.
Qed.
Theorem C57_element_set h l x y z T zi yi xi (u : F) : wf h -> abs h !! l = Some (Ten x y z T) ->
  0 <= zi < Z.of_nat z -> 0 <= yi < Z.of_nat y -> 0 <= xi < Z.of_nat x ->
  runs (t_set l zi yi xi u) h (fun _ h' => exists U, abs h' = <[l := Ten x y z U]> (abs h) /\
    U (Z.to_nat zi) (Z.to_nat yi) (Z.to_nat xi) = u /\
    forall k j i, (k, j, i) <> (Z.to_nat zi, Z.to_nat yi, Z.to_nat xi) -> U k j i = T k j i).
Proof.
  intros Hw Hl Hz Hy Hx. r_. rewrite Ten_TenP in Hl. eapply wp_t_set; eauto. intros h' W _ A. split; [exact W|].
  exists (fun k j i => if decide (Z.of_nat k = zi /\ Z.of_nat j = yi /\ Z.of_nat i = xi) then u else T k j i). split_and!.
  - rewrite A. f_equal. rewrite Ten_TenP. apply TenP_ext. intros k j i _ _ _. destruct (decide _); reflexivity.
  - cbv beta. rewrite decide_True by lia. reflexivity.
  - intros k j i Hne. cbv beta. rewrite decide_False; [reflexivity|]. intros (E1 & E2 & E3). apply Hne.
    subst. rewrite !Nat2Z.id. reflexivity.
Qed.
(** A write with a bad index changes nothing at all. *)
Theorem C57_element_set_out_of_range h l x y z T zi yi xi (u : F) : wf h -> abs h !! l = Some (Ten x y z T) ->
  ~ (0 <= zi < Z.of_nat z /\ 0 <= yi < Z.of_nat y /\ 0 <= xi < Z.of_nat x) -> t_set l zi yi xi u h = Ok tt h.
Proof.
  intros Hw Hl Hb. unfold t_set, bind.
  assert (E : t_size l h = Ok (Z.of_nat x, Z.of_nat y, Z.of_nat z) h).
  { assert (W : wp (t_size l) h (fun s h' => s = (Z.of_nat x, Z.of_nat y, Z.of_nat z) /\ h' = h)) by (eapply wp_t_size; eauto).
    unfold wp in W. destruct (t_size l h); try contradiction. destruct W as [-> ->]. reflexivity. }
  rewrite E. destruct ((xi <? 0) || (Z.of_nat x <=? xi)) eqn:E1; [reflexivity|].
  destruct ((yi <? 0) || (Z.of_nat y <=? yi)) eqn:E2; [reflexivity|].
  destruct ((zi <? 0) || (Z.of_nat z <=? zi)) eqn:E3; [reflexivity|]. exfalso. apply Hb. lia.
Qed.
(** After a write, the written entry reads back the written value and every other index triple (inside the tensor or not)
    reads what it read before: no two index triples share storage. *)
Theorem C57_get_after_set h l x y z T zi yi xi (u : F) : wf h -> abs h !! l = Some (Ten x y z T) ->
  0 <= zi < Z.of_nat z -> 0 <= yi < Z.of_nat y -> 0 <= xi < Z.of_nat x ->
  runs (t_set l zi yi xi u) h (fun _ h' => t_get l zi yi xi h' = Ok u h' /\
    forall (z' y' x' : Z), (z', y', x') <> (zi, yi, xi) -> exists w, t_get l z' y' x' h = Ok w h /\ t_get l z' y' x' h' = Ok w h').
Proof.
  intros Hw Hl Hz Hy Hx. destruct (C57_element_set h l x y z T zi yi xi u Hw Hl Hz Hy Hx) as ([] & h' & E & W & U & A & U1 & U2).
  exists tt, h'. split; [exact E|]. split; [exact W|].
  assert (Hl' : abs h' !! l = Some (Ten x y z U)) by (rewrite A; apply lookup_insert). split.
  - rewrite (t_get_val h' l x y z U zi yi xi W Hl'). rewrite decide_True by (unfold in3; lia). rewrite U1. reflexivity.
  - intros z' y' x' Hne. eexists. split; [exact (t_get_val h l x y z T z' y' x' Hw Hl)|].
    rewrite (t_get_val h' l x y z U z' y' x' W Hl'). f_equal. destruct (decide (in3 x y z z' y' x')) as [D|]; [|reflexivity].
    apply U2. intros [= E1 E2 E3]. apply Hne. unfold in3 in D. f_equal; [f_equal|]; lia.
Qed.
(** Flat indexing visits the entries slice by slice, row by row. *)
Theorem C57_flat_index h l x y z T k j i : wf h -> abs h !! l = Some (Ten x y z T) -> (k < z)%nat -> (j < y)%nat -> (i < x)%nat ->
  t_get_index l (Z.of_nat (k * (y * x) + (j * x + i))) h = Ok (T k j i) h.
Proof.
  intros Hw Hl Hk Hj Hi. destruct (ten_len h l x y z _ Hw Hl) as [L B].
  assert (W : wp (t_get_index l (Z.of_nat (k * (y * x) + (j * x + i)))) h (fun w h' => w = T k j i /\ h' = h)).
  { assert (Q : (k * (y * x) + (j * x + i) < z * (y * x))%nat) by (pose proof (row_fits x y z k j Hk Hj); lia). unfold t_get_index. wbind. eapply wp_t_data_size; eauto.
    { eapply ten_fits; eauto. lia. }
    replace (length (Some <$> tlist x y z T)) with (z * (y * x))%nat by (symmetry; exact L). rewrite good_idx by lia.
    wbind. eapply wp_data_ptr; eauto. intros p Hp. eapply wp_load; [exact Hw|exact Hp|exact Hl|lia| |auto].
    rewrite Nat2Z.id. rewrite list_lookup_fmap, tlist_lookup by auto. reflexivity. }
  unfold wp in W. destruct (t_get_index l _ h); try contradiction. destruct W as [-> ->]. reflexivity.
Qed.

(** ** C57: rows *)
Theorem C57_row_get h l x y z T zi yi : wf h -> abs h !! l = Some (Ten x y z T) -> 0 <= zi < Z.of_nat z -> 0 <= yi < Z.of_nat y ->
  runs (t_row_get_pool l zi yi) h (fun v h' => h' = h /\ v = vlist x (T (Z.to_nat zi) (Z.to_nat yi))) /\
  runs (t_row_get_vec l zi yi) h (fun r h' => exists d, r = Some d /\ abs h !! d = None /\
    abs h' = <[d := AVec (vlist x (T (Z.to_nat zi) (Z.to_nat yi)))]> (abs h)).
Proof.
  intros Hw Hl Hz Hy. split; r_.
  - eapply wp_t_row_get_pool; eauto.
  - eapply wp_t_row_get_vec; eauto 10.
Qed.
Theorem C57_row_get_into h l x y z T zi yi t n cs : wf h -> abs h !! l = Some (Ten x y z T) -> 0 <= zi < Z.of_nat z -> 0 <= yi < Z.of_nat y ->
  abs h !! t = Some (SVec n, cs) ->
  runs (t_row_get_into l zi yi (Some t)) h (fun _ h' => abs h' = <[t := AVec (vlist x (T (Z.to_nat zi) (Z.to_nat yi)))]> (abs h)).
Proof. intros. r_. eapply wp_t_row_get_into; eauto. Qed.
(** [row_get_vector] is defective: the slice argument is ignored and the row comes from slice 0. *)
Theorem C57_row_get_vector_ignores_slice h l x y z T zi yi : wf h -> abs h !! l = Some (Ten x y z T) -> 0 <= zi < Z.of_nat z -> 0 <= yi < Z.of_nat y ->
  runs (t_row_get l zi yi) h (fun v h' => h' = h /\ v = vlist x (T 0%nat (Z.to_nat yi))).
Proof. intros. r_. eapply wp_t_row_get; eauto. Qed.
Theorem C57_row_set h l x y z T zi yi row b : wf h -> abs h !! l = Some (Ten x y z T) -> 0 <= zi < Z.of_nat z -> 0 <= yi < Z.of_nat y -> length row = x ->
  abs h !! b = Some (AVec row) ->
  let post := fun (_ : unit) h' => exists U, abs h' = <[l := Ten x y z U]> (abs h) /\
    vlist x (U (Z.to_nat zi) (Z.to_nat yi)) = row /\ forall k j i, (k, j) <> (Z.to_nat zi, Z.to_nat yi) -> U k j i = T k j i in
  runs (t_row_set l zi yi row) h post /\ runs (t_row_set_vec l zi yi (Some b)) h post.
Proof.
  intros Hw Hl Hz Hy Hr Hb post.
  set (U := fun k j i => if decide (k = Z.to_nat zi /\ j = Z.to_nat yi) then nth i row s_zero else T k j i).
  assert (G : forall h', abs h' = <[l := Ten x y z U]> (abs h) -> post tt h').
  { intros h' A. exists U. split; [exact A|]. split.
    - apply list_eq. intros q. destruct (decide (q < x)%nat) as [Hq|Hq].
      + rewrite vlist_lookup by exact Hq. unfold U. rewrite decide_True by auto. destruct (lookup_lt_is_Some_2 row q ltac:(lia)) as [w Hw']. rewrite Hw', (nth_lookup_Some _ _ _ _ Hw'). reflexivity.
      + rewrite !lookup_ge_None_2; [reflexivity|lia|rewrite vlist_length; lia].
    - intros k j i Hne. unfold U. rewrite decide_False; [reflexivity|]. intros [-> ->]. apply Hne. reflexivity. }
  split; r_; [eapply wp_t_row_set|eapply wp_t_row_set_vec]; eauto.
Qed.
(** Bad slice or row numbers, null operands and rows of the wrong length change nothing; readers return null or nothing. *)
Theorem C57_row_rejected h l x y z T zi yi row b : wf h -> abs h !! l = Some (Ten x y z T) -> abs h !! b = Some (AVec row) ->
  (~ (0 <= zi < Z.of_nat z) \/ ~ (0 <= yi < Z.of_nat y) ->
    t_row_get_pool l zi yi h = Ok [] h /\ t_row_get_vec l zi yi h = Ok None h /\ t_row_get_into l zi yi (Some b) h = Ok tt h /\
    t_row_set l zi yi row h = Ok tt h /\ t_row_set_vec l zi yi (Some b) h = Ok tt h) /\
  (length row <> x -> t_row_set l zi yi row h = Ok tt h /\ t_row_set_vec l zi yi (Some b) h = Ok tt h) /\
  t_row_get_into l zi yi None h = Ok tt h /\ t_row_set_vec l zi yi None h = Ok tt h.
Proof.
  intros Hw Hl Hb.
  assert (E : t_size l h = Ok (Z.of_nat x, Z.of_nat y, Z.of_nat z) h).
  { assert (W : wp (t_size l) h (fun s h' => s = (Z.of_nat x, Z.of_nat y, Z.of_nat z) /\ h' = h)) by (eapply wp_t_size; eauto).
    unfold wp in W. destruct (t_size l h); try contradiction. destruct W as [-> ->]. reflexivity. }
  assert (Eb : v_size b h = Ok (Z.of_nat (length row)) h).
  { assert (W : wp (v_size b) h (fun s h' => s = Z.of_nat (length row) /\ h' = h)) by (eapply wp_v_size_vec; eauto).
    unfold wp in W. destruct (v_size b h); try contradiction. destruct W as [-> ->]. reflexivity. }
  split; [|split; [|split; reflexivity]].
  - intros Hi. unfold t_row_get_pool, t_row_get_vec, t_row_get_into, t_row_set, t_row_set_vec, bind. rewrite Eb, !E.
    destruct ((yi <? 0) || (Z.of_nat y <=? yi)) eqn:E1; destruct ((zi <? 0) || (Z.of_nat z <=? zi)) eqn:E2;
      try (exfalso; lia); destruct (Z.of_nat (length row) =? Z.of_nat x); cbn [negb]; split_and!; reflexivity.
  - intros Hn. unfold t_row_set, t_row_set_vec, bind. rewrite Eb, !E.
    destruct (Z.eqb_spec (Z.of_nat (length row)) (Z.of_nat x)); [lia|]. split; reflexivity.
Qed.

(** ** C57: x- and y-slices *)
(** What the accessors really do: x_slice_get(xi) returns, for slice k and position j, the entry of ROW xi and COLUMN j (0 if
    there is none), although the entries with x coordinate xi are those of column xi. *)
Theorem C57_x_slice_get_swaps h l x y z T xi : wf h -> abs h !! l = Some (Ten x y z T) -> 0 <= xi < Z.of_nat x ->
  runs (t_xslice_get l xi) h (fun r h' => exists d g, r = Some d /\ abs h !! d = None /\ abs h' = <[d := Mat y z g]> (abs h) /\
    forall k j, (k < z)%nat -> (j < y)%nat ->
      ((Z.to_nat xi < y)%nat -> (j < x)%nat -> g k j = T k (Z.to_nat xi) j) /\ (~ ((Z.to_nat xi < y)%nat /\ (j < x)%nat) -> g k j = s_zero)).
Proof.
  intros Hw Hl Hx. r_. eapply wp_t_xslice_get; eauto. intros d h' W N A. split; [exact W|]. eexists d, _. split; [reflexivity|].
  split; [exact N|]. split; [exact A|]. intros k j Hk Hj. cbv beta. unfold tget. split; intros.
  - rewrite decide_True by auto. reflexivity.
  - rewrite decide_False by tauto. reflexivity.
Qed.
Theorem C57_x_slice_set_swaps h l x y z T xi b g : wf h -> abs h !! l = Some (Ten x y z T) -> 0 <= xi < Z.of_nat x -> abs h !! b = Some (Mat y z g) ->
  runs (t_xslice_set l xi (Some b)) h (fun _ h' => exists U, abs h' = <[l := Ten x y z U]> (abs h) /\
    forall k j i, ((j = Z.to_nat xi /\ (i < y)%nat) -> U k j i = g k i) /\ (~ (j = Z.to_nat xi /\ (i < y)%nat) -> U k j i = T k j i)).
Proof.
  intros Hw Hl Hx Hb. r_. eapply wp_t_xslice_set; eauto. intros h' W A. split; [exact W|]. eexists. split; [exact A|].
  intros k j i. cbv beta. split; intros.
  - rewrite decide_True by auto. reflexivity.
  - rewrite decide_False by auto. reflexivity.
Qed.
Theorem C57_y_slice_get_swaps h l x y z T yi : wf h -> abs h !! l = Some (Ten x y z T) -> 0 <= yi < Z.of_nat y -> (0 < z)%nat ->
  runs (t_yslice_get l yi) h (fun r h' => exists d g, r = Some d /\ abs h !! d = None /\ abs h' = <[d := Mat x z g]> (abs h) /\
    forall k i, (k < z)%nat -> (i < x)%nat ->
      ((i < y)%nat -> (Z.to_nat yi < x)%nat -> g k i = T k i (Z.to_nat yi)) /\ (~ ((i < y)%nat /\ (Z.to_nat yi < x)%nat) -> g k i = s_zero)).
Proof.
  intros Hw Hl Hx Hz. r_. eapply wp_t_yslice_get; eauto. intros d h' W N A. split; [exact W|]. eexists d, _. split; [reflexivity|].
  split; [exact N|]. split; [exact A|]. intros k j Hk Hj. cbv beta. unfold tget. split; intros.
  - rewrite decide_True by auto. reflexivity.
  - rewrite decide_False by tauto. reflexivity.
Qed.
Theorem C57_y_slice_set_swaps h l x y z T yi b g : wf h -> abs h !! l = Some (Ten x y z T) -> 0 <= yi < Z.of_nat y -> abs h !! b = Some (Mat y z g) ->
  runs (t_yslice_set l yi (Some b)) h (fun _ h' => exists U, abs h' = <[l := Ten x y z U]> (abs h) /\
    forall k j i, ((i = Z.to_nat yi /\ (j < x)%nat /\ (j < y)%nat) -> U k j i = g k j) /\ ((i <> Z.to_nat yi) -> U k j i = T k j i)).
Proof.
  intros Hw Hl Hx Hb. r_. eapply wp_t_yslice_set; eauto. intros h' W A. split; [exact W|]. eexists. split; [exact A|].
  intros k j i. cbv beta. split; intros.
  - rewrite !decide_True by tauto. reflexivity.
  - rewrite decide_False by tauto. reflexivity.
Qed.
End props.
