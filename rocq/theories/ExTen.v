(** * Concrete cases for PropTen.v, PropTen2.v, PropTen3.v (exact integers): a heap built through the API meets their
    hypotheses, and the defects recorded there are visible on it. *)
From Verif Require Import PropTen3 Inst.

(** 0: [[1 2] [3 4]], 1: [[5 6] [7 8]], 2: tensor of those two slices, 3: empty tensor, 4: vector [10 20 30 40], 5: vector [1 10]. *)
Definition build : M Z (list loc) :=
  let! a := m_new in m_set_from_lists a [[1;2];[3;4]] ;;;
  let! b := m_new in m_set_from_lists b [[5;6];[7;8]] ;;;
  let! t := t_new in t_set_from_mats t [Some a; Some b] ;;;
  let! u := t_new in
  let! v := v_new in v_set_from_vector v [10;20;30;40] ;;;
  let! w := v_new in v_set_from_vector w [1;10] ;;;
  ret [a; b; t; u; v; w].
Definition ht : heap Z := match build empty_heap with Ok _ h => h | _ => empty_heap end.
Lemma ht_wf : wf ht.
Proof.
  assert (W : wp build empty_heap (fun _ h => wf h)).
  { unfold build.
    wbind. apply wp_m_new; [apply wf_empty|]. intros a h1 W1 N1 A1 _.
    wbind. eapply wp_m_set_from_lists with (c := 2%nat); [exact W1|rewrite A1; apply lookup_insert|repeat constructor|lia|discriminate|vm_compute; discriminate|]. intros h2 W2 A2.
    wbind. apply wp_m_new; [exact W2|]. intros b h3 W3 N3 A3 _.
    wbind. eapply wp_m_set_from_lists with (c := 2%nat); [exact W3|rewrite A3; apply lookup_insert|repeat constructor|lia|discriminate|vm_compute; discriminate|]. intros h4 W4 A4.
    wbind. apply wp_t_new; [exact W4|]. intros t h5 W5 N5 A5.
    assert (Hab : a <> b) by (intros ->; rewrite A2, lookup_insert in N3; discriminate).
    assert (Hta : t <> a) by (intros ->; rewrite A4, lookup_insert_ne, A3, lookup_insert_ne, A2, lookup_insert in N5 by auto; discriminate).
    assert (Htb : t <> b) by (intros ->; rewrite A4, lookup_insert in N5; discriminate).
    wbind. eapply wp_t_set_from_mats with (x := 2%nat) (y := 2%nat) (sl := [[1;2;3;4];[5;6;7;8]]);
      [exact W5|rewrite A5; apply lookup_insert| |cbn; lia|discriminate|vm_compute; discriminate|].
    { constructor; [|constructor; [|constructor]].
      - exists a. split; [reflexivity|]. rewrite A5, lookup_insert_ne, A4, lookup_insert_ne, A3, lookup_insert_ne, A2, lookup_insert by auto. reflexivity.
      - exists b. split; [reflexivity|]. rewrite A5, lookup_insert_ne, A4, lookup_insert by auto. reflexivity. }
    intros h6 W6 _.
    wbind. apply wp_t_new; [exact W6|]. intros u h7 W7 _ _.
    wbind. apply wp_v_new; [exact W7|]. intros v h8 W8 _ A8 _.
    wbind. eapply wp_v_set_from_vector; [exact W8|rewrite A8; apply lookup_insert|vm_compute; discriminate|]. intros h9 W9 _.
    wbind. apply wp_v_new; [exact W9|]. intros w h10 W10 _ A10 _.
    wbind. eapply wp_v_set_from_vector; [exact W10|rewrite A10; apply lookup_insert|vm_compute; discriminate|]. intros h11 W11 _.
    apply wp_ret. exact W11. }
  unfold wp in W. unfold ht. destruct (build empty_heap); try contradiction. exact W.
Qed.
Definition sls : list (list Z) := [[1;2;3;4];[5;6;7;8]].
Definition T : nat -> nat -> nat -> Z := fun k j i => nth (2 * j + i) (nth k sls []) 0.
Example ht_t : abs ht !! 2%nat = Some (Ten 2 2 2 T). Proof. vm_compute. reflexivity. Qed.
Example ht_s : abs ht !! 2%nat = Some (Slices 2 2 sls). Proof. vm_compute. reflexivity. Qed.
Example ht_sw : width (2 * 2) sls. Proof. repeat constructor. Qed.
Example ht_m : abs ht !! 1%nat = Some (AMat 2 2 [5;6;7;8]). Proof. vm_compute. reflexivity. Qed.
Example ht_mm : abs ht !! 1%nat = Some (Mat 2 2 (T 1)). Proof. vm_compute. reflexivity. Qed.
Example ht_u : abs ht !! 3%nat = Some (STen 0 0 0, []). Proof. vm_compute. reflexivity. Qed.
Example ht_v : abs ht !! 4%nat = Some (AVec [10;20;30;40]). Proof. vm_compute. reflexivity. Qed.
Example ht_w : abs ht !! 5%nat = Some (AVec [1;10]). Proof. vm_compute. reflexivity. Qed.
Example fits22 : fits 2 2. Proof. vm_compute. discriminate. Qed.
Example ht_z : t_zds 2%nat ht = Ok 4 ht. Proof. vm_compute. reflexivity. Qed.
Global Opaque ht.
Definition see {X} (m : M Z X) (h : heap Z) (l : loc) : option (aobj Z) := match m h with Ok _ h' => abs h' !! l | _ => None end.

Example ex_C57_get : t_get 2%nat 1 0 1 ht = Ok 6 ht.
Proof. exact (proj1 (C57_element_get ht 2%nat 2 2 2 T 1 0 1 ht_wf ht_t) ltac:(lia)). Qed.
Example ex_C57_set : runs (t_set 2%nat 1 0 1 99) ht (fun _ h' => t_get 2%nat 1 0 1 h' = Ok 99 h' /\
    forall z' y' x', (z', y', x') <> (1, 0, 1) -> exists w, t_get 2%nat z' y' x' ht = Ok w ht /\ t_get 2%nat z' y' x' h' = Ok w h').
Proof. apply (C57_get_after_set ht 2%nat 2 2 2 T 1 0 1 99 ht_wf ht_t); lia. Qed.
Example ex_C57_row : runs (t_row_get_pool 2%nat 1 0) ht (fun v h' => h' = ht /\ v = [5;6]).
Proof. exact (proj1 (C57_row_get ht 2%nat 2 2 2 T 1 0 ht_wf ht_t ltac:(lia) ltac:(lia))). Qed.
(** The value returned by a run. *)
Definition val {X} (m : M Z X) (h : heap Z) : option X := match m h with Ok u _ => Some u | _ => None end.
(** row_get_vector(1, 0) returns row 0 of slice 0, not of slice 1. *)
Theorem C57_row_get_vector_refuted : exists (h : heap Z) l, wf h /\ abs h !! l = Some (Ten 2 2 2 T) /\
  val (t_row_get l 1 0) h = Some [1;2] /\ vlist 2 (T 1 0) = [5;6].
Proof. exists ht, 2%nat. split; [exact ht_wf|]. split; [exact ht_t|]. vm_compute. split; reflexivity. Qed.
(** x_slice_get(0) returns row 0 of every slice instead of column 0; x_slice_set(0, _) overwrites row 0 and leaves column 0. *)
Theorem C57_x_slice_refuted : exists (h : heap Z) l b, wf h /\ abs h !! l = Some (Ten 2 2 2 T) /\ abs h !! b = Some (Mat 2 2 (T 1)) /\
  val (let! r := t_xslice_get l 0 in let! m := deref r in m_get m 0 1) h = Some 2 /\ T 0 1 0 = 3 /\
  val (t_xslice_set l 0 (Some b) ;;; t_get l 0 0 1) h = Some 6 /\ val (t_xslice_set l 0 (Some b) ;;; t_get l 0 1 0) h = Some 3 /\ T 1 0 1 = 6.
Proof.
  exists ht, 2%nat, 1%nat. split; [exact ht_wf|]. split; [exact ht_t|]. split; [exact ht_mm|]. vm_compute. split_and!; reflexivity.
Qed.
Theorem C57_y_slice_refuted : exists (h : heap Z) l, wf h /\ abs h !! l = Some (Ten 2 2 2 T) /\
  val (let! r := t_yslice_get l 0 in let! m := deref r in m_get m 0 1) h = Some 3 /\ T 0 0 1 = 2.
Proof. exists ht, 2%nat. split; [exact ht_wf|]. split; [exact ht_t|]. vm_compute. split_and!; reflexivity. Qed.
Example ex_C58_add : runs (t_slice_add_vec 2%nat (Some 4%nat)) ht (fun _ h' => abs h' = <[2%nat := Slices 2 2 [[1;2;3;4];[5;6;7;8];[10;20;30;40]]]> (abs ht)).
Proof. apply runs_wp. apply (wp_t_slice_add_vec ht 2%nat 2 2 sls 4%nat [10;20;30;40]); auto using ht_wf, ht_s, ht_sw, ht_v, fits22; vm_compute; discriminate. Qed.
Example ex_C58_UB : t_slice_remove_unordered 2%nat 1 ht = UB.
Proof. apply (C58_remove_unordered_UB ht 2%nat 2 2 sls 1 ht_wf ht_s ht_sw); cbn; lia. Qed.
Example ex_C58_get : runs (t_slice_get 2%nat 1) ht (fun v h' => v = [5;6;7;8] /\ h' = ht).
Proof. exact (proj1 (C58_slice_get ht 2%nat 2 2 sls 1 _ ht_wf ht_s ht_sw ltac:(lia) eq_refl)). Qed.
Example ex_C58_edits : runs (edits_call 2%nat [Add [0;0;0;1]; Swap 0 2; Remove 1; Put 1 [9;9;9;9]; Remove 7]) ht
  (fun _ h' => abs h' = <[2%nat := Slices 2 2 [[0;0;0;1];[9;9;9;9]]]> (abs ht)).
Proof.
  set (es := [Add [0;0;0;1]; Swap 0 2; Remove 1; Put 1 [9;9;9;9]; Remove 7]).
  assert (P1 : Forall (edit_ok (2 * 2)) es) by (repeat constructor).
  assert (P2 : Z.of_nat ((length sls + length es) * (2 * 2)) <= int_max) by (vm_compute; discriminate).
  assert (P3 : (0 < 2 * 2)%nat) by lia.
  destruct (C58_any_edit_sequence ht 2%nat 2 2 sls es ht_wf ht_s ht_sw P3 fits22 P1 P2) as (u & h' & E & W & A).
  exists u, h'. split; [exact E|]. split; [exact W|]. rewrite A. f_equal.
Qed.
Example ex_C59_add : runs (t_addn 2%nat (Some 2%nat)) ht (fun r h' => exists d, r = Some d /\ abs ht !! d = None /\ abs h' = <[d := Ten 2 2 2 (fun k j i => T k j i + T k j i)]> (abs ht)).
Proof. exact (proj1 (proj2 (C59_binary ht 3%nat 0 0 0 [] 2%nat 2%nat 2 2 2 T T Add2 ht_wf ht_u ht_t ht_t fits22))). Qed.
Example ex_C59_roundtrip : runs (let! arr := t_get_data 2%nat in t_set_data 3%nat (Some arr)) ht (fun _ h' => abs h' = <[3%nat := Ten 2 2 2 T]> (abs ht)).
Proof. exact (C59_roundtrip ht 2%nat 3%nat 0 0 0 [] 2 2 2 T ht_wf ht_t fits22 ht_u). Qed.
Example ex_C59_mult : see (t_vec_mult 2%nat (Some 5%nat)) ht 6%nat = Some (AMat 2 2 [21;43;65;87]).
Proof. vm_compute. reflexivity. Qed.
Example ex_C59_mult_hyp : runs (t_vec_mult 2%nat (Some 5%nat)) ht (fun d h' => exists g, abs ht !! d = None /\ abs h' = <[d := Mat 2 2 g]> (abs ht) /\
  forall k j, (k < 2)%nat -> (j < 2)%nat -> g k j = foldl (fun acc i => s_add acc (s_mul (T k j i) (nth i [1;10] s_zero))) s_zero (seq 0 2)).
Proof. apply (C59_tensor_vec_mult ht 2%nat 2 2 2 T 5%nat [1;10] ht_wf ht_t ht_w eq_refl). vm_compute. discriminate. Qed.
