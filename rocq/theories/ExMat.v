(** * Concrete cases for PropMat.v and PropAlg.v: the hypotheses hold of heaps built through the API, and the
    executable model computes what the theorems say (exact integers). *)
From Verif Require Import PropMat PropAlg Inst.
From Coq Require Import ZArithRing InitialRing.

(** 0: [[1 2] [3 4] [5 6]], 1: [[1 0 2] [5 6 7]], 2: [[7 8] [9 10]], 3: vector [10 20], 4: vector [1 2 3], 5: empty matrix. *)
Definition build : M Z (list loc) :=
  let! a := m_new in m_set_from_lists a [[1;2];[3;4];[5;6]] ;;;
  let! b := m_new in m_set_from_lists b [[1;0;2];[5;6;7]] ;;;
  let! s := m_new in m_set_from_lists s [[7;8];[9;10]] ;;;
  let! v := v_new in v_set_from_vector v [10;20] ;;;
  let! w := v_new in v_set_from_vector w [1;2;3] ;;;
  let! e := m_new in
  ret [a; b; s; v; w; e].
Definition hm : heap Z := match build empty_heap with Ok _ h => h | _ => empty_heap end.

Lemma hm_wf : wf hm.
Proof.
  assert (W : wp build empty_heap (fun _ h => wf h)).
  { unfold build.
    wbind. apply wp_m_new; [apply wf_empty|]. intros a h1 W1 _ A1 _.
    wbind. eapply wp_m_set_from_lists with (c := 2%nat); [exact W1|rewrite A1; apply lookup_insert|repeat constructor|lia|discriminate|vm_compute; discriminate|]. intros h2 W2 _.
    wbind. apply wp_m_new; [exact W2|]. intros b h3 W3 _ A3 _.
    wbind. eapply wp_m_set_from_lists with (c := 3%nat); [exact W3|rewrite A3; apply lookup_insert|repeat constructor|lia|discriminate|vm_compute; discriminate|]. intros h4 W4 _.
    wbind. apply wp_m_new; [exact W4|]. intros s h5 W5 _ A5 _.
    wbind. eapply wp_m_set_from_lists with (c := 2%nat); [exact W5|rewrite A5; apply lookup_insert|repeat constructor|lia|discriminate|vm_compute; discriminate|]. intros h6 W6 _.
    wbind. apply wp_v_new; [exact W6|]. intros v h7 W7 _ A7 _.
    wbind. eapply wp_v_set_from_vector; [exact W7|rewrite A7; apply lookup_insert|vm_compute; discriminate|]. intros h8 W8 _.
    wbind. apply wp_v_new; [exact W8|]. intros w h9 W9 _ A9 _.
    wbind. eapply wp_v_set_from_vector; [exact W9|rewrite A9; apply lookup_insert|vm_compute; discriminate|]. intros h10 W10 _.
    wbind. apply wp_m_new; [exact W10|]. intros e h11 W11 _ _ _. apply wp_ret. exact W11. }
  unfold wp in W. unfold hm. destruct (build empty_heap); try contradiction. exact W.
Qed.
Definition ofl (rows : list (list Z)) : nat -> nat -> Z := fun i j => nth j (nth i rows []) 0.
Definition A := ofl [[1;2];[3;4];[5;6]].
Definition B := ofl [[1;0;2];[5;6;7]].
Definition S := ofl [[7;8];[9;10]].
Example hm_a : abs hm !! 0%nat = Some (Mat 2 3 A). Proof. vm_compute. reflexivity. Qed.
Example hm_b : abs hm !! 1%nat = Some (Mat 3 2 B). Proof. vm_compute. reflexivity. Qed.
Example hm_s : abs hm !! 2%nat = Some (Mat 2 2 S). Proof. vm_compute. reflexivity. Qed.
Example hm_v : abs hm !! 3%nat = Some (AVec [10;20]). Proof. vm_compute. reflexivity. Qed.
Example hm_w : abs hm !! 4%nat = Some (AVec [1;2;3]). Proof. vm_compute. reflexivity. Qed.
Example hm_e : abs hm !! 5%nat = Some (Rows 0 []). Proof. vm_compute. reflexivity. Qed.
Example hm_rows : abs hm !! 0%nat = Some (Rows 2 [[1;2];[3;4];[5;6]]). Proof. vm_compute. reflexivity. Qed.
Example hm_rows_w : width 2 [[1;2];[3;4];[5;6]]. Proof. repeat constructor. Qed.

Global Opaque hm A B S ofl.

Lemma Z_exact : @exact_ring Z _.
Proof. constructor; cbn; intros; lia. Qed.

(** The result of a run, looked at through [abs]. *)
Definition see {X} (m : M Z X) (h : heap Z) (l : loc) : option (aobj Z) := match m h with Ok _ h' => abs h' !! l | _ => None end.

Example ex_C10 : runs (m_duplicate 0%nat) hm (fun d h' => abs hm !! d = None /\ abs h' = <[d := Mat 2 3 A]> (abs hm)).
Proof. exact (C10_matrix_duplicate hm 0%nat 2 3 A hm_wf hm_a). Qed.
Example ex_C11 : runs (let! d := m_get_data 0%nat in m_set_data 2%nat (Some d)) hm (fun _ h' => abs h' = <[2%nat := Mat 2 3 A]> (abs hm)).
Proof. exact (C11_matrix_roundtrip hm 0%nat 2%nat _ _ _ 2 3 A hm_wf hm_a hm_s). Qed.
Example ex_C11_malformed : m_set_data 0%nat (Some ((2, 2), [1;2;3])) hm = Ok tt hm.
Proof. apply (C11_matrix_set_data_malformed hm 0%nat (2,2) [1;2;3]); cbn; [unfold int_max; lia|lia]. Qed.
Example ex_C15 : runs (m_set 0%nat 1 0 99 ;;; m_get 0%nat 1 1) hm (fun w _ => w = 4).
Proof. apply (C15_get_after_set hm 0%nat 2 3 A 1 0 1 1 99 hm_wf hm_a); cbn; lia. Qed.
Example ex_C15_oob : m_get 0%nat (-1) 1 hm = Ok 0 hm.
Proof. exact (proj2 (C15_element_get hm 0%nat 2 3 A (-1) 1 hm_wf hm_a) ltac:(lia)). Qed.
Example ex_C16_add : runs (m_row_add_vec 0%nat (Some 3%nat)) hm (fun _ h' => abs h' = <[0%nat := Rows 2 [[1;2];[3;4];[5;6];[10;20]]]> (abs hm)).
Proof. apply (C16_row_add hm 0%nat 3%nat 2 _ [10;20] hm_wf hm_rows hm_rows_w hm_v); [reflexivity|discriminate|vm_compute; discriminate]. Qed.
Example ex_C16_self : runs (m_rows_add 0%nat (Some 0%nat)) hm (fun _ h' => abs h' = <[0%nat := Rows 2 [[1;2];[3;4];[5;6];[1;2];[3;4];[5;6]]]> (abs hm)).
Proof. apply (C16_rows_add hm 0%nat 0%nat 2 _ _ hm_wf hm_rows hm_rows_w hm_rows hm_rows_w); [lia|discriminate|vm_compute; discriminate]. Qed.
Example ex_C16_remove : runs (m_row_remove 0%nat 1) hm (fun _ h' => abs h' = <[0%nat := Rows 2 [[1;2];[5;6]]]> (abs hm)).
Proof. apply (C16_row_remove hm 0%nat 2 _ 1 hm_wf hm_rows hm_rows_w). cbn. lia. Qed.
Example ex_C16_unordered : runs (m_row_remove_unordered 0%nat 0) hm (fun _ h' => abs h' = <[0%nat := Rows 2 [[5;6];[3;4]]]> (abs hm)).
Proof. apply (C16_row_remove_unordered hm 0%nat 2 [[1;2];[3;4]] 0 [5;6] hm_wf hm_rows hm_rows_w). cbn. lia. Qed.
Example ex_C16_swap : runs (m_row_swap 0%nat 0 2) hm (fun _ h' => abs h' = <[0%nat := Rows 2 [[5;6];[3;4];[1;2]]]> (abs hm)).
Proof. apply (C16_row_swap hm 0%nat 2 _ 0 2 [1;2] [5;6] hm_wf hm_rows hm_rows_w); [lia|lia|reflexivity|reflexivity]. Qed.
Example ex_C16_vecs : runs (m_set_from_vecs 5%nat [Some 3%nat; Some 3%nat]) hm (fun _ h' => abs h' = <[5%nat := Rows 2 [[10;20];[10;20]]]> (abs hm)).
Proof.
  apply (C16_set_from_rows hm 5%nat 0 0 [] 2 [Some 3%nat; Some 3%nat] [[10;20];[10;20]] hm_wf hm_e); [|repeat constructor|lia|discriminate|vm_compute; discriminate].
  repeat constructor; exists 3%nat; (split; [reflexivity|exact hm_v]).
Qed.
Example ex_C17 : runs (m_multn 0%nat (Some 1%nat)) hm (fun o h' => exists d, o = Some d /\ abs hm !! d = None /\ abs h' = <[d := Mat 3 3 (mat_mul 2 A B)]> (abs hm)).
Proof. apply (C17_multn hm 0%nat 1%nat 3 2 3 A B hm_wf hm_a hm_b). vm_compute. discriminate. Qed.
Example ex_C17_val : @Mat Z 3 3 (mat_mul 2 A B) = Rows 3 [[11;12;16];[23;24;34];[35;36;52]]. Proof. vm_compute. reflexivity. Qed.
Example ex_C17_run : see (m_mult 0%nat (Some 1%nat)) hm 0%nat = Some (Rows 3 [[11;12;16];[23;24;34];[35;36;52]]). Proof. vm_compute. reflexivity. Qed.
Example ex_C17_self : runs (m_mult 2%nat (Some 2%nat)) hm (fun _ h' => abs h' = <[2%nat := Mat 2 2 (fun _ _ => s_zero)]> (abs hm)).
Proof. apply (C17_mult_self_is_zero hm 2%nat 2 S); [intros; cbn; lia|exact hm_wf|exact hm_s]. Qed.
Example ex_C17_left : runs (m_multb 0%nat (Some 0%nat) (Some 1%nat)) hm (fun _ h' => abs h' = <[0%nat := Mat 3 3 (fun _ _ => s_zero)]> (abs hm)).
Proof. apply (C17_multb_left_operand_is_zero hm 0%nat 1%nat 3 2 3 A B); [intros; cbn; lia|exact hm_wf|lia|exact hm_a|exact hm_b|lia|vm_compute; discriminate]. Qed.
Example ex_C18 : runs (let! rab := m_multn 0%nat (Some 1%nat) in let! ab := deref rab in let! rx := m_multn ab (Some 0%nat) in let! x := deref rx in
        let! rbd := m_multn 1%nat (Some 0%nat) in let! bd := deref rbd in let! ry := m_multn 0%nat (Some bd) in let! y := deref ry in ret (x, y)) hm
    (fun '(x, y) h' => same h' x y).
Proof. apply (C18_mult_assoc Z_exact hm 0%nat 1%nat 0%nat 3 2 3 2 A B A hm_wf hm_a hm_b hm_a); vm_compute; discriminate. Qed.
Example ex_C19 : runs (m_transpose 0%nat) hm (fun _ h' => abs h' = <[0%nat := Mat 3 2 (fun i j => A j i)]> (abs hm)).
Proof. exact (proj1 (proj2 (C19_transpose hm 0%nat 3 2 A hm_wf hm_a))). Qed.
Example ex_C19_self : see (m_transposeb 2%nat (Some 2%nat)) hm 2%nat = Some (Rows 2 [[7;8];[8;10]]). Proof. vm_compute. reflexivity. Qed.
Example ex_C20 : runs (m_kronn 2%nat (Some 0%nat)) hm (fun o h' => exists d, o = Some d /\ abs hm !! d = None /\
   abs h' = <[d := Mat 4 6 (kron_entry 2 3 S A)]> (abs hm)).
Proof. refine (proj1 (C20_kronecker hm 2%nat 0%nat 2 2 S 2 3 A hm_wf hm_s hm_a _ _ _ _)); vm_compute; discriminate. Qed.
Example ex_C20_val : @Mat Z 4 6 (kron_entry 2 3 S A) = Rows 4 [[7;14;8;16];[21;28;24;32];[35;42;40;48];[9;18;10;20];[27;36;30;40];[45;54;50;60]].
Proof. vm_compute. reflexivity. Qed.
Example ex_C20_ub : m_kron 2%nat (Some 0%nat) hm = UB.
Proof. apply (C20_kronecker_inplace_undefined hm 2%nat 0%nat 2 2 S 2 3 A hm_wf hm_s hm_a); try lia; try (vm_compute; discriminate). Qed.
Example ex_C21 : runs (m_add 2%nat (Some 2%nat)) hm (fun _ h' => abs h' = <[2%nat := Mat 2 2 (fun i j => S i j + S i j)]> (abs hm)).
Proof. destruct (proj1 C21_add hm 2%nat hm_wf) as (_ & H1 & _). exact (H1 2%nat 2%nat 2%nat S S hm_s hm_s). Qed.
Example ex_C28_diag : see (m_diagonal_set 0%nat (Some 4%nat)) hm 0%nat = Some (Rows 2 [[1;2];[3;2];[5;6]]). Proof. vm_compute. reflexivity. Qed.
Example ex_C28_trace : runs (m_trace 0%nat) hm (fun t h' => h' = hm /\ t = 5).
Proof. exact (C28_trace hm 0%nat 2 3 A hm_wf hm_a). Qed.
Example ex_C29 : runs (m_mult_vec 0%nat (Some 3%nat)) hm (fun o h' => exists d, o = Some d /\ abs hm !! d = None /\ abs h' = <[d := AVec (mv_entry A [10;20] <$> seq 0 3)]> (abs hm)) /\ mv_entry A [10;20] <$> seq 0 3 = [50;110;170].
Proof. split; [|vm_compute; reflexivity]. refine (proj1 (C29_mult_vec hm 0%nat 3%nat 2 3 A [10;20] hm_wf hm_a hm_v _ _)); [cbn; lia|vm_compute; discriminate]. Qed.
Example ex_C29_sub : runs (v_sub_rows 3%nat (Some 0%nat)) hm (fun _ h' => abs h' = <[3%nat := AVec [1;8]]> (abs hm)).
Proof. exact (proj1 (C29_subtract_matrix_rows hm 3%nat 0%nat 2 _ [10;20] hm_wf hm_rows hm_rows_w hm_v eq_refl)). Qed.
Example ex_C30 : m_is_equal_approx 0%nat (Some 0%nat) 0 hm = Ok true hm /\ m_is_equal_approx 0%nat (Some 1%nat) 5 hm = Ok false hm.
Proof. split; vm_compute; reflexivity. Qed.
