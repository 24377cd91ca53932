(** * Properties C10, C11, C15-C21, C28-C30 (matrices): theorems.

    Same conventions as in PropVec.v.  [Mat c r f] is the fully initialised matrix object with [c]
    columns, [r] rows and entry [f i j] in row [i], column [j]; [Rows c rows] is the matrix whose rows
    are the lists [rows], all of length [c] ([width c rows]) (MatSpec.v). *)
From Verif Require Export PropVec MatProofs6.

Section props.
Context {F : Type} `{Scalar F}.
Implicit Types (h : heap F) (l a b d : loc) (c r i j k : nat) (f g fa fb : nat -> nat -> F) (xs ys : list F) (rows : list (list F)).

Ltac r_ := apply runs_wp.

(** ** C10 (matrices) *)
Theorem C10_matrix_duplicate h l c r f : wf h -> abs h !! l = Some (Mat c r f) ->
  runs (m_duplicate l) h (fun d h' => abs h !! d = None /\ abs h' = <[d := Mat c r f]> (abs h)).
Proof. intros. r_. eapply wp_m_duplicate; eauto. Qed.
Theorem C10_matrix_set_from h l x0 y0 cs b c r f : wf h -> abs h !! l = Some (SMat x0 y0, cs) -> abs h !! b = Some (Mat c r f) ->
  runs (m_set_from l (Some b)) h (fun _ h' => abs h' = <[l := Mat c r f]> (abs h)).
Proof. intros. r_. cbn. eapply wp_m_set_from_mat; eauto. Qed.
Theorem C10_matrix_set_from_null h l : m_set_from l None h = Ok tt h.
Proof. reflexivity. Qed.

Lemma m_get_val h l c r f y x : wf h -> abs h !! l = Some (Mat c r f) ->
  m_get l y x h = Ok (if decide (0 <= y < Z.of_nat r /\ 0 <= x < Z.of_nat c) then f (Z.to_nat y) (Z.to_nat x) else s_zero) h.
Proof.
  intros Hw Hl. assert (W : wp (m_get l y x) h (fun v h' => v = (if decide (0 <= y < Z.of_nat r /\ 0 <= x < Z.of_nat c) then f (Z.to_nat y) (Z.to_nat x) else s_zero) /\ h' = h)).
  { eapply wp_m_get; eauto. }
  unfold wp in W. destruct (m_get l y x h); try contradiction. destruct W as [-> ->]. reflexivity.
Qed.

(** Writing any entry of one of two distinct matrices never changes what is read from the other. *)
Theorem C10_matrix_writes_independent h a b c r f c' r' g (y x : Z) (v : F) : wf h -> a <> b ->
  abs h !! a = Some (Mat c r f) -> abs h !! b = Some (Mat c' r' g) ->
  runs (m_set a y x v) h (fun _ h' => forall y' x', exists w, m_get b y' x' h = Ok w h /\ m_get b y' x' h' = Ok w h').
Proof.
  intros Hw Hab Ha Hb. r_. pose proof Ha as Ha'. rewrite Mat_MatP in Ha'. eapply wp_m_set; eauto. intros h' W _ A. split; [exact W|].
  intros y' x'.
  assert (Hb' : abs h' !! b = Some (Mat c' r' g)).
  { rewrite A. destruct (decide _); [rewrite lookup_insert_ne by auto|]; exact Hb. }
  eexists. split; eapply m_get_val; eauto.
Qed.

(** ** C11 (matrices) *)
Theorem C11_matrix_get_data h l c r f : wf h -> abs h !! l = Some (Mat c r f) ->
  runs (m_get_data l) h (fun '(s, xs) h' => s = (Z.of_nat c, Z.of_nat r) /\ h' = h /\ length xs = (r * c)%nat /\
    forall i j, (i < r)%nat -> (j < c)%nat -> xs !! (i * c + j)%nat = Some (f i j)).
Proof.
  intros Hw Hl. r_. eapply wp_m_get_data; eauto. split; [exact Hw|]. split; [reflexivity|]. split; [reflexivity|].
  split; [apply mlist_length|]. intros. apply mlist_lookup; auto.
Qed.
Theorem C11_matrix_roundtrip h l b x0 y0 cs c r f : wf h -> abs h !! l = Some (Mat c r f) -> abs h !! b = Some (SMat x0 y0, cs) ->
  runs (let! arr := m_get_data l in m_set_data b (Some arr)) h (fun _ h' => abs h' = <[b := Mat c r f]> (abs h)).
Proof.
  intros Hw Hl Hb. r_. wbind. eapply wp_m_get_data; eauto. destruct (amat_len h l _ _ _ Hw Hl) as [E1 E2].
  eapply wp_m_set_data; eauto.
Qed.
(** Wrong arity of the array, or a size that does not match the number of elements. *)
Theorem C11_matrix_set_data_malformed h l s xs : - int_max - 1 <= s.1 * s.2 <= int_max -> s.1 * s.2 <> Z.of_nat (length xs) ->
  m_set_data l None h = Ok tt h /\ m_set_data l (Some (s, xs)) h = Ok tt h.
Proof.
  intros Hs Hne. split; [reflexivity|]. unfold m_set_data, bind, chk.
  destruct (Z.leb_spec (- int_max - 1) (s.1 * s.2)); [|lia]. destruct (Z.leb_spec (s.1 * s.2) int_max); [|lia]. cbn.
  destruct (Z.eqb_spec (s.1 * s.2) (Z.of_nat (length xs))); [congruence|]. reflexivity.
Qed.

(** ** C15 *)
Theorem C15_element_get h l c r f (y x : Z) : wf h -> abs h !! l = Some (Mat c r f) ->
  (0 <= y < Z.of_nat r /\ 0 <= x < Z.of_nat c -> m_get l y x h = Ok (f (Z.to_nat y) (Z.to_nat x)) h) /\
  (~ (0 <= y < Z.of_nat r /\ 0 <= x < Z.of_nat c) -> m_get l y x h = Ok s_zero h).
Proof.
  intros Hw Hl. rewrite (m_get_val h l c r f y x Hw Hl). split; intros.
  - rewrite decide_True by lia. reflexivity.
  - rewrite decide_False by lia. reflexivity.
Qed.
Theorem C15_element_set h l c r f (y x : Z) (v : F) : wf h -> abs h !! l = Some (Mat c r f) ->
  0 <= y < Z.of_nat r -> 0 <= x < Z.of_nat c ->
  runs (m_set l y x v) h (fun _ h' => exists g, abs h' = <[l := Mat c r g]> (abs h) /\
    g (Z.to_nat y) (Z.to_nat x) = v /\ forall i j, (i, j) <> (Z.to_nat y, Z.to_nat x) -> g i j = f i j).
Proof.
  intros Hw Hl Hy Hx. r_. rewrite Mat_MatP in Hl. eapply wp_m_set; eauto. intros h' W _ A. split; [exact W|].
  rewrite decide_True in A by lia.
  exists (fun i j => if decide (i = Z.to_nat y /\ j = Z.to_nat x) then v else f i j). split.
  - rewrite A, Mat_MatP. f_equal. apply MatP_ext. intros i j _ _. unfold upd. destruct (decide _); reflexivity.
  - split; [rewrite decide_True by auto; reflexivity|]. intros i j Hij. rewrite decide_False; [reflexivity|]. intros [-> ->]. congruence.
Qed.
Theorem C15_element_set_out_of_range h l c r f (y x : Z) (v : F) : wf h -> abs h !! l = Some (Mat c r f) ->
  ~ (0 <= y < Z.of_nat r /\ 0 <= x < Z.of_nat c) -> runs (m_set l y x v) h (fun _ h' => abs h' = abs h).
Proof.
  intros Hw Hl Hn. r_. rewrite Mat_MatP in Hl. eapply wp_m_set; eauto. intros h' W _ A. rewrite decide_False in A by lia. auto.
Qed.
(** Read back after a write, at any two coordinate pairs. *)
Theorem C15_get_after_set h l c r f (y x y' x' : Z) (v : F) : wf h -> abs h !! l = Some (Mat c r f) ->
  0 <= y < Z.of_nat r -> 0 <= x < Z.of_nat c -> 0 <= y' < Z.of_nat r -> 0 <= x' < Z.of_nat c ->
  runs (m_set l y x v ;;; m_get l y' x') h (fun w h' =>
    w = if decide ((y', x') = (y, x)) then v else f (Z.to_nat y') (Z.to_nat x')).
Proof.
  intros Hw Hl Hy Hx Hy' Hx'. r_. wbind. rewrite Mat_MatP in Hl. eapply wp_m_set; eauto. intros h' W _ A. rewrite decide_True in A by lia.
  assert (Hl' : abs h' !! l = Some (Mat c r (fun i j => if decide (i = Z.to_nat y /\ j = Z.to_nat x) then v else f i j))).
  { rewrite A, lookup_insert, Mat_MatP. f_equal. apply MatP_ext. intros i j _ _. unfold upd. destruct (decide _); reflexivity. }
  eapply wp_m_get; eauto. split; [exact W|]. rewrite decide_True by lia.
  destruct (decide ((y', x') = (y, x))) as [E|E].
  - injection E as -> ->. rewrite decide_True by auto. reflexivity.
  - rewrite decide_False; [reflexivity|]. intros [E1 E2]. apply E. f_equal; lia.
Qed.
(** The flat index of entry (y, x), as used by element_get_index / element_set_index, is y * columns + x. *)
Theorem C15_element_get_index h l c r f i j : wf h -> abs h !! l = Some (Mat c r f) -> (i < r)%nat -> (j < c)%nat ->
  m_get_index l (Z.of_nat (i * c + j)) h = Ok (f i j) h.
Proof.
  intros Hw Hl Hi Hj. assert (W : wp (m_get_index l (Z.of_nat (i * c + j))) h (fun v h' => v = f i j /\ h' = h)).
  { unfold m_get_index. wbind. eapply wp_m_data_size; [exact Hl|].
    destruct (Z.ltb_spec (Z.of_nat (i * c + j)) 0); [lia|]. destruct (Z.leb_spec (Z.of_nat c * Z.of_nat r) (Z.of_nat (i * c + j))); [nia|]. cbn [orb].
    wbind. eapply wp_data_ptr; [exact Hl|]. intros p Hp. rewrite Nat2Z.inj_add, Nat2Z.inj_mul.
    pose proof Hl as Hl2. rewrite Mat_MatP in Hl2.
    eapply wp_mload; [apply mst_init; [exact Hw|exact Hl2]|exact Hp|exact Hi|exact Hj|reflexivity|auto]. }
  unfold wp in W. destruct (m_get_index l (Z.of_nat (i * c + j)) h); try contradiction. destruct W as [-> ->]. reflexivity.
Qed.
Theorem C15_element_index_out_of_range h l c r f (z : Z) (v : F) : abs h !! l = Some (Mat c r f) -> ~ (0 <= z < Z.of_nat (r * c)) ->
  m_get_index l z h = Ok s_zero h /\ m_set_index l z v h = Ok tt h.
Proof.
  intros Hl Hz.
  assert (D : m_data_size l h = Ok (Z.of_nat c * Z.of_nat r) h).
  { assert (W : wp (m_data_size l) h (fun v h' => v = Z.of_nat c * Z.of_nat r /\ h' = h)) by (eapply wp_m_data_size; eauto).
    unfold wp in W. destruct (m_data_size l h); try contradiction. destruct W as [-> ->]. reflexivity. }
  assert (E : (z <? 0) || (Z.of_nat c * Z.of_nat r <=? z) = true).
  { apply orb_true_iff. destruct (Z_lt_dec z 0); [left; lia|right]. apply Z.leb_le. nia. }
  unfold m_get_index, m_set_index, bind. rewrite D, E. auto.
Qed.

(** ** C16 *)
Theorem C16_row_add h l b c rows v : wf h -> abs h !! l = Some (Rows c rows) -> width c rows -> abs h !! b = Some (AVec v) ->
  length v = c -> v <> [] -> Z.of_nat ((length rows + 1) * c) <= int_max ->
  runs (m_row_add_vec l (Some b)) h (fun _ h' => abs h' = <[l := Rows c (rows ++ [v])]> (abs h)) /\
  runs (m_row_add l v) h (fun _ h' => abs h' = <[l := Rows c (rows ++ [v])]> (abs h)).
Proof. intros. split; r_; [eapply wp_m_row_add_vec|eapply wp_m_row_add]; eauto. Qed.
(** The first row added to an empty matrix fixes the width. *)
Theorem C16_row_add_first h l b v : wf h -> abs h !! l = Some (Rows 0 []) -> abs h !! b = Some (AVec v) -> v <> [] ->
  runs (m_row_add_vec l (Some b)) h (fun _ h' => abs h' = <[l := Rows (length v) [v]]> (abs h)) /\
  runs (m_row_add l v) h (fun _ h' => abs h' = <[l := Rows (length v) [v]]> (abs h)).
Proof.
  intros Hw Hl Hb Hv. split; r_; [eapply wp_m_row_add_vec_first|eapply wp_m_row_add_first]; eauto.
  eapply avec_len; eauto.
Qed.
Theorem C16_row_add_rejected h l c rows v : abs h !! l = Some (Rows c rows) -> v = [] \/ (length v <> c /\ c <> 0%nat) ->
  m_row_add l v h = Ok tt h /\ (forall b, abs h !! b = Some (AVec v) -> m_row_add_vec l (Some b) h = Ok tt h) /\ m_row_add_vec l None h = Ok tt h.
Proof.
  intros Hl Hv. split; [eapply m_row_add_reject; eauto|]. split; [|reflexivity]. intros b Hb.
  assert (W : wp (m_row_add_vec l (Some b)) h (fun _ h' => h' = h)).
  { unfold m_row_add_vec. wbind. eapply wp_v_size; [exact Hb|]. destruct Hv as [->|[H1 H2]]; [reflexivity|].
    destruct (Z.eqb_spec (Z.of_nat (length v)) 0); [reflexivity|]. wbind. eapply wp_m_size; [exact Hl|].
    destruct (Z.eqb_spec (Z.of_nat c) 0); [lia|]. destruct (Z.eqb_spec (Z.of_nat c) (Z.of_nat (length v))); [lia|]. reflexivity. }
  unfold wp in W. destruct (m_row_add_vec l (Some b) h) as [[] ?| | |]; try contradiction. congruence.
Qed.
(** [b] may be [l] itself. *)
Theorem C16_rows_add h l b c rows rows2 : wf h -> abs h !! l = Some (Rows c rows) -> width c rows ->
  abs h !! b = Some (Rows c rows2) -> width c rows2 -> (0 < c)%nat -> rows2 <> [] -> Z.of_nat ((length rows + length rows2) * c) <= int_max ->
  runs (m_rows_add l (Some b)) h (fun _ h' => abs h' = <[l := Rows c (rows ++ rows2)]> (abs h)).
Proof. intros. r_. eapply wp_m_rows_add; eauto. Qed.
Theorem C16_rows_add_rejected h l b c rows c' rows2 : abs h !! l = Some (Rows c rows) -> abs h !! b = Some (Rows c' rows2) ->
  (rows2 = [] \/ c' = 0%nat \/ (c <> c' /\ c <> 0%nat)) -> width c' rows2 -> m_rows_add l (Some b) h = Ok tt h /\ m_rows_add l None h = Ok tt h.
Proof.
  intros Hl Hb Hn Hw2. split; [|reflexivity].
  assert (W : wp (m_rows_add l (Some b)) h (fun _ h' => h' = h)).
  { unfold m_rows_add. wbind. eapply wp_m_data_size; [exact Hb|].
    destruct (Z.eqb_spec (Z.of_nat c' * Z.of_nat (length rows2)) 0) as [|Hnz]; [reflexivity|].
    destruct Hn as [->|[->|[H1 H2]]]; [cbn in Hnz; lia|cbn in Hnz; lia|].
    wbind. eapply wp_m_size; [exact Hb|]. wbind. eapply wp_m_size; [exact Hl|].
    destruct (Z.eqb_spec (Z.of_nat c) 0); [lia|]. destruct (Z.eqb_spec (Z.of_nat c') (Z.of_nat c)); [lia|]. reflexivity. }
  unfold wp in W. destruct (m_rows_add l (Some b) h) as [[] ?| | |]; try contradiction. congruence.
Qed.
Theorem C16_row_remove h l c rows (i : Z) : wf h -> abs h !! l = Some (Rows c rows) -> width c rows -> 0 <= i < Z.of_nat (length rows) ->
  runs (m_row_remove l i) h (fun _ h' => abs h' = <[l := Rows c (take (Z.to_nat i) rows ++ drop (S (Z.to_nat i)) rows)]> (abs h)).
Proof. intros. r_. eapply wp_m_row_remove; eauto. intros h' W A. rewrite delete_take_drop' in A. auto. Qed.
(** Row [i] is replaced by the last row. *)
Theorem C16_row_remove_unordered h l c rows (i : Z) z : wf h -> abs h !! l = Some (Rows c (rows ++ [z])) -> width c (rows ++ [z]) ->
  0 <= i <= Z.of_nat (length rows) ->
  runs (m_row_remove_unordered l i) h (fun _ h' => abs h' = <[l := Rows c (<[Z.to_nat i := z]> rows)]> (abs h)).
Proof.
  intros Hw Hl Hwd Hi. r_. eapply wp_m_row_remove_unordered; eauto. { rewrite app_length; cbn; lia. }
  intros h' W A. split; [exact W|]. rewrite A. do 2 f_equal. unfold remove_unordered. rewrite list.last_snoc, app_length. cbn.
  replace (length rows + 1 - 1)%nat with (length rows) by lia.
  destruct (decide (Z.to_nat i < length rows)%nat) as [Hlt|Hge].
  - rewrite insert_app_l by lia. rewrite take_app_alt by (rewrite insert_length; reflexivity). reflexivity.
  - replace (Z.to_nat i) with (length rows + 0)%nat by lia. rewrite insert_app_r. rewrite take_app. rewrite list_insert_ge by lia. reflexivity.
Qed.
Theorem C16_row_swap h l c rows (i j : Z) ri rj : wf h -> abs h !! l = Some (Rows c rows) -> width c rows ->
  0 <= i -> 0 <= j -> rows !! Z.to_nat i = Some ri -> rows !! Z.to_nat j = Some rj ->
  runs (m_row_swap l i j) h (fun _ h' => abs h' = <[l := Rows c (<[Z.to_nat i := rj]> (<[Z.to_nat j := ri]> rows))]> (abs h)).
Proof.
  intros Hw Hl Hwd Hi Hj Ei Ej. pose proof (lookup_lt_Some _ _ _ Ei). pose proof (lookup_lt_Some _ _ _ Ej).
  r_. eapply wp_m_row_swap; eauto; try lia. intros h' W A. unfold swap_rows in A. rewrite Ei, Ej in A. auto.
Qed.
Theorem C16_row_set h l b c rows (y : Z) v : wf h -> abs h !! l = Some (Rows c rows) -> width c rows -> abs h !! b = Some (AVec v) ->
  length v = c -> 0 <= y < Z.of_nat (length rows) ->
  runs (m_row_set_vec l y (Some b)) h (fun _ h' => abs h' = <[l := Rows c (<[Z.to_nat y := v]> rows)]> (abs h)) /\
  runs (m_row_set l y v) h (fun _ h' => abs h' = <[l := Rows c (<[Z.to_nat y := v]> rows)]> (abs h)).
Proof. intros. split; r_; [eapply wp_m_row_set_vec|eapply wp_m_row_set]; eauto. Qed.
Theorem C16_row_get h l c rows (y : Z) row t n cs : wf h -> abs h !! l = Some (Rows c rows) -> width c rows -> Z.of_nat c <= int_max ->
  0 <= y -> rows !! Z.to_nat y = Some row -> abs h !! t = Some (SVec n, cs) ->
  runs (m_row_get l y) h (fun xs h' => xs = row /\ h' = h) /\
  runs (m_row_get_vec l y) h (fun o h' => exists d, o = Some d /\ abs h !! d = None /\ abs h' = <[d := AVec row]> (abs h)) /\
  runs (m_row_get_into l y (Some t)) h (fun _ h' => abs h' = <[t := AVec row]> (abs h)).
Proof.
  intros. split; [|split]; r_; [eapply wp_m_row_get|eapply wp_m_row_get_vec|eapply wp_m_row_get_into]; eauto.
Qed.
(** Out-of-range row numbers (negative included), vectors of the wrong length and null references change nothing. *)
Theorem C16_out_of_range h l c rows (y y2 : Z) v : abs h !! l = Some (Rows c rows) -> ~ 0 <= y < Z.of_nat (length rows) ->
  m_row_remove l y h = Ok tt h /\ m_row_remove_unordered l y h = Ok tt h /\ m_row_swap l y y2 h = Ok tt h /\ m_row_swap l y2 y h = Ok tt h /\
  m_row_set l y v h = Ok tt h /\ m_row_get l y h = Ok [] h /\ m_row_get_vec l y h = Ok None h /\
  (forall t, m_row_get_into l y (Some t) h = Ok tt h) /\
  (forall b, abs h !! b = Some (AVec v) -> m_row_set_vec l y (Some b) h = Ok tt h).
Proof.
  intros Hl Hy.
  assert (S : m_size l h = Ok (Z.of_nat c, Z.of_nat (length rows)) h).
  { assert (W : wp (m_size l) h (fun v h' => v = (Z.of_nat c, Z.of_nat (length rows)) /\ h' = h)) by (eapply wp_m_size; eauto; auto).
    unfold wp in W. destruct (m_size l h); try contradiction. destruct W as [-> ->]. reflexivity. }
  assert (E : (y <? 0) || (Z.of_nat (length rows) <=? y) = true).
  { apply orb_true_iff. destruct (Z_lt_dec y 0); [left; lia|right]. apply Z.leb_le. lia. }
  split; [unfold m_row_remove, bind; rewrite S, E; reflexivity|].
  split; [unfold m_row_remove_unordered, bind; rewrite S, E; reflexivity|].
  split; [unfold m_row_swap, bind; rewrite S, E; reflexivity|].
  split; [unfold m_row_swap, bind; rewrite S, E; destruct ((y2 <? 0) || _); reflexivity|].
  split; [unfold m_row_set, bind; rewrite S; destruct (negb _); [reflexivity|]; rewrite E; reflexivity|].
  split; [unfold m_row_get, bind; rewrite S, E; reflexivity|].
  split; [unfold m_row_get_vec, bind; rewrite S, E; reflexivity|].
  split; [intros t; unfold m_row_get_into, bind; rewrite S, E; reflexivity|].
  intros b Hb. assert (W : wp (v_size b) h (fun n h' => n = Z.of_nat (length v) /\ h' = h)) by (eapply wp_v_size; eauto; auto).
  unfold wp in W. unfold m_row_set_vec, bind. destruct (v_size b h); try contradiction. destruct W as [-> ->]. rewrite S.
  destruct (negb _); [reflexivity|]. rewrite E. reflexivity.
Qed.
Theorem C16_row_set_wrong_width h l c rows (y : Z) v : abs h !! l = Some (Rows c rows) -> length v <> c ->
  m_row_set l y v h = Ok tt h /\ (forall b, abs h !! b = Some (AVec v) -> m_row_set_vec l y (Some b) h = Ok tt h) /\
  m_row_set_vec l y None h = Ok tt h /\ m_row_get_into l y None h = Ok tt h.
Proof.
  intros Hl Hv.
  assert (W : wp (m_row_set l y v) h (fun _ h' => h' = h)).
  { unfold m_row_set. wbind. eapply wp_m_size; [exact Hl|]. destruct (Z.eqb_spec (Z.of_nat (length v)) (Z.of_nat c)); [lia|]. reflexivity. }
  split; [|split; [|split; reflexivity]].
  - unfold wp in W. destruct (m_row_set l y v h) as [[] ?| | |]; try contradiction. congruence.
  - intros b Hb.
    assert (W2 : wp (m_row_set_vec l y (Some b)) h (fun _ h' => h' = h)).
    { unfold m_row_set_vec. wbind. eapply wp_v_size; [exact Hb|]. wbind. eapply wp_m_size; [exact Hl|].
      destruct (Z.eqb_spec (Z.of_nat (length v)) (Z.of_nat c)); [lia|]. reflexivity. }
    unfold wp in W2. destruct (m_row_set_vec l y (Some b) h) as [[] ?| | |]; try contradiction. congruence.
Qed.
(** Building a matrix from rows. *)
Theorem C16_set_from_rows h l x0 y0 cs c vs rows : wf h -> abs h !! l = Some (SMat x0 y0, cs) ->
  Forall2 (fun q row => exists v, q = Some v /\ abs h !! v = Some (AVec row)) vs rows -> width c rows ->
  (0 < c)%nat -> rows <> [] -> Z.of_nat (length rows * c) <= int_max ->
  runs (m_set_from_vecs l vs) h (fun _ h' => abs h' = <[l := Rows c rows]> (abs h)) /\
  runs (m_set_from_lists l rows) h (fun _ h' => abs h' = <[l := Rows c rows]> (abs h)).
Proof. intros. split; r_; [eapply wp_m_set_from_vecs|eapply wp_m_set_from_lists]; eauto. Qed.
(** reset, and building from nothing: a matrix with elements becomes 0 x 0; one without keeps its size. *)
Theorem C16_reset h l x y cs : wf h -> abs h !! l = Some (SMat x y, cs) ->
  let post := fun (u : unit) (h' : heap F) => abs h' = (if decide (x * y = 0) then abs h else <[l := (SMat 0 0, [])]> (abs h)) in
  runs (m_reset l) h post /\ runs (m_set_from_vecs l []) h post /\ runs (m_set_from_lists l []) h post /\
  (forall vs, runs (m_set_from_vecs l (None :: vs)) h post).
Proof.
  intros Hwf Hl post.
  assert (wp (m_reset l) h (fun (a : unit) h' => wf h' /\ post a h')) as W.
  { pose proof (wf_ptr_nil h l _ _ Hwf Hl) as Hn. pose proof (wf_abs_len h l _ _ Hwf Hl) as Hc. simpl in Hc.
    unfold m_reset. wbind. eapply wp_get_obj; [exact Hl|]. intros p Hp. simpl. destruct p as [b|].
    - eapply wp_obj_free; [exact Hwf|exact Hl|reflexivity|]. intros h' W A _. split; [exact W|]. unfold post.
      rewrite decide_False; [exact A|]. intros E. rewrite E in Hc. destruct cs as [|c0 cs]; [|simpl in Hc; lia].
      rewrite (proj2 Hn eq_refl) in Hp. discriminate.
    - apply wp_ret. split; [exact Hwf|]. unfold post. apply Hn in Hp as ->. simpl in Hc. rewrite decide_True by lia. reflexivity. }
  split; [|split; [|split]]; intros; r_; exact W.
Qed.

(** ** C17 *)
(** Entry (i, j) is (((0 + a_i0 * b_0j) + a_i1 * b_1j) + ...), [mat_mul] in MatSpec.v. *)
Theorem C17_multn h l b r m c fa fb : wf h -> abs h !! l = Some (Mat m r fa) -> abs h !! b = Some (Mat c m fb) -> Z.of_nat (r * c) <= int_max ->
  runs (m_multn l (Some b)) h (fun o h' => exists d, o = Some d /\ abs h !! d = None /\ abs h' = <[d := Mat c r (mat_mul m fa fb)]> (abs h)).
Proof. intros. r_. eapply wp_m_multn; eauto 6. Qed.
Theorem C17_mult h l b r m c fa fb : wf h -> b <> l -> abs h !! l = Some (Mat m r fa) -> abs h !! b = Some (Mat c m fb) -> Z.of_nat (r * c) <= int_max ->
  runs (m_mult l (Some b)) h (fun _ h' => abs h' = <[l := Mat c r (mat_mul m fa fb)]> (abs h)).
Proof. intros. r_. eapply wp_m_mult; eauto. Qed.
Theorem C17_multb h l x0 y0 cs a b r m c fa fb : wf h -> a <> l -> b <> l -> abs h !! l = Some (SMat x0 y0, cs) ->
  abs h !! a = Some (Mat m r fa) -> abs h !! b = Some (Mat c m fb) -> Z.of_nat (r * c) <= int_max ->
  runs (m_multb l (Some a) (Some b)) h (fun _ h' => abs h' = <[l := Mat c r (mat_mul m fa fb)]> (abs h)).
Proof. intros. r_. eapply wp_m_multb; eauto. Qed.
Theorem C17_rejected h l a b ca ra cb rb fa fb : abs h !! a = Some (Mat ca ra fa) -> abs h !! b = Some (Mat cb rb fb) -> ca <> rb ->
  m_multn a (Some b) h = Ok None h /\ m_mult a (Some b) h = Ok tt h /\ m_multb l (Some a) (Some b) h = Ok tt h /\
  m_multn a None h = Ok None h /\ m_mult a None h = Ok tt h /\ m_multb l None (Some b) h = Ok tt h /\ m_multb l (Some a) None h = Ok tt h.
Proof.
  intros Ha Hb Hne.
  assert (Sa : m_size a h = Ok (Z.of_nat ca, Z.of_nat ra) h).
  { assert (W : wp (m_size a) h (fun v h' => v = (Z.of_nat ca, Z.of_nat ra) /\ h' = h)) by (eapply wp_m_size; eauto; auto).
    unfold wp in W. destruct (m_size a h); try contradiction. destruct W as [-> ->]. reflexivity. }
  assert (Sb : m_size b h = Ok (Z.of_nat cb, Z.of_nat rb) h).
  { assert (W : wp (m_size b) h (fun v h' => v = (Z.of_nat cb, Z.of_nat rb) /\ h' = h)) by (eapply wp_m_size; eauto; auto).
    unfold wp in W. destruct (m_size b h); try contradiction. destruct W as [-> ->]. reflexivity. }
  unfold m_multn, m_mult, m_multb, bind. rewrite !Sa, !Sb, Sa. cbn [fst snd].
  destruct (Z.eqb_spec (Z.of_nat ca) (Z.of_nat rb)); [lia|]. cbn [negb]. repeat split.
Qed.
(** Multiplying into an operand loses the product (exact arithmetic: 0 + x * 0 = 0 and 0 + 0 * x = 0). *)
Theorem C17_mult_self_is_zero h l n fa : (forall x : F, s_add s_zero (s_mul x s_zero) = s_zero) -> wf h -> abs h !! l = Some (Mat n n fa) ->
  runs (m_mult l (Some l)) h (fun _ h' => abs h' = <[l := Mat n n (fun _ _ => s_zero)]> (abs h)).
Proof. intros. r_. eapply wp_m_mult_self; eauto. Qed.
Theorem C17_multb_right_operand_is_zero h l a n c fa fb : (forall x : F, s_add s_zero (s_mul x s_zero) = s_zero) -> wf h ->
  abs h !! a = Some (Mat n n fa) -> abs h !! l = Some (Mat c n fb) ->
  runs (m_multb l (Some a) (Some l)) h (fun _ h' => abs h' = <[l := Mat c n (fun _ _ => s_zero)]> (abs h)).
Proof. intros. r_. eapply wp_m_multb_alias_right; eauto. Qed.
Theorem C17_multb_left_operand_is_zero h l b r m c fa fb : (forall x : F, s_add s_zero (s_mul s_zero x) = s_zero) -> wf h -> b <> l ->
  abs h !! l = Some (Mat m r fa) -> abs h !! b = Some (Mat c m fb) -> (m <= c)%nat -> Z.of_nat (r * c) <= int_max ->
  runs (m_multb l (Some l) (Some b)) h (fun _ h' => abs h' = <[l := Mat c r (fun _ _ => s_zero)]> (abs h)).
Proof. intros. r_. eapply wp_m_multb_alias_left; eauto. Qed.

(** ** C19 *)
Theorem C19_transpose h l r c fa : wf h -> abs h !! l = Some (Mat c r fa) ->
  runs (m_transposen l) h (fun d h' => abs h !! d = None /\ abs h' = <[d := Mat r c (fun i j => fa j i)]> (abs h)) /\
  runs (m_transpose l) h (fun _ h' => abs h' = <[l := Mat r c (fun i j => fa j i)]> (abs h)) /\
  (forall t x0 y0 cs, t <> l -> abs h !! t = Some (SMat x0 y0, cs) ->
     runs (m_transposeb t (Some l)) h (fun _ h' => abs h' = <[t := Mat r c (fun i j => fa j i)]> (abs h))) /\
  m_transposeb l None h = Ok tt h.
Proof.
  intros Hw Hl. split; [|split; [|split; [|reflexivity]]].
  - r_. eapply wp_m_transposen; eauto.
  - r_. eapply wp_m_transpose; eauto.
  - intros t x0 y0 cs Ht Hlt. r_. eapply wp_m_transposeb; eauto.
Qed.
(** Into itself: the lower triangle is overwritten by the upper one; nothing else moves. *)
Theorem C19_transposeb_self h l n fa : wf h -> abs h !! l = Some (Mat n n fa) ->
  runs (m_transposeb l (Some l)) h (fun _ h' => abs h' = <[l := Mat n n (fun i j => fa (Nat.min i j) (Nat.max i j))]> (abs h)).
Proof.
  intros Hw Hl. r_. eapply wp_m_transposeb_self; eauto. intros h' W A. split; [exact W|]. rewrite A. f_equal. apply Mat_ext.
  intros i j _ _. destruct (Nat.leb_spec j i); f_equal; lia.
Qed.

(** ** C20 *)
(** Block (i / rb, j / cb) of the result is entry (i / rb, j / cb) of [l] times [b]. *)
Definition kron_entry (cb rb : nat) (fa fb : nat -> nat -> F) : nat -> nat -> F :=
  fun i j => s_mul (fb (i mod rb)%nat (j mod cb)%nat) (fa (i / rb)%nat (j / cb)%nat).
Theorem C20_kronecker h l b ca ra fa cb rb fb : wf h -> abs h !! l = Some (Mat ca ra fa) -> abs h !! b = Some (Mat cb rb fb) ->
  Z.of_nat cb <= int_max -> Z.of_nat (cb * ca) <= int_max -> Z.of_nat (rb * ra) <= int_max -> Z.of_nat (rb * ra * (cb * ca)) <= int_max ->
  runs (m_kronn l (Some b)) h (fun o h' => exists d, o = Some d /\ abs h !! d = None /\ abs h' = <[d := Mat (cb * ca) (rb * ra) (kron_entry cb rb fa fb)]> (abs h)) /\
  (forall t x0 y0 cs, t <> l -> t <> b -> abs h !! t = Some (SMat x0 y0, cs) ->
    runs (m_kronb t (Some l) (Some b)) h (fun _ h' => abs h' = <[t := Mat (cb * ca) (rb * ra) (kron_entry cb rb fa fb)]> (abs h))).
Proof.
  intros. split.
  - r_. eapply wp_m_kronn; eauto 6.
  - intros. r_. eapply wp_m_kronb; eauto.
Qed.
Theorem C20_kronecker_inplace_undefined h l b ca ra fa cb rb fb : wf h ->
  abs h !! l = Some (Mat ca ra fa) -> abs h !! b = Some (Mat cb rb fb) -> l <> b ->
  Z.of_nat (cb * (cb * ca)) <= int_max -> Z.of_nat (rb * ra * (cb * ca)) <= int_max ->
  (0 < ca)%nat -> (0 < ra)%nat -> (0 < cb)%nat -> (0 < rb)%nat -> (cb, rb) <> (1, 1)%nat ->
  m_kron l (Some b) h = UB.
Proof. intros. eapply m_kron_UB; eauto. Qed.
Theorem C20_kronecker_inplace_1x1 h l b ca ra fa fb : wf h -> abs h !! l = Some (Mat ca ra fa) -> abs h !! b = Some (Mat 1 1 fb) -> l <> b ->
  Z.of_nat ca <= int_max -> Z.of_nat ra <= int_max ->
  runs (m_kron l (Some b)) h (fun _ h' => abs h' = <[l := Mat ca ra (fun i j => s_mul (fb 0 0)%nat (fa i j))]> (abs h)).
Proof.
  intros. r_. eapply wp_m_kron_1x1; eauto. intros h' W A. split; [exact W|]. rewrite A. f_equal. apply Mat_ext. intros i j _ _.
  unfold mat_kron. rewrite !Nat.mod_1_r, !Nat.div_1_r. reflexivity.
Qed.

(** ** C21 *)
Definition mpointwise2_inplace (f : F -> F -> F) (m : loc -> option loc -> M F unit) : Prop :=
  forall h l, wf h ->
    m l None h = Ok tt h /\
    (forall b c r fa fb, abs h !! l = Some (Mat c r fa) -> abs h !! b = Some (Mat c r fb) ->
      runs (m l (Some b)) h (fun _ h' => abs h' = <[l := Mat c r (fun i j => f (fa i j) (fb i j))]> (abs h))) /\
    (forall b c r c' r' fa fb, abs h !! l = Some (Mat c r fa) -> abs h !! b = Some (Mat c' r' fb) -> (c, r) <> (c', r') ->
      runs (m l (Some b)) h (fun _ h' => abs h' = abs h)).
Definition mpointwise2_new (f : F -> F -> F) (m : loc -> option loc -> M F (option loc)) : Prop :=
  forall h l, wf h ->
    m l None h = Ok None h /\
    (forall b c r fa fb, abs h !! l = Some (Mat c r fa) -> abs h !! b = Some (Mat c r fb) ->
      runs (m l (Some b)) h (fun o h' => exists d, o = Some d /\ abs h !! d = None /\ abs h' = <[d := Mat c r (fun i j => f (fa i j) (fb i j))]> (abs h))) /\
    (forall b c r c' r' fa fb, abs h !! l = Some (Mat c r fa) -> abs h !! b = Some (Mat c' r' fb) -> (c, r) <> (c', r') ->
      runs (m l (Some b)) h (fun o h' => o = None /\ abs h' = abs h)).
Definition mpointwise2_into (f : F -> F -> F) (m : loc -> option loc -> option loc -> M F unit) : Prop :=
  forall h l, wf h ->
    (forall q, m l None q h = Ok tt h) /\ (forall q, m l q None h = Ok tt h) /\
    (forall x0 y0 cs a b c r fa fb, abs h !! l = Some (SMat x0 y0, cs) -> abs h !! a = Some (Mat c r fa) -> abs h !! b = Some (Mat c r fb) ->
      runs (m l (Some a) (Some b)) h (fun _ h' => abs h' = <[l := Mat c r (fun i j => f (fa i j) (fb i j))]> (abs h))) /\
    (forall a b c r c' r' fa fb, abs h !! a = Some (Mat c r fa) -> abs h !! b = Some (Mat c' r' fb) -> (c, r) <> (c', r') ->
      runs (m l (Some a) (Some b)) h (fun _ h' => abs h' = abs h)).

Lemma zip_mlist (f : F -> F -> F) c r fa fb : zip_with f (mlist c r fa) (mlist c r fb) = mlist c r (fun i j => f (fa i j) (fb i j)).
Proof.
  unfold mlist. rewrite zip_with_fmap_l, zip_with_fmap_r. rewrite zip_with_diag. reflexivity.
Qed.
Lemma fmap_mlist (f : F -> F) c r fa : f <$> mlist c r fa = mlist c r (fun i j => f (fa i j)).
Proof. unfold mlist. rewrite <- list_fmap_compose. reflexivity. Qed.

Lemma mpw_op2 (f : F -> F -> F) : mpointwise2_inplace f (m_op2 f).
Proof.
  intros h l Hw. split; [reflexivity|]. split; intros.
  - r_. eapply wp_m_op2; eauto. rewrite zip_mlist. auto.
  - r_. eapply wp_m_op2_mismatch; eauto.
Qed.
Lemma mpw_op2n (f : F -> F -> F) : mpointwise2_new f (m_op2n f).
Proof.
  intros h l Hw. split; [reflexivity|]. split; intros.
  - r_. eapply wp_m_op2n; eauto. rewrite zip_mlist. intros d h' W N A. split; [exact W|]. eauto.
  - r_. eapply wp_m_op2n_mismatch; eauto.
Qed.
Lemma mpw_op2b (f : F -> F -> F) : mpointwise2_into f (m_op2b f).
Proof.
  intros h l Hw. split; [reflexivity|]. split; [intros [q|]; reflexivity|]. split; intros.
  - r_. eapply wp_m_op2b; eauto. rewrite zip_mlist. auto.
  - r_. eapply wp_m_op2b_mismatch; eauto.
Qed.
Definition mpointwise2 (f : F -> F -> F) m mn mb : Prop := mpointwise2_inplace f m /\ mpointwise2_new f mn /\ mpointwise2_into f mb.
Lemma mpw2 (f : F -> F -> F) : mpointwise2 f (m_op2 f) (m_op2n f) (m_op2b f).
Proof. split; [apply mpw_op2|]. split; [apply mpw_op2n|apply mpw_op2b]. Qed.
Theorem C21_add : mpointwise2 s_add m_add m_addn m_addb. Proof. apply mpw2. Qed.
Theorem C21_sub : mpointwise2 s_sub m_sub m_subn m_subb. Proof. apply mpw2. Qed.
Theorem C21_hadamard : mpointwise2 s_mul m_hadamard m_hadamardn m_hadamardb. Proof. apply mpw2. Qed.
Theorem C21_division : mpointwise2 s_div m_div m_divn m_divb. Proof. apply mpw2. Qed.
Theorem C21_max : mpointwise2 (fun x y => if s_lt y x then x else y) m_max m_maxn m_maxb. Proof. apply mpw2. Qed.
Theorem C21_min : mpointwise2 (fun x y => if s_lt x y then x else y) m_min m_minn m_minb. Proof. apply mpw2. Qed.

Definition mpointwise1 (f : F -> F) (m : loc -> M F unit) (mn : loc -> M F loc) (mb : loc -> option loc -> M F unit) : Prop :=
  forall h l c r fa, wf h -> abs h !! l = Some (Mat c r fa) ->
    runs (m l) h (fun _ h' => abs h' = <[l := Mat c r (fun i j => f (fa i j))]> (abs h)) /\
    runs (mn l) h (fun d h' => abs h !! d = None /\ abs h' = <[d := Mat c r (fun i j => f (fa i j))]> (abs h)) /\
    (forall t x0 y0 cs, abs h !! t = Some (SMat x0 y0, cs) ->
       runs (mb t (Some l)) h (fun _ h' => abs h' = <[t := Mat c r (fun i j => f (fa i j))]> (abs h))) /\
    (forall t, mb t None h = Ok tt h).
Lemma mpw1 (f : F -> F) : mpointwise1 f (m_map f) (m_mapn f) (m_mapb f).
Proof.
  intros h l c r fa Hw Hl. split; [|split; [|split]].
  - r_. eapply wp_m_map; eauto. rewrite fmap_mlist. auto.
  - r_. eapply wp_m_mapn; eauto. rewrite fmap_mlist. auto.
  - intros. r_. eapply wp_m_mapb; eauto. rewrite fmap_mlist. auto.
  - reflexivity.
Qed.
Theorem C21_log : mpointwise1 s_log m_log m_logn m_logb. Proof. apply mpw1. Qed.
Theorem C21_log10 : mpointwise1 s_log10 m_log10 m_log10n m_log10b. Proof. apply mpw1. Qed.
Theorem C21_exp : mpointwise1 s_exp m_exp m_expn m_expb. Proof. apply mpw1. Qed.
Theorem C21_erf : mpointwise1 s_erf m_erf m_erfn m_erfb. Proof. apply mpw1. Qed.
Theorem C21_exponentiate e : mpointwise1 (fun x => s_pow x e) (m_exponentiate e) (m_exponentiaten e) (m_exponentiateb e). Proof. apply mpw1. Qed.
Theorem C21_sqrt : mpointwise1 s_sqrt m_sqrt m_sqrtn m_sqrtb. Proof. apply mpw1. Qed.
Theorem C21_cbrt : mpointwise1 (fun x => s_pow x (s_div s_one (s_of_Z 3))) m_cbrt m_cbrtn m_cbrtb. Proof. apply mpw1. Qed.
Theorem C21_abs : mpointwise1 (fun x => if s_lt x s_zero then s_opp x else x) m_abs m_absn m_absb. Proof. apply mpw1. Qed.
Theorem C21_sin : mpointwise1 s_sin m_sin m_sinn m_sinb. Proof. apply mpw1. Qed.
Theorem C21_cos : mpointwise1 s_cos m_cos m_cosn m_cosb. Proof. apply mpw1. Qed.
(** scalar_multiply, scalar_add and their returning forms are pointwise; the into forms [t.scalar_multiplyb(s, A)]
    scale [t]'s own entries (here for [A] of the same size) and never look at [A]'s. *)
Definition mscalar (f : F -> F) (m : loc -> M F unit) (mn : loc -> M F loc) (mb : loc -> option loc -> M F unit) : Prop :=
  forall h l c r fa, wf h -> abs h !! l = Some (Mat c r fa) ->
    runs (m l) h (fun _ h' => abs h' = <[l := Mat c r (fun i j => f (fa i j))]> (abs h)) /\
    runs (mn l) h (fun d h' => abs h !! d = None /\ abs h' = <[d := Mat c r (fun i j => f (fa i j))]> (abs h)) /\
    (forall a fb, abs h !! a = Some (Mat c r fb) -> runs (mb l (Some a)) h (fun _ h' => abs h' = <[l := Mat c r (fun i j => f (fa i j))]> (abs h))) /\
    mb l None h = Ok tt h.
Lemma msc (f : F -> F) : mscalar f (m_map f) (m_mapn_dup f) (m_mapb_own f).
Proof.
  intros h l c r fa Hw Hl. split; [|split; [|split]].
  - r_. eapply wp_m_map; eauto. rewrite fmap_mlist. auto.
  - r_. eapply wp_m_mapn_dup; eauto. rewrite fmap_mlist. auto.
  - intros. r_. eapply wp_m_mapb_own; eauto. rewrite fmap_mlist. auto.
  - reflexivity.
Qed.
Theorem C21_scalar_multiply (x : F) : mscalar (fun y => s_mul y x) (m_scalar_multiply x) (m_scalar_multiplyn x) (m_scalar_multiplyb x).
Proof. apply msc. Qed.
Theorem C21_scalar_add (x : F) : mscalar (fun y => s_add y x) (m_scalar_add x) (m_scalar_addn x) (m_scalar_addb x).
Proof. apply msc. Qed.

(** ** C28 *)
Theorem C28_constants h n m (v : F) : wf h -> Z.of_nat (n * m) <= int_max ->
  runs (m_full (Z.of_nat n) (Z.of_nat m) v) h (fun d h' => abs h !! d = None /\ abs h' = <[d := Mat m n (fun _ _ => v)]> (abs h)) /\
  runs (m_matn_zero (Z.of_nat n) (Z.of_nat m)) h (fun d h' => abs h !! d = None /\ abs h' = <[d := Mat m n (fun _ _ => s_zero)]> (abs h)) /\
  runs (m_matn_one (Z.of_nat n) (Z.of_nat m)) h (fun d h' => abs h !! d = None /\ abs h' = <[d := Mat m n (fun _ _ => s_one)]> (abs h)) /\
  (forall k : Z, runs (m_matn_full (Z.of_nat n) (Z.of_nat m) k) h (fun d h' => abs h !! d = None /\ abs h' = <[d := Mat m n (fun _ _ => s_of_Z k)]> (abs h))).
Proof. intros. split; [|split; [|split]]; [| | |intros ?]; r_; eapply wp_m_full; eauto. Qed.
Theorem C28_identity h l c r f : wf h -> abs h !! l = Some (Mat c r f) ->
  let idm := fun i j => if Nat.eqb i j then s_one else s_zero in
  runs (m_identity l) h (fun _ h' => abs h' = <[l := Mat c r idm]> (abs h)) /\
  runs (m_identityn l) h (fun d h' => abs h !! d = None /\ abs h' = <[d := Mat c r idm]> (abs h)).
Proof. intros. split; r_; [eapply wp_m_identity|eapply wp_m_identityn]; eauto. Qed.
Theorem C28_identity_mat h n : wf h -> Z.of_nat (n * n) <= int_max ->
  runs (m_identity_mat (Z.of_nat n)) h (fun d h' => abs h !! d = None /\
    abs h' = <[d := Mat n n (fun i j => if Nat.eqb i j then s_one else s_zero)]> (abs h)).
Proof. intros. r_. eapply wp_m_identity_mat; eauto. Qed.
(** The sum of the main diagonal of a possibly rectangular matrix, from 0, in index order. *)
Theorem C28_trace h l c r f : wf h -> abs h !! l = Some (Mat c r f) ->
  runs (m_trace l) h (fun t h' => h' = h /\ t = foldl (fun acc i => s_add acc (f i i)) s_zero (seq 0 (Nat.min c r))).
Proof. intros. r_. eapply wp_m_trace; eauto. Qed.
(** Diagonal entry i becomes v[i] wherever both exist; other entries are kept (diagonal_set) or zeroed. *)
Theorem C28_diagonal h l b c r f v : wf h -> abs h !! l = Some (Mat c r f) -> abs h !! b = Some (AVec v) ->
  let dg := fun (base : nat -> nat -> F) i j => if decide (i = j /\ (i < length v)%nat) then nth i v s_zero else base i j in
  runs (m_diagonal_set l (Some b)) h (fun _ h' => abs h' = <[l := Mat c r (dg f)]> (abs h)) /\
  runs (m_diagonal_setn l (Some b)) h (fun o h' => exists d, o = Some d /\ abs h !! d = None /\ abs h' = <[d := Mat c r (dg f)]> (abs h)) /\
  runs (m_diagonal_zeroed l (Some b)) h (fun _ h' => abs h' = <[l := Mat c r (dg (fun _ _ => s_zero))]> (abs h)) /\
  runs (m_diagonal_zeroedn l (Some b)) h (fun o h' => exists d, o = Some d /\ abs h !! d = None /\ abs h' = <[d := Mat c r (dg (fun _ _ => s_zero))]> (abs h)).
Proof.
  intros Hw Hl Hb dg. split; [|split; [|split]]; r_.
  - eapply wp_diag_body; eauto.
  - eapply wp_m_diagonal_setn; eauto 6.
  - eapply wp_m_diagonal_zeroed; eauto.
  - eapply wp_m_diagonal_zeroedn; eauto 6.
Qed.
Theorem C28_diagnm h b v : wf h -> abs h !! b = Some (AVec v) -> Z.of_nat (length v * length v) <= int_max ->
  runs (v_diagnm b) h (fun d h' => abs h !! d = None /\
    abs h' = <[d := Mat (length v) (length v) (fun i j => if Nat.eqb i j then nth i v s_zero else s_zero)]> (abs h)).
Proof.
  intros. r_. eapply wp_v_diagnm; eauto. intros d h' W N A. split; [exact W|]. split; [exact N|]. rewrite A. f_equal. apply Mat_ext.
  intros i j Hi Hj. unfold set_diag. destruct (Nat.eqb_spec i j); [rewrite decide_True by auto|rewrite decide_False by tauto]; reflexivity.
Qed.
Theorem C28_outer_product h a b xs ys : wf h -> abs h !! a = Some (AVec xs) -> abs h !! b = Some (AVec ys) -> Z.of_nat (length ys * length xs) <= int_max ->
  let o := fun i j => s_mul (nth i xs s_zero) (nth j ys s_zero) in
  runs (v_outer a (Some b)) h (fun d h' => abs h !! d = None /\ abs h' = <[d := Mat (length ys) (length xs) o]> (abs h)) /\
  runs (m_outern (Some a) (Some b)) h (fun q h' => exists d, q = Some d /\ abs h !! d = None /\ abs h' = <[d := Mat (length ys) (length xs) o]> (abs h)) /\
  (forall l x0 y0 cs, abs h !! l = Some (SMat x0 y0, cs) ->
     runs (m_outer l (Some a) (Some b)) h (fun _ h' => abs h' = <[l := Mat (length ys) (length xs) o]> (abs h))).
Proof.
  intros Hw Ha Hb Hle o. split; [|split]; [| |intros l x0 y0 cs Hl]; r_.
  - eapply wp_v_outer; eauto.
  - eapply wp_m_outern; eauto 6.
  - eapply wp_m_outer; eauto.
Qed.
Theorem C28_flatten h l c rows : wf h -> abs h !! l = Some (Rows c rows) ->
  runs (m_flatten l) h (fun d h' => abs h !! d = None /\ abs h' = <[d := AVec (concat rows)]> (abs h)) /\
  (forall t n cs, abs h !! t = Some (SVec n, cs) -> runs (m_flatteno l (Some t)) h (fun _ h' => abs h' = <[t := AVec (concat rows)]> (abs h))).
Proof. intros. split; [|intros]; r_; [eapply wp_m_flatten|eapply wp_m_flatteno]; eauto. Qed.

(** ** C29 *)
(** Entry [i] of the result: 0 + a_i0 * b_0 + a_i1 * b_1 + ..., over the length of [b] (at most the row width). *)
Definition mv_entry f xs i : F := foldl (fun acc k => s_add acc (s_mul (f i k) (nth k xs s_zero))) s_zero (seq 0 (length xs)).
Theorem C29_mult_vec h l b c r f xs : wf h -> abs h !! l = Some (Mat c r f) -> abs h !! b = Some (AVec xs) -> (length xs <= c)%nat -> Z.of_nat r <= int_max ->
  runs (m_mult_vec l (Some b)) h (fun o h' => exists d, o = Some d /\ abs h !! d = None /\ abs h' = <[d := AVec (mv_entry f xs <$> seq 0 r)]> (abs h)) /\
  (forall t n cs, abs h !! t = Some (SVec n, cs) -> t <> b ->
     runs (m_mult_veco l (Some b) (Some t)) h (fun _ h' => abs h' = <[t := AVec (mv_entry f xs <$> seq 0 r)]> (abs h))).
Proof.
  intros. split; [|intros]; r_.
  - eapply wp_m_mult_vec; eauto 6.
  - eapply wp_m_mult_veco; eauto.
Qed.
Theorem C29_mult_vec_too_long h l b c r f xs : abs h !! l = Some (Mat c r f) -> abs h !! b = Some (AVec xs) -> (c < length xs)%nat ->
  m_mult_vec l (Some b) h = Ok None h /\ m_mult_vec l None h = Ok None h /\ (forall t, m_mult_veco l (Some b) (Some t) h = Ok tt h).
Proof.
  intros Hl Hb Hc.
  assert (W : wp (m_mult_vec l (Some b)) h (fun o h' => o = None /\ h' = h)).
  { unfold m_mult_vec. wbind. eapply wp_v_size; [exact Hb|]. wbind. eapply wp_m_size; [exact Hl|]. cbn [fst].
    destruct (Z.ltb_spec (Z.of_nat c) (Z.of_nat (length xs))); [|lia]. apply wp_ret. auto. }
  split; [|split; [reflexivity|]].
  - unfold wp in W. destruct (m_mult_vec l (Some b) h); try contradiction. destruct W as [-> ->]. reflexivity.
  - intros t. assert (W2 : wp (m_mult_veco l (Some b) (Some t)) h (fun _ h' => h' = h)).
    { unfold m_mult_veco. wbind. eapply wp_v_size; [exact Hb|]. wbind. eapply wp_m_size; [exact Hl|]. cbn [fst].
      destruct (Z.ltb_spec (Z.of_nat c) (Z.of_nat (length xs))); [|lia]. apply wp_ret. auto. }
    unfold wp in W2. destruct (m_mult_veco l (Some b) (Some t) h) as [[] ?| | |]; try contradiction. congruence.
Qed.
Theorem C29_add_vec h l b c r f xs : wf h -> abs h !! l = Some (Mat c r f) -> abs h !! b = Some (AVec xs) -> length xs = c ->
  let s := fun i j => s_add (f i j) (nth j xs s_zero) in
  runs (m_add_vec l (Some b)) h (fun _ h' => abs h' = <[l := Mat c r s]> (abs h)) /\
  runs (m_add_vecn l (Some b)) h (fun o h' => exists d, o = Some d /\ abs h !! d = None /\ abs h' = <[d := Mat c r s]> (abs h)) /\
  (forall t x0 y0 cs, abs h !! t = Some (SMat x0 y0, cs) -> runs (m_add_vecb t (Some l) (Some b)) h (fun _ h' => abs h' = <[t := Mat c r s]> (abs h))).
Proof.
  intros Hw Hl Hb Hc s. split; [|split]; [| |intros t x0 y0 cs Ht]; r_.
  - eapply wp_m_add_vec; eauto.
  - eapply wp_m_add_vecn; eauto 6.
  - eapply wp_m_add_vecb; eauto.
Qed.
(** The rows are subtracted one after the other from the vector. *)
Theorem C29_subtract_matrix_rows h l b c rows v : wf h -> abs h !! b = Some (Rows c rows) -> width c rows -> abs h !! l = Some (AVec v) -> length v = c ->
  let s := foldl (fun acc row => zip_with s_sub acc row) v rows in
  runs (v_sub_rows l (Some b)) h (fun _ h' => abs h' = <[l := AVec s]> (abs h)) /\
  runs (v_sub_rowsn l (Some b)) h (fun d h' => abs h !! d = None /\ abs h' = <[d := AVec s]> (abs h)) /\
  (forall t n cs, abs h !! t = Some (SVec n, cs) -> runs (v_sub_rowsb t (Some l) (Some b)) h (fun _ h' => abs h' = <[t := AVec s]> (abs h))).
Proof.
  intros Hw Hb Hwd Hl Hc s. split; [|split]; [| |intros t n cs Ht]; r_.
  - eapply wp_v_sub_rows; eauto.
  - eapply wp_v_sub_rowsn; eauto.
  - eapply wp_v_sub_rowsb; eauto.
Qed.
(** On a width mismatch nothing is subtracted: the vector is left alone, and the new-object form returns a plain copy. *)
Theorem C29_subtract_matrix_rows_mismatch h l b c rows v : wf h -> abs h !! b = Some (Rows c rows) -> abs h !! l = Some (AVec v) -> length v <> c ->
  runs (v_sub_rows l (Some b)) h (fun _ h' => h' = h) /\
  runs (v_sub_rowsn l (Some b)) h (fun d h' => abs h !! d = None /\ abs h' = <[d := AVec v]> (abs h)) /\
  (forall t, runs (v_sub_rowsb t (Some l) (Some b)) h (fun _ h' => h' = h)).
Proof.
  intros Hw Hb Hl Hc. split; [|split]; [| |intros t]; r_.
  - unfold v_sub_rows. wbind. apply wp_ret. wbind. eapply wp_m_size; [exact Hb|]. wbind. eapply wp_v_size_vec; [exact Hl|]. cbn [fst snd].
    destruct (Z.eqb_spec (Z.of_nat c) (Z.of_nat (length v))); [lia|]. apply wp_ret. auto.
  - unfold v_sub_rowsn. wbind. eapply wp_v_duplicate; [exact Hw|exact Hl|]. intros d h1 W1 N1 A1.
    wbind. apply wp_ret. wbind. eapply wp_m_size; [rewrite A1, lookup_insert_ne by congruence; exact Hb|].
    wbind. eapply wp_v_size_vec; [rewrite A1; apply lookup_insert|]. cbn [fst snd].
    destruct (Z.eqb_spec (Z.of_nat c) (Z.of_nat (length v))); [lia|]. apply wp_ret. auto.
  - unfold v_sub_rowsb. wbind. apply wp_ret. wbind. eapply wp_m_size; [exact Hb|]. wbind. apply wp_ret. wbind. eapply wp_v_size_vec; [exact Hl|]. cbn [fst snd].
    destruct (Z.eqb_spec (Z.of_nat c) (Z.of_nat (length v))); [lia|]. apply wp_ret. auto.
Qed.

(** ** C30 (matrices) *)
Theorem C30_matrix_equal_approx h l b c r c' r' fa fb tol : wf h -> abs h !! l = Some (Mat c r fa) -> abs h !! b = Some (Mat c' r' fb) ->
  runs (m_is_equal_approx l (Some b) tol) h (fun t h' => h' = h /\
    (t = true <-> l = b \/ ((c, r) = (c', r') /\ forall i j, (i < r)%nat -> (j < c)%nat ->
        s_eq (fa i j) (fb i j) = true \/ s_lt (s_abs (s_sub (fa i j) (fb i j))) tol = true))).
Proof.
  intros Hw Hl Hb. r_. destruct (decide (l = b)) as [->|Hne].
  { unfold wp. rewrite m_equal_approx_self. split; [exact Hw|]. split; [reflexivity|]. tauto. }
  destruct (decide ((c, r) = (c', r'))) as [E|E].
  - injection E as <- <-. eapply wp_m_equal_approx; eauto. split; [exact Hw|]. split; [reflexivity|].
    rewrite forallb_forall. split.
    + intros Hall. right. split; [reflexivity|]. intros i j Hi Hj. specialize (Hall (fa i j, fb i j)). cbn in Hall.
      unfold s_equal_approx in Hall. rewrite orb_true_iff in Hall. apply Hall. apply elem_of_list_In. apply elem_of_list_lookup. exists (i * c + j)%nat.
      rewrite lookup_zip_with. rewrite (mlist_lookup c r fa i j Hi Hj), (mlist_lookup c r fb i j Hi Hj). reflexivity.
    + intros [|[_ Hall]]; [contradiction|]. intros [x y] Hin. apply elem_of_list_In, elem_of_list_lookup in Hin. destruct Hin as [k Hk].
      rewrite lookup_zip_with in Hk. unfold mlist in Hk. rewrite !list_lookup_fmap in Hk.
      destruct (seq 0 (r * c) !! k) as [k'|] eqn:Ek; [|discriminate]. cbn in Hk. apply lookup_seq in Ek as [-> Hk2]. injection Hk as <- <-.
      unfold s_equal_approx. rewrite orb_true_iff. assert (c <> 0)%nat by (intros ->; lia). apply Hall.
      * apply Nat.div_lt_upper_bound; [lia|]. lia.
      * apply Nat.mod_upper_bound. lia.
  - eapply wp_m_equal_approx_size; eauto. split; [exact Hw|]. split; [reflexivity|]. split; [discriminate|]. intros [|[E2 _]]; [contradiction|]. congruence.
Qed.

End props.
