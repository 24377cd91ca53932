(** Matrix proofs, part 4: rows removed unordered, matrix-vector forms, outer products, diagonals,
    flattening, serialisation, comparison, rotations. *)
From Verif Require Export MatProofs3.
From Coq Require Import ZifyBool ZifyNat.

Section matproofs4.
Context {F : Type} `{Scalar F}.
Implicit Types (h : heap F) (l a b d : loc) (c r i j k : nat) (f u : nat -> nat -> F) (xs ys v : list F) (rows : list (list F)).

(** ** A grid written in row-major order *)
Definition grid (g0 : nat -> nat -> cell F) u i j : nat -> nat -> cell F :=
  fun i' j' => if decide ((i' < i)%nat \/ (i' = i /\ (j' < j)%nat)) then Some (u i' j') else g0 i' j'.

Lemma wp_grid h lo c r g0 u (rowbody : Z -> M F unit) (body : Z -> Z -> M F unit) (Q : unit -> heap F -> Prop) :
  wf h -> abs h !! lo = Some (MatP c r g0) ->
  (forall i hi (Q' : unit -> heap F -> Prop), (i < r)%nat -> mst h lo c r (grid g0 u i 0) hi ->
     wp (for_ 0 (Z.of_nat c) (body (Z.of_nat i))) hi Q' -> wp (rowbody (Z.of_nat i)) hi Q') ->
  (forall i j hi (Q' : unit -> heap F -> Prop), (i < r)%nat -> (j < c)%nat -> mst h lo c r (grid g0 u i j) hi ->
     (forall h', mst h lo c r (upd (grid g0 u i j) i j (Some (u i j))) h' -> Q' tt h') -> wp (body (Z.of_nat i) (Z.of_nat j)) hi Q') ->
  (forall h', wf h' -> h_obj h' = h_obj h -> abs h' = <[lo := Mat c r u]> (abs h) -> Q tt h') ->
  wp (for_ 0 (Z.of_nat r) rowbody) h Q.
Proof.
  intros Hwf Ha Hrow Hb HQ.
  apply wp_for_n with (I := fun i hi => mst h lo c r (grid g0 u i 0) hi).
  - eapply mst_ext; [apply mst_init; eauto|]. intros i j _ _. unfold grid. rewrite decide_False by lia. reflexivity.
  - intros i hi Hi HI. apply Hrow; [exact Hi|exact HI|].
    apply wp_for_n with (I := fun j hi => mst h lo c r (grid g0 u i j) hi).
    + exact HI.
    + clear hi HI. intros j hi Hj HI. apply Hb; [exact Hi|exact Hj|exact HI|]. intros h' HI'. eapply mst_ext; [exact HI'|].
      intros i' j' _ _. unfold upd, grid. destruct (decide (i' = i /\ j' = j)) as [[-> ->]|E]; [rewrite decide_True by lia; reflexivity|].
      destruct (decide (i' < i \/ i' = i /\ j' < j)%nat); [rewrite decide_True by lia; reflexivity|].
      rewrite decide_False by lia. reflexivity.
    + intros h' HI'. eapply mst_ext; [exact HI'|]. intros i' j' Hi' Hj'. unfold grid.
      destruct (decide (i' < i \/ i' = i /\ j' < c)%nat); [rewrite decide_True by lia; reflexivity|].
      rewrite decide_False by lia. reflexivity.
  - intros h' [W O A]. apply HQ; auto. rewrite A, Mat_MatP. f_equal. apply MatP_ext. intros i j Hi Hj.
    unfold grid. rewrite decide_True by lia. reflexivity.
Qed.

Lemma wp_mload_grid h lo hi c r g0 u i0 j0 la p f i j (Q : F -> heap F -> Prop) : mst h lo c r (grid g0 u i0 j0) hi ->
  abs h !! lo = Some (MatP c r g0) -> ptr_of h la = Some p -> abs h !! la = Some (Mat c r f) -> (i < r)%nat -> (j < c)%nat ->
  ~ ((i < i0)%nat \/ (i = i0 /\ (j < j0)%nat)) -> Q (f i j) hi -> wp (load p (Z.of_nat i * Z.of_nat c + Z.of_nat j)) hi Q.
Proof.
  intros HI Hlo Hp Ha Hi Hj Hn HQ. destruct (decide (la = lo)) as [->|Hne].
  - eapply wp_mload; [exact HI|exact Hp|exact Hi|exact Hj| |exact HQ]. unfold grid. rewrite decide_False by assumption.
    assert (E : MatP c r g0 = MatP c r (fun i j => Some (f i j))) by (rewrite <- Mat_MatP; congruence).
    unfold MatP in E. assert (E2 : mlist c r g0 = mlist c r (fun i j => Some (f i j))) by congruence.
    assert (E3 : mlist c r g0 !! (i * c + j)%nat = mlist c r (fun i j => Some (f i j)) !! (i * c + j)%nat) by congruence.
    rewrite !mlist_lookup in E3 by assumption. congruence.
  - eapply wp_mload_other; [exact HI|exact Hp|exact Hne|exact Ha|exact Hi|exact Hj|exact HQ].
Qed.

(** ** row_remove_unordered *)
Definition remove_unordered {A} (i : nat) (rows : list A) : list A :=
  match list.last rows with Some z => take (length rows - 1) (<[i := z]> rows) | None => rows end.

Lemma concat_take_rows c rows n : width c rows -> take (n * c) (concat rows) = concat (take n rows).
Proof.
  intros Hw. revert n. induction Hw as [|row rows Hr Hw IH]; intros n; [rewrite take_nil; apply take_nil|].
  destruct n as [|n]; [reflexivity|]. cbn [concat take Nat.mul]. rewrite <- Hr. rewrite take_add_app by reflexivity.
  rewrite Hr, IH. reflexivity.
Qed.

Lemma wp_m_row_remove_unordered h l c rows idx (Q : unit -> heap F -> Prop) : wf h -> abs h !! l = Some (Rows c rows) -> width c rows ->
  0 <= idx < Z.of_nat (length rows) ->
  (forall h', wf h' -> abs h' = <[l := Rows c (remove_unordered (Z.to_nat idx) rows)]> (abs h) -> Q tt h') ->
  wp (m_row_remove_unordered l idx) h Q.
Proof.
  intros Hwf Ha Hw Hidx HQ. pose proof (concat_len c rows Hw) as Hcl. destruct (amat_len h l _ _ _ Hwf Ha) as [_ Hle].
  destruct (lookup_lt_is_Some_2 rows (length rows - 1)) as [z Hz]; [lia|].
  assert (Hlast : list.last rows = Some z) by (rewrite last_lookup; rewrite <- Hz; f_equal; lia).
  assert (Hlz : length z = c) by (eapply width_row; eauto).
  set (i0 := Z.to_nat idx) in *.
  assert (Hru : remove_unordered i0 rows = take (length rows - 1) (<[i0 := z]> rows)) by (unfold remove_unordered; rewrite Hlast; reflexivity).
  assert (Hwi : width c (<[i0 := z]> rows)) by (apply width_insert; auto).
  assert (Hlru : length (remove_unordered i0 rows) = (length rows - 1)%nat) by (rewrite Hru, take_length, insert_length; lia).
  unfold m_row_remove_unordered. wbind. eapply wp_m_size; [exact Ha|]. cbv beta iota zeta.
  replace ((idx <? 0) || (Z.of_nat (length rows) <=? idx)) with false by lia.
  destruct (Z.eqb_spec (Z.of_nat c * (Z.of_nat (length rows) - 1)) 0) as [E|E].
  - eapply wp_obj_free; [exact Hwf|exact Ha|exact E|]. intros h1 W1 A1 _. apply HQ; auto. rewrite A1. f_equal.
    unfold Rows, AMat. rewrite Hlru. replace (concat (remove_unordered i0 rows)) with (@nil F).
    + cbn. f_equal. f_equal. lia.
    + symmetry. apply length_zero_iff_nil. rewrite (concat_len c); [|rewrite Hru; apply width_take, Hwi]. nia.
  - wbind. eapply wp_data_ptr; [exact Ha|]. intros p Hp. wbind.
    pose (Qr := fun (_ : unit) hi => wf hi /\ abs hi = <[l := Rows c (<[i0 := z]> rows)]> (abs h)).
    apply wp_mono with (Q := Qr).
    + destruct (Z.eqb_spec (idx * Z.of_nat c) ((Z.of_nat (length rows) - 1) * Z.of_nat c)) as [E1|E1]; cbn [negb].
      * apply wp_ret. split; [exact Hwf|]. replace (<[i0:=z]> rows) with rows; [rewrite insert_id; auto|].
        symmetry. apply list_insert_id. replace i0 with (length rows - 1)%nat by nia. exact Hz.
      * pose proof (rows_MatP h l c rows Ha Hw) as Ha'.
        eapply wp_row_write with (y := i0) (u := fun j => nth j z s_zero); [exact Hwf|exact Ha'|exact Hp|lia|reflexivity| |].
        -- intros j hi Q' Hj HI Hs. wbind. replace (Z.of_nat (length rows) - 1) with (Z.of_nat (length rows - 1)) by lia.
           eapply wp_mload; [exact HI|exact Hp|lia|exact Hj| |].
           { cbv beta. rewrite decide_False by nia. rewrite (nth_lookup_Some rows _ [] z Hz). reflexivity. }
           replace (Z.of_nat i0) with idx in Hs by lia. exact Hs.
        -- intros h' W O A. split; [exact W|]. rewrite A. f_equal. apply MatP_row_Rows; auto. lia.
    + intros _ hi [W A]. eapply wp_obj_realloc; [exact W|rewrite A; apply lookup_insert|cbn [shape_size]; nia|].
      intros h2 W2 A2 _. apply HQ; auto. rewrite A2, A, insert_insert. f_equal. cbn [shape_size]. unfold Rows, AMat. rewrite Hlru.
      f_equal; [f_equal; lia|]. rewrite Hru, <- (concat_take_rows c) by exact Hwi. rewrite fmap_take, resize_le.
      * f_equal. nia.
      * rewrite fmap_length, (concat_len c) by exact Hwi. rewrite insert_length. nia.
Qed.

(** ** mult_veco *)
Lemma wp_m_mult_veco h l b out n cs c r f xs (Q : unit -> heap F -> Prop) : wf h ->
  abs h !! l = Some (Mat c r f) -> abs h !! b = Some (AVec xs) -> abs h !! out = Some (SVec n, cs) -> b <> out -> (length xs <= c)%nat -> Z.of_nat r <= int_max ->
  (forall h', wf h' -> abs h' = <[out := AVec (vlist r (mv_row f xs (length xs)))]> (abs h) -> Q tt h') ->
  wp (m_mult_veco l (Some b) (Some out)) h Q.
Proof.
  intros Hwf Ha Hb Ho Hbo Hlen Hle HQ. assert (l <> out) by (intros ->; rewrite Ha in Ho; discriminate).
  unfold m_mult_veco. wbind. eapply wp_v_size_vec; [exact Hb|]. wbind. eapply wp_m_size; [exact Ha|]. cbn [fst snd].
  replace (Z.of_nat c <? Z.of_nat (length xs)) with false by lia.
  wbind. eapply wp_v_size; [exact Ho|].
  wbind. eapply wp_v_resize_cond; [exact Hwf|exact Ho|lia|]. intros h2 W2 A2 _.
  wbind. eapply wp_v_fill; [exact W2|rewrite A2; apply lookup_insert|]. intros h3 W3 O3 A3. rewrite Nat2Z.id in A3.
  assert (Ha3 : abs h3 !! l = Some (Mat c r f)) by (rewrite A3, A2, !lookup_insert_ne by congruence; exact Ha).
  assert (Hb3 : abs h3 !! b = Some (AVec xs)) by (rewrite A3, A2, !lookup_insert_ne by congruence; exact Hb).
  assert (Hd3 : abs h3 !! out = Some (AVec (replicate r s_zero))) by (rewrite A3; apply lookup_insert).
  wbind. eapply wp_data_ptr; [exact Ha3|]. intros p Hp.
  wbind. eapply wp_data_ptr; [exact Hb3|]. intros q Hq.
  wbind. eapply wp_data_ptr; [exact Hd3|]. intros po Hpo.
  eapply wp_mult_vec_loop with (la := l) (lb := b) (lc := out); [exact W3|exact Ha3|exact Hp|exact Hb3|exact Hq|exact Hlen|exact Hd3|exact Hpo|congruence|congruence|].
  intros h4 W4 O4 A4. apply HQ; auto. rewrite A4, A3, A2, !insert_insert. reflexivity.
Qed.

(** ** add_vec *)
Definition add_rows f xs : nat -> nat -> F := fun i j => s_add (f i j) (nth j xs s_zero).

Lemma wp_add_vec_loop h la pa f lb pb xs lo po c r g0 (Q : unit -> heap F -> Prop) : wf h ->
  abs h !! la = Some (Mat c r f) -> ptr_of h la = Some pa -> abs h !! lb = Some (AVec xs) -> ptr_of h lb = Some pb -> length xs = c ->
  abs h !! lo = Some (MatP c r g0) -> ptr_of h lo = Some po ->
  (forall h', wf h' -> h_obj h' = h_obj h -> abs h' = <[lo := Mat c r (add_rows f xs)]> (abs h) -> Q tt h') ->
  wp (add_vec_loop (Z.of_nat c) (Z.of_nat r) pa pb po) h Q.
Proof.
  intros Hwf Ha Hpa Hb Hpb Hlen Ho Hpo HQ. unfold add_vec_loop.
  assert (lb <> lo) by (intros ->; rewrite Hb in Ho; discriminate).
  eapply wp_grid with (u := add_rows f xs) (body := fun (z1 z2 : Z) => let! x := load pa (z1 * Z.of_nat c + z2) in let! y := load pb z2 in store po (z1 * Z.of_nat c + z2) (s_add x y));
    [exact Hwf|exact Ho| | |exact HQ].
  - intros i hi Q' Hi HI Hs. exact Hs.
  - intros i j hi Q' Hi Hj HI Hs. destruct (lookup_lt_is_Some_2 xs j) as [x Hx]; [lia|].
    wbind. eapply wp_mload_grid; [exact HI|exact Ho|exact Hpa|exact Ha|exact Hi|exact Hj|lia|].
    wbind. eapply wp_mload_vec; [exact HI|exact Hpb|assumption|exact Hb|exact Hx|].
    eapply wp_mstore; [exact HI|exact Hpo|exact Hi|exact Hj|]. intros h' HI'. apply Hs. eapply mst_ext; [exact HI'|].
    intros i' j' _ _. unfold upd, add_rows. rewrite (nth_lookup_Some xs j s_zero x Hx). reflexivity.
Qed.

Lemma wp_m_add_vec h l b c r f xs (Q : unit -> heap F -> Prop) : wf h -> abs h !! l = Some (Mat c r f) -> abs h !! b = Some (AVec xs) -> length xs = c ->
  (forall h', wf h' -> abs h' = <[l := Mat c r (add_rows f xs)]> (abs h) -> Q tt h') -> wp (m_add_vec l (Some b)) h Q.
Proof.
  intros Hwf Ha Hb Hlen HQ. unfold m_add_vec. wbind. eapply wp_m_size; [exact Ha|]. wbind. eapply wp_v_size_vec; [exact Hb|]. cbn [fst snd].
  replace (Z.of_nat c =? Z.of_nat (length xs)) with true by lia. cbn [negb].
  wbind. eapply wp_data_ptr; [exact Ha|]. intros p Hp. wbind. eapply wp_data_ptr; [exact Hb|]. intros q Hq.
  eapply wp_add_vec_loop with (la := l) (lb := b) (lo := l) (g0 := fun i j => Some (f i j));
    [exact Hwf|exact Ha|exact Hp|exact Hb|exact Hq|exact Hlen|rewrite <- Mat_MatP; exact Ha|exact Hp|auto].
Qed.

Lemma wp_m_add_vecn h l b c r f xs (Q : option loc -> heap F -> Prop) : wf h -> abs h !! l = Some (Mat c r f) -> abs h !! b = Some (AVec xs) -> length xs = c ->
  (forall d h', wf h' -> abs h !! d = None -> abs h' = <[d := Mat c r (add_rows f xs)]> (abs h) -> Q (Some d) h') -> wp (m_add_vecn l (Some b)) h Q.
Proof.
  intros Hwf Ha Hb Hlen HQ. destruct (amat_len h l _ _ _ Hwf Ha) as [_ Hle]. unfold m_add_vecn. wbind. eapply wp_m_size; [exact Ha|]. wbind. eapply wp_v_size_vec; [exact Hb|]. cbn [fst snd].
  replace (Z.of_nat c =? Z.of_nat (length xs)) with true by lia. cbn [negb].
  wbind. apply wp_m_new; [exact Hwf|]. intros d h1 W1 N1 A1 _.
  wbind. eapply wp_m_resize; [exact W1|rewrite A1; apply lookup_insert|lia|]. intros h2 W2 A2 _.
  assert (Ha2 : abs h2 !! l = Some (Mat c r f)) by (rewrite A2, A1, !lookup_insert_ne by congruence; exact Ha).
  assert (Hb2 : abs h2 !! b = Some (AVec xs)) by (rewrite A2, A1, !lookup_insert_ne by congruence; exact Hb).
  destruct (cells_MatP h2 d c r _ W2 ltac:(rewrite A2; apply lookup_insert)) as [g0 Hd].
  wbind. eapply wp_data_ptr; [exact Ha2|]. intros p Hp. wbind. eapply wp_data_ptr; [exact Hb2|]. intros q Hq.
  wbind. eapply wp_data_ptr; [exact Hd|]. intros po Hpo. wbind.
  eapply wp_add_vec_loop with (la := l) (lb := b) (lo := d); [exact W2|exact Ha2|exact Hp|exact Hb2|exact Hq|exact Hlen|exact Hd|exact Hpo|].
  intros h3 W3 O3 A3. apply wp_ret. apply HQ; auto. rewrite A3, A2, A1, !insert_insert. reflexivity.
Qed.

Lemma wp_m_add_vecb h l x0 y0 cs a b c r f xs (Q : unit -> heap F -> Prop) : wf h -> abs h !! l = Some (SMat x0 y0, cs) ->
  abs h !! a = Some (Mat c r f) -> abs h !! b = Some (AVec xs) -> length xs = c ->
  (forall h', wf h' -> abs h' = <[l := Mat c r (add_rows f xs)]> (abs h) -> Q tt h') -> wp (m_add_vecb l (Some a) (Some b)) h Q.
Proof.
  intros Hwf Hl Ha Hb Hlen HQ. destruct (amat_len h a _ _ _ Hwf Ha) as [_ Hle].
  assert (b <> l) by (intros ->; rewrite Hb in Hl; discriminate).
  unfold m_add_vecb. wbind. eapply wp_m_size; [exact Ha|]. wbind. eapply wp_v_size_vec; [exact Hb|]. cbn [fst snd].
  replace (Z.of_nat c =? Z.of_nat (length xs)) with true by lia. cbn [negb].
  wbind. eapply wp_m_resize_if; [exact Hwf|exact Hl|lia|]. intros h1 W1 A1 _.
  pose proof (m_resize_operand h h1 l x0 y0 cs a _ _ _ Hwf Hl Ha A1) as Ha1.
  assert (Hb1 : abs h1 !! b = Some (AVec xs)) by (rewrite A1, lookup_insert_ne by congruence; exact Hb).
  destruct (cells_MatP h1 l c r _ W1 ltac:(rewrite A1; apply lookup_insert)) as [g0 Hl1].
  wbind. eapply wp_data_ptr; [exact Ha1|]. intros p Hp. wbind. eapply wp_data_ptr; [exact Hb1|]. intros q Hq.
  wbind. eapply wp_data_ptr; [exact Hl1|]. intros po Hpo.
  eapply wp_add_vec_loop with (la := a) (lb := b) (lo := l); [exact W1|exact Ha1|exact Hp|exact Hb1|exact Hq|exact Hlen|exact Hl1|exact Hpo|].
  intros h3 W3 O3 A3. apply HQ; auto. rewrite A3, A1, !insert_insert. reflexivity.
Qed.

(** ** Outer products *)
Definition outer xs ys : nat -> nat -> F := fun i j => s_mul (nth i xs s_zero) (nth j ys s_zero).

Lemma wp_outer_loop h la pa xs lb pb ys lo g0 (Q : unit -> heap F -> Prop) : wf h ->
  abs h !! la = Some (AVec xs) -> ptr_of h la = Some pa -> abs h !! lb = Some (AVec ys) -> ptr_of h lb = Some pb ->
  abs h !! lo = Some (MatP (length ys) (length xs) g0) ->
  (forall h', wf h' -> h_obj h' = h_obj h -> abs h' = <[lo := Mat (length ys) (length xs) (outer xs ys)]> (abs h) -> Q tt h') ->
  wp (outer_loop lo (Z.of_nat (length ys)) (Z.of_nat (length xs)) pa pb) h Q.
Proof.
  intros Hwf Ha Hpa Hb Hpb Ho HQ. unfold outer_loop.
  assert (lb <> lo) by (intros ->; rewrite Hb in Ho; discriminate).
  assert (la <> lo) by (intros ->; rewrite Ha in Ho; discriminate).
  eapply wp_grid with (u := outer xs ys) (body := fun (z1 z2 : Z) => let! y := load pb z2 in m_set lo z1 z2 (s_mul (nth (Z.to_nat z1) xs s_zero) y));
    [exact Hwf|exact Ho| | |exact HQ].
  - intros i hi Q' Hi HI Hs. destruct (lookup_lt_is_Some_2 xs i Hi) as [x Hx].
    wbind. eapply wp_mload_vec; [exact HI|exact Hpa|assumption|exact Ha|exact Hx|].
    rewrite Nat2Z.id, (nth_lookup_Some xs i s_zero x Hx) in Hs. exact Hs.
  - intros i j hi Q' Hi Hj HI Hs. destruct (lookup_lt_is_Some_2 ys j Hj) as [y Hy].
    wbind. eapply wp_mload_vec; [exact HI|exact Hpb|assumption|exact Hb|exact Hy|].
    eapply wp_mset; [exact HI|exact Hi|exact Hj|]. intros h' HI'. apply Hs. eapply mst_ext; [exact HI'|].
    intros i' j' _ _. unfold upd, outer. rewrite Nat2Z.id, (nth_lookup_Some ys j s_zero y Hy). reflexivity.
Qed.

Lemma wp_m_outer h l x0 y0 cs a b xs ys (Q : unit -> heap F -> Prop) : wf h -> abs h !! l = Some (SMat x0 y0, cs) ->
  abs h !! a = Some (AVec xs) -> abs h !! b = Some (AVec ys) -> Z.of_nat (length ys * length xs) <= int_max ->
  (forall h', wf h' -> abs h' = <[l := Mat (length ys) (length xs) (outer xs ys)]> (abs h) -> Q tt h') -> wp (m_outer l (Some a) (Some b)) h Q.
Proof.
  intros Hwf Hl Ha Hb Hle HQ.
  assert (b <> l) by (intros ->; rewrite Hb in Hl; discriminate). assert (a <> l) by (intros ->; rewrite Ha in Hl; discriminate).
  unfold m_outer. wbind. eapply wp_v_size_vec; [exact Hb|]. wbind. eapply wp_v_size_vec; [exact Ha|].
  wbind. eapply wp_m_resize_if; [exact Hwf|exact Hl|lia|]. intros h1 W1 A1 _.
  assert (Ha1 : abs h1 !! a = Some (AVec xs)) by (rewrite A1, lookup_insert_ne by congruence; exact Ha).
  assert (Hb1 : abs h1 !! b = Some (AVec ys)) by (rewrite A1, lookup_insert_ne by congruence; exact Hb).
  destruct (cells_MatP h1 l (length ys) (length xs) _ W1 ltac:(rewrite A1; apply lookup_insert)) as [g0 Hl1].
  wbind. eapply wp_data_ptr; [exact Ha1|]. intros p Hp. wbind. eapply wp_data_ptr; [exact Hb1|]. intros q Hq.
  eapply wp_outer_loop with (la := a) (lb := b); [exact W1|exact Ha1|exact Hp|exact Hb1|exact Hq|exact Hl1|].
  intros h3 W3 O3 A3. apply HQ; auto. rewrite A3, A1, !insert_insert. reflexivity.
Qed.

Lemma wp_m_outern h a b xs ys (Q : option loc -> heap F -> Prop) : wf h ->
  abs h !! a = Some (AVec xs) -> abs h !! b = Some (AVec ys) -> Z.of_nat (length ys * length xs) <= int_max ->
  (forall d h', wf h' -> abs h !! d = None -> abs h' = <[d := Mat (length ys) (length xs) (outer xs ys)]> (abs h) -> Q (Some d) h') -> wp (m_outern (Some a) (Some b)) h Q.
Proof.
  intros Hwf Ha Hb Hle HQ. unfold m_outern. wbind. apply wp_m_new; [exact Hwf|]. intros d h1 W1 N1 A1 _.
  assert (Ha1 : abs h1 !! a = Some (AVec xs)) by (rewrite A1, lookup_insert_ne by congruence; exact Ha).
  assert (Hb1 : abs h1 !! b = Some (AVec ys)) by (rewrite A1, lookup_insert_ne by congruence; exact Hb).
  wbind. eapply wp_v_size_vec; [exact Hb1|]. wbind. eapply wp_v_size_vec; [exact Ha1|].
  wbind. eapply wp_m_resize; [exact W1|rewrite A1; apply lookup_insert|lia|]. intros h2 W2 A2 _.
  assert (Ha2 : abs h2 !! a = Some (AVec xs)) by (rewrite A2, lookup_insert_ne by congruence; exact Ha1).
  assert (Hb2 : abs h2 !! b = Some (AVec ys)) by (rewrite A2, lookup_insert_ne by congruence; exact Hb1).
  destruct (cells_MatP h2 d (length ys) (length xs) _ W2 ltac:(rewrite A2; apply lookup_insert)) as [g0 Hl1].
  wbind. eapply wp_data_ptr; [exact Ha2|]. intros p Hp. wbind. eapply wp_data_ptr; [exact Hb2|]. intros q Hq. wbind.
  eapply wp_outer_loop with (la := a) (lb := b); [exact W2|exact Ha2|exact Hp|exact Hb2|exact Hq|exact Hl1|].
  intros h3 W3 O3 A3. apply wp_ret. apply HQ; auto. rewrite A3, A2, A1, !insert_insert. reflexivity.
Qed.

Lemma wp_v_outer h a b xs ys (Q : loc -> heap F -> Prop) : wf h ->
  abs h !! a = Some (AVec xs) -> abs h !! b = Some (AVec ys) -> Z.of_nat (length ys * length xs) <= int_max ->
  (forall d h', wf h' -> abs h !! d = None -> abs h' = <[d := Mat (length ys) (length xs) (outer xs ys)]> (abs h) -> Q d h') -> wp (v_outer a (Some b)) h Q.
Proof.
  intros Hwf Ha Hb Hle HQ. unfold v_outer. wbind. apply wp_m_new; [exact Hwf|]. intros d h1 W1 N1 A1 _.
  assert (Ha1 : abs h1 !! a = Some (AVec xs)) by (rewrite A1, lookup_insert_ne by congruence; exact Ha).
  assert (Hb1 : abs h1 !! b = Some (AVec ys)) by (rewrite A1, lookup_insert_ne by congruence; exact Hb).
  wbind. cbn [deref]. apply wp_ret.
  wbind. eapply wp_v_size_vec; [exact Hb1|]. wbind. eapply wp_v_size_vec; [exact Ha1|].
  wbind. eapply wp_m_resize; [exact W1|rewrite A1; apply lookup_insert|lia|]. intros h2 W2 A2 _.
  assert (Ha2 : abs h2 !! a = Some (AVec xs)) by (rewrite A2, lookup_insert_ne by congruence; exact Ha1).
  assert (Hb2 : abs h2 !! b = Some (AVec ys)) by (rewrite A2, lookup_insert_ne by congruence; exact Hb1).
  destruct (cells_MatP h2 d (length ys) (length xs) _ W2 ltac:(rewrite A2; apply lookup_insert)) as [g0 Hl1].
  wbind. eapply wp_data_ptr; [exact Ha2|]. intros p Hp. wbind. eapply wp_data_ptr; [exact Hb2|]. intros q Hq. wbind.
  eapply wp_outer_loop with (la := a) (lb := b); [exact W2|exact Ha2|exact Hp|exact Hb2|exact Hq|exact Hl1|].
  intros h3 W3 O3 A3. apply wp_ret. apply HQ; auto. rewrite A3, A2, A1, !insert_insert. reflexivity.
Qed.

(** ** Diagonals *)
Definition set_diag (v : list F) f : nat -> nat -> F := fun i j => if decide (i = j /\ (i < length v)%nat) then nth i v s_zero else f i j.

Lemma wp_diag_body h l b c r f v (Q : unit -> heap F -> Prop) : wf h -> abs h !! l = Some (Mat c r f) -> abs h !! b = Some (AVec v) ->
  (forall h', wf h' -> abs h' = <[l := Mat c r (set_diag v f)]> (abs h) -> Q tt h') -> wp (diag_body l b) h Q.
Proof.
  intros Hwf Ha Hb HQ. assert (b <> l) by (intros ->; rewrite Hb in Ha; discriminate).
  assert (Hgoal : forall h', wf h' -> abs h' = <[l := MatP c r (fun i j => if decide (i = j /\ (i < Nat.min (Nat.min c r) (length v))%nat) then Some (nth i v s_zero) else Some (f i j))]> (abs h) -> Q tt h').
  { intros h' W A. apply HQ; auto. rewrite A, Mat_MatP. f_equal. apply MatP_ext. intros i j Hi Hj. unfold set_diag.
    destruct (decide (i = j /\ (i < length v)%nat)) as [[-> ?]|E]; [rewrite decide_True by lia; reflexivity|].
    rewrite decide_False by lia. reflexivity. }
  unfold diag_body. wbind. eapply wp_v_size_vec; [exact Hb|]. wbind. eapply wp_m_size; [exact Ha|]. cbn [fst snd].
  replace (Z.min (Z.min (Z.of_nat c) (Z.of_nat r)) (Z.of_nat (length v))) with (Z.of_nat (Nat.min (Nat.min c r) (length v))) by lia.
  set (n := Nat.min (Nat.min c r) (length v)) in *. destruct (Z.leb_spec (Z.of_nat n) 0) as [E|E].
  - apply wp_ret. apply Hgoal; [exact Hwf|]. rewrite insert_id; [reflexivity|]. rewrite Ha, Mat_MatP. f_equal. apply MatP_ext.
    intros i j _ _. rewrite decide_False by lia. reflexivity.
  - wbind. eapply wp_data_ptr; [exact Hb|]. intros q Hq. wbind. eapply wp_data_ptr; [exact Ha|]. intros p Hp.
    eapply wp_diag_loop with (u := fun i => nth i v s_zero) (g := fun i j => Some (f i j)); [exact Hwf|rewrite <- Mat_MatP; exact Ha|exact Hp|lia|lia| |].
    + intros i hi Q' Hi HI Hs. destruct (lookup_lt_is_Some_2 v i) as [x Hx]; [lia|].
      wbind. eapply wp_mload_vec; [exact HI|exact Hq|assumption|exact Hb|exact Hx|]. rewrite (nth_lookup_Some v i s_zero x Hx) in Hs. exact Hs.
    + intros h' W O A. apply Hgoal; auto.
Qed.

Lemma wp_m_diagonal_setn h l b c r f v (Q : option loc -> heap F -> Prop) : wf h -> abs h !! l = Some (Mat c r f) -> abs h !! b = Some (AVec v) ->
  (forall d h', wf h' -> abs h !! d = None -> abs h' = <[d := Mat c r (set_diag v f)]> (abs h) -> Q (Some d) h') -> wp (m_diagonal_setn l (Some b)) h Q.
Proof.
  intros Hwf Ha Hb HQ. unfold m_diagonal_setn. wbind. eapply wp_m_duplicate; [exact Hwf|exact Ha|]. intros d h1 W1 N1 A1.
  wbind. eapply wp_diag_body; [exact W1|rewrite A1; apply lookup_insert|rewrite A1, lookup_insert_ne by congruence; exact Hb|].
  intros h2 W2 A2. apply wp_ret. apply HQ; auto. rewrite A2, A1, insert_insert. reflexivity.
Qed.

Lemma wp_m_diagonal_zeroed h l b c r cs v (Q : unit -> heap F -> Prop) : wf h -> abs h !! l = Some (SMat (Z.of_nat c) (Z.of_nat r), cs) -> abs h !! b = Some (AVec v) ->
  (forall h', wf h' -> abs h' = <[l := Mat c r (set_diag v (fun _ _ => s_zero))]> (abs h) -> Q tt h') -> wp (m_diagonal_zeroed l (Some b)) h Q.
Proof.
  intros Hwf Ha Hb HQ. assert (b <> l) by (intros ->; rewrite Hb in Ha; discriminate). unfold m_diagonal_zeroed. wbind. eapply wp_m_fill_mat; [exact Hwf|exact Ha|]. intros h1 W1 O1 A1.
  eapply wp_diag_body; [exact W1|rewrite A1; apply lookup_insert|rewrite A1, lookup_insert_ne by congruence; exact Hb|].
  intros h2 W2 A2. apply HQ; auto. rewrite A2, A1, insert_insert. reflexivity.
Qed.

Lemma wp_m_diagonal_zeroedn h l b c r cs v (Q : option loc -> heap F -> Prop) : wf h -> abs h !! l = Some (SMat (Z.of_nat c) (Z.of_nat r), cs) -> abs h !! b = Some (AVec v) ->
  (forall d h', wf h' -> abs h !! d = None -> abs h' = <[d := Mat c r (set_diag v (fun _ _ => s_zero))]> (abs h) -> Q (Some d) h') -> wp (m_diagonal_zeroedn l (Some b)) h Q.
Proof.
  intros Hwf Ha Hb HQ. destruct (mat_len h l _ _ _ Hwf Ha) as [_ Hle].
  unfold m_diagonal_zeroedn. wbind. apply wp_m_new; [exact Hwf|]. intros d h1 W1 N1 A1 _.
  wbind. eapply wp_m_size; [rewrite A1, lookup_insert_ne by congruence; exact Ha|].
  wbind. eapply wp_m_resize; [exact W1|rewrite A1; apply lookup_insert|lia|]. intros h2 W2 A2 _.
  wbind. eapply wp_m_fill_mat; [exact W2|rewrite A2; apply lookup_insert|]. intros h3 W3 O3 A3.
  wbind. eapply wp_diag_body; [exact W3|rewrite A3; apply lookup_insert|rewrite A3, A2, A1, !lookup_insert_ne by congruence; exact Hb|].
  intros h4 W4 A4. apply wp_ret. apply HQ; auto. rewrite A4, A3, A2, A1, !insert_insert. reflexivity.
Qed.

Lemma wp_v_diagnm h b v (Q : loc -> heap F -> Prop) : wf h -> abs h !! b = Some (AVec v) -> Z.of_nat (length v * length v) <= int_max ->
  (forall d h', wf h' -> abs h !! d = None -> abs h' = <[d := Mat (length v) (length v) (set_diag v (fun _ _ => s_zero))]> (abs h) -> Q d h') -> wp (v_diagnm b) h Q.
Proof.
  intros Hwf Hb Hle HQ. unfold v_diagnm. wbind. apply wp_m_new; [exact Hwf|]. intros d h1 W1 N1 A1 _. assert (b <> d) by congruence.
  wbind. eapply wp_v_size_vec; [rewrite A1, lookup_insert_ne by congruence; exact Hb|].
  wbind. eapply wp_m_resize; [exact W1|rewrite A1; apply lookup_insert|lia|]. intros h2 W2 A2 _.
  wbind. eapply wp_m_fill_mat; [exact W2|rewrite A2; apply lookup_insert|]. intros h3 W3 O3 A3.
  assert (Hb3 : abs h3 !! b = Some (AVec v)) by (rewrite A3, A2, A1, !lookup_insert_ne by congruence; exact Hb).
  assert (H3 : abs h3 !! d = Some (MatP (length v) (length v) (fun _ _ => Some s_zero))) by (rewrite <- Mat_MatP, A3; apply lookup_insert).
  wbind. eapply wp_data_ptr; [exact Hb3|]. intros q Hq. wbind. eapply wp_data_ptr; [exact H3|]. intros p Hp. wbind.
  eapply wp_diag_loop with (u := fun i => nth i v s_zero); [exact W3|exact H3|exact Hp|lia|lia| |].
  - intros i hi Q' Hi HI Hs. destruct (lookup_lt_is_Some_2 v i) as [x Hx]; [lia|].
    wbind. eapply wp_mload_vec; [exact HI|exact Hq|assumption|exact Hb3|exact Hx|]. rewrite (nth_lookup_Some v i s_zero x Hx) in Hs. exact Hs.
  - intros h4 W4 O4 A4. apply wp_ret. apply HQ; auto. rewrite A4, A3, A2, A1, !insert_insert, Mat_MatP. f_equal. apply MatP_ext.
    intros i j _ _. unfold set_diag. destruct (decide _); reflexivity.
Qed.

(** ** subtract_matrix_rows *)
Definition sub_rows (rows : list (list F)) v : list F := foldl (fun acc row => zip_with s_sub acc row) v rows.

Lemma sub_rows_length rows v : Forall (fun row => length row = length v) rows -> length (sub_rows rows v) = length v.
Proof.
  revert v. induction rows as [|row rows IH]; intros v Hf; [reflexivity|]. inversion Hf as [|? ? Hr Hf']; subst. cbn.
  assert (E : length (zip_with s_sub v row) = length v) by (rewrite zip_with_length; lia).
  change (length (sub_rows rows (zip_with s_sub v row)) = length v). rewrite IH; [exact E|]. rewrite E. exact Hf'.
Qed.

Lemma wp_sub_rows_loop h lb pb c rows lc pc v (Q : unit -> heap F -> Prop) : wf h ->
  abs h !! lb = Some (Rows c rows) -> width c rows -> ptr_of h lb = Some pb -> abs h !! lc = Some (AVec v) -> ptr_of h lc = Some pc -> length v = c ->
  (forall h', wf h' -> abs h' = <[lc := AVec (sub_rows rows v)]> (abs h) -> Q tt h') ->
  wp (sub_rows_loop (Z.of_nat c) (Z.of_nat (length rows)) pb pc) h Q.
Proof.
  intros Hwf Hb Hw Hpb Hc Hpc Hlen HQ. assert (lb <> lc) as Hbc by (intros ->; rewrite Hb in Hc; discriminate). unfold sub_rows_loop.
  assert (Hl : forall n, length (sub_rows (take n rows) v) = c).
  { intros n. rewrite sub_rows_length; [exact Hlen|]. rewrite Hlen. apply width_take, Hw. }
  apply wp_for_n with (I := fun i hi => wf hi /\ h_obj hi = h_obj h /\ abs hi = <[lc := AVec (sub_rows (take i rows) v)]> (abs h)).
  - split; [assumption|]. split; [reflexivity|]. rewrite insert_id; [reflexivity|]. exact Hc.
  - intros i hi Hi (W & O & A). destruct (lookup_lt_is_Some_2 rows i Hi) as [row Hr]. assert (Hlr : length row = c) by (eapply width_row; eauto).
    assert (Ec : abs hi !! lc = Some (AVec (sub_rows (take i rows) v))) by (rewrite A; apply lookup_insert).
    eapply wp_map_loop with (lo := lc) (po := pc) (new := zip_with s_sub (sub_rows (take i rows) v) row);
      [exact W|rewrite (ptr_of_obj h hi); assumption|exact Ec|rewrite zip_with_length, fmap_length; pose proof (Hl i); lia|rewrite fmap_length; pose proof (Hl i); lia| |].
    + intros j hj z Q' Hj Hm Hz Hs. apply lookup_zip_with_Some in Hz as (x & y & -> & Hx & Hy).
      pose proof Hm as Hm'. destruct Hm' as [M1 M2 M3].
      wbind. eapply wp_load_mid with (la := lc) (i := j); [exact Hm| |exact Ec|rewrite (ptr_of_obj h hi); assumption|exact Ec|lia|apply fmap_Some_lookup, Hx|].
      { rewrite zip_with_length, fmap_length; pose proof (Hl i); lia. }
      wbind. eapply wp_load with (l := lb) (v := y); [exact M1| |rewrite M3, A, !lookup_insert_ne by congruence; exact Hb|lia| |exact Hs].
      { rewrite (ptr_of_obj hi hj) by assumption. rewrite (ptr_of_obj h hi); assumption. }
      apply fmap_Some_lookup. replace (Z.to_nat (Z.of_nat i * Z.of_nat c + j)) with (i * c + Z.to_nat j)%nat by lia.
      rewrite (concat_lookup c rows _ row); auto. lia.
    + intros h' W' O' A'. split; [assumption|]. split; [congruence|]. rewrite A', A, insert_insert. f_equal. unfold AVec.
      rewrite (take_S_r _ _ _ Hr). assert (Es : sub_rows (take i rows ++ [row]) v = zip_with s_sub (sub_rows (take i rows) v) row) by (unfold sub_rows; rewrite foldl_app; reflexivity). rewrite Es. f_equal.
      f_equal. rewrite zip_with_length. pose proof (Hl i). lia.
  - intros hi (W & O & A). apply HQ; auto. rewrite A, take_ge by lia. reflexivity.
Qed.

Lemma wp_v_sub_rows h l b c rows v (Q : unit -> heap F -> Prop) : wf h -> abs h !! b = Some (Rows c rows) -> width c rows ->
  abs h !! l = Some (AVec v) -> length v = c ->
  (forall h', wf h' -> abs h' = <[l := AVec (sub_rows rows v)]> (abs h) -> Q tt h') -> wp (v_sub_rows l (Some b)) h Q.
Proof.
  intros Hwf Hb Hw Hl Hlen HQ. unfold v_sub_rows. wbind. cbn [deref]. apply wp_ret. wbind. eapply wp_m_size; [exact Hb|].
  wbind. eapply wp_v_size_vec; [exact Hl|]. cbn [fst snd]. replace (Z.of_nat c =? Z.of_nat (length v)) with true by lia. cbn [negb].
  wbind. eapply wp_data_ptr; [exact Hb|]. intros p Hp. wbind. eapply wp_data_ptr; [exact Hl|]. intros q Hq.
  eapply wp_sub_rows_loop with (lb := b) (lc := l); eauto.
Qed.

Lemma wp_v_sub_rowsn h l b c rows v (Q : loc -> heap F -> Prop) : wf h -> abs h !! b = Some (Rows c rows) -> width c rows ->
  abs h !! l = Some (AVec v) -> length v = c ->
  (forall d h', wf h' -> abs h !! d = None -> abs h' = <[d := AVec (sub_rows rows v)]> (abs h) -> Q d h') -> wp (v_sub_rowsn l (Some b)) h Q.
Proof.
  intros Hwf Hb Hw Hl Hlen HQ. unfold v_sub_rowsn. wbind. eapply wp_v_duplicate; [exact Hwf|exact Hl|]. intros d h1 W1 N1 A1.
  assert (Hb1 : abs h1 !! b = Some (Rows c rows)) by (rewrite A1, lookup_insert_ne by congruence; exact Hb).
  assert (Hd1 : abs h1 !! d = Some (AVec v)) by (rewrite A1; apply lookup_insert).
  wbind. cbn [deref]. apply wp_ret. wbind. eapply wp_m_size; [exact Hb1|].
  wbind. eapply wp_v_size_vec; [exact Hd1|]. cbn [fst snd]. replace (Z.of_nat c =? Z.of_nat (length v)) with true by lia. cbn [negb].
  wbind. eapply wp_data_ptr; [exact Hb1|]. intros p Hp. wbind. eapply wp_data_ptr; [exact Hd1|]. intros q Hq. wbind.
  eapply wp_sub_rows_loop with (lb := b) (lc := d); eauto. intros h2 W2 A2. apply wp_ret. apply HQ; auto. rewrite A2, A1, insert_insert. reflexivity.
Qed.

Lemma wp_v_sub_rowsb h l n cs a b c rows v (Q : unit -> heap F -> Prop) : wf h -> abs h !! b = Some (Rows c rows) -> width c rows ->
  abs h !! l = Some (SVec n, cs) -> abs h !! a = Some (AVec v) -> length v = c ->
  (forall h', wf h' -> abs h' = <[l := AVec (sub_rows rows v)]> (abs h) -> Q tt h') -> wp (v_sub_rowsb l (Some a) (Some b)) h Q.
Proof.
  intros Hwf Hb Hw Hl Ha Hlen HQ. assert (b <> l) by (intros ->; rewrite Hb in Hl; discriminate).
  unfold v_sub_rowsb. wbind. cbn [deref]. apply wp_ret. wbind. eapply wp_m_size; [exact Hb|].
  wbind. cbn [deref]. apply wp_ret.
  wbind. eapply wp_v_size_vec; [exact Ha|]. cbn [fst snd]. replace (Z.of_nat c =? Z.of_nat (length v)) with true by lia. cbn [negb].
  wbind. eapply wp_v_set_from_vec; [exact Hwf|exact Hl|exact Ha|]. intros h1 W1 A1.
  assert (Hb1 : abs h1 !! b = Some (Rows c rows)) by (rewrite A1, lookup_insert_ne by congruence; exact Hb).
  assert (Hd1 : abs h1 !! l = Some (AVec v)) by (rewrite A1; apply lookup_insert).
  wbind. eapply wp_data_ptr; [exact Hb1|]. intros p Hp. wbind. eapply wp_data_ptr; [exact Hd1|]. intros q Hq.
  eapply wp_sub_rows_loop with (lb := b) (lc := l); eauto. intros h2 W2 A2. apply HQ; auto. rewrite A2, A1, insert_insert. reflexivity.
Qed.

(** ** Flattening *)
Lemma wp_flat_loop h la pa sha xs lo po n cs (Q : unit -> heap F -> Prop) : wf h ->
  abs h !! la = Some (sha, Some <$> xs) -> ptr_of h la = Some pa -> abs h !! lo = Some (SVec n, cs) -> ptr_of h lo = Some po -> la <> lo ->
  n = Z.of_nat (length xs) ->
  (forall h', wf h' -> abs h' = <[lo := AVec xs]> (abs h) -> Q tt h') -> wp (loop1 (fun x => x) n pa po) h Q.
Proof.
  intros Hwf Ha Hpa Ho Hpo Hne Hn HQ. destruct (vec_len _ _ _ _ Hwf Ho) as [Hn1 _]. unfold loop1.
  eapply wp_map_loop with (lo := lo) (new := xs); [exact Hwf|exact Hpo|exact Ho|lia|lia| |].
  - intros i hi x Q' Hi [M1 M2 M3] Hx Hs. wbind.
    eapply wp_load with (l := la) (v := x); [exact M1|rewrite (ptr_of_obj h hi); assumption|rewrite M3, lookup_insert_ne by congruence; exact Ha|lia|apply fmap_Some_lookup, Hx|exact Hs].
  - intros h' W O A. apply HQ; auto. rewrite A. unfold AVec. rewrite Hn. reflexivity.
Qed.

Lemma wp_m_flatten h l c r xs (Q : loc -> heap F -> Prop) : wf h -> abs h !! l = Some (AMat c r xs) ->
  (forall d h', wf h' -> abs h !! d = None -> abs h' = <[d := AVec xs]> (abs h) -> Q d h') -> wp (m_flatten l) h Q.
Proof.
  intros Hwf Ha HQ. destruct (amat_len h l _ _ _ Hwf Ha) as [Hlen Hle].
  unfold m_flatten. wbind. eapply wp_m_data_size; [exact Ha|]. wbind. apply wp_v_new; [exact Hwf|]. intros d h1 W1 N1 A1 _.
  wbind. eapply wp_v_resize; [exact W1|rewrite A1; apply lookup_insert|lia|]. intros h2 W2 A2 _.
  wbind. eapply wp_data_ptr; [rewrite A2; apply lookup_insert|]. intros po Hpo.
  assert (Ha2 : abs h2 !! l = Some (AMat c r xs)) by (rewrite A2, A1, !lookup_insert_ne by congruence; exact Ha).
  wbind. eapply wp_data_ptr; [exact Ha2|]. intros p Hp. wbind.
  eapply wp_flat_loop with (la := l) (lo := d); [exact W2|exact Ha2|exact Hp|rewrite A2; apply lookup_insert|exact Hpo|congruence|lia|].
  intros h3 W3 A3. apply wp_ret. apply HQ; auto. rewrite A3, A2, A1, !insert_insert. reflexivity.
Qed.

Lemma wp_m_flatteno h l out n cs c r xs (Q : unit -> heap F -> Prop) : wf h -> abs h !! l = Some (AMat c r xs) -> abs h !! out = Some (SVec n, cs) ->
  (forall h', wf h' -> abs h' = <[out := AVec xs]> (abs h) -> Q tt h') -> wp (m_flatteno l (Some out)) h Q.
Proof.
  intros Hwf Ha Ho HQ. destruct (amat_len h l _ _ _ Hwf Ha) as [Hlen Hle]. assert (l <> out) by (intros ->; rewrite Ha in Ho; discriminate).
  unfold m_flatteno. wbind. eapply wp_m_data_size; [exact Ha|]. wbind. eapply wp_v_size; [exact Ho|].
  wbind. eapply wp_v_resize_cond; [exact Hwf|exact Ho|lia|]. intros h2 W2 A2 _.
  wbind. eapply wp_data_ptr; [rewrite A2; apply lookup_insert|]. intros po Hpo.
  assert (Ha2 : abs h2 !! l = Some (AMat c r xs)) by (rewrite A2, !lookup_insert_ne by congruence; exact Ha).
  wbind. eapply wp_data_ptr; [exact Ha2|]. intros p Hp.
  eapply wp_flat_loop with (la := l) (lo := out); [exact W2|exact Ha2|exact Hp|rewrite A2; apply lookup_insert|exact Hpo|congruence|lia|].
  intros h3 W3 A3. apply HQ; auto. rewrite A3, A2, !insert_insert. reflexivity.
Qed.

(** ** Serialisation *)
Lemma wp_m_get_data h l c r xs (Q : (Z * Z) * list F -> heap F -> Prop) : wf h -> abs h !! l = Some (AMat c r xs) ->
  Q ((Z.of_nat c, Z.of_nat r), xs) h -> wp (m_get_data l) h Q.
Proof.
  intros Hwf Ha HQ. destruct (amat_len h l _ _ _ Hwf Ha) as [Hlen Hle].
  unfold m_get_data. wbind. eapply wp_m_size; [exact Ha|]. wbind. eapply wp_m_data_size; [exact Ha|].
  wbind. eapply wp_data_ptr; [exact Ha|]. intros p Hp. wbind.
  replace (Z.of_nat c * Z.of_nat r) with (Z.of_nat (length xs)) by lia.
  apply wp_for_acc_n with (I := fun j acc h' => h' = h /\ acc = take j xs).
  - auto.
  - intros j acc h' Hj [-> ->]. destruct (lookup_lt_is_Some_2 xs j Hj) as [x Hx].
    wbind. eapply wp_load with (v := x); [exact Hwf|exact Hp|exact Ha|lia|rewrite Nat2Z.id; apply fmap_Some_lookup, Hx|].
    apply wp_ret. split; [reflexivity|]. symmetry. apply take_S_r. exact Hx.
  - intros acc h' [-> ->]. rewrite take_ge by lia. apply wp_ret. exact HQ.
Qed.

Lemma wp_m_set_data h l x0 y0 cs c r xs (Q : unit -> heap F -> Prop) : wf h -> abs h !! l = Some (SMat x0 y0, cs) -> length xs = (r * c)%nat -> Z.of_nat (r * c) <= int_max ->
  (forall h', wf h' -> abs h' = <[l := AMat c r xs]> (abs h) -> Q tt h') -> wp (m_set_data l (Some ((Z.of_nat c, Z.of_nat r), xs))) h Q.
Proof.
  intros Hwf Ha Hlen Hle HQ. unfold m_set_data. cbn [fst snd]. wbind. apply wp_chk; [unfold int_max in *; lia|].
  replace (Z.of_nat c * Z.of_nat r =? Z.of_nat (length xs)) with true by lia. cbn [negb].
  wbind. eapply wp_m_resize_if; [exact Hwf|exact Ha|lia|]. intros h1 W1 A1 _.
  unfold m_copy_list. wbind. eapply wp_data_ptr; [rewrite A1; apply lookup_insert|]. intros p Hp.
  eapply wp_map_loop with (lo := l) (new := xs); [exact W1|exact Hp|rewrite A1; apply lookup_insert|rewrite resize_length; lia|rewrite resize_length; lia| |].
  - intros i hi x Q' Hi Hm Hx Hs. rewrite Hx. exact Hs.
  - intros h2 W2 O2 A2. apply HQ; auto. rewrite A2, A1, insert_insert. reflexivity.
Qed.

(** ** set_from_vectors / set_from_arrays *)
Lemma wp_m_set_from_lists h l x0 y0 cs c rows (Q : unit -> heap F -> Prop) : wf h -> abs h !! l = Some (SMat x0 y0, cs) -> width c rows ->
  (0 < c)%nat -> rows <> [] -> Z.of_nat (length rows * c) <= int_max ->
  (forall h', wf h' -> abs h' = <[l := Rows c rows]> (abs h) -> Q tt h') -> wp (m_set_from_lists l rows) h Q.
Proof.
  intros Hwf Ha Hw Hc Hne Hle HQ. destruct rows as [|v0 rest] eqn:Erows; [congruence|]. rewrite <- Erows in *.
  assert (Hv0 : length v0 = c) by (apply (width_row c rows 0 v0 Hw); rewrite Erows; reflexivity).
  assert (0 < length rows)%nat by (rewrite Erows; cbn; lia).
  unfold m_set_from_lists. rewrite Erows at 1. cbv zeta. rewrite Hv0.
  wbind. eapply wp_m_resize; [exact Hwf|exact Ha|lia|]. intros h1 W1 A1 _.
  wbind. eapply wp_m_data_size; [rewrite A1; apply lookup_insert|]. destruct (Z.eqb_spec (Z.of_nat c * Z.of_nat (length rows)) 0) as [E|_]; [nia|].
  destruct (cells_MatP h1 l c (length rows) _ W1 ltac:(rewrite A1; apply lookup_insert)) as [g0 Hl1].
  pose (u := fun i j => nth j (nth i rows []) s_zero).
  apply wp_for_n with (I := fun i hi => mst h1 l c (length rows) (grid g0 u i 0) hi).
  - eapply mst_ext; [apply mst_init; eauto|]. intros i j _ _. unfold grid. rewrite decide_False by lia. reflexivity.
  - intros i hi Hi HI. rewrite Nat2Z.id. destruct (lookup_lt_is_Some_2 rows i Hi) as [row Hr]. rewrite Hr.
    assert (Hlr : length row = c) by (eapply width_row; eauto). rewrite Hlr. rewrite Z.eqb_refl. cbn [negb].
    pose proof HI as [W O A]. unfold m_copy_list. rewrite Hlr. wbind. eapply wp_data_ptr; [rewrite A; apply lookup_insert|]. intros p Hp.
    rewrite (ptr_of_obj h1 hi) in Hp by assumption.
    apply wp_for_n with (I := fun j hi => mst h1 l c (length rows) (grid g0 u i j) hi).
    + exact HI.
    + clear hi HI W O A. intros j hi Hj HI. rewrite Nat2Z.id. destruct (lookup_lt_is_Some_2 row j) as [x Hx]; [lia|]. rewrite Hx.
      eapply wp_mstore; [exact HI|exact Hp|exact Hi|exact Hj|]. intros h' HI'. eapply mst_ext; [exact HI'|].
      intros i' j' _ _. unfold upd, grid. destruct (decide (i' = i /\ j' = j)) as [[-> ->]|E].
      { rewrite decide_True by lia. unfold u. rewrite (nth_lookup_Some rows i [] row Hr), (nth_lookup_Some row j s_zero x Hx). reflexivity. }
      destruct (decide (i' < i \/ i' = i /\ j' < j)%nat); [rewrite decide_True by lia; reflexivity|].
      rewrite decide_False by lia. reflexivity.
    + intros h' HI'. eapply mst_ext; [exact HI'|]. intros i' j' Hi' Hj'. unfold grid.
      destruct (decide (i' < i \/ i' = i /\ j' < c)%nat); [rewrite decide_True by lia; reflexivity|].
      rewrite decide_False by lia. reflexivity.
  - intros h2 [W O A]. apply HQ; auto. rewrite A, A1, insert_insert, Rows_Mat, Mat_MatP by exact Hw. f_equal. apply MatP_ext. intros i j Hi Hj.
    unfold grid. rewrite decide_True by lia. reflexivity.
Qed.

(** ** is_equal_approx *)
Lemma wp_m_equal_approx h l b c r xs ys tol (Q : bool -> heap F -> Prop) : wf h -> abs h !! l = Some (AMat c r xs) -> abs h !! b = Some (AMat c r ys) -> l <> b ->
  Q (forallb (fun '(x, y) => s_equal_approx tol x y) (zip xs ys)) h -> wp (m_is_equal_approx l (Some b) tol) h Q.
Proof.
  intros Hwf Ha Hb Hne HQ. destruct (amat_len h l _ _ _ Hwf Ha) as [Hl1 _]. destruct (amat_len h b _ _ _ Hwf Hb) as [Hl2 _].
  unfold m_is_equal_approx. destruct (Nat.eqb_spec l b) as [->|_]; [congruence|].
  wbind. eapply wp_m_size; [exact Ha|]. wbind. eapply wp_m_size; [exact Hb|]. unfold size_eq. cbn [fst snd]. rewrite !Z.eqb_refl. cbn [andb negb].
  wbind. eapply wp_m_data_size; [exact Ha|]. wbind. eapply wp_data_ptr; [exact Ha|]. intros p Hp. wbind. eapply wp_data_ptr; [exact Hb|]. intros q Hq.
  change 0 with (Z.of_nat 0) at 1. eapply wp_equal_approx_loop; [exact Hwf|exact Ha|exact Hp|exact Hb|exact Hq|lia|lia|]. rewrite !drop_0. exact HQ.
Qed.

Lemma m_equal_approx_self h l tol : m_is_equal_approx l (Some l) tol h = Ok true h.
Proof. unfold m_is_equal_approx. rewrite Nat.eqb_refl. reflexivity. Qed.

Lemma wp_m_equal_approx_size h l b c r c' r' xs ys tol (Q : bool -> heap F -> Prop) : abs h !! l = Some (AMat c r xs) -> abs h !! b = Some (AMat c' r' ys) -> (c, r) <> (c', r') ->
  Q false h -> wp (m_is_equal_approx l (Some b) tol) h Q.
Proof.
  intros Ha Hb Hne HQ. unfold m_is_equal_approx.
  destruct (Nat.eqb_spec l b) as [->|_]. { exfalso. rewrite Ha in Hb. unfold AMat in Hb. apply Hne. f_equal; injection Hb; lia. }
  wbind. eapply wp_m_size; [exact Ha|]. wbind. eapply wp_m_size; [exact Hb|]. rewrite size_eq_true, bool_decide_false by (intros [? ?]; congruence). exact HQ.
Qed.

End matproofs4.
