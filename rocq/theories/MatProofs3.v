(** Proofs about the matrix model, part 3: row operations, vectors, serialisation. *)
From Verif Require Export MatProofs2 Frame.
From Coq Require Import ZifyBool ZifyNat.
Ltac Zify.zify_post_hook ::= Z.to_euclidean_division_equations.

Section rows.
Context {A : Type}.
Implicit Types (rows : list (list A)) (c i j : nat).

Lemma concat_len c rows : Forall (fun row => length row = c) rows -> length (concat rows) = (length rows * c)%nat.
Proof. induction 1 as [|x xs Hx Hxs IH]; [reflexivity|]. cbn [concat length]. rewrite app_length. lia. Qed.

Lemma concat_lookup c rows i row j : Forall (fun row => length row = c) rows -> rows !! i = Some row -> (j < c)%nat ->
  concat rows !! (i * c + j)%nat = row !! j.
Proof.
  intros Hw. revert i. induction Hw as [|x xs Hx Hxs IH]; intros i Hi Hj; [rewrite lookup_nil in Hi; discriminate|].
  cbn [concat]. destruct i as [|i]; cbn in Hi.
  - injection Hi as ->. rewrite lookup_app_l by lia. reflexivity.
  - rewrite lookup_app_r by lia. rewrite <- (IH i Hi Hj). f_equal. lia.
Qed.

Lemma concat_eq c rows (ys : list A) : Forall (fun row => length row = c) rows -> length ys = (length rows * c)%nat ->
  (forall i row j, rows !! i = Some row -> (j < c)%nat -> ys !! (i * c + j)%nat = row !! j) -> ys = concat rows.
Proof.
  intros Hw Hl E. apply list_eq. intros k. destruct (decide (k < length rows * c)%nat) as [Hk|Hk].
  - destruct (idx_inv c (length rows) k Hk) as (H1 & H2 & H3).
    destruct (lookup_lt_is_Some_2 rows (k / c)%nat H1) as [row Hr]. rewrite H3, (E _ _ _ Hr H2). symmetry. apply concat_lookup; auto.
  - rewrite !lookup_ge_None_2; [reflexivity|rewrite (concat_len c); [lia|exact Hw]|lia].
Qed.

(** The rows of a row-major list. *)
Definition rows_of (c r : nat) (xs : list A) : list (list A) := (fun i => take c (drop (i * c) xs)) <$> seq 0 r.
Lemma rows_of_length c r xs : length (rows_of c r xs) = r.
Proof. unfold rows_of. rewrite fmap_length, seq_length. reflexivity. Qed.
Lemma rows_of_width c r xs : length xs = (r * c)%nat -> Forall (fun row => length row = c) (rows_of c r xs).
Proof.
  intros E. apply list.Forall_forall. intros row Hr. apply elem_of_list_fmap in Hr as (i & -> & Hi).
  apply elem_of_seq in Hi. rewrite take_length, drop_length. nia.
Qed.
Lemma rows_of_concat c r xs : length xs = (r * c)%nat -> concat (rows_of c r xs) = xs.
Proof.
  intros E. symmetry. apply (concat_eq c); [apply rows_of_width; exact E|rewrite rows_of_length; exact E|].
  intros i row j Hi Hj. unfold rows_of in Hi. apply list_lookup_fmap_inv in Hi as (i' & -> & Hi).
  apply lookup_seq in Hi as [-> _]. rewrite lookup_take by exact Hj. rewrite lookup_drop. reflexivity.
Qed.
End rows.

Section matproofs3.
Context {F : Type} `{Scalar F}.
Implicit Types (h : heap F) (l a b : loc) (xs ys : list F) (rows : list (list F)).

Lemma width_row c rows i row : width c rows -> rows !! i = Some row -> length row = c.
Proof. intros Hw Hi. exact (Forall_lookup_1 _ _ _ _ Hw Hi). Qed.

Lemma Rows_snoc c rows v : width c rows -> length v = c ->
  (SMat (Z.of_nat c) (Z.of_nat (length rows) + 1), (Some <$> concat rows) ++ (Some <$> v)) = Rows c (rows ++ [v]) :> aobj F.
Proof.
  intros Hw Hv. unfold Rows, AMat. rewrite app_length. cbn [length]. rewrite concat_app. cbn [concat]. rewrite app_nil_r, fmap_app.
  f_equal. f_equal. lia.
Qed.

(** Copying [v] (a fresh list, or the cells of another object) behind the existing cells. *)
Lemma upto_app {A} (cs vs ws : list A) : length ws = length vs -> upto (length cs + length vs) (cs ++ vs) (cs ++ ws) = cs ++ vs.
Proof. intros E. apply upto_all; rewrite !app_length; lia. Qed.
Lemma take_app_len {A} (cs vs ws : list A) : take (length cs) (cs ++ vs) = take (length cs) (cs ++ ws).
Proof. rewrite !take_app. reflexivity. Qed.
Lemma resize_grow {A} (cs : list A) d n : list.resize (length cs + n) d cs = cs ++ replicate n d.
Proof. rewrite resize_ge by lia. f_equal. f_equal. lia. Qed.

Lemma wp_m_copy_list h l sh cs off xs (Q : unit -> heap F -> Prop) : wf h -> abs h !! l = Some (sh, cs) ->
  0 <= off -> off + Z.of_nat (length xs) <= Z.of_nat (length cs) ->
  (forall h', wf h' -> abs h' = <[l := (sh, take (Z.to_nat off) cs ++ (Some <$> xs) ++ drop (Z.to_nat off + length xs) cs)]> (abs h) -> Q tt h') ->
  wp (m_copy_list l off xs) h Q.
Proof.
  intros Hwf Ha Ho Hle HQ. unfold m_copy_list. wbind. eapply wp_data_ptr; [exact Ha|]. intros p Hp.
  set (new := take (Z.to_nat off) cs ++ (Some <$> xs) ++ drop (Z.to_nat off + length xs) cs).
  assert (Hnl : length new = length cs) by (unfold new; rewrite !app_length, take_length, drop_length, fmap_length; lia).
  eapply wp_write_loop with (new := new) (off := off); [exact Hwf|exact Hp|exact Ha|exact Hnl|exact Ho|lia|exact Hle| | |].
  - unfold new. rewrite take_app_le by (rewrite take_length; lia). rewrite take_take. f_equal. lia.
  - intros i hi Q' Hi W O A Hs. destruct (lookup_lt_is_Some_2 xs (Z.to_nat i)) as [x Hx]; [lia|]. rewrite Hx. apply Hs.
    unfold new. rewrite lookup_app_r by (rewrite take_length; lia). rewrite take_length, lookup_app_l by (rewrite fmap_length; lia).
    replace (Z.to_nat (off + i) - min (Z.to_nat off) (length cs))%nat with (Z.to_nat i) by lia. apply fmap_Some_lookup, Hx.
  - intros h' W O A. apply HQ; auto. rewrite A. do 2 f_equal. unfold upto, new.
    replace (Z.to_nat (off + Z.of_nat (length xs))) with (Z.to_nat off + length xs)%nat by lia.
    rewrite app_assoc, take_app_alt; [reflexivity|]. rewrite app_length, take_length, fmap_length. lia.
Qed.

(** ** row_add *)
Lemma wp_m_row_add h l c rows v (Q : unit -> heap F -> Prop) : wf h -> abs h !! l = Some (Rows c rows) -> width c rows ->
  length v = c -> v <> [] -> Z.of_nat ((length rows + 1) * c) <= int_max ->
  (forall h', wf h' -> abs h' = <[l := Rows c (rows ++ [v])]> (abs h) -> Q tt h') ->
  wp (m_row_add l v) h Q.
Proof.
  intros Hwf Ha Hw Hv Hne Hle HQ. unfold m_row_add.
  destruct (Z.eqb_spec (Z.of_nat (length v)) 0) as [E|_]; [destruct v; [congruence|cbn in E; lia]|].
  pose proof (concat_len c rows Hw) as Hcl. assert (0 < c)%nat as Hc by (destruct v; [congruence|cbn in Hv; lia]).
  wbind. eapply wp_m_size; [exact Ha|]. cbv beta iota zeta.
  destruct (Z.eqb_spec (Z.of_nat c) 0); [lia|]. replace (Z.of_nat c =? Z.of_nat (length v)) with true by lia. cbn [negb].
  wbind. apply wp_chk; [unfold int_max in *; nia|]. wbind. apply wp_chk; [unfold int_max in *; nia|].
  wbind. eapply wp_obj_realloc; [exact Hwf|exact Ha|cbn; nia|]. intros h1 W1 A1 _. cbn [shape_size] in A1.
  replace (Z.to_nat (Z.of_nat c * (Z.of_nat (length rows) + 1))) with (length (Some <$> concat rows) + length v)%nat in A1 by (rewrite fmap_length; nia).
  rewrite resize_grow in A1.
  eapply wp_m_copy_list; [exact W1|rewrite A1; apply lookup_insert|lia| |].
  { rewrite app_length, fmap_length, replicate_length. nia. }
  intros h2 W2 A2. apply HQ; auto. rewrite A2, A1, insert_insert. f_equal. rewrite <- Rows_snoc by auto. f_equal.
  replace (Z.to_nat (Z.of_nat c * Z.of_nat (length rows))) with (length (Some <$> concat rows)) by (rewrite fmap_length; nia).
  rewrite take_app. f_equal. rewrite drop_ge; [apply app_nil_r|]. rewrite app_length, replicate_length. lia.
Qed.

(** A matrix without columns and rows adopts the width of the first row. *)
Lemma wp_m_row_add_first h l v (Q : unit -> heap F -> Prop) : wf h -> abs h !! l = Some (Rows 0 []) ->
  v <> [] -> Z.of_nat (length v) <= int_max ->
  (forall h', wf h' -> abs h' = <[l := Rows (length v) [v]]> (abs h) -> Q tt h') ->
  wp (m_row_add l v) h Q.
Proof.
  intros Hwf Ha Hne Hle HQ. unfold m_row_add.
  destruct (Z.eqb_spec (Z.of_nat (length v)) 0) as [E|_]; [destruct v; [congruence|cbn in E; lia]|].
  assert (0 < length v)%nat by (destruct v; [congruence|cbn; lia]).
  wbind. eapply wp_m_size; [exact Ha|]. cbv beta iota zeta. cbn [length]. change (Z.of_nat 0) with 0. rewrite Z.eqb_refl, Z.eqb_refl. cbn [negb].
  wbind. apply wp_chk; [unfold int_max in *; nia|]. wbind. apply wp_chk; [unfold int_max in *; nia|].
  wbind. eapply wp_obj_realloc; [exact Hwf|exact Ha|cbn [shape_size]; lia|]. intros h1 W1 A1 _. cbn [shape_size concat fmap list_fmap] in A1.
  eapply wp_m_copy_list; [exact W1|rewrite A1; apply lookup_insert|lia| |].
  { rewrite resize_length. lia. }
  intros h2 W2 A2. apply HQ; auto. rewrite A2, A1, insert_insert. f_equal. unfold Rows, AMat. cbn [length concat]. rewrite app_nil_r.
  f_equal. rewrite Z.mul_0_r. change (Z.to_nat 0) with 0%nat. rewrite take_0. cbn [app plus].
  rewrite drop_ge; [apply app_nil_r|]. rewrite resize_length. lia.
Qed.

Lemma m_row_add_reject h l c rows v : abs h !! l = Some (Rows c rows) -> v = [] \/ (length v <> c /\ c <> 0%nat) ->
  m_row_add l v h = Ok tt h.
Proof.
  intros Ha Hv. unfold m_row_add. destruct (Z.eqb_spec (Z.of_nat (length v)) 0) as [E|E]; [reflexivity|].
  destruct Hv as [->|[Hv Hc]]; [cbn in E; lia|].
  pose proof (wp_m_size h l _ _ _ (fun (s0 : Z * Z) h1 => s0 = (Z.of_nat c, Z.of_nat (length rows)) /\ h1 = h) Ha (conj eq_refl eq_refl)) as Hs.
  unfold wp in Hs. unfold bind. destruct (m_size l h) as [a h'| | |]; try contradiction. destruct Hs as [-> ->].
  destruct (Z.eqb_spec (Z.of_nat c) 0); [lia|]. cbn zeta. replace (Z.of_nat c =? Z.of_nat (length v)) with false by lia. reflexivity.
Qed.

(** Copy loop [dst[off + i] = src[i]] between distinct objects, behind the existing cells. *)
Lemma wp_append_loop h l p sh cs n b q shb ys (Q : unit -> heap F -> Prop) : wf h ->
  abs h !! l = Some (sh, cs ++ replicate (length ys) None) -> ptr_of h l = Some p ->
  abs h !! b = Some (shb, Some <$> ys) -> ptr_of h b = Some q -> b <> l -> n = Z.of_nat (length ys) ->
  (forall h', wf h' -> abs h' = <[l := (sh, cs ++ (Some <$> ys))]> (abs h) -> Q tt h') ->
  wp (for_ 0 n (fun i => let! x := load q i in store p (Z.of_nat (length cs) + i) x)) h Q.
Proof.
  intros Hwf Ha Hp Hb Hq Hne -> HQ.
  eapply wp_write_loop with (new := cs ++ (Some <$> ys)) (off := Z.of_nat (length cs)); [exact Hwf|exact Hp|exact Ha| |lia|lia| | | |].
  - rewrite !app_length, fmap_length, replicate_length. lia.
  - rewrite app_length, replicate_length. lia.
  - rewrite Nat2Z.id. apply take_app_len.
  - intros i hi Q' Hi W O A Hs. destruct (lookup_lt_is_Some_2 ys (Z.to_nat i)) as [y Hy]; [lia|].
    wbind. eapply wp_load with (l := b) (v := y); [exact W|rewrite (ptr_of_obj h hi); assumption|rewrite A, lookup_insert_ne by congruence; exact Hb|lia|apply fmap_Some_lookup, Hy|].
    apply Hs. rewrite lookup_app_r by lia. replace (Z.to_nat (Z.of_nat (length cs) + i) - length cs)%nat with (Z.to_nat i) by lia. apply fmap_Some_lookup, Hy.
  - intros h' W O A. apply HQ; auto. rewrite A. do 2 f_equal.
    replace (Z.to_nat (Z.of_nat (length cs) + Z.of_nat (length ys))) with (length cs + length (Some <$> ys))%nat by (rewrite fmap_length; lia).
    apply upto_app. rewrite replicate_length, fmap_length. reflexivity.
Qed.

Lemma wp_m_row_add_vec h l b c rows v (Q : unit -> heap F -> Prop) : wf h -> abs h !! l = Some (Rows c rows) -> width c rows ->
  abs h !! b = Some (AVec v) ->
  length v = c -> v <> [] -> Z.of_nat ((length rows + 1) * c) <= int_max ->
  (forall h', wf h' -> abs h' = <[l := Rows c (rows ++ [v])]> (abs h) -> Q tt h') ->
  wp (m_row_add_vec l (Some b)) h Q.
Proof.
  intros Hwf Ha Hw Hb Hv Hne Hle HQ. unfold m_row_add_vec. wbind. eapply wp_v_size_vec; [exact Hb|].
  destruct (Z.eqb_spec (Z.of_nat (length v)) 0) as [E|_]; [destruct v; [congruence|cbn in E; lia]|].
  assert (b <> l) as Hbl by (intros ->; rewrite Ha in Hb; discriminate).
  pose proof (concat_len c rows Hw) as Hcl. assert (0 < c)%nat as Hc by (destruct v; [congruence|cbn in Hv; lia]).
  wbind. eapply wp_m_size; [exact Ha|]. cbv beta iota zeta.
  destruct (Z.eqb_spec (Z.of_nat c) 0); [lia|]. replace (Z.of_nat c =? Z.of_nat (length v)) with true by lia. cbn [negb].
  wbind. apply wp_chk; [unfold int_max in *; nia|]. wbind. apply wp_chk; [unfold int_max in *; nia|].
  wbind. eapply wp_obj_realloc; [exact Hwf|exact Ha|cbn; nia|]. intros h1 W1 A1 _. cbn [shape_size] in A1.
  replace (Z.to_nat (Z.of_nat c * (Z.of_nat (length rows) + 1))) with (length (Some <$> concat rows) + length v)%nat in A1 by (rewrite fmap_length; nia).
  rewrite resize_grow in A1.
  assert (Hb1 : abs h1 !! b = Some (AVec v)) by (rewrite A1, lookup_insert_ne by congruence; exact Hb).
  wbind. eapply wp_data_ptr; [exact Hb1|]. intros q Hq.
  wbind. eapply wp_data_ptr; [rewrite A1; apply lookup_insert|]. intros p Hp.
  replace (Z.of_nat c * Z.of_nat (length rows)) with (Z.of_nat (length (Some <$> concat rows))) by (rewrite fmap_length; nia).
  eapply wp_append_loop with (l := l) (b := b); [exact W1|rewrite A1; apply lookup_insert|exact Hp|exact Hb1|exact Hq|exact Hbl|reflexivity|].
  intros h2 W2 A2. apply HQ; auto. rewrite A2, A1, insert_insert. f_equal. apply Rows_snoc; auto.
Qed.

Lemma wp_m_row_add_vec_first h l b v (Q : unit -> heap F -> Prop) : wf h -> abs h !! l = Some (Rows 0 []) ->
  abs h !! b = Some (AVec v) -> v <> [] ->
  (forall h', wf h' -> abs h' = <[l := Rows (length v) [v]]> (abs h) -> Q tt h') ->
  wp (m_row_add_vec l (Some b)) h Q.
Proof.
  intros Hwf Ha Hb Hne HQ. pose proof (avec_len _ _ _ Hwf Hb) as Hle. unfold m_row_add_vec. wbind. eapply wp_v_size_vec; [exact Hb|].
  destruct (Z.eqb_spec (Z.of_nat (length v)) 0) as [E|_]; [destruct v; [congruence|cbn in E; lia]|].
  assert (b <> l) as Hbl by (intros ->; rewrite Ha in Hb; discriminate).
  assert (0 < length v)%nat by (destruct v; [congruence|cbn; lia]).
  wbind. eapply wp_m_size; [exact Ha|]. cbv beta iota zeta. cbn [length]. change (Z.of_nat 0) with 0. rewrite Z.eqb_refl, Z.eqb_refl. cbn [negb].
  wbind. apply wp_chk; [unfold int_max in *; nia|]. wbind. apply wp_chk; [unfold int_max in *; nia|].
  wbind. eapply wp_obj_realloc; [exact Hwf|exact Ha|cbn [shape_size]; lia|]. intros h1 W1 A1 _. cbn [shape_size concat fmap list_fmap] in A1.
  replace (Z.to_nat (Z.of_nat (length v) * (0 + 1))) with (length (@nil (option F)) + length v)%nat in A1 by (cbn [length]; lia).
  rewrite resize_grow in A1.
  assert (Hb1 : abs h1 !! b = Some (AVec v)) by (rewrite A1, lookup_insert_ne by congruence; exact Hb).
  wbind. eapply wp_data_ptr; [exact Hb1|]. intros q Hq.
  wbind. eapply wp_data_ptr; [rewrite A1; apply lookup_insert|]. intros p Hp.
  rewrite Z.mul_0_r. change 0 with (Z.of_nat (length (@nil (option F)))) at 2.
  eapply wp_append_loop with (l := l) (b := b); [exact W1|rewrite A1; apply lookup_insert|exact Hp|exact Hb1|exact Hq|exact Hbl|reflexivity|].
  intros h2 W2 A2. apply HQ; auto. rewrite A2, A1, insert_insert. f_equal. unfold Rows, AMat. cbn [length concat]. rewrite app_nil_r. reflexivity.
Qed.

(** rows_add_mlpp_matrix; the argument may be the receiver. *)
Lemma Rows_app c rows rows2 : width c rows ->
  (SMat (Z.of_nat c) (Z.of_nat (length rows) + Z.of_nat (length rows2)), (Some <$> concat rows) ++ (Some <$> concat rows2)) = Rows c (rows ++ rows2) :> aobj F.
Proof. intros Hw. unfold Rows, AMat. rewrite app_length, concat_app, fmap_app. f_equal. f_equal. lia. Qed.

Lemma wp_m_rows_add h l b c rows rows2 (Q : unit -> heap F -> Prop) : wf h -> abs h !! l = Some (Rows c rows) -> width c rows ->
  abs h !! b = Some (Rows c rows2) -> width c rows2 -> (0 < c)%nat -> rows2 <> [] ->
  Z.of_nat ((length rows + length rows2) * c) <= int_max ->
  (forall h', wf h' -> abs h' = <[l := Rows c (rows ++ rows2)]> (abs h) -> Q tt h') ->
  wp (m_rows_add l (Some b)) h Q.
Proof.
  intros Hwf Ha Hw Hb Hw2 Hc Hne Hle HQ. unfold m_rows_add. wbind. eapply wp_m_data_size; [exact Hb|].
  assert (0 < length rows2)%nat by (destruct rows2; [congruence|cbn; lia]).
  destruct (Z.eqb_spec (Z.of_nat c * Z.of_nat (length rows2)) 0) as [E|_]; [nia|].
  pose proof (concat_len c rows Hw) as Hcl. pose proof (concat_len c rows2 Hw2) as Hcl2.
  wbind. eapply wp_m_size; [exact Hb|]. cbv beta iota zeta.
  wbind. eapply wp_m_size; [exact Ha|]. cbv beta iota zeta.
  destruct (Z.eqb_spec (Z.of_nat c) 0); [lia|]. rewrite Z.eqb_refl. cbn [negb].
  wbind. apply wp_chk; [unfold int_max in *; nia|]. wbind. apply wp_chk; [unfold int_max in *; nia|].
  wbind. eapply wp_obj_realloc; [exact Hwf|exact Ha|cbn; nia|]. intros h1 W1 A1 _. cbn [shape_size] in A1.
  replace (Z.to_nat (Z.of_nat c * (Z.of_nat (length rows) + Z.of_nat (length rows2)))) with (length (Some <$> concat rows) + length (concat rows2))%nat in A1 by (rewrite fmap_length; nia).
  rewrite resize_grow in A1.
  assert (Hl1 := lookup_insert (abs h) l (SMat (Z.of_nat c) (Z.of_nat (length rows) + Z.of_nat (length rows2)), (Some <$> concat rows) ++ replicate (length (concat rows2)) None)).
  rewrite <- A1 in Hl1.
  destruct (decide (b = l)) as [->|Hbl].
  - assert (Er : Rows c rows = Rows c rows2) by congruence. injection Er as Er1 Er2. apply (inj (fmap Some)) in Er2.
    wbind. eapply wp_data_ptr; [exact Hl1|]. intros q Hq. wbind. eapply wp_data_ptr; [exact Hl1|]. intros p Hp.
    assert (p = q) as -> by congruence.
    eapply wp_write_loop with (new := (Some <$> concat rows) ++ (Some <$> concat rows2)) (off := Z.of_nat c * Z.of_nat (length rows));
      [exact W1|exact Hp|exact Hl1| |lia|lia| | | |].
    + rewrite !app_length, !fmap_length, replicate_length. lia.
    + rewrite app_length, fmap_length, replicate_length. nia.
    + replace (Z.to_nat (Z.of_nat c * Z.of_nat (length rows))) with (length (Some <$> concat rows)) by (rewrite fmap_length; nia). apply take_app_len.
    + intros i hi Q' Hi W O A Hs. destruct (lookup_lt_is_Some_2 (concat rows2) (Z.to_nat i)) as [y Hy]; [nia|].
      wbind. eapply wp_load with (l := l) (v := y); [exact W|rewrite (ptr_of_obj h1 hi); assumption|rewrite A; apply lookup_insert|lia| |].
      * rewrite upto_lookup_lt.
        -- rewrite lookup_app_l by (rewrite fmap_length, Er2; apply lookup_lt_Some in Hy; exact Hy). rewrite Er2. apply fmap_Some_lookup, Hy.
        -- nia.
        -- rewrite app_length, !fmap_length. apply lookup_lt_Some in Hy. lia.
      * apply Hs. rewrite lookup_app_r by (rewrite fmap_length; nia). rewrite fmap_length.
        replace (Z.to_nat (Z.of_nat c * Z.of_nat (length rows) + i) - length (concat rows))%nat with (Z.to_nat i) by nia. apply fmap_Some_lookup, Hy.
    + intros h' W O A. apply HQ; auto. rewrite A, A1, insert_insert. f_equal. rewrite <- Rows_app by auto. f_equal.
      apply upto_all; rewrite !app_length, !fmap_length, replicate_length; nia.
  - assert (Hb1 : abs h1 !! b = Some (Rows c rows2)) by (rewrite A1, lookup_insert_ne by congruence; exact Hb).
    wbind. eapply wp_data_ptr; [exact Hb1|]. intros q Hq.
    wbind. eapply wp_data_ptr; [exact Hl1|]. intros p Hp.
    replace (Z.of_nat c * Z.of_nat (length rows)) with (Z.of_nat (length (Some <$> concat rows))) by (rewrite fmap_length; nia).
    eapply wp_append_loop with (l := l) (b := b); [exact W1|exact Hl1|exact Hp|exact Hb1|exact Hq|exact Hbl|nia|].
    intros h2 W2 A2. apply HQ; auto. rewrite A2, A1, insert_insert. f_equal. apply Rows_app; auto.
Qed.

(** ** row_remove *)
Lemma width_take c rows n : width c rows -> width c (take n rows). Proof. apply Forall_take. Qed.
Lemma width_drop c rows n : width c rows -> width c (drop n rows). Proof. apply Forall_drop. Qed.
Lemma width_delete c rows i : width c rows -> width c (delete i rows). Proof. apply Forall_delete. Qed.
Lemma width_insert c rows i v : width c rows -> length v = c -> width c (<[i := v]> rows). Proof. intros. apply Forall_insert; auto. Qed.

Lemma concat_take_lookup c rows k : width c rows -> (k < length rows * c)%nat ->
  exists row x, rows !! (k / c)%nat = Some row /\ row !! (k mod c)%nat = Some x /\ concat rows !! k = Some x.
Proof.
  intros Hw Hk. destruct (idx_inv c (length rows) k Hk) as (H1 & H2 & H3).
  destruct (lookup_lt_is_Some_2 rows (k / c)%nat H1) as [row Hr].
  assert (length row = c) by (eapply width_row; eauto).
  destruct (lookup_lt_is_Some_2 row (k mod c)%nat) as [x Hx]; [lia|]. exists row, x. split; [exact Hr|]. split; [exact Hx|].
  rewrite H3. rewrite (concat_lookup c rows _ row); auto.
Qed.

Lemma length_delete_lt {A} (ls : list A) i : (i < length ls)%nat -> length (delete i ls) = (length ls - 1)%nat.
Proof. intros Hi. destruct (lookup_lt_is_Some_2 ls i Hi) as [x Hx]. rewrite (length_delete ls i); eauto. Qed.

(** Row [i] of the result for [row_remove(idx)] in terms of the flat cells. *)
Lemma wp_m_row_remove h l c rows idx (Q : unit -> heap F -> Prop) : wf h -> abs h !! l = Some (Rows c rows) -> width c rows ->
  0 <= idx < Z.of_nat (length rows) ->
  (forall h', wf h' -> abs h' = <[l := Rows c (delete (Z.to_nat idx) rows)]> (abs h) -> Q tt h') ->
  wp (m_row_remove l idx) h Q.
Proof.
  intros Hwf Ha Hw Hidx HQ. pose proof (concat_len c rows Hw) as Hcl. destruct (amat_len h l _ _ _ Hwf Ha) as [_ Hle].
  unfold m_row_remove. wbind. eapply wp_m_size; [exact Ha|]. cbv beta iota zeta.
  replace ((idx <? 0) || (Z.of_nat (length rows) <=? idx)) with false by lia.
  pose proof (length_delete_lt rows (Z.to_nat idx) ltac:(lia)) as Hdl.
  pose proof (concat_len c _ (width_delete c rows (Z.to_nat idx) Hw)) as Hdc.
  assert (Hsz : Z.of_nat c * (Z.of_nat (length rows) - 1) = Z.of_nat (length (concat (delete (Z.to_nat idx) rows)))) by nia.
  destruct (Z.eqb_spec (Z.of_nat c * (Z.of_nat (length rows) - 1)) 0) as [E|E].
  - eapply wp_obj_free; [exact Hwf|exact Ha|exact E|]. intros h1 W1 A1 _. apply HQ; auto. rewrite A1. f_equal.
    unfold Rows, AMat. rewrite Hdl. destruct (concat (delete (Z.to_nat idx) rows)); [|cbn in Hsz; lia]. cbn. f_equal. f_equal. lia.
  - set (old := Some <$> concat rows : list (option F)). set (nw := Some <$> concat (delete (Z.to_nat idx) rows) : list (option F)).
    assert (Hc : (0 < c)%nat) by nia.
    wbind. eapply wp_data_ptr; [exact Ha|]. intros p Hp. wbind.
    assert (Hshift : forall k, (Z.to_nat idx * c <= k)%nat -> (k < length (concat (delete (Z.to_nat idx) rows)))%nat ->
       exists x, concat rows !! (k + c)%nat = Some x /\ concat (delete (Z.to_nat idx) rows) !! k = Some x).
    { intros k Hk1 Hk2. rewrite Hdc in Hk2.
      destruct (concat_take_lookup c _ k (width_delete c rows (Z.to_nat idx) Hw) Hk2) as (row & x & R1 & R2 & R3).
      exists x. split; [|exact R3]. rewrite delete_lookup in R1 by (apply Nat.div_le_lower_bound; lia).
      destruct (idx_inv c _ k Hk2) as (_ & H2 & H3).
      replace (k + c)%nat with (S (k / c) * c + k mod c)%nat by lia. rewrite (concat_lookup c rows _ row); auto. }
    assert (Hpre : forall k, (k < Z.to_nat idx * c)%nat -> concat (delete (Z.to_nat idx) rows) !! k = concat rows !! k).
    { intros k Hk. destruct (concat_take_lookup c rows k Hw ltac:(nia)) as (row & x & R1 & R2 & R3). rewrite R3.
      destruct (idx_inv c (length rows) k ltac:(nia)) as (_ & H2 & H3). rewrite H3.
      rewrite (concat_lookup c _ _ row); auto; [apply width_delete; exact Hw|].
      rewrite lookup_delete_lt; [exact R1|]. apply Nat.div_lt_upper_bound; lia. }
    apply wp_for with (I := fun i hi => wf hi /\ h_obj hi = h_obj h /\
       abs hi = <[l := (SMat (Z.of_nat c) (Z.of_nat (length rows)), take (Z.to_nat i) nw ++ drop (Z.to_nat i) old)]> (abs h)).
    + split; [assumption|]. split; [reflexivity|]. rewrite insert_id; [reflexivity|]. rewrite Ha. unfold Rows, AMat. do 2 f_equal.
      transitivity (take (Z.to_nat (idx * Z.of_nat c)) old ++ drop (Z.to_nat (idx * Z.of_nat c)) old); [symmetry; apply take_drop|].
      f_equal. unfold old, nw. rewrite <- !fmap_take. f_equal.
      apply list_eq. intros k. destruct (decide (k < Z.to_nat idx * c)%nat).
      * rewrite !lookup_take by nia. symmetry. auto.
      * rewrite !lookup_take_ge by nia. reflexivity.
    + intros i hi Hi (W & O & A).
      destruct (Hshift (Z.to_nat i)) as (x & X1 & X2); [nia|lia|].
      assert (Hlt : length (take (Z.to_nat i) nw) = Z.to_nat i) by (rewrite take_length; unfold nw; rewrite fmap_length; lia).
      wbind. eapply wp_load with (l := l) (v := x); [exact W|rewrite (ptr_of_obj h hi); assumption|rewrite A; apply lookup_insert|lia| |].
      { rewrite lookup_app_r by lia. rewrite lookup_drop, Hlt. unfold old. apply fmap_Some_lookup. rewrite <- X1. f_equal. lia. }
      eapply wp_store with (l := l); [exact W|rewrite (ptr_of_obj h hi); assumption|rewrite A; apply lookup_insert| |].
      { rewrite app_length, Hlt, drop_length. unfold old. rewrite fmap_length. lia. }
      intros h' W' O' _ A'. split; [assumption|]. split; [congruence|]. rewrite A', A, insert_insert. do 2 f_equal.
      replace (Z.to_nat (i + 1)) with (S (Z.to_nat i)) by lia.
      assert (Hnw : nw !! Z.to_nat i = Some (Some x)) by (apply fmap_Some_lookup, X2).
      rewrite (take_S_r _ _ _ Hnw). rewrite insert_app_r_alt by lia. rewrite Hlt, Nat.sub_diag. rewrite <- app_assoc. f_equal.
      destruct (lookup_lt_is_Some_2 old (Z.to_nat i)) as [y Hy]; [unfold old; rewrite fmap_length; lia|].
      rewrite (drop_S _ _ _ Hy). reflexivity.
    + intros hi (W & O & A).
      eapply wp_obj_realloc; [exact W|rewrite A; apply lookup_insert|cbn [shape_size]; lia|]. intros h2 W2 A2 _. apply HQ; auto.
      rewrite A2, A, insert_insert. f_equal. cbn [shape_size]. unfold Rows, AMat. f_equal; [f_equal; lia|].
      fold nw. rewrite Hsz, Nat2Z.id. replace (length (concat (delete (Z.to_nat idx) rows))) with (length nw) by (unfold nw; apply fmap_length).
      rewrite take_ge by (unfold nw; rewrite fmap_length; nia).
      rewrite resize_le by (rewrite app_length; lia). rewrite take_app. reflexivity.
Qed.

(** row_swap on the rows. *)
Definition swap_rows {A} (i j : nat) (rows : list A) : list A :=
  match rows !! i, rows !! j with Some a, Some b => <[i := b]> (<[j := a]> rows) | _, _ => rows end.

Lemma Rows_Mat c rows : width c rows -> Rows c rows = Mat c (length rows) (fun i j => nth j (nth i rows []) s_zero).
Proof.
  intros Hw. unfold Rows, Mat. f_equal. symmetry. apply (concat_eq c); [exact Hw|apply mlist_length|].
  intros i row j Hi Hj. rewrite mlist_lookup; [|eapply lookup_lt_Some; eauto|exact Hj].
  rewrite (nth_lookup_Some rows i [] row Hi). assert (length row = c) by (eapply width_row; eauto).
  destruct (lookup_lt_is_Some_2 row j) as [x Hx]; [lia|]. rewrite Hx. f_equal. apply nth_lookup_Some. exact Hx.
Qed.

Lemma Mat_Rows c r (f : nat -> nat -> F) : Mat c r f = Rows c ((fun i => vlist c (f i)) <$> seq 0 r).
Proof.
  assert (Hw : width c ((fun i => vlist c (f i)) <$> seq 0 r)).
  { apply list.Forall_forall. intros row Hr. apply elem_of_list_fmap in Hr as (i & -> & _). apply vlist_length. }
  unfold Rows. rewrite fmap_length, seq_length. unfold Mat. f_equal. apply (concat_eq c); [exact Hw|rewrite mlist_length, fmap_length, seq_length; reflexivity|].
  intros i row j Hi Hj. apply list_lookup_fmap_inv in Hi as (i' & -> & Hi). apply lookup_seq in Hi as [-> Hi]. cbn.
  rewrite mlist_lookup, vlist_lookup by assumption. reflexivity.
Qed.

(** One row overwritten by given values: the generic loop. *)
Lemma wp_row_write h l p c r g y n (u : nat -> F) body (Q : unit -> heap F -> Prop) : wf h -> abs h !! l = Some (MatP c r g) ->
  ptr_of h l = Some p -> (y < r)%nat -> n = c ->
  (forall j hi (Q' : unit -> heap F -> Prop), (j < n)%nat -> mst h l c r (fun i' j' => if decide (i' = y /\ (j' < j)%nat) then Some (u j') else g i' j') hi ->
     wp (store p (Z.of_nat y * Z.of_nat c + Z.of_nat j) (u j)) hi Q' -> wp (body (Z.of_nat j)) hi Q') ->
  (forall h', wf h' -> h_obj h' = h_obj h -> abs h' = <[l := MatP c r (fun i j => if decide (i = y) then Some (u j) else g i j)]> (abs h) -> Q tt h') ->
  wp (for_ 0 (Z.of_nat n) body) h Q.
Proof.
  intros Hwf Ha Hp Hy -> Hb HQ.
  apply wp_for_n with (I := fun j hi => mst h l c r (fun i' j' => if decide (i' = y /\ (j' < j)%nat) then Some (u j') else g i' j') hi).
  - eapply mst_ext; [apply mst_init; eauto|]. intros i j _ _. cbn. destruct (decide _) as [[_ ?]|]; [lia|reflexivity].
  - intros j hi Hj HI. apply Hb; [assumption|exact HI|].
    eapply wp_mstore; [exact HI|exact Hp|lia|lia|]. intros h' HI'. eapply mst_ext; [exact HI'|].
    intros i' j' _ _. unfold upd. destruct (decide (i' = y /\ j' = j)) as [[-> ->]|E].
    + rewrite decide_True by lia. reflexivity.
    + destruct (decide (i' = y /\ (j' < j)%nat)) as [[-> ?]|E1]; [rewrite decide_True by lia; reflexivity|].
      rewrite decide_False; [reflexivity|]. intros [-> ?]. apply E. lia.
  - intros h' [W O A]. apply HQ; auto. rewrite A. f_equal. apply MatP_ext. intros i j Hi Hj.
    destruct (decide (i = y)) as [->|]; [rewrite decide_True by lia|rewrite decide_False by tauto]; reflexivity.
Qed.

(** Rows view of such an overwritten matrix. *)
Lemma MatP_row_Rows c rows y v : width c rows -> (y < length rows)%nat -> length v = c ->
  MatP c (length rows) (fun i j => if decide (i = y) then Some (nth j v s_zero) else Some (nth j (nth i rows []) s_zero)) = Rows c (<[y := v]> rows).
Proof.
  intros Hw Hy Hv. rewrite (Rows_Mat c) by (apply width_insert; auto). rewrite insert_length, Mat_MatP. apply MatP_ext.
  intros i j Hi Hj. destruct (decide (i = y)) as [->|Hne].
  - rewrite (nth_lookup_Some (<[y:=v]> rows) y [] v); [reflexivity|]. apply list_lookup_insert. exact Hy.
  - destruct (lookup_lt_is_Some_2 rows i Hi) as [row Hr]. rewrite (nth_lookup_Some rows i [] row Hr).
    rewrite (nth_lookup_Some (<[y:=v]> rows) i [] row); [reflexivity|]. rewrite list_lookup_insert_ne by congruence. exact Hr.
Qed.

Lemma rows_MatP h l c rows : abs h !! l = Some (Rows c rows) -> width c rows ->
  abs h !! l = Some (MatP c (length rows) (fun i j => Some (nth j (nth i rows []) s_zero))).
Proof. intros Ha Hw. rewrite Ha, Rows_Mat, Mat_MatP by exact Hw. reflexivity. Qed.

Lemma wp_m_row_set h l c rows y v (Q : unit -> heap F -> Prop) : wf h -> abs h !! l = Some (Rows c rows) -> width c rows ->
  length v = c -> 0 <= y < Z.of_nat (length rows) ->
  (forall h', wf h' -> abs h' = <[l := Rows c (<[Z.to_nat y := v]> rows)]> (abs h) -> Q tt h') ->
  wp (m_row_set l y v) h Q.
Proof.
  intros Hwf Ha Hw Hv Hy HQ. unfold m_row_set. wbind. eapply wp_m_size; [exact Ha|]. cbv beta iota zeta.
  replace (Z.of_nat (length v) =? Z.of_nat c) with true by lia. cbn [negb].
  replace ((y <? 0) || (Z.of_nat (length rows) <=? y)) with false by lia.
  pose proof (rows_MatP h l c rows Ha Hw) as Ha'.
  unfold m_copy_list. wbind. eapply wp_data_ptr; [exact Ha|]. intros p Hp.
  eapply wp_row_write with (y := Z.to_nat y) (u := fun j => nth j v s_zero); [exact Hwf|exact Ha'|exact Hp|lia|exact Hv| |].
  - intros j hi Q' Hj HI Hs. rewrite Nat2Z.id. destruct (lookup_lt_is_Some_2 v j Hj) as [x Hx]. rewrite Hx.
    rewrite (nth_lookup_Some v j s_zero x Hx) in Hs. replace (Z.of_nat (Z.to_nat y)) with y in Hs by lia. exact Hs.
  - intros h' W O A. apply HQ; auto. rewrite A. f_equal. apply MatP_row_Rows; auto. lia.
Qed.

Lemma wp_m_row_set_vec h l b c rows y v (Q : unit -> heap F -> Prop) : wf h -> abs h !! l = Some (Rows c rows) -> width c rows ->
  abs h !! b = Some (AVec v) -> length v = c -> 0 <= y < Z.of_nat (length rows) ->
  (forall h', wf h' -> h_obj h' = h_obj h -> abs h' = <[l := Rows c (<[Z.to_nat y := v]> rows)]> (abs h) -> Q tt h') ->
  wp (m_row_set_vec l y (Some b)) h Q.
Proof.
  intros Hwf Ha Hw Hb Hv Hy HQ. assert (b <> l) as Hbl by (intros ->; rewrite Ha in Hb; discriminate).
  unfold m_row_set_vec. wbind. eapply wp_v_size_vec; [exact Hb|]. wbind. eapply wp_m_size; [exact Ha|]. cbv beta iota zeta.
  replace (Z.of_nat (length v) =? Z.of_nat c) with true by lia. cbn [negb].
  replace ((y <? 0) || (Z.of_nat (length rows) <=? y)) with false by lia.
  pose proof (rows_MatP h l c rows Ha Hw) as Ha'.
  wbind. eapply wp_data_ptr; [exact Hb|]. intros q Hq. wbind. eapply wp_data_ptr; [exact Ha|]. intros p Hp.
  eapply wp_row_write with (y := Z.to_nat y) (u := fun j => nth j v s_zero); [exact Hwf|exact Ha'|exact Hp|lia|reflexivity| |].
  - intros j hi Q' Hj HI Hs. destruct (lookup_lt_is_Some_2 v j ltac:(lia)) as [x Hx].
    wbind. eapply wp_mload_vec with (la := b); [exact HI|exact Hq|exact Hbl|exact Hb|exact Hx|].
    rewrite (nth_lookup_Some v j s_zero x Hx) in Hs. replace (Z.of_nat (Z.to_nat y)) with y in Hs by lia. exact Hs.
  - intros h' W O A. apply HQ; auto. rewrite A. f_equal. apply MatP_row_Rows; auto. lia.
Qed.

Lemma wp_m_row_swap h l c rows i1 i2 (Q : unit -> heap F -> Prop) : wf h -> abs h !! l = Some (Rows c rows) -> width c rows ->
  0 <= i1 < Z.of_nat (length rows) -> 0 <= i2 < Z.of_nat (length rows) ->
  (forall h', wf h' -> abs h' = <[l := Rows c (swap_rows (Z.to_nat i1) (Z.to_nat i2) rows)]> (abs h) -> Q tt h') ->
  wp (m_row_swap l i1 i2) h Q.
Proof.
  intros Hwf Ha Hw H1 H2 HQ. unfold m_row_swap. wbind. eapply wp_m_size; [exact Ha|]. cbv beta iota zeta.
  replace ((i1 <? 0) || (Z.of_nat (length rows) <=? i1)) with false by lia.
  replace ((i2 <? 0) || (Z.of_nat (length rows) <=? i2)) with false by lia.
  wbind. eapply wp_data_ptr; [exact Ha|]. intros p Hp.
  pose proof (rows_MatP h l c rows Ha Hw) as Ha'.
  set (n1 := Z.to_nat i1) in *. set (n2 := Z.to_nat i2) in *.
  replace i1 with (Z.of_nat n1) by lia. replace i2 with (Z.of_nat n2) by lia.
  set (f := fun i j => nth j (nth i rows []) s_zero) in Ha'.
  set (tau := fun i => if decide (i = n1) then n2 else if decide (i = n2) then n1 else i).
  apply wp_for_n with (I := fun j hi => mst h l c (length rows) (fun i' j' => Some (if (j' <? j)%nat then f (tau i') j' else f i' j')) hi).
  - eapply mst_ext; [apply mst_init; eauto|]. reflexivity.
  - intros j hi Hj HI.
    wbind. eapply wp_mload; [exact HI|exact Hp|lia|lia|reflexivity|].
    wbind. eapply wp_mload; [exact HI|exact Hp|lia|lia|reflexivity|]. rewrite Nat.ltb_irrefl.
    wbind. eapply wp_mstore; [exact HI|exact Hp|lia|lia|]. intros h1 HI1.
    eapply wp_mstore; [exact HI1|exact Hp|lia|lia|]. intros h2 HI2.
    eapply mst_ext; [exact HI2|]. intros i' j' Hi' Hj'. unfold upd, tau.
    destruct (decide (i' = n2 /\ j' = j)) as [[-> ->]|E1].
    + replace (j <? S j)%nat with true by lia. destruct (decide (n2 = n1)) as [<-|]; [reflexivity|]. rewrite decide_True by reflexivity. reflexivity.
    + destruct (decide (i' = n1 /\ j' = j)) as [[-> ->]|E2].
      * replace (j <? S j)%nat with true by lia. rewrite decide_True by reflexivity. reflexivity.
      * destruct (Nat.ltb_spec j' j); destruct (Nat.ltb_spec j' (S j)); try lia; auto.
        assert (j' = j) as -> by lia. rewrite !decide_False by tauto. reflexivity.
  - intros h1 [W O A]. apply HQ; auto. rewrite A. f_equal.
    destruct (lookup_lt_is_Some_2 rows n1) as [a1 E1]; [lia|]. destruct (lookup_lt_is_Some_2 rows n2) as [a2 E2]; [lia|].
    unfold swap_rows. rewrite E1, E2.
    assert (Hwa : forall (i : nat) (a0 : list F), rows !! i = Some a0 -> length a0 = c) by (intros i a0 Hi; eapply width_row; eauto).
    rewrite (Rows_Mat c) by (apply width_insert; [apply width_insert; eauto|eauto]). rewrite !insert_length, Mat_MatP.
    apply MatP_ext. intros i j Hi Hj. replace (j <? c)%nat with true by lia. f_equal. unfold f. f_equal. unfold tau.
    destruct (decide (i = n1)) as [->|N1].
    + rewrite (nth_lookup_Some rows n2 [] a2 E2). symmetry. apply nth_lookup_Some. apply list_lookup_insert. rewrite insert_length. lia.
    + destruct (decide (i = n2)) as [->|N2].
      * rewrite (nth_lookup_Some rows n1 [] a1 E1). symmetry. apply nth_lookup_Some. rewrite list_lookup_insert_ne by congruence. apply list_lookup_insert. lia.
      * destruct (lookup_lt_is_Some_2 rows i Hi) as [a0 E0]. rewrite (nth_lookup_Some rows i [] a0 E0). symmetry. apply nth_lookup_Some.
        rewrite !list_lookup_insert_ne by congruence. exact E0.
Qed.

Lemma wp_m_row_get h l c rows y row (Q : list F -> heap F -> Prop) : wf h -> abs h !! l = Some (Rows c rows) -> width c rows ->
  0 <= y -> rows !! Z.to_nat y = Some row -> Q row h -> wp (m_row_get l y) h Q.
Proof.
  intros Hwf Ha Hw Hy Hr HQ. unfold m_row_get. wbind. eapply wp_m_size; [exact Ha|]. cbv beta iota zeta.
  pose proof (lookup_lt_Some _ _ _ Hr) as Hlt. assert (Hl : length row = c) by (eapply width_row; eauto).
  replace ((y <? 0) || (Z.of_nat (length rows) <=? y)) with false by lia.
  destruct (Z.eqb_spec (Z.of_nat c) 0) as [E|E]; [apply wp_ret; destruct row; [exact HQ|cbn in Hl; lia]|].
  wbind. eapply wp_data_ptr; [exact Ha|]. intros p Hp.
  apply wp_for_acc_n with (I := fun j acc h' => h' = h /\ acc = take j row).
  - auto.
  - intros j acc h' Hj [-> ->]. destruct (lookup_lt_is_Some_2 row j) as [x Hx]; [lia|].
    wbind. eapply wp_load with (v := x); [exact Hwf|exact Hp|exact Ha|lia| |].
    { apply fmap_Some_lookup. replace (Z.to_nat (y * Z.of_nat c + Z.of_nat j)) with (Z.to_nat y * c + j)%nat by lia.
      rewrite (concat_lookup c rows _ row); auto. }
    apply wp_ret. split; [reflexivity|]. symmetry. apply take_S_r. exact Hx.
  - intros acc h' [-> ->]. rewrite take_ge by lia. exact HQ.
Qed.

Lemma wp_row_get_loop h l p out po sh cs c rows y row (Q : unit -> heap F -> Prop) : wf h ->
  abs h !! l = Some (Rows c rows) -> width c rows -> ptr_of h l = Some p ->
  abs h !! out = Some (sh, cs) -> ptr_of h out = Some po -> length cs = c -> out <> l ->
  0 <= y -> rows !! Z.to_nat y = Some row ->
  (forall h', wf h' -> h_obj h' = h_obj h -> abs h' = <[out := (sh, Some <$> row)]> (abs h) -> Q tt h') ->
  wp (for_ 0 (Z.of_nat c) (fun i => let! x := load p (y * Z.of_nat c + i) in store po i x)) h Q.
Proof.
  intros Hwf Ha Hw Hp Ho Hpo Hlen Hne Hy Hr HQ. assert (Hl : length row = c) by (eapply width_row; eauto).
  eapply wp_map_loop with (new := row); [exact Hwf|exact Hpo|exact Ho|lia|lia| |exact HQ].
  intros i hi v Q' Hi Hm Hv Hs. wbind. destruct Hm as [M1 M2 M3].
  eapply wp_load with (l := l) (v := v); [exact M1|rewrite (ptr_of_obj h hi); assumption|rewrite M3, lookup_insert_ne by congruence; exact Ha|lia| |exact Hs].
  apply fmap_Some_lookup. replace (Z.to_nat (y * Z.of_nat c + i)) with (Z.to_nat y * c + Z.to_nat i)%nat by lia.
  rewrite (concat_lookup c rows _ row); auto. lia.
Qed.

Lemma wp_m_row_get_vec h l c rows y row (Q : option loc -> heap F -> Prop) : wf h -> abs h !! l = Some (Rows c rows) -> width c rows ->
  0 <= y -> rows !! Z.to_nat y = Some row -> Z.of_nat c <= int_max ->
  (forall d h', wf h' -> abs h !! d = None -> abs h' = <[d := AVec row]> (abs h) -> Q (Some d) h') -> wp (m_row_get_vec l y) h Q.
Proof.
  intros Hwf Ha Hw Hy Hr Hle HQ. unfold m_row_get_vec. wbind. eapply wp_m_size; [exact Ha|]. cbv beta iota zeta.
  pose proof (lookup_lt_Some _ _ _ Hr) as Hlt. assert (Hl : length row = c) by (eapply width_row; eauto).
  replace ((y <? 0) || (Z.of_nat (length rows) <=? y)) with false by lia.
  wbind. apply wp_v_new; [exact Hwf|]. intros d h1 W1 N1 A1 _.
  destruct (Z.eqb_spec (Z.of_nat c) 0) as [E|E].
  { apply wp_ret. apply HQ; auto. rewrite A1. destruct row; [reflexivity|cbn in Hl; lia]. }
  wbind. eapply wp_v_resize; [exact W1|rewrite A1; apply lookup_insert|lia|]. intros h2 W2 A2 _.
  assert (Ha2 : abs h2 !! l = Some (Rows c rows)) by (rewrite A2, A1, !lookup_insert_ne by congruence; exact Ha).
  wbind. eapply wp_data_ptr; [rewrite A2; apply lookup_insert|]. intros po Hpo.
  wbind. eapply wp_data_ptr; [exact Ha2|]. intros p Hp.
  wbind. eapply wp_row_get_loop with (l := l) (out := d); [exact W2|exact Ha2|exact Hw|exact Hp|rewrite A2; apply lookup_insert|exact Hpo|rewrite resize_length; lia|congruence|exact Hy|exact Hr|].
  intros h3 W3 O3 A3. apply wp_ret. apply HQ; auto. rewrite A3, A2, A1, !insert_insert. unfold AVec. rewrite Hl. reflexivity.
Qed.

Lemma wp_m_row_get_into h l t n cs c rows y row (Q : unit -> heap F -> Prop) : wf h -> abs h !! l = Some (Rows c rows) -> width c rows ->
  abs h !! t = Some (SVec n, cs) ->
  0 <= y -> rows !! Z.to_nat y = Some row -> Z.of_nat c <= int_max ->
  (forall h', wf h' -> abs h' = <[t := AVec row]> (abs h) -> (forall l', l' <> t -> ptr_of h' l' = ptr_of h l') -> Q tt h') -> wp (m_row_get_into l y (Some t)) h Q.
Proof.
  intros Hwf Ha Hw Ht Hy Hr Hle HQ. assert (t <> l) as Htl by (intros ->; rewrite Ha in Ht; discriminate).
  unfold m_row_get_into. wbind. eapply wp_m_size; [exact Ha|]. cbv beta iota zeta.
  pose proof (lookup_lt_Some _ _ _ Hr) as Hlt. assert (Hl : length row = c) by (eapply width_row; eauto).
  replace ((y <? 0) || (Z.of_nat (length rows) <=? y)) with false by lia.
  wbind. eapply wp_v_size; [exact Ht|].
  wbind. eapply wp_v_resize_cond; [exact Hwf|exact Ht|lia|]. intros h2 W2 A2 P2.
  assert (Ha2 : abs h2 !! l = Some (Rows c rows)) by (rewrite A2, !lookup_insert_ne by congruence; exact Ha).
  wbind. eapply wp_data_ptr; [rewrite A2; apply lookup_insert|]. intros po Hpo.
  wbind. eapply wp_data_ptr; [exact Ha2|]. intros p Hp.
  eapply wp_row_get_loop with (l := l) (out := t); [exact W2|exact Ha2|exact Hw|exact Hp|rewrite A2; apply lookup_insert|exact Hpo|rewrite resize_length; lia|congruence|exact Hy|exact Hr|].
  intros h3 W3 O3 A3. apply HQ; auto.
  - rewrite A3, A2, !insert_insert. unfold AVec. rewrite Hl. reflexivity.
  - intros l' Hl'. rewrite (ptr_of_obj h2 h3) by assumption. auto.
Qed.

End matproofs3.
