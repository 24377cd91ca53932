(** * Property C58 (the z-slices of a tensor behave as a list): theorems.  Conventions as in PropTen.v.

    In every theorem [width (y * x) sl] says that each slice has y * x entries (true of every tensor, see
    [C58_every_tensor_is_its_slices]). *)
From Verif Require Export PropTen.

Section props.
Context {F : Type} `{Scalar F}.
Implicit Types (h : heap F) (l a b d t : loc) (x y z k j i : nat) (T U : nat -> nat -> nat -> F) (xs ys v : list F)
  (sl : list (list F)) (cs : list (option F)) (idx : Z).
Notation S3 x y z := (STen (Z.of_nat x) (Z.of_nat y) (Z.of_nat z)).
Ltac r_ := apply runs_wp.

Theorem C58_every_tensor_is_its_slices x y z T :
  Ten x y z T = Slices x y ((fun k => mlist x y (T k)) <$> seq 0 z) /\ width (y * x) ((fun k => mlist x y (T k)) <$> seq 0 z).
Proof. exact (Ten_Slices x y z T). Qed.

Lemma t_size_val h l sx sy sz cs : abs h !! l = Some (STen sx sy sz, cs) -> t_size l h = Ok (sx, sy, sz) h.
Proof.
  intros Hl. assert (W : wp (t_size l) h (fun u h' => u = (sx, sy, sz) /\ h' = h)) by (eapply wp_t_size; eauto).
  unfold wp in W. destruct (t_size l h); try contradiction. destruct W as [-> ->]. reflexivity.
Qed.
Lemma t_zds_val h l x y z cs : abs h !! l = Some (S3 x y z, cs) -> fits x y -> t_zds l h = Ok (Z.of_nat (y * x)) h.
Proof.
  intros Hl Hf. assert (W : wp (t_zds l) h (fun u h' => u = Z.of_nat (y * x) /\ h' = h)) by (eapply wp_t_zds; eauto).
  unfold wp in W. destruct (t_zds l h); try contradiction. destruct W as [-> ->]. reflexivity.
Qed.
Lemma v_size_val h b v : abs h !! b = Some (AVec v) -> v_size b h = Ok (Z.of_nat (length v)) h.
Proof.
  intros Hb. assert (W : wp (v_size b) h (fun u h' => u = Z.of_nat (length v) /\ h' = h)) by (eapply wp_v_size_vec; eauto).
  unfold wp in W. destruct (v_size b h); try contradiction. destruct W as [-> ->]. reflexivity.
Qed.
Lemma m_size_val h b x y v : abs h !! b = Some (AMat x y v) -> m_size b h = Ok (Z.of_nat x, Z.of_nat y) h.
Proof.
  intros Hb. assert (W : wp (m_size b) h (fun u h' => u = (Z.of_nat x, Z.of_nat y) /\ h' = h)) by (eapply wp_m_size; eauto).
  unfold wp in W. destruct (m_size b h); try contradiction. destruct W as [-> ->]. reflexivity.
Qed.
Lemma m_data_size_val h b x y v : wf h -> abs h !! b = Some (AMat x y v) -> m_data_size b h = Ok (Z.of_nat (length v)) h.
Proof.
  intros Hw Hb. destruct (amat_len _ _ _ _ _ Hw Hb) as [E1 E2].
  assert (W : wp (m_data_size b) h (fun u h' => u = Z.of_nat (length v) /\ h' = h)).
  { eapply wp_m_data_size; eauto. split; [lia|reflexivity]. }
  unfold wp in W. destruct (m_data_size b h); try contradiction. destruct W as [-> ->]. reflexivity.
Qed.

(** ** Appending: list, vector and matrix forms *)
Theorem C58_slice_add h l x y sl v b c : wf h -> abs h !! l = Some (Slices x y sl) -> width (y * x) sl -> fits x y ->
  length v = (y * x)%nat -> v <> [] -> Z.of_nat ((length sl + 1) * (y * x)) <= int_max ->
  abs h !! b = Some (AVec v) -> abs h !! c = Some (AMat x y v) ->
  let post := fun (_ : unit) h' => abs h' = <[l := Slices x y (sl ++ [v])]> (abs h) in
  runs (t_slice_add l v) h post /\ runs (t_slice_add_vec l (Some b)) h post /\ runs (t_slice_add_mat l (Some c)) h post.
Proof.
  intros. split_and!; r_; [eapply wp_t_slice_add|eapply wp_t_slice_add_vec|eapply wp_t_slice_add_mat]; eauto.
Qed.
Theorem C58_slice_add_rejected h l x y sl v b c cx cy : wf h -> abs h !! l = Some (Slices x y sl) -> fits x y ->
  abs h !! b = Some (AVec v) -> abs h !! c = Some (AMat cx cy v) ->
  (v = [] \/ length v <> (y * x)%nat -> t_slice_add l v h = Ok tt h /\ t_slice_add_vec l (Some b) h = Ok tt h) /\
  (v = [] \/ (cx, cy) <> (x, y) -> t_slice_add_mat l (Some c) h = Ok tt h) /\
  t_slice_add_vec l None h = Ok tt h /\ t_slice_add_mat l None h = Ok tt h.
Proof.
  intros Hw Hl Hf Hb Hc. split_and!; [| |reflexivity|reflexivity].
  - intros Hv. unfold t_slice_add, t_slice_add_vec, bind. rewrite (v_size_val _ _ _ Hb).
    destruct (Z.eqb_spec (Z.of_nat (length v)) 0) as [E0|E0]; [split; reflexivity|].
    rewrite (t_zds_val _ _ _ _ _ _ Hl Hf). destruct (Z.eqb_spec (Z.of_nat (y * x)) (Z.of_nat (length v))); [|split; reflexivity].
    exfalso. destruct Hv as [->|Hv]; [cbn in E0; lia|lia].
  - intros Hv. unfold t_slice_add_mat, bind. rewrite (m_data_size_val _ _ _ _ _ Hw Hc).
    destruct (Z.eqb_spec (Z.of_nat (length v)) 0) as [E0|E0]; [reflexivity|].
    rewrite (m_size_val _ _ _ _ _ Hc), (t_size_val _ _ _ _ _ _ Hl). unfold size_eq; cbn [fst snd].
    destruct (Z.eqb_spec (Z.of_nat x) (Z.of_nat cx)); [|reflexivity]. destruct (Z.eqb_spec (Z.of_nat y) (Z.of_nat cy)); [|reflexivity].
    exfalso. destruct Hv as [->|Hv]; [cbn in E0; lia|]. apply Hv. f_equal; lia.
Qed.

(** ** Removing *)
Theorem C58_slice_remove h l x y sl idx : wf h -> abs h !! l = Some (Slices x y sl) -> width (y * x) sl ->
  (0 <= idx < Z.of_nat (length sl) ->
    runs (t_slice_remove l idx) h (fun _ h' => abs h' = <[l := Slices x y (take (Z.to_nat idx) sl ++ drop (S (Z.to_nat idx)) sl)]> (abs h))) /\
  (~ (0 <= idx < Z.of_nat (length sl)) -> t_slice_remove l idx h = Ok tt h /\ t_slice_remove_unordered l idx h = Ok tt h).
Proof.
  intros Hw Hl Hs. split.
  - intros Hi. r_. eapply wp_t_slice_remove; eauto. intros h' W A. split; [exact W|]. rewrite A, delete_take_drop. reflexivity.
  - intros Hi. unfold t_slice_remove, t_slice_remove_unordered, bind. rewrite (t_size_val _ _ _ _ _ _ Hl), bad_idx by exact Hi.
    split; reflexivity.
Qed.
(** [z_slice_remove_unordered] moves the last slice into the gap only when the first slice is removed; for any later slice
    (of a tensor with non-empty slices) it reads beyond the end of the buffer. *)
Theorem C58_remove_unordered_first h l x y sl v : wf h -> abs h !! l = Some (Slices x y (sl ++ [v])) -> width (y * x) (sl ++ [v]) ->
  runs (t_slice_remove_unordered l 0) h (fun _ h' => abs h' = <[l := Slices x y (<[0%nat := v]> sl)]> (abs h)).
Proof. intros. r_. eapply wp_t_slice_remove_unordered0; eauto. Qed.
Theorem C58_remove_unordered_UB h l x y sl idx : wf h -> abs h !! l = Some (Slices x y sl) -> width (y * x) sl -> (0 < y * x)%nat ->
  1 <= idx < Z.of_nat (length sl) -> t_slice_remove_unordered l idx h = UB.
Proof. apply t_slice_remove_unordered_UB. Qed.

(** ** Swapping *)
Theorem C58_slice_swap h l x y sl (i1 i2 : Z) : wf h -> abs h !! l = Some (Slices x y sl) -> width (y * x) sl ->
  (0 <= i1 < Z.of_nat (length sl) -> 0 <= i2 < Z.of_nat (length sl) ->
    runs (t_slice_swap l i1 i2) h (fun _ h' => exists sl', abs h' = <[l := Slices x y sl']> (abs h) /\ length sl' = length sl /\
      sl' !! Z.to_nat i1 = sl !! Z.to_nat i2 /\ sl' !! Z.to_nat i2 = sl !! Z.to_nat i1 /\
      forall k, k <> Z.to_nat i1 -> k <> Z.to_nat i2 -> sl' !! k = sl !! k)) /\
  (~ (0 <= i1 < Z.of_nat (length sl) /\ 0 <= i2 < Z.of_nat (length sl)) -> t_slice_swap l i1 i2 h = Ok tt h).
Proof.
  intros Hw Hl Hs. split.
  - intros H1 H2. r_. eapply wp_t_slice_swap; eauto. intros h' W A. split; [exact W|]. eexists. split; [exact A|].
    destruct (lookup_lt_is_Some_2 sl (Z.to_nat i1) ltac:(lia)) as [a1 E1]. destruct (lookup_lt_is_Some_2 sl (Z.to_nat i2) ltac:(lia)) as [a2 E2].
    unfold swap_rows. rewrite E1, E2. split_and!.
    + rewrite !insert_length. reflexivity.
    + rewrite list_lookup_insert by (rewrite insert_length; lia). reflexivity.
    + destruct (decide (Z.to_nat i1 = Z.to_nat i2)) as [E|E].
      * rewrite E in *. rewrite list_lookup_insert by (rewrite insert_length; lia). congruence.
      * rewrite list_lookup_insert_ne by auto. rewrite list_lookup_insert by lia. reflexivity.
    + intros k K1 K2. rewrite !list_lookup_insert_ne by auto. reflexivity.
  - intros Hi. unfold t_slice_swap, bind. rewrite (t_size_val _ _ _ _ _ _ Hl).
    destruct ((i1 <? 0) || (Z.of_nat (length sl) <=? i1)) eqn:E1; [reflexivity|].
    destruct ((i2 <? 0) || (Z.of_nat (length sl) <=? i2)) eqn:E2; [reflexivity|]. exfalso. lia.
Qed.

(** ** Overwriting one slice *)
Theorem C58_slice_set h l x y sl idx v b c : wf h -> abs h !! l = Some (Slices x y sl) -> width (y * x) sl ->
  0 <= idx < Z.of_nat (length sl) -> length v = (y * x)%nat -> abs h !! b = Some (AVec v) -> abs h !! c = Some (AMat x y v) ->
  let post := fun (_ : unit) h' => abs h' = <[l := Slices x y (<[Z.to_nat idx := v]> sl)]> (abs h) in
  runs (t_slice_set l idx v) h post /\ runs (t_slice_set_vec l idx (Some b)) h post /\ runs (t_slice_set_mat l idx (Some c)) h post.
Proof.
  intros. split_and!; r_; [eapply wp_t_slice_set|eapply wp_t_slice_set_vec|eapply wp_t_slice_set_mat]; eauto.
Qed.
Theorem C58_slice_set_rejected h l x y sl idx v b c cx cy : wf h -> abs h !! l = Some (Slices x y sl) -> width (y * x) sl ->
  abs h !! b = Some (AVec v) -> abs h !! c = Some (AMat cx cy v) ->
  (~ (0 <= idx < Z.of_nat (length sl)) \/ length v <> (y * x)%nat -> t_slice_set l idx v h = Ok tt h /\ t_slice_set_vec l idx (Some b) h = Ok tt h) /\
  (~ (0 <= idx < Z.of_nat (length sl)) \/ (cx, cy) <> (x, y) -> t_slice_set_mat l idx (Some c) h = Ok tt h) /\
  t_slice_set_vec l idx None h = Ok tt h /\ t_slice_set_mat l idx None h = Ok tt h.
Proof.
  intros Hw Hl Hs Hb Hc.
  assert (Hf : 0 <= idx < Z.of_nat (length sl) -> fits x y) by (intros; eapply ten_fits; [exact Hw|exact Hl|lia]).
  unfold t_slice_set, t_slice_set_vec, t_slice_set_mat, bind. rewrite !(t_size_val _ _ _ _ _ _ Hl).
  destruct (decide (0 <= idx < Z.of_nat (length sl))) as [Hi|Hi].
  2:{ rewrite !bad_idx by exact Hi. split_and!; try (intros; split); reflexivity. }
  rewrite !good_idx by exact Hi. specialize (Hf Hi). rewrite !(t_zds_val _ _ _ _ _ _ Hl Hf), (v_size_val _ _ _ Hb), (m_size_val _ _ _ _ _ Hc).
  split_and!; [| |reflexivity|reflexivity].
  - intros [Hv|Hv]; [contradiction|]. destruct (Z.eqb_spec (Z.of_nat (length v)) (Z.of_nat (y * x))); [lia|split; reflexivity].
  - intros [Hv|Hv]; [contradiction|]. unfold size_eq; cbn [fst snd].
    destruct (Z.eqb_spec (Z.of_nat cx) (Z.of_nat x)); [|reflexivity]. destruct (Z.eqb_spec (Z.of_nat cy) (Z.of_nat y)); [|reflexivity].
    exfalso. apply Hv. f_equal; lia.
Qed.

(** ** Reading one slice *)
Theorem C58_slice_get h l x y sl idx s : wf h -> abs h !! l = Some (Slices x y sl) -> width (y * x) sl -> 0 <= idx -> sl !! Z.to_nat idx = Some s ->
  runs (t_slice_get l idx) h (fun v h' => v = s /\ h' = h) /\
  runs (t_slice_get_vec l idx) h (fun r h' => exists d, r = Some d /\ abs h !! d = None /\ abs h' = <[d := AVec s]> (abs h)) /\
  ((0 < y * x)%nat -> runs (t_slice_get_mat l idx) h (fun r h' => exists d, r = Some d /\ abs h !! d = None /\ abs h' = <[d := AMat x y s]> (abs h))).
Proof.
  intros Hw Hl Hs Hi Hk. split_and!; [| |intros Hp]; r_; [eapply wp_t_slice_get|eapply wp_t_slice_get_vec|eapply wp_t_slice_get_mat]; eauto 10.
Qed.
Theorem C58_slice_get_into h l x y sl idx s t n cs m mx my cs' : wf h -> abs h !! l = Some (Slices x y sl) -> width (y * x) sl -> 0 <= idx -> sl !! Z.to_nat idx = Some s ->
  abs h !! t = Some (SVec n, cs) -> abs h !! m = Some (SMat mx my, cs') ->
  runs (t_slice_get_into_vec l idx (Some t)) h (fun _ h' => abs h' = <[t := AVec s]> (abs h)) /\
  runs (t_slice_get_into_mat l idx (Some m)) h (fun _ h' => abs h' = <[m := AMat x y s]> (abs h)).
Proof. intros. split; r_; [eapply wp_t_slice_get_into_vec|eapply wp_t_slice_get_into_mat]; eauto. Qed.
Theorem C58_slice_get_rejected h l x y sl idx r : wf h -> abs h !! l = Some (Slices x y sl) -> ~ (0 <= idx < Z.of_nat (length sl)) ->
  t_slice_get l idx h = Ok [] h /\ t_slice_get_vec l idx h = Ok None h /\ t_slice_get_mat l idx h = Ok None h /\
  t_slice_get_into_vec l idx r h = Ok tt h /\ t_slice_get_into_mat l idx r h = Ok tt h.
Proof.
  intros Hw Hl Hi. unfold t_slice_get, t_slice_get_vec, t_slice_get_mat, t_slice_get_into_vec, t_slice_get_into_mat, bind.
  rewrite !(t_size_val _ _ _ _ _ _ Hl), !bad_idx by exact Hi. split_and!; reflexivity.
Qed.
(** A null target is dereferenced. *)
Theorem C58_slice_get_into_null_UB h l x y sl idx : wf h -> abs h !! l = Some (Slices x y sl) -> 0 <= idx < Z.of_nat (length sl) ->
  t_slice_get_into_vec l idx None h = UB /\ t_slice_get_into_mat l idx None h = UB.
Proof.
  intros Hw Hl Hi. assert (Hf : fits x y) by (eapply ten_fits; [exact Hw|exact Hl|lia]).
  unfold t_slice_get_into_vec, t_slice_get_into_mat, bind.
  rewrite !(t_size_val _ _ _ _ _ _ Hl), !good_idx, !(t_zds_val _ _ _ _ _ _ Hl Hf) by exact Hi. split; reflexivity.
Qed.

(** ** Any sequence of slice edits acts as on a list *)
Inductive slice_edit := Add (v : list F) | Remove (k : nat) | Swap (k j : nat) | Put (k : nat) (v : list F).
Definition edit_list (e : slice_edit) (sl : list (list F)) : list (list F) :=
  match e with
  | Add v => sl ++ [v]
  | Remove k => take k sl ++ drop (S k) sl
  | Swap k j => match sl !! k, sl !! j with Some a, Some b => <[k := b]> (<[j := a]> sl) | _, _ => sl end
  | Put k v => take k sl ++ match drop k sl with [] => [] | _ :: w => v :: w end
  end.
Definition edit_ok (w : nat) (e : slice_edit) : Prop := match e with Add v | Put _ v => length v = w | _ => True end.
Definition edit_call l (e : slice_edit) : M F unit :=
  match e with
  | Add v => t_slice_add l v
  | Remove k => t_slice_remove l (Z.of_nat k)
  | Swap k j => t_slice_swap l (Z.of_nat k) (Z.of_nat j)
  | Put k v => t_slice_set l (Z.of_nat k) v
  end.
Definition edits_call l (es : list slice_edit) : M F unit := foldr (fun e m => edit_call l e ;;; m) (ret tt) es.

Lemma put_insert k v sl : take k sl ++ match drop k sl with [] => [] | _ :: w => v :: w end = <[k := v]> sl.
Proof.
  revert k. induction sl as [|s sl IH]; intros [|k]; cbn; try reflexivity. - rewrite IH. reflexivity.
Qed.
Lemma put_ge k v sl : (length sl <= k)%nat -> <[k := v]> sl = sl.
Proof. apply list_insert_ge. Qed.

Theorem C58_any_edit_sequence h l x y sl (es : list slice_edit) : wf h -> abs h !! l = Some (Slices x y sl) -> width (y * x) sl -> (0 < y * x)%nat -> fits x y ->
  Forall (edit_ok (y * x)) es -> Z.of_nat ((length sl + length es) * (y * x)) <= int_max ->
  runs (edits_call l es) h (fun _ h' => abs h' = <[l := Slices x y (foldl (fun s e => edit_list e s) sl es)]> (abs h)).
Proof.
  revert h sl. induction es as [|e es IH]; intros h sl Hw Hl Hs Hp Hf Hok HB.
  - exists tt, h. split; [reflexivity|]. split; [exact Hw|]. cbn. symmetry. apply insert_id. exact Hl.
  - apply list.Forall_cons in Hok as [Hok1 Hok2]. cbn [edits_call foldr foldl].
    assert (Hstep : runs (edit_call l e) h (fun _ h' => abs h' = <[l := Slices x y (edit_list e sl)]> (abs h))).
    { destruct e as [v|k|k j|k v]; cbn [edit_call edit_list edit_ok] in *.
      - r_. eapply wp_t_slice_add; eauto; [|cbn [length] in HB; nia]. intros ->. cbn in Hok1. lia.
      - destruct (C58_slice_remove h l x y sl (Z.of_nat k) Hw Hl Hs) as [R1 R2]. destruct (decide (k < length sl)%nat) as [Hk|Hk].
        + rewrite Nat2Z.id in R1. apply R1. lia.
        + exists tt, h. split; [apply R2; lia|]. split; [exact Hw|]. rewrite take_ge, drop_ge, app_nil_r by lia. symmetry. apply insert_id. exact Hl.
      - destruct (sl !! k) as [a1|] eqn:E1; [destruct (sl !! j) as [a2|] eqn:E2|].
        + pose proof (lookup_lt_Some _ _ _ E1). pose proof (lookup_lt_Some _ _ _ E2).
          r_. eapply wp_t_slice_swap; eauto; [lia|lia|]. intros h' W A. split; [exact W|]. rewrite A, !Nat2Z.id. unfold swap_rows. rewrite E1, E2. reflexivity.
        + apply lookup_ge_None in E2. exists tt, h. split; [apply (C58_slice_swap h l x y sl _ _ Hw Hl Hs); lia|]. split; [exact Hw|].
          symmetry. apply insert_id. exact Hl.
        + apply lookup_ge_None in E1. exists tt, h. split; [apply (C58_slice_swap h l x y sl _ _ Hw Hl Hs); lia|]. split; [exact Hw|].
          symmetry. apply insert_id. exact Hl.
      - rewrite put_insert. destruct (decide (k < length sl)%nat) as [Hk|Hk].
        + r_. eapply wp_t_slice_set; eauto; [lia|]. intros h' W A. split; [exact W|]. rewrite A, Nat2Z.id. reflexivity.
        + exists tt, h. split; [|split; [exact Hw|rewrite put_ge by lia; symmetry; apply insert_id; exact Hl]].
          unfold t_slice_set, bind. rewrite (t_size_val _ _ _ _ _ _ Hl), bad_idx by lia. reflexivity. }
    destruct Hstep as ([] & h1 & E1 & W1 & A1).
    assert (Hl1 : abs h1 !! l = Some (Slices x y (edit_list e sl))) by (rewrite A1; apply lookup_insert).
    assert (Hs1 : width (y * x) (edit_list e sl)).
    { unfold width in *. destruct e as [v|k|k j|k v]; cbn [edit_list edit_ok] in *.
      - apply list.Forall_app. auto.
      - apply list.Forall_app. split; [apply Forall_take|apply Forall_drop]; exact Hs.
      - destruct (sl !! k) as [a1|] eqn:E; [destruct (sl !! j) as [a2|] eqn:E'|]; try exact Hs.
        apply Forall_insert; [apply Forall_insert; [exact Hs|]|].
        + exact (proj1 (Forall_lookup _ _) Hs _ _ E).
        + exact (proj1 (Forall_lookup _ _) Hs _ _ E').
      - rewrite put_insert. apply Forall_insert; assumption. }
    assert (HL : (length (edit_list e sl) <= length sl + 1)%nat).
    { destruct e as [v|k|k j|k v]; cbn [edit_list].
      - rewrite app_length. cbn. lia.
      - rewrite app_length, take_length, drop_length. lia.
      - destruct (sl !! k); [destruct (sl !! j)|]; rewrite ?insert_length; lia.
      - rewrite put_insert, insert_length. lia. }
    destruct (IH h1 _ W1 Hl1 Hs1 Hp Hf Hok2) as ([] & h2 & E2 & W2 & A2); [cbn [length] in HB; nia|].
    exists tt, h2. split; [|split; [exact W2|]].
    + unfold edits_call in E2. cbn [foldr]. unfold bind. rewrite E1. exact E2.
    + rewrite A2, A1, insert_insert. reflexivity.
Qed.
End props.
