(** * Properties C01-C14 (vectors): theorems.

    [runs m h Q]: the call [m] started in heap [h] finishes normally (no undefined behaviour, no
    abort, no exhausted fuel), leaves a coherent heap, and its result and final heap satisfy [Q].
    [abs h] maps every live object to its shape and cells; [AVec xs] is the fully initialised vector
    with elements [xs].  So [abs h' = <[l := AVec ys]> (abs h)] says: object [l] now holds [ys] and
    every other object is untouched. *)
From Verif Require Export HistProofs VecProofs2 SortProofs.

Section props.
Context {F : Type} `{Scalar F}.
Implicit Types (h : heap F) (xs ys zs : list F) (l a b : loc) (r : option loc).

(** ** C01 *)
Theorem C01_vector_history_coherent vd (p : prog F) os h' :
  int_prog p -> run vd p empty_heap = Ok os h' -> wf h'.
Proof. intros Hi E. exact (pres_run vd p Hi _ _ _ wf_empty E). Qed.

(** What coherence gives a caller, in the API's terms. *)
Theorem C01_coherent_sizes vd (p : prog F) os h' l n h'' :
  int_prog p -> run vd p empty_heap = Ok os h' -> v_size l h' = Ok n h'' ->
  h'' = h' /\ exists o, h_obj h' !! l = Some o /\ o_shape o = SVec n /\
    match o_data o with
    | None => n = 0
    | Some q => exists cs, h_blk h' !! q = Some cs /\ Z.of_nat (length cs) = n /\ 0 < n
    end /\
    (forall l2 o2 q, h_obj h' !! l2 = Some o2 -> o_data o = Some q -> o_data o2 = Some q -> l2 = l).
Proof.
  intros Hi E Es. pose proof (pres_run vd p Hi _ _ _ wf_empty E) as W.
  unfold v_size, bind, get_obj in Es. destruct (h_obj h' !! l) as [o|] eqn:Eo; [|discriminate].
  destruct (o_shape o) eqn:Esh; cbn in Es; try discriminate. injection Es as <- <-.
  split; [reflexivity|]. exists o. split; [reflexivity|]. split; [exact Esh|]. split.
  - destruct (o_data o) as [q|] eqn:Ed.
    + destruct (wf_some h' W l o q Eo Ed) as (cs & E1 & E2 & E3). rewrite Esh in *. cbn in *. exists cs. lia || (split; [exact E1|lia]).
    + pose proof (wf_none h' W l o Eo Ed) as E1. rewrite Esh in E1. exact E1.
  - intros l2 o2 q E2 Ed Ed2. exact (wf_inj h' W _ _ _ _ q E2 Eo Ed2 Ed).
Qed.

(** ** C02 - C08, C12 together: every history of valid calls behaves as the list specification. *)
Theorem C02_vector_history_refines vd (p : prog F) :
  all_valid ∅ p ->
  exists os h', run vd p empty_heap = Ok os h' /\
    exists s', vspecs ∅ p os s' /\ wf h' /\ abs h' = AVec <$> s'.
Proof. intros Hv. exact (run_sim vd p empty_heap ∅ sim_empty Hv). Qed.

Ltac r := apply runs_wp.

Theorem C02_push_back h l xs x : wf h -> abs h !! l = Some (AVec xs) -> Z.of_nat (length xs) < int_max ->
  runs (v_push_back l x) h (fun _ h' => abs h' = <[l := AVec (xs ++ [x])]> (abs h)).
Proof. intros. r. eapply wp_v_push_back_vec; eauto; lia. Qed.

(** [b] may be [l] itself. *)
Theorem C02_append h l b xs ys : wf h -> abs h !! l = Some (AVec xs) -> abs h !! b = Some (AVec ys) ->
  Z.of_nat (length xs + length ys) <= int_max ->
  runs (v_append l (Some b)) h (fun _ h' => abs h' = <[l := AVec (xs ++ ys)]> (abs h)).
Proof. intros. r. eapply wp_v_append; eauto. Qed.

Theorem C02_append_null h l : v_append l None h = Ok tt h.
Proof. reflexivity. Qed.

Theorem C02_insert h l xs i x : wf h -> abs h !! l = Some (AVec xs) -> Z.of_nat (length xs) < int_max ->
  0 <= i <= Z.of_nat (length xs) ->
  runs (v_insert l i x) h (fun _ h' => abs h' = <[l := AVec (take (Z.to_nat i) xs ++ x :: drop (Z.to_nat i) xs)]> (abs h)).
Proof. intros. r. eapply wp_v_insert; eauto; [lia|]. intros h' W A. rewrite decide_True in A by lia. auto. Qed.

Theorem C02_insert_out_of_range h l xs i x : wf h -> abs h !! l = Some (AVec xs) -> Z.of_nat (length xs) < int_max ->
  ~ 0 <= i <= Z.of_nat (length xs) -> runs (v_insert l i x) h (fun _ h' => abs h' = abs h).
Proof.
  intros. r. eapply wp_v_insert; eauto; [lia|]. intros h' W A. rewrite decide_False in A by lia.
  rewrite insert_id in A by auto. auto.
Qed.

Theorem C02_remove h l xs i : wf h -> abs h !! l = Some (AVec xs) -> 0 <= i < Z.of_nat (length xs) ->
  runs (v_remove l i) h (fun _ h' => abs h' = <[l := AVec (take (Z.to_nat i) xs ++ drop (S (Z.to_nat i)) xs)]> (abs h)).
Proof.
  intros. r. eapply wp_v_remove; eauto. intros h' W A. rewrite decide_True in A by lia.
  rewrite delete_take_drop' in A. auto.
Qed.

Theorem C02_remove_out_of_range h l xs i : wf h -> abs h !! l = Some (AVec xs) -> ~ 0 <= i < Z.of_nat (length xs) ->
  runs (v_remove l i) h (fun _ h' => abs h' = abs h).
Proof.
  intros Hw Ha Hi. r. eapply wp_v_remove; eauto. intros h' W A. split; [exact W|]. rewrite A.
  destruct (decide (0 <= i)); [|apply insert_id; auto].
  replace (delete (Z.to_nat i) xs) with xs; [apply insert_id; auto|].
  rewrite delete_take_drop', drop_ge, take_ge, app_nil_r by lia. reflexivity.
Qed.

(** One element, the one at [i], disappears; the others are kept (in an unspecified order). *)
Theorem C02_remove_unordered h l xs i x : wf h -> abs h !! l = Some (AVec xs) -> 0 <= i -> xs !! Z.to_nat i = Some x ->
  runs (v_remove_unordered l i) h (fun _ h' => exists ys, x :: ys ≡ₚ xs /\ take (Z.to_nat i) ys = take (Z.to_nat i) xs /\
     abs h' = <[l := AVec ys]> (abs h)).
Proof.
  intros Hw Ha Hi Hx. r. eapply wp_v_remove_unordered; eauto. intros h' W A. split; [exact W|].
  pose proof (lookup_lt_Some _ _ _ Hx) as Hlt. rewrite decide_True in A by lia.
  exists (remove_unord (Z.to_nat i) xs). split; [apply remove_unord_perm; exact Hx|]. split; [|exact A].
  unfold remove_unord. destruct (list.last xs) as [z|] eqn:El.
  - destruct (decide (S (Z.to_nat i) = length xs)); [rewrite take_take, Nat.min_id; reflexivity|].
    rewrite take_insert by lia. rewrite take_take. f_equal. lia.
  - reflexivity.
Qed.

Theorem C02_invert h l xs : wf h -> abs h !! l = Some (AVec xs) ->
  runs (v_invert l) h (fun _ h' => abs h' = <[l := AVec (reverse xs)]> (abs h)).
Proof. intros. r. eapply wp_v_invert; eauto. Qed.

Theorem C02_fill h l n cs x : wf h -> abs h !! l = Some (SVec n, cs) ->
  runs (v_fill l x) h (fun _ h' => abs h' = <[l := AVec (replicate (Z.to_nat n) x)]> (abs h)).
Proof. intros. r. eapply wp_v_fill; eauto. Qed.

Theorem C02_element_get h l xs i x : wf h -> abs h !! l = Some (AVec xs) -> 0 <= i -> xs !! Z.to_nat i = Some x ->
  runs (v_get l i) h (fun y h' => y = x /\ h' = h).
Proof.
  intros Hw Ha Hi Hx. r. eapply wp_v_get; eauto. split; [auto|]. split; [|auto].
  destruct (Z.ltb_spec i 0); [lia|]. rewrite Hx. reflexivity.
Qed.

Theorem C02_element_get_out_of_range h l xs i : wf h -> abs h !! l = Some (AVec xs) -> ~ 0 <= i < Z.of_nat (length xs) ->
  runs (v_get l i) h (fun y h' => y = s_zero /\ h' = h).
Proof.
  intros Hw Ha Hi. r. eapply wp_v_get; eauto. split; [auto|]. split; [|auto].
  destruct (Z.ltb_spec i 0); [reflexivity|]. rewrite lookup_ge_None_2 by lia. reflexivity.
Qed.

Theorem C02_element_set h l xs i x : wf h -> abs h !! l = Some (AVec xs) -> 0 <= i ->
  runs (v_set l i x) h (fun _ h' => abs h' = <[l := AVec (<[Z.to_nat i := x]> xs)]> (abs h)).
Proof.
  intros Hw Ha Hi. r. eapply wp_v_set; eauto. intros h' W _ A. split; [exact W|].
  destruct (Z.ltb_spec i 0); [lia|]. rewrite A. unfold AVec. rewrite insert_length, list_fmap_insert. reflexivity.
Qed.

Theorem C02_element_set_negative h l xs i x : wf h -> abs h !! l = Some (AVec xs) -> i < 0 ->
  runs (v_set l i x) h (fun _ h' => abs h' = abs h).
Proof.
  intros Hw Ha Hi. r. eapply wp_v_set; eauto. intros h' W _ A. split; [exact W|].
  destruct (Z.ltb_spec i 0); [|lia]. rewrite A. try (apply insert_id; exact Ha). reflexivity.
Qed.

(** [operator[]] / [element_get_ref]: the element in range, an abort (never a stray read) outside. *)
Theorem C02_index h l xs i x : wf h -> abs h !! l = Some (AVec xs) -> 0 <= i -> xs !! Z.to_nat i = Some x ->
  runs (v_at l i) h (fun y h' => y = x /\ h' = h).
Proof.
  intros Hw Ha Hi Hx. r. unfold v_at. apply wp_bind. eapply wp_v_size_vec; [exact Ha|].
  pose proof (lookup_lt_Some _ _ _ Hx).
  destruct (Z.ltb_spec i 0); [lia|]. destruct (Z.leb_spec (Z.of_nat (length xs)) i); [lia|]. cbn [orb].
  apply wp_bind. eapply wp_data_ptr; [exact Ha|]. intros p Hp.
  eapply wp_load; [exact Hw|exact Hp|exact Ha|lia|rewrite list_lookup_fmap, Hx; reflexivity|]. auto.
Qed.
Theorem C02_index_out_of_range h l xs i : wf h -> abs h !! l = Some (AVec xs) -> ~ 0 <= i < Z.of_nat (length xs) ->
  v_at l i h = Crash.
Proof.
  intros Hw Ha Hi. unfold v_at.
  assert (E : wp (v_size l) h (fun n h' => n = Z.of_nat (length xs) /\ h' = h)) by (eapply wp_v_size_vec; [exact Ha|auto]).
  unfold bind at 1. apply wp_ok in E as (n & h' & E & -> & ->). rewrite E.
  destruct (Z.ltb_spec i 0); [reflexivity|]. destruct (Z.leb_spec (Z.of_nat (length xs)) i); [reflexivity|lia].
Qed.

(** Growing [resize] keeps the old elements and leaves the new cells uninitialised; shrinking keeps a prefix. *)
Theorem C02_resize h l xs n : wf h -> abs h !! l = Some (AVec xs) -> 0 <= n <= int_max ->
  runs (v_resize l n) h (fun _ h' => abs h' =
    <[l := (SVec n, (Some <$> take (Z.to_nat n) xs) ++ replicate (Z.to_nat n - length xs) None)]> (abs h)).
Proof.
  intros Hw Ha Hn. r. eapply wp_v_resize; eauto. intros h' W A _. split; [exact W|]. rewrite A. f_equal. f_equal.
  rewrite resize_spec, fmap_length, <- fmap_take. reflexivity.
Qed.

(** ** C03 *)
Theorem C03_find h l xs v from : wf h -> abs h !! l = Some (AVec xs) -> 0 <= from ->
  runs (v_find l v from) h (fun i h' => h' = h /\ find_spec xs (Z.to_nat from) v i).
Proof. intros Hw Ha Hf. r. eapply wp_v_find; eauto. Qed.

Theorem C03_erase h l xs v : wf h -> abs h !! l = Some (AVec xs) ->
  runs (v_erase l v) h (fun _ h' =>
    (exists pre x post, xs = pre ++ x :: post /\ s_eq x v = true /\ Forall (fun y => s_eq y v = false) pre /\
        abs h' = <[l := AVec (pre ++ post)]> (abs h)) \/
    (Forall (fun y => s_eq y v = false) xs /\ abs h' = abs h)).
Proof.
  intros Hw Ha. r. eapply wp_v_erase; eauto. intros i h' Hf W A. split; [exact W|].
  destruct Hf as [(k & x & -> & _ & Hx & Hq & Hk)|[-> Hk]].
  - left. rewrite decide_True in A by lia. rewrite Nat2Z.id, delete_take_drop' in A.
    exists (take k xs), x, (drop (S k) xs). split; [symmetry; apply take_drop_middle; exact Hx|].
    split; [exact Hq|]. split; [|exact A]. apply Forall_lookup. intros j y Hy.
    apply lookup_take_Some in Hy as [Hy Hj]. apply (Hk j); [lia|exact Hy].
  - right. rewrite decide_False in A by lia. rewrite insert_id in A by auto. split; [|exact A].
    apply Forall_lookup. intros j y Hy. apply (Hk j); [lia|exact Hy].
Qed.

(** ** C04 *)
Theorem C04_erase_multiple h l xs v : wf h -> abs h !! l = Some (AVec xs) ->
  runs (v_erase_multiple_unordered l v) h (fun n h' =>
    n = Z.of_nat (length (List.filter (fun x => s_eq x v) xs)) /\
    exists ys, ys ≡ₚ List.filter (fun x => negb (s_eq x v)) xs /\ abs h' = <[l := AVec ys]> (abs h)).
Proof. intros Hw Ha. r. eapply wp_v_erase_multiple; eauto 10. Qed.

(** ** C05 *)
Theorem C05_sort (P : F -> Prop) vd h l xs : swo_on P -> wf h -> abs h !! l = Some (AVec xs) -> Forall P xs ->
  runs (v_sort vd l) h (fun _ h' => exists ys, ys ≡ₚ xs /\ non_decreasing ys /\ abs h' = <[l := AVec ys]> (abs h)).
Proof. intros HP Hw Ha HF. r. eapply wp_v_sort; eauto 10. Qed.

(** ** C06 *)
Theorem C06_ordered_insert (P : F -> Prop) h l xs v : swo_on P -> wf h -> abs h !! l = Some (AVec xs) ->
  Forall P xs -> P v -> non_decreasing xs -> Z.of_nat (length xs) < int_max ->
  runs (v_ordered_insert l v) h (fun _ h' => exists pre post, xs = pre ++ post /\
    abs h' = <[l := AVec (pre ++ v :: post)]> (abs h) /\ non_decreasing (pre ++ v :: post) /\
    Forall (fun y => s_lt v y = false) pre /\ Forall (fun y => s_lt v y = true) post).
Proof.
  intros HP Hw Ha HF Hv Hs Hl. r. eapply wp_v_ordered_insert; eauto; [lia|].
  intros i h' (Hi & Hlo & Hhi) W A. split; [exact W|]. exists (take i xs), (drop i xs).
  split; [symmetry; apply take_drop|]. split; [exact A|].
  assert (Hpre : Forall (fun y => s_lt v y = false) (take i xs)).
  { apply Forall_lookup. intros j y Hy. apply lookup_take_Some in Hy as [Hy Hj]. exact (Hlo j y Hj Hy). }
  assert (Hpost : Forall (fun y => s_lt v y = true) (drop i xs)).
  { apply Forall_lookup. intros j y Hy. rewrite lookup_drop in Hy.
    assert (Hlt : (i < length xs)%nat) by (apply lookup_lt_Some in Hy; lia).
    destruct (lookup_lt_is_Some_2 xs i Hlt) as [z Hz].
    pose proof (Hhi z Hz) as Hvz. pose proof (Hs i (i + j)%nat z y ltac:(lia) Hz Hy) as Hyz.
    rewrite Forall_lookup in HF. destruct (swo_cotrans P HP v y z Hv (HF _ _ Hy) (HF _ _ Hz) Hvz); [assumption|congruence]. }
  split; [|auto].
  assert (E : take i xs ++ v :: drop i xs = take i xs ++ [v] ++ drop i xs) by reflexivity.
  rewrite Forall_lookup in HF, Hpre, Hpost.
  assert (Hlen : length (take i xs) = i) by (rewrite take_length; lia).
  intros j k x y Hjk Hx Hy.
  assert (HPx : forall m z, (take i xs ++ v :: drop i xs) !! m = Some z ->
     ((m < i)%nat /\ xs !! m = Some z) \/ (m = i /\ z = v) \/ ((i < m)%nat /\ xs !! (m - 1)%nat = Some z)).
  { intros m z Hm. destruct (decide (m < i)%nat).
    - left. rewrite lookup_app_l in Hm by lia. apply lookup_take_Some in Hm as [Hm _]. auto.
    - rewrite lookup_app_r in Hm by lia. rewrite Hlen in Hm. right.
      destruct (m - i)%nat as [|k'] eqn:Ek; [left; split; [lia|cbn in Hm; congruence]|].
      right. split; [lia|]. rewrite lookup_cons_ne_0 in Hm by lia. cbn [Nat.pred] in Hm. rewrite lookup_drop in Hm. replace (m - 1)%nat with (i + k')%nat by lia. exact Hm. }
  destruct (HPx _ _ Hx) as [[Hj Hx']|[[-> ->]|[Hj Hx']]]; destruct (HPx _ _ Hy) as [[Hk Hy']|[[-> ->]|[Hk Hy']]]; try lia.
  - exact (Hs j k x y Hjk Hx' Hy').
  - apply Hpre with j. rewrite lookup_take_Some. auto.
  - exact (Hs j (k - 1)%nat x y ltac:(lia) Hx' Hy').
  - apply (swo_irrefl P HP v Hv).
  - assert (E2 : s_lt v y = true). { apply (Hpost (k - 1 - i)%nat). rewrite lookup_drop. replace (i + (k - 1 - i))%nat with (k - 1)%nat by lia. exact Hy'. }
    destruct (s_lt y v) eqn:E3; [|reflexivity].
    pose proof (swo_trans P HP v y v Hv (HF _ _ Hy') Hv E2 E3). rewrite (swo_irrefl P HP v Hv) in *. discriminate.
  - exact (Hs (j - 1)%nat (k - 1)%nat x y ltac:(lia) Hx' Hy').
Qed.

(** ** C07 *)
(** [inplace], [new], [into] are the three call forms of the pointwise binary operation [f]. *)
Definition pointwise2_inplace (f : F -> F -> F) (m : loc -> option loc -> M F unit) : Prop :=
  forall h l, wf h ->
    m l None h = Ok tt h /\
    (forall b xs ys, abs h !! l = Some (AVec xs) -> abs h !! b = Some (AVec ys) -> length xs = length ys ->
      runs (m l (Some b)) h (fun _ h' => abs h' = <[l := AVec (zip_with f xs ys)]> (abs h))) /\
    (forall b xs ys, abs h !! l = Some (AVec xs) -> abs h !! b = Some (AVec ys) -> length xs <> length ys ->
      runs (m l (Some b)) h (fun _ h' => abs h' = abs h)).
Definition pointwise2_new (f : F -> F -> F) (m : loc -> option loc -> M F (option loc)) : Prop :=
  forall h l, wf h ->
    m l None h = Ok None h /\
    (forall b xs ys, abs h !! l = Some (AVec xs) -> abs h !! b = Some (AVec ys) -> length xs = length ys ->
      runs (m l (Some b)) h (fun r h' => exists o, r = Some o /\ abs h !! o = None /\
        abs h' = <[o := AVec (zip_with f xs ys)]> (abs h))) /\
    (forall b xs ys, abs h !! l = Some (AVec xs) -> abs h !! b = Some (AVec ys) -> length xs <> length ys ->
      runs (m l (Some b)) h (fun r h' => r = None /\ abs h' = abs h)).
Definition pointwise2_into (f : F -> F -> F) (m : loc -> option loc -> option loc -> M F unit) : Prop :=
  forall h l n cs, wf h -> abs h !! l = Some (SVec n, cs) ->
    (forall ra rb, ra = None \/ rb = None -> m l ra rb h = Ok tt h) /\
    (forall a b xs ys, abs h !! a = Some (AVec xs) -> abs h !! b = Some (AVec ys) -> length xs = length ys ->
      runs (m l (Some a) (Some b)) h (fun _ h' => abs h' = <[l := AVec (zip_with f xs ys)]> (abs h))) /\
    (forall a b xs ys, abs h !! a = Some (AVec xs) -> abs h !! b = Some (AVec ys) -> length xs <> length ys ->
      runs (m l (Some a) (Some b)) h (fun _ h' => abs h' = abs h)).

Lemma pw_op2 f : pointwise2_inplace f (v_op2 f).
Proof.
  intros h l Hw. split; [reflexivity|]. split; intros b xs ys Hx Hy Hl; r; eapply wp_v_op2; eauto; intros h' W A.
  - rewrite decide_True in A by auto. auto.
  - rewrite decide_False in A by auto. auto.
Qed.
Lemma pw_op2n f : pointwise2_new f (v_op2n f).
Proof.
  intros h l Hw. split; [reflexivity|]. split; intros b xs ys Hx Hy Hl; r; eapply wp_v_op2n; eauto 10; try congruence; intros; congruence.
Qed.
Lemma pw_op2n_early f : pointwise2_new f (v_op2n_early f).
Proof.
  intros h l Hw. split; [reflexivity|]. split; intros b xs ys Hx Hy Hl; r; eapply wp_v_op2n_early; eauto 10; try congruence; intros; congruence.
Qed.
Lemma pw_op2b f : pointwise2_into f (v_op2b f) /\ pointwise2_into f (v_op2b_resize f).
Proof.
  split; intros h l n cs Hw Hl; (split; [intros ra rb [-> | ->]; [reflexivity|destruct ra; reflexivity]|]);
  split; intros a b xs ys Hx Hy E; r; eapply wp_v_op2b; eauto; intros h' W A;
  first [rewrite decide_True in A by auto | rewrite decide_False in A by auto]; auto.
Qed.

Theorem C07_add : pointwise2_inplace s_add v_add /\ pointwise2_new s_add v_addn /\ pointwise2_into s_add v_addb.
Proof. split; [apply pw_op2|]. split; [apply pw_op2n|apply pw_op2b]. Qed.
Theorem C07_sub : pointwise2_inplace s_sub v_sub /\ pointwise2_new s_sub v_subn /\ pointwise2_into s_sub v_subb.
Proof. split; [apply pw_op2|]. split; [apply pw_op2n|apply pw_op2b]. Qed.
Theorem C07_hadamard : pointwise2_inplace s_mul v_hadamard /\ pointwise2_new s_mul v_hadamardn /\ pointwise2_into s_mul v_hadamardb.
Proof. split; [apply pw_op2|]. split; [apply pw_op2n_early|apply pw_op2b]. Qed.
Theorem C07_max : let f := fun x y : F => if s_lt y x then x else y in
  pointwise2_inplace f v_max /\ pointwise2_new f v_maxn /\ pointwise2_into f v_maxb.
Proof. split; [apply pw_op2|]. split; [apply pw_op2n|apply pw_op2b]. Qed.
Theorem C07_min : let f := fun x y : F => if s_lt x y then x else y in
  pointwise2_inplace f v_min /\ pointwise2_new f v_minn /\ pointwise2_into f v_minb.
Proof. split; [apply pw_op2|]. split; [apply pw_op2n|apply pw_op2b]. Qed.

(** ** C08 *)
Definition pointwise1_inplace (f : F -> F) (m : loc -> M F unit) : Prop :=
  forall h l xs, wf h -> abs h !! l = Some (AVec xs) ->
    runs (m l) h (fun _ h' => abs h' = <[l := AVec (f <$> xs)]> (abs h)).
Definition pointwise1_new (f : F -> F) (m : loc -> M F loc) : Prop :=
  forall h l xs, wf h -> abs h !! l = Some (AVec xs) ->
    runs (m l) h (fun o h' => abs h !! o = None /\ abs h' = <[o := AVec (f <$> xs)]> (abs h)).
Definition pointwise1_into (f : F -> F) (m : loc -> option loc -> M F unit) : Prop :=
  forall h l n cs a xs, wf h -> abs h !! l = Some (SVec n, cs) -> abs h !! a = Some (AVec xs) ->
    runs (m l (Some a)) h (fun _ h' => abs h' = <[l := AVec (f <$> xs)]> (abs h)).
Definition null_noop (m : loc -> option loc -> M F unit) : Prop := forall h l, m l None h = Ok tt h.

Lemma pw_map f : pointwise1_inplace f (v_map f).
Proof. intros h l xs Hw Ha. r. eapply wp_v_map; eauto. Qed.
Lemma pw_mapn f : pointwise1_new f (v_mapn f).
Proof. intros h l xs Hw Ha. r. eapply wp_v_mapn; eauto. Qed.
Lemma pw_mapb f : pointwise1_into f (v_mapb f).
Proof. intros h l n cs a xs Hw Hl Ha. r. eapply wp_v_mapb; eauto. Qed.
Lemma pw_mapb_cond f : pointwise1_into f (v_mapb_cond f).
Proof. intros h l n cs a xs Hw Hl Ha. r. eapply wp_v_mapb_cond; eauto. Qed.
Lemma null_mapb f : null_noop (v_mapb f). Proof. intros h l. reflexivity. Qed.

Definition pointwise1 f m1 m2 m3 : Prop :=
  pointwise1_inplace f m1 /\ pointwise1_new f m2 /\ pointwise1_into f m3 /\ null_noop m3.

Lemma pw1 f : pointwise1 f (v_map f) (v_mapn f) (v_mapb f).
Proof. split; [apply pw_map|]. split; [apply pw_mapn|]. split; [apply pw_mapb|apply null_mapb]. Qed.

Theorem C08_log : pointwise1 s_log v_log v_logn v_logb. Proof. apply pw1. Qed.
Theorem C08_log10 : pointwise1 s_log10 v_log10 v_log10n v_log10b. Proof. apply pw1. Qed.
Theorem C08_exp : pointwise1 s_exp v_exp v_expn v_expb. Proof. apply pw1. Qed.
Theorem C08_erf : pointwise1 s_erf v_erf v_erfn v_erfb. Proof. apply pw1. Qed.
Theorem C08_exponentiate e : pointwise1 (fun x => s_pow x e) (v_exponentiate e) (v_exponentiaten e) (v_exponentiateb e). Proof. apply pw1. Qed.
Theorem C08_sqrt : pointwise1 s_sqrt v_sqrt v_sqrtn v_sqrtb. Proof. apply pw1. Qed.
Theorem C08_cbrt : pointwise1 (fun x => s_pow x (s_div s_one (s_of_Z 3))) v_cbrt v_cbrtn v_cbrtb. Proof. apply pw1. Qed.
Theorem C08_abs : pointwise1 (fun x => if s_lt x s_zero then s_opp x else x) v_abs v_absn v_absb. Proof. apply pw1. Qed.
Theorem C08_sin : pointwise1 s_sin v_sin v_sinn v_sinb. Proof. apply pw1. Qed.
Theorem C08_scalar_multiply c : pointwise1_inplace (fun x => s_mul x c) (v_scalar_multiply c) /\
  pointwise1_new (fun x => s_mul x c) (v_scalar_multiplyn c) /\ pointwise1_into (fun x => s_mul x c) (v_scalar_multiplyb c).
Proof. split; [apply pw_map|]. split; [apply pw_mapn|]. intros h l n cs a xs. apply (pw_mapb_cond (fun x => s_mul x c)). Qed.
Theorem C08_scalar_add c : pointwise1 (fun x => s_add x c) (v_scalar_add c) (v_scalar_addn c) (v_scalar_addb c).
Proof. split; [apply pw_map|]. split; [apply pw_mapn|]. split; [apply pw_mapb_cond|]. intros h l. reflexivity. Qed.
(** The in-place [cos] takes square roots; the other two forms take cosines. *)
Theorem C08_cos : pointwise1_inplace s_sqrt v_cos /\ pointwise1_new s_cos v_cosn /\ pointwise1_into s_cos v_cosb /\ null_noop v_cosb.
Proof. split; [apply pw_map|]. split; [apply pw_mapn|]. split; [apply pw_mapb|apply null_mapb]. Qed.
(** [scalar_multiplyb] with a null operand dereferences it. *)
Theorem C08_scalar_multiplyb_null c h l : v_scalar_multiplyb c l None h = UB.
Proof. reflexivity. Qed.

(** ** C09 *)
Theorem C09_division_new_into : pointwise2_new s_div v_divn /\ pointwise2_into s_div v_divb.
Proof. split; [apply pw_op2n_early|apply pw_op2b]. Qed.
Theorem C09_division_inplace_undefined h l b xs ys : wf h -> abs h !! l = Some (AVec xs) -> abs h !! b = Some (AVec ys) ->
  length xs = length ys -> xs <> [] -> v_div l (Some b) h = UB.
Proof. apply v_div_ub. Qed.
Theorem C09_division_inplace_noop h l b xs ys : wf h -> abs h !! l = Some (AVec xs) -> abs h !! b = Some (AVec ys) ->
  (length xs <> length ys \/ xs = []) -> runs (v_div l (Some b)) h (fun _ h' => abs h' = abs h).
Proof. intros. r. eapply wp_v_div_noop; eauto. Qed.

(** ** C10 *)
Theorem C10_duplicate h l xs : wf h -> abs h !! l = Some (AVec xs) ->
  runs (v_duplicate l) h (fun d h' => abs h !! d = None /\ abs h' = <[d := AVec xs]> (abs h)).
Proof. intros. r. eapply wp_v_duplicate; eauto. Qed.
Theorem C10_set_from h l n cs b ys : wf h -> abs h !! l = Some (SVec n, cs) -> abs h !! b = Some (AVec ys) ->
  runs (v_set_from l (Some b)) h (fun _ h' => abs h' = <[l := AVec ys]> (abs h)).
Proof. intros. r. cbn. eapply wp_v_set_from_vec; eauto. Qed.
(** Writing to one of two distinct vectors never changes what is read from the other. *)
Theorem C10_writes_independent h a b xs ys i x : wf h -> a <> b -> abs h !! a = Some (AVec xs) -> abs h !! b = Some (AVec ys) ->
  runs (v_set a i x) h (fun _ h' => forall j, exists y, v_get b j h = Ok y h /\ v_get b j h' = Ok y h').
Proof.
  intros Hw Hab Ha Hb. r. eapply wp_v_set; eauto. intros h' W _ A. split; [exact W|]. intros j.
  assert (Hb' : abs h' !! b = Some (AVec ys)).
  { rewrite A. destruct (i <? 0); [exact Hb|]. rewrite lookup_insert_ne by auto. exact Hb. }
  eexists. split.
  - destruct (wp_ok (v_get b j) h (fun y h'' => h'' = h /\ y = (if j <? 0 then s_zero else default s_zero (ys !! Z.to_nat j)))) as [Hok _].
    destruct Hok as (y & h2 & E & -> & ->); [eapply wp_v_get; eauto|exact E].
  - destruct (wp_ok (v_get b j) h' (fun y h'' => h'' = h' /\ y = (if j <? 0 then s_zero else default s_zero (ys !! Z.to_nat j)))) as [Hok _].
    destruct Hok as (y & h2 & E & -> & ->); [eapply wp_v_get; eauto|exact E].
Qed.

(** ** C11 *)
Theorem C11_get_data h l xs : wf h -> abs h !! l = Some (AVec xs) ->
  runs (v_get_data l) h (fun ys h' => ys = xs /\ h' = h).
Proof. intros. r. eapply wp_v_get_data; eauto. Qed.
Theorem C11_roundtrip h l b n cs xs : wf h -> abs h !! l = Some (AVec xs) -> abs h !! b = Some (SVec n, cs) ->
  runs (let! d := v_get_data l in v_set_data b d) h (fun _ h' => abs h' = <[b := AVec xs]> (abs h)).
Proof.
  intros Hw Hl Hb. r. wbind. eapply wp_v_get_data; eauto. eapply wp_v_set_data; eauto. eapply avec_len; eauto.
Qed.
Theorem C11_set_data h b n cs xs : wf h -> abs h !! b = Some (SVec n, cs) -> Z.of_nat (length xs) <= int_max ->
  runs (v_set_data b xs) h (fun _ h' => abs h' = <[b := AVec xs]> (abs h)) /\
  runs (v_set_from_vector b xs) h (fun _ h' => abs h' = <[b := AVec xs]> (abs h)).
Proof. intros Hw Hb Hl. split; r; [eapply wp_v_set_data|eapply wp_v_set_from_vector]; eauto. Qed.

(** ** C12: folds, for any scalar arithmetic (the laws over the reals are in PropReal.v) *)
Theorem C12_dot_fold h l b xs ys : wf h -> abs h !! l = Some (AVec xs) -> abs h !! b = Some (AVec ys) ->
  runs (v_dot l (Some b)) h (fun d h' => h' = h /\
    d = if decide (length xs = length ys) then foldl (fun c '(x, y) => s_add c (s_mul x y)) s_zero (zip xs ys) else s_zero).
Proof. intros. r. eapply wp_v_dot; eauto. Qed.
Theorem C12_sum_fold h l xs : wf h -> abs h !! l = Some (AVec xs) ->
  runs (v_sum l) h (fun d h' => h' = h /\ d = foldl s_add s_zero xs).
Proof. intros. r. eapply wp_v_sum; eauto. Qed.
Theorem C12_norm_sq_fold h l xs : wf h -> abs h !! l = Some (AVec xs) ->
  runs (v_norm_sq l) h (fun d h' => h' = h /\ d = foldl (fun c x => s_add c (s_mul x x)) s_zero xs).
Proof. intros. r. eapply wp_v_norm_sq; eauto. Qed.
Theorem C12_dist_sq_fold h l b xs ys : wf h -> abs h !! l = Some (AVec xs) -> abs h !! b = Some (AVec ys) ->
  runs (v_dist_sq l (Some b)) h (fun d h' => h' = h /\
    d = if decide (length xs = length ys)
        then foldl (fun c '(x, y) => s_add c (s_mul (s_sub x y) (s_sub x y))) s_zero (zip xs ys) else s_zero).
Proof. intros. r. eapply wp_v_dist_sq; eauto. Qed.
Theorem C12_null h l : v_dot l None h = Ok s_zero h /\ v_dist_sq l None h = Ok s_zero h /\ v_dist l None h = Ok s_zero h.
Proof. repeat split. Qed.

(** ** C13 *)
Lemma scan_spec (P : F -> Prop) (bt : F -> F -> bool) (m0 : F) :
  (forall x, P x -> bt x x = false) ->
  (forall x y z, P x -> P y -> P z -> bt x z = true -> bt x y = true \/ bt y z = true) ->
  (forall x y z, P x -> P y -> P z -> bt x y = true -> bt y z = true -> bt x z = true) ->
  forall xs, Forall P xs -> (forall x, x ∈ xs -> bt x m0 = true) ->
  exists m k, foldl (fun '(i, (m, k)) x => (i + 1, if bt x m then (x, i) else (m, k))) (0, (m0, -1)) xs
    = (Z.of_nat (length xs), (m, k)) /\
    ((xs = [] /\ m = m0 /\ k = -1) \/
     (0 <= k /\ xs !! Z.to_nat k = Some m /\
      (forall j y, xs !! j = Some y -> bt y m = false) /\
      (forall j y, (j < Z.to_nat k)%nat -> xs !! j = Some y -> bt m y = true))).
Proof.
  intros Hirr Hco Htr xs. induction xs as [|x xs IH] using rev_ind; intros HF Hlo.
  - exists m0, (-1). split; [reflexivity|]. left. auto.
  - apply Forall_app in HF as [HF Hx]. apply Forall_cons_1 in Hx as [Hx _].
    destruct IH as (m & k & E & HI); [exact HF|intros y Hy; apply Hlo, elem_of_app; auto|].
    rewrite foldl_app, E. cbn [foldl]. rewrite app_length. cbn [length].
    assert (Hxm0 : bt x m0 = true) by (apply Hlo, elem_of_app; right; left).
    destruct (bt x m) eqn:Ex.
    + exists x, (Z.of_nat (length xs)). split; [f_equal; lia|]. right. split; [lia|].
      rewrite Nat2Z.id. split; [rewrite lookup_app_r, Nat.sub_diag by lia; reflexivity|].
      assert (HJ : forall j y, xs !! j = Some y -> bt x y = true).
      { intros j y Hy. destruct HI as [(-> & _)|(Hk & Hm & Hmax & _)]; [rewrite lookup_nil in Hy; discriminate|].
        rewrite Forall_lookup in HF. destruct (Hco x y m Hx (HF _ _ Hy) (HF _ _ Hm) Ex) as [?|Hc]; [assumption|].
        rewrite (Hmax j y Hy) in Hc. discriminate. }
      split.
      * intros j y Hy. apply lookup_app_Some in Hy as [Hy|[Hj Hy]].
        -- destruct (bt y x) eqn:Eb; [|reflexivity]. rewrite Forall_lookup in HF.
           pose proof (Htr x y x Hx (HF _ _ Hy) Hx (HJ _ _ Hy) Eb) as Hc. rewrite Hirr in Hc by exact Hx. discriminate.
        -- apply list_lookup_singleton_Some in Hy as [_ <-]. apply Hirr, Hx.
      * intros j y Hj Hy. rewrite lookup_app_l in Hy by lia. exact (HJ _ _ Hy).
    + exists m, k. split; [f_equal; lia|]. right.
      destruct HI as [(-> & -> & ->)|(Hk & Hm & Hmax & Hfst)]; [congruence|].
      pose proof (lookup_lt_Some _ _ _ Hm) as Hkl.
      split; [exact Hk|]. split; [rewrite lookup_app_l by lia; exact Hm|]. split.
      * intros j y Hy. apply lookup_app_Some in Hy as [Hy|[Hj Hy]]; [exact (Hmax _ _ Hy)|].
        apply list_lookup_singleton_Some in Hy as [_ <-]. exact Ex.
      * intros j y Hj Hy. rewrite lookup_app_l in Hy by lia. exact (Hfst _ _ Hj Hy).
Qed.

(** [P]: the finite numbers; [s_opp s_inf] and [s_inf] are below and above all of them. *)
Theorem C13_max_element (P : F -> Prop) h l xs : swo_on P -> wf h -> abs h !! l = Some (AVec xs) ->
  Forall P xs -> xs <> [] -> (forall x, P x -> s_lt (s_opp s_inf) x = true) ->
  exists k m, v_max_element_index l h = Ok k h /\ v_max_element l h = Ok m h /\
    0 <= k /\ xs !! Z.to_nat k = Some m /\
    (forall j y, xs !! j = Some y -> s_lt m y = false) /\
    (forall j y, (j < Z.to_nat k)%nat -> xs !! j = Some y -> s_lt y m = true).
Proof.
  intros HP Hw Ha HF Hne Hinf.
  destruct (scan_spec P (fun x m => s_lt m x) (s_opp s_inf)) with (xs := xs) as (m & k & E & HI).
  - exact (swo_irrefl P HP).
  - intros x y z Px Py Pz Hxz. destruct (swo_cotrans P HP z y x Pz Py Px Hxz) as [Hc|Hc]; [right|left]; exact Hc.
  - intros x y z Px Py Pz H1 H2. exact (swo_trans P HP z y x Pz Py Px H2 H1).
  - exact HF.
  - intros x Hx. rewrite Forall_forall in HF. apply Hinf, HF, elem_of_list_In, Hx.
  - destruct HI as [(-> & _)|HI]; [congruence|]. exists k, m.
    assert (Es : v_max_scan l h = Ok (m, k) h).
    { destruct (wp_ok (v_max_scan l) h (fun y h' => h' = h /\ y = scan_fold (fun x m => s_lt m x) (s_opp s_inf) xs)) as [Hok _].
      destruct Hok as (y & h' & E1 & -> & ->); [apply (wp_v_max_scan h l xs); auto|]. unfold scan_fold in E1. rewrite E in E1. exact E1. }
    unfold v_max_element_index, v_max_element, bind. rewrite Es. split; [reflexivity|]. split; [reflexivity|exact HI].
Qed.
Theorem C13_min_element (P : F -> Prop) h l xs : swo_on P -> wf h -> abs h !! l = Some (AVec xs) ->
  Forall P xs -> xs <> [] -> (forall x, P x -> s_lt x s_inf = true) ->
  exists k m, v_min_element_index l h = Ok k h /\ v_min_element l h = Ok m h /\
    0 <= k /\ xs !! Z.to_nat k = Some m /\
    (forall j y, xs !! j = Some y -> s_lt y m = false) /\
    (forall j y, (j < Z.to_nat k)%nat -> xs !! j = Some y -> s_lt m y = true).
Proof.
  intros HP Hw Ha HF Hne Hinf.
  destruct (scan_spec P (fun x m => s_lt x m) s_inf) with (xs := xs) as (m & k & E & HI).
  - exact (swo_irrefl P HP).
  - intros x y z Px Py Pz Hxz. exact (swo_cotrans P HP x y z Px Py Pz Hxz).
  - intros x y z Px Py Pz H1 H2. exact (swo_trans P HP x y z Px Py Pz H1 H2).
  - exact HF.
  - intros x Hx. rewrite Forall_forall in HF. apply Hinf, HF, elem_of_list_In, Hx.
  - destruct HI as [(-> & _)|HI]; [congruence|]. exists k, m.
    assert (Es : v_min_scan l h = Ok (m, k) h).
    { destruct (wp_ok (v_min_scan l) h (fun y h' => h' = h /\ y = scan_fold (fun x m => s_lt x m) s_inf xs)) as [Hok _].
      destruct Hok as (y & h' & E1 & -> & ->); [apply (wp_v_min_scan h l xs); auto|]. unfold scan_fold in E1. rewrite E in E1. exact E1. }
    unfold v_min_element_index, v_min_element, bind. rewrite Es. split; [reflexivity|]. split; [reflexivity|exact HI].
Qed.
Theorem C13_empty h l : wf h -> abs h !! l = Some (AVec []) ->
  v_max_element_index l h = Ok (-1) h /\ v_min_element_index l h = Ok (-1) h /\
  v_max_element l h = Ok (s_opp s_inf) h /\ v_min_element l h = Ok s_inf h.
Proof.
  intros Hw Ha.
  assert (E1 : v_max_scan l h = Ok (s_opp s_inf, -1) h).
  { destruct (wp_ok (v_max_scan l) h (fun y h' => h' = h /\ y = scan_fold (fun x m => s_lt m x) (s_opp s_inf) [])) as [Hok _].
    destruct Hok as (y & h' & E1 & -> & ->); [apply (wp_v_max_scan h l []); auto|exact E1]. }
  assert (E2 : v_min_scan l h = Ok (s_inf, -1) h).
  { destruct (wp_ok (v_min_scan l) h (fun y h' => h' = h /\ y = scan_fold (fun x m => s_lt x m) s_inf [])) as [Hok _].
    destruct Hok as (y & h' & E2 & -> & ->); [apply (wp_v_min_scan h l []); auto|exact E2]. }
  unfold v_max_element_index, v_max_element, v_min_element_index, v_min_element, bind. rewrite E1, E2. auto.
Qed.

(** ** C14 *)
Theorem C14_flatten h l n cs (A : list (option loc)) (vs : list (list F)) : wf h -> abs h !! l = Some (SVec n, cs) ->
  Forall2 (fun r v => exists b, r = Some b /\ b <> l /\ abs h !! b = Some (AVec v)) A vs ->
  Z.of_nat (length (concat vs)) <= int_max ->
  runs (v_flatten l A) h (fun _ h' => abs h' = <[l := AVec (concat vs)]> (abs h)).
Proof. intros. r. eapply wp_v_flatten; eauto. Qed.
Theorem C14_flattenn h (A : list (option loc)) (vs : list (list F)) : wf h ->
  Forall2 (fun r v => exists b, r = Some b /\ abs h !! b = Some (AVec v)) A vs ->
  Z.of_nat (length (concat vs)) <= int_max ->
  runs (v_flattenn A) h (fun (o : loc) h' => abs h !! o = None /\ abs h' = <[o := AVec (concat vs)]> (abs h)).
Proof. intros. r. eapply wp_v_flattenn; eauto. Qed.

(** ** Constructors and cross product (part of C28, C12) *)
Theorem C14_vecn n x h : wf h -> 0 <= n <= int_max ->
  runs (v_full n x) h (fun (o : loc) h' => abs h !! o = None /\ abs h' = <[o := AVec (replicate (Z.to_nat n) x)]> (abs h)).
Proof. intros. r. eapply wp_v_full; eauto. Qed.
(** The [int] overloads convert the value once. *)
Theorem C14_vecn_full h n k : wf h -> 0 <= n <= int_max ->
  runs (v_vecn_full n k) h (fun (o : loc) h' => abs h !! o = None /\ abs h' = <[o := AVec (replicate (Z.to_nat n) (s_of_Z k))]> (abs h)).
Proof. intros. unfold v_vecn_full. r. eapply wp_v_full; eauto. Qed.

(** ** C30 (vectors) *)
Theorem C30_vector_equal_approx h l b xs ys tol : wf h -> abs h !! l = Some (AVec xs) -> abs h !! b = Some (AVec ys) ->
  runs (v_is_equal_approx l (Some b) tol) h (fun t h' => h' = h /\
    (t = true <-> l = b \/ Forall2 (fun x y => s_eq x y = true \/ s_lt (s_abs (s_sub x y)) tol = true) xs ys)).
Proof.
  intros Hw Hl Hb. r. eapply wp_v_is_equal_approx; eauto. split; [exact Hw|]. split; [reflexivity|].
  destruct (decide (l = b)) as [->|Hn]; [tauto|].
  assert (G : forall xs ys : list F, length xs = length ys -> forallb (fun '(x, y) => s_equal_approx tol x y) (zip xs ys) = true <->
    Forall2 (fun x y => s_eq x y = true \/ s_lt (s_abs (s_sub x y)) tol = true) xs ys).
  { clear. induction xs as [|x xs IH]; intros [|y ys] E; try discriminate; cbn; [split; auto|].
    rewrite andb_true_iff, IH by (cbn in E; lia). unfold s_equal_approx. rewrite orb_true_iff. split.
    - intros [? ?]. constructor; auto.
    - intros Hf. inversion Hf; subst. auto. }
  destruct (decide (length xs = length ys)) as [E|E].
  - rewrite (G _ _ E). tauto.
  - split; [discriminate|]. intros [?|Hf]; [contradiction|]. apply Forall2_length in Hf. contradiction.
Qed.

End props.
