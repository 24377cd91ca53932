(** Proofs about the vector model, part 1: rules for the primitives and refinement lemmas. *)
From Verif Require Export BaseProofs Vec.
From Coq Require Import ZifyBool ZifyNat.

(** [runs m h Q]: started in heap [h], [m] returns normally, in a coherent heap, with [Q]. *)
Definition runs {F A} (m : M F A) (h : heap F) (Q : A -> heap F -> Prop) : Prop :=
  exists a h', m h = Ok a h' /\ wf h' /\ Q a h'.

Lemma runs_wp {F A} (m : M F A) h (Q : A -> heap F -> Prop) :
  wp m h (fun a h' => wf h' /\ Q a h') -> runs m h Q.
Proof. intros (a & h' & E & W & HQ)%wp_ok. exists a, h'. auto. Qed.
Lemma wp_runs {F A} (m : M F A) h (Q : A -> heap F -> Prop) :
  runs m h Q -> wp m h (fun a h' => wf h' /\ Q a h').
Proof. intros (a & h' & E & W & HQ). apply wp_ok. eauto. Qed.

Lemma resize_same {A} (n : nat) (d : A) xs : length xs = n -> list.resize n d xs = xs.
Proof. intros <-. apply resize_all. Qed.

Ltac wbind := apply wp_bind.

Section vecproofs.
Context {F : Type} `{Scalar F}.
Implicit Types (h : heap F) (l : loc) (xs ys : list F).

Lemma wp_v_size h l n cs (Q : Z -> heap F -> Prop) : abs h !! l = Some (SVec n, cs) -> Q n h -> wp (v_size l) h Q.
Proof.
  intros Ha HQ. unfold v_size. wbind. eapply wp_get_obj; [exact Ha|]. intros p Hp. cbn. exact HQ.
Qed.

Lemma wp_v_resize h l sh cs n (Q : unit -> heap F -> Prop) : wf h -> abs h !! l = Some (sh, cs) -> 0 <= n <= int_max ->
  (forall h', wf h' -> abs h' = <[l := (SVec n, list.resize (Z.to_nat n) None cs)]> (abs h) ->
     (forall l', l' <> l -> ptr_of h' l' = ptr_of h l') -> Q tt h') ->
  wp (v_resize l n) h Q.
Proof.
  intros Hwf Ha Hn HQ. unfold v_resize. destruct (Z.eqb_spec n 0) as [->|Hne].
  - eapply wp_obj_free; [exact Hwf|exact Ha|reflexivity|]. intros h' W A P. apply HQ; auto.
    change (Z.to_nat 0) with 0%nat. rewrite resize_0. exact A.
  - eapply wp_obj_realloc; [exact Hwf|exact Ha|simpl; lia|]. intros h' W A P. apply HQ; auto.
Qed.

Lemma vec_len h l n cs : wf h -> abs h !! l = Some (SVec n, cs) -> n = Z.of_nat (length cs) /\ 0 <= n <= int_max.
Proof. intros Hwf Ha. destruct (wf_abs_len h l _ _ Hwf Ha) as [H1 H2]. simpl in *. lia. Qed.

Lemma avec_len h l xs : wf h -> abs h !! l = Some (AVec xs) -> Z.of_nat (length xs) <= int_max.
Proof. intros Hwf Ha. destruct (wf_abs_len h l _ _ Hwf Ha) as [H1 H2]. simpl in *. lia. Qed.

Lemma wp_v_size_vec h l xs (Q : Z -> heap F -> Prop) :
  abs h !! l = Some (AVec xs) -> Q (Z.of_nat (length xs)) h -> wp (v_size l) h Q.
Proof. intros Ha. eapply wp_v_size. exact Ha. Qed.

Lemma wp_v_new h (Q : loc -> heap F -> Prop) : wf h ->
  (forall r h', wf h' -> abs h !! r = None -> abs h' = <[r := AVec []]> (abs h) ->
    (forall l, l <> r -> ptr_of h' l = ptr_of h l) -> Q r h') ->
  wp v_new h Q.
Proof.
  intros Hwf HQ. unfold v_new. apply wp_new; [exact Hwf|reflexivity|].
  intros r h' W N O A. apply HQ; auto. intros l Hl. unfold ptr_of. rewrite O, lookup_insert_ne by congruence. reflexivity.
Qed.

(** Reading cell [i] of a fully initialised vector. *)
Lemma fmap_Some_lookup xs i x : xs !! i = Some x -> (Some <$> xs : list (option F)) !! i = Some (Some x).
Proof. intros E. rewrite list_lookup_fmap, E. reflexivity. Qed.

(** ** element_get / element_set *)
Lemma wp_v_get h l xs i (Q : F -> heap F -> Prop) : wf h -> abs h !! l = Some (AVec xs) ->
  Q (if (i <? 0) then s_zero else default s_zero (xs !! Z.to_nat i)) h -> wp (v_get l i) h Q.
Proof.
  intros Hwf Ha HQ. unfold v_get. wbind. eapply wp_v_size_vec; [exact Ha|].
  destruct (Z.ltb_spec i 0) as [Hi|Hi]; simpl; [exact HQ|].
  destruct (Z.leb_spec (Z.of_nat (length xs)) i) as [Hi2|Hi2].
  - rewrite lookup_ge_None_2 in HQ by lia. exact HQ.
  - destruct (lookup_lt_is_Some_2 xs (Z.to_nat i)) as [x Hx]; [lia|]. rewrite Hx in HQ.
    wbind. eapply wp_data_ptr; [exact Ha|]. intros p Hp.
    eapply wp_load; [exact Hwf|exact Hp|exact Ha|lia|apply fmap_Some_lookup, Hx|exact HQ].
Qed.

Lemma wp_v_set h l n cs i x (Q : unit -> heap F -> Prop) : wf h -> abs h !! l = Some (SVec n, cs) ->
  (forall h', wf h' -> h_obj h' = h_obj h ->
      abs h' = (if i <? 0 then abs h else <[l := (SVec n, <[Z.to_nat i := Some x]> cs)]> (abs h)) -> Q tt h') ->
  wp (v_set l i x) h Q.
Proof.
  intros Hwf Ha HQ. destruct (vec_len _ _ _ _ Hwf Ha) as [Hn Hn2].
  unfold v_set. wbind. eapply wp_v_size; [exact Ha|].
  destruct (Z.ltb_spec i 0) as [Hi|Hi]; simpl; [apply HQ; auto|].
  destruct (Z.leb_spec n i) as [Hi2|Hi2].
  - apply HQ; auto. rewrite list_insert_ge by lia. rewrite insert_id; auto.
  - wbind. eapply wp_data_ptr; [exact Ha|]. intros p Hp.
    eapply wp_store; [exact Hwf|exact Hp|exact Ha|lia|]. auto.
Qed.

(** ** Loops reading a fully initialised vector *)

Lemma take_lookup_S {A} (xs : list A) i x : xs !! i = Some x -> take (S i) xs = take i xs ++ [x].
Proof. intros E. apply take_S_r. exact E. Qed.

(** A pure left fold over one vector. *)
Lemma wp_fold1 {A} h l xs p (a0 : A) (f : Z -> A -> F -> A) body (Q : A -> heap F -> Prop) :
  wf h -> abs h !! l = Some (AVec xs) -> ptr_of h l = Some p ->
  (forall i a x h, xs !! Z.to_nat i = Some x -> forall (Q' : A -> heap F -> Prop), wp (load p i) h (fun y h' => y = x /\ h' = h) ->
       Q' (f i a x) h -> wp (body i a) h Q') ->
  Q (snd (foldl (fun '(i, a) x => (i + 1, f i a x)) (0, a0) xs)) h ->
  wp (for_acc 0 (Z.of_nat (length xs)) a0 body) h Q.
Proof.
  intros Hwf Ha Hp Hb HQ.
  apply wp_for_acc with (I := fun i a h' => h' = h /\
     foldl (fun '(i, a) x => (i + 1, f i a x)) (0, a0) (take (Z.to_nat i) xs) = (i, a)).
  - split; reflexivity.
  - intros i a hi Hi [-> E]. destruct (lookup_lt_is_Some_2 xs (Z.to_nat i)) as [x Hx]; [lia|].
    eapply Hb; [exact Hx| |].
    + eapply wp_load; [exact Hwf|exact Hp|exact Ha|lia|apply fmap_Some_lookup, Hx|auto].
    + split; [reflexivity|]. replace (Z.to_nat (i + 1)) with (S (Z.to_nat i)) by lia.
      rewrite (take_lookup_S _ _ _ Hx), foldl_app, E. reflexivity.
  - intros a hi [-> E]. rewrite take_ge in E by lia. rewrite E in HQ. exact HQ.
Qed.

Lemma foldl_index {A} (f : A -> F -> A) xs : forall i a,
  foldl (fun '(i, a) x => (i + 1, f a x)) (i, a) xs = (i + Z.of_nat (length xs), foldl f a xs).
Proof.
  induction xs as [|x xs IH]; intros i a; cbn [foldl length].
  - f_equal. lia.
  - rewrite IH. f_equal. lia.
Qed.

Lemma wp_v_get_data h l xs (Q : list F -> heap F -> Prop) : wf h -> abs h !! l = Some (AVec xs) ->
  Q xs h -> wp (v_get_data l) h Q.
Proof.
  intros Hwf Ha HQ. unfold v_get_data. wbind. eapply wp_v_size_vec; [exact Ha|].
  wbind. eapply wp_data_ptr; [exact Ha|]. intros p Hp.
  eapply wp_fold1 with (f := fun _ acc x => acc ++ [x]); [exact Hwf|exact Ha|exact Hp| |].
  - intros i a x h' _ Q' Hl HQ'. wbind. eapply wp_mono; [exact Hl|]. intros y h1 [-> ->]. exact HQ'.
  - rewrite (foldl_index (fun acc x => acc ++ [x])). cbn [snd].
    assert (Hf : forall zs acc : list F, foldl (fun acc x => acc ++ [x]) acc zs = acc ++ zs).
    { induction zs as [|z zs IH]; intros acc; simpl; [rewrite app_nil_r; reflexivity|].
      rewrite IH, <- app_assoc. reflexivity. }
    rewrite Hf. exact HQ.
Qed.

(** ** Bulk writes *)
Lemma wp_v_copy_list h l xs cs (Q : unit -> heap F -> Prop) : wf h ->
  abs h !! l = Some (SVec (Z.of_nat (length xs)), cs) ->
  (forall h', wf h' -> h_obj h' = h_obj h -> abs h' = <[l := AVec xs]> (abs h) -> Q tt h') ->
  wp (v_copy_list l xs) h Q.
Proof.
  intros Hwf Ha HQ. destruct (vec_len _ _ _ _ Hwf Ha) as [Hn Hn2].
  unfold v_copy_list. wbind. eapply wp_data_ptr; [exact Ha|]. intros p Hp.
  eapply wp_map_loop with (new := xs); [exact Hwf|exact Hp|exact Ha|lia|lia| |].
  - intros i hi v Q' Hi Hm Hv Hs. rewrite Hv. exact Hs.
  - intros h' W O A. apply HQ; auto.
Qed.

Lemma wp_v_resize_cond h l n0 cs n (Q : unit -> heap F -> Prop) : wf h -> abs h !! l = Some (SVec n0, cs) -> 0 <= n <= int_max ->
  (forall h', wf h' -> abs h' = <[l := (SVec n, list.resize (Z.to_nat n) None cs)]> (abs h) ->
     (forall l', l' <> l -> ptr_of h' l' = ptr_of h l') -> Q tt h') ->
  wp (if n0 =? n then ret tt else v_resize l n) h Q.
Proof.
  intros Hwf Ha Hn HQ. destruct (Z.eqb_spec n0 n) as [->|Hne].
  - destruct (vec_len _ _ _ _ Hwf Ha) as [Hl _]. apply HQ; auto.
    rewrite resize_same by lia. rewrite insert_id; auto.
  - eapply wp_v_resize; eauto.
Qed.

Lemma wp_v_set_data h l n cs xs (Q : unit -> heap F -> Prop) : wf h -> abs h !! l = Some (SVec n, cs) ->
  Z.of_nat (length xs) <= int_max ->
  (forall h', wf h' -> abs h' = <[l := AVec xs]> (abs h) -> Q tt h') ->
  wp (v_set_data l xs) h Q.
Proof.
  intros Hwf Ha Hx HQ. unfold v_set_data. wbind. eapply wp_v_size; [exact Ha|].
  wbind. eapply wp_v_resize_cond; [exact Hwf|exact Ha|lia|].
  intros h1 W1 A1 P1. eapply wp_v_copy_list; [exact W1|rewrite A1; apply lookup_insert|].
  intros h2 W2 O2 A2. apply HQ; auto. rewrite A2, A1, insert_insert. reflexivity.
Qed.

Lemma wp_v_set_from_vector h l n cs xs (Q : unit -> heap F -> Prop) : wf h -> abs h !! l = Some (SVec n, cs) ->
  Z.of_nat (length xs) <= int_max ->
  (forall h', wf h' -> abs h' = <[l := AVec xs]> (abs h) -> Q tt h') ->
  wp (v_set_from_vector l xs) h Q.
Proof.
  intros Hwf Ha Hx HQ. unfold v_set_from_vector. wbind. eapply wp_v_size; [exact Ha|].
  wbind. eapply wp_v_resize_cond; [exact Hwf|exact Ha|lia|].
  intros h1 W1 A1 P1. wbind. eapply wp_v_resize; [exact W1|rewrite A1; apply lookup_insert|lia|].
  intros h2 W2 A2 P2. eapply wp_v_copy_list; [exact W2|rewrite A2; apply lookup_insert|].
  intros h3 W3 O3 A3. apply HQ; auto. rewrite A3, A2, A1, !insert_insert. reflexivity.
Qed.

Lemma wp_v_fill h l n cs x (Q : unit -> heap F -> Prop) : wf h -> abs h !! l = Some (SVec n, cs) ->
  (forall h', wf h' -> h_obj h' = h_obj h -> abs h' = <[l := AVec (replicate (Z.to_nat n) x)]> (abs h) -> Q tt h') ->
  wp (v_fill l x) h Q.
Proof.
  intros Hwf Ha HQ. destruct (vec_len _ _ _ _ Hwf Ha) as [Hn Hn2].
  unfold v_fill. wbind. eapply wp_v_size; [exact Ha|].
  wbind. eapply wp_data_ptr; [exact Ha|]. intros p Hp.
  eapply wp_map_loop with (new := replicate (Z.to_nat n) x); [exact Hwf|exact Hp|exact Ha| |lia| |].
  - rewrite replicate_length. lia.
  - intros i hi v Q' Hi Hm Hv Hs. apply lookup_replicate in Hv as [-> _]. exact Hs.
  - intros h' W O A. apply HQ; auto. rewrite A. unfold AVec. rewrite replicate_length, Z2Nat.id by lia. reflexivity.
Qed.

(** ** Element-wise templates *)

Lemma wp_loop1 h la pa xs lo po cs sh f (Q : unit -> heap F -> Prop) : wf h ->
  abs h !! la = Some (sh, Some <$> xs) -> ptr_of h la = Some pa ->
  abs h !! lo = Some (sh, cs) -> ptr_of h lo = Some po ->
  (forall h', wf h' -> h_obj h' = h_obj h -> abs h' = <[lo := (sh, Some <$> (f <$> xs))]> (abs h) -> Q tt h') ->
  wp (loop1 f (Z.of_nat (length xs)) pa po) h Q.
Proof.
  intros Hwf Ha Hpa Ho Hpo HQ.
  assert (Hl : length cs = length xs).
  { destruct (wf_abs_len h _ _ _ Hwf Ha) as [H1 _]. destruct (wf_abs_len h _ _ _ Hwf Ho) as [H2 _].
    rewrite fmap_length in H1. lia. }
  unfold loop1. eapply wp_map_loop with (new := f <$> xs); [exact Hwf|exact Hpo|exact Ho| |lia| |exact HQ].
  - rewrite fmap_length. lia.
  - intros i hi v Q' Hi Hm Hv Hs. rewrite list_lookup_fmap in Hv.
    destruct (xs !! Z.to_nat i) as [x|] eqn:Hx; [|discriminate]. injection Hv as <-.
    wbind. eapply wp_load_mid with (j := i); [exact Hm| |exact Ho|exact Hpa|exact Ha|lia|apply fmap_Some_lookup, Hx|exact Hs].
    rewrite fmap_length. lia.
Qed.

Lemma wp_loop2 h la pa xs lb pb ys lo po cs sh f (Q : unit -> heap F -> Prop) : wf h ->
  abs h !! la = Some (sh, Some <$> xs) -> ptr_of h la = Some pa ->
  abs h !! lb = Some (sh, Some <$> ys) -> ptr_of h lb = Some pb ->
  abs h !! lo = Some (sh, cs) -> ptr_of h lo = Some po ->
  (forall h', wf h' -> h_obj h' = h_obj h -> abs h' = <[lo := (sh, Some <$> (zip_with f xs ys))]> (abs h) -> Q tt h') ->
  wp (loop2 f (Z.of_nat (length xs)) pa pb po) h Q.
Proof.
  intros Hwf Ha Hpa Hb Hpb Ho Hpo HQ.
  assert (Hl : length cs = length xs /\ length ys = length xs).
  { destruct (wf_abs_len h _ _ _ Hwf Ha) as [H1 _]. destruct (wf_abs_len h _ _ _ Hwf Ho) as [H2 _].
    destruct (wf_abs_len h _ _ _ Hwf Hb) as [H3 _]. rewrite fmap_length in H1, H3. lia. }
  destruct Hl as [Hl Hl2].
  unfold loop2. eapply wp_map_loop with (new := zip_with f xs ys); [exact Hwf|exact Hpo|exact Ho| |lia| |exact HQ].
  - rewrite zip_with_length. lia.
  - intros i hi v Q' Hi Hm Hv Hs. apply lookup_zip_with_Some in Hv as (x & y & -> & Hx & Hy).
    assert (Hlen : length (zip_with f xs ys) = length cs) by (rewrite zip_with_length; lia).
    wbind. eapply wp_load_mid with (j := i); [exact Hm|exact Hlen|exact Ho|exact Hpa|exact Ha|lia|apply fmap_Some_lookup, Hx|].
    wbind. eapply wp_load_mid with (j := i); [exact Hm|exact Hlen|exact Ho|exact Hpb|exact Hb|lia|apply fmap_Some_lookup, Hy|exact Hs].
Qed.

Lemma avec_map f xs : AVec (f <$> xs) = (SVec (Z.of_nat (length xs)), Some <$> (f <$> xs)) :> aobj F.
Proof. unfold AVec. rewrite fmap_length. reflexivity. Qed.
Lemma avec_zip (f : F -> F -> F) xs ys : length ys = length xs ->
  AVec (zip_with f xs ys) = (SVec (Z.of_nat (length xs)), Some <$> zip_with f xs ys) :> aobj F.
Proof. intros E. unfold AVec. rewrite zip_with_length. do 3 f_equal. lia. Qed.

Lemma wp_v_map f h l xs (Q : unit -> heap F -> Prop) : wf h -> abs h !! l = Some (AVec xs) ->
  (forall h', wf h' -> abs h' = <[l := AVec (f <$> xs)]> (abs h) -> Q tt h') -> wp (v_map f l) h Q.
Proof.
  intros Hwf Ha HQ. unfold v_map. wbind. eapply wp_v_size_vec; [exact Ha|].
  wbind. eapply wp_data_ptr; [exact Ha|]. intros p Hp.
  eapply wp_loop1; [exact Hwf|exact Ha|exact Hp|exact Ha|exact Hp|].
  intros h' W O A. apply HQ; auto. rewrite avec_map. exact A.
Qed.

Lemma wp_v_mapn f h l xs (Q : loc -> heap F -> Prop) : wf h -> abs h !! l = Some (AVec xs) ->
  (forall r h', wf h' -> abs h !! r = None -> abs h' = <[r := AVec (f <$> xs)]> (abs h) -> Q r h') -> wp (v_mapn f l) h Q.
Proof.
  intros Hwf Ha HQ. pose proof (avec_len _ _ _ Hwf Ha) as Hlen.
  unfold v_mapn. wbind. eapply wp_v_size_vec; [exact Ha|].
  wbind. apply wp_v_new; [exact Hwf|]. intros r h1 W1 N1 A1 _.
  assert (l <> r) as Hne by congruence.
  wbind. eapply wp_v_resize; [exact W1|rewrite A1; apply lookup_insert|lia|]. intros h2 W2 A2 _.
  assert (Ha2 : abs h2 !! l = Some (AVec xs)) by (rewrite A2, A1, !lookup_insert_ne by congruence; exact Ha).
  assert (Hr2 : abs h2 !! r = Some (SVec (Z.of_nat (length xs)), list.resize (Z.to_nat (Z.of_nat (length xs))) None []))
    by (rewrite A2; apply lookup_insert).
  wbind. eapply wp_data_ptr; [exact Ha2|]. intros p Hp.
  wbind. eapply wp_data_ptr; [exact Hr2|]. intros po Hpo.
  wbind. eapply wp_loop1; [exact W2|exact Ha2|exact Hp|exact Hr2|exact Hpo|].
  intros h3 W3 O3 A3. apply HQ; auto. rewrite A3, A2, A1, !insert_insert, avec_map. reflexivity.
Qed.

Lemma wp_v_mapb f h l n cs a xs (Q : unit -> heap F -> Prop) : wf h -> abs h !! l = Some (SVec n, cs) -> abs h !! a = Some (AVec xs) ->
  (forall h', wf h' -> abs h' = <[l := AVec (f <$> xs)]> (abs h) -> Q tt h') -> wp (v_mapb f l (Some a)) h Q.
Proof.
  intros Hwf Hl Ha HQ. pose proof (avec_len _ _ _ Hwf Ha) as Hlen.
  unfold v_mapb. wbind. eapply wp_v_size_vec; [exact Ha|].
  wbind. eapply wp_v_resize; [exact Hwf|exact Hl|lia|]. intros h2 W2 A2 _.
  assert (Ha2 : abs h2 !! a = Some (AVec xs)).
  { rewrite A2. destruct (decide (a = l)) as [->|Hne].
    - rewrite lookup_insert. assert (E : (SVec n, cs) = AVec xs) by congruence. injection E as -> ->.
      rewrite resize_same; [reflexivity|]. rewrite fmap_length. lia.
    - rewrite lookup_insert_ne by congruence. exact Ha. }
  assert (Hr2 := lookup_insert (abs h) l (SVec (Z.of_nat (length xs)), list.resize (Z.to_nat (Z.of_nat (length xs))) None cs)).
  rewrite <- A2 in Hr2.
  wbind. eapply wp_data_ptr; [exact Ha2|]. intros p Hp.
  wbind. eapply wp_data_ptr; [exact Hr2|]. intros po Hpo.
  eapply wp_loop1; [exact W2|exact Ha2|exact Hp|exact Hr2|exact Hpo|].
  intros h3 W3 O3 A3. apply HQ; auto. rewrite A3, A2, !insert_insert, avec_map. reflexivity.
Qed.

Lemma wp_v_mapb_cond f h l n cs a xs (Q : unit -> heap F -> Prop) : wf h -> abs h !! l = Some (SVec n, cs) -> abs h !! a = Some (AVec xs) ->
  (forall h', wf h' -> abs h' = <[l := AVec (f <$> xs)]> (abs h) -> Q tt h') -> wp (v_mapb_cond f l (Some a)) h Q.
Proof.
  intros Hwf Hl Ha HQ. pose proof (avec_len _ _ _ Hwf Ha) as Hlen.
  unfold v_mapb_cond. wbind. eapply wp_v_size_vec; [exact Ha|].
  wbind. eapply wp_v_size; [exact Hl|].
  wbind. eapply wp_v_resize_cond; [exact Hwf|exact Hl|lia|]. intros h2 W2 A2 _.
  assert (Ha2 : abs h2 !! a = Some (AVec xs)).
  { rewrite A2. destruct (decide (a = l)) as [->|Hne].
    - rewrite lookup_insert. assert (E : (SVec n, cs) = AVec xs) by congruence. injection E as -> ->.
      rewrite resize_same; [reflexivity|]. rewrite fmap_length. lia.
    - rewrite lookup_insert_ne by congruence. exact Ha. }
  assert (Hr2 := lookup_insert (abs h) l (SVec (Z.of_nat (length xs)), list.resize (Z.to_nat (Z.of_nat (length xs))) None cs)).
  rewrite <- A2 in Hr2.
  wbind. eapply wp_data_ptr; [exact Ha2|]. intros p Hp.
  wbind. eapply wp_data_ptr; [exact Hr2|]. intros po Hpo.
  eapply wp_loop1; [exact W2|exact Ha2|exact Hp|exact Hr2|exact Hpo|].
  intros h3 W3 O3 A3. apply HQ; auto. rewrite A3, A2, !insert_insert, avec_map. reflexivity.
Qed.

(** Binary forms. *)
Lemma wp_v_op2 f h l b xs ys (Q : unit -> heap F -> Prop) : wf h ->
  abs h !! l = Some (AVec xs) -> abs h !! b = Some (AVec ys) ->
  (forall h', wf h' -> abs h' = (if decide (length xs = length ys) then <[l := AVec (zip_with f xs ys)]> (abs h) else abs h) -> Q tt h') ->
  wp (v_op2 f l (Some b)) h Q.
Proof.
  intros Hwf Ha Hb HQ. unfold v_op2. wbind. eapply wp_v_size_vec; [exact Ha|].
  wbind. eapply wp_v_size_vec; [exact Hb|].
  destruct (decide (length xs = length ys)) as [E|E].
  - replace (Z.of_nat (length xs) =? Z.of_nat (length ys)) with true by lia. simpl.
    assert (Hb' : abs h !! b = Some (SVec (Z.of_nat (length xs)), Some <$> ys)) by (rewrite E; exact Hb).
    wbind. eapply wp_data_ptr; [exact Ha|]. intros p Hp.
    wbind. eapply wp_data_ptr; [exact Hb|]. intros q Hq.
    eapply wp_loop2; [exact Hwf|exact Ha|exact Hp|exact Hb'|exact Hq|exact Ha|exact Hp|].
    intros h' W O A. apply HQ; auto. rewrite A, avec_zip by lia. reflexivity.
  - replace (Z.of_nat (length xs) =? Z.of_nat (length ys)) with false by lia. simpl. apply HQ; auto.
Qed.

Lemma wp_v_op2n f h l b xs ys (Q : option loc -> heap F -> Prop) : wf h ->
  abs h !! l = Some (AVec xs) -> abs h !! b = Some (AVec ys) ->
  (length xs = length ys -> forall r h', wf h' -> abs h !! r = None -> abs h' = <[r := AVec (zip_with f xs ys)]> (abs h) -> Q (Some r) h') ->
  (length xs <> length ys -> Q None h) ->
  wp (v_op2n f l (Some b)) h Q.
Proof.
  intros Hwf Ha Hb HQ HN. pose proof (avec_len _ _ _ Hwf Ha) as Hlen.
  unfold v_op2n. wbind. eapply wp_v_size_vec; [exact Ha|].
  wbind. eapply wp_v_size_vec; [exact Hb|].
  destruct (decide (length xs = length ys)) as [E|E].
  - replace (Z.of_nat (length xs) =? Z.of_nat (length ys)) with true by lia. simpl.
    wbind. apply wp_v_new; [exact Hwf|]. intros r h1 W1 N1 A1 _.
    wbind. eapply wp_v_resize; [exact W1|rewrite A1; apply lookup_insert|lia|]. intros h2 W2 A2 _.
    assert (Ha2 : abs h2 !! l = Some (AVec xs)) by (rewrite A2, A1, !lookup_insert_ne by congruence; exact Ha).
    assert (Hb2 : abs h2 !! b = Some (SVec (Z.of_nat (length xs)), Some <$> ys))
      by (rewrite A2, A1, !lookup_insert_ne by congruence; rewrite E; exact Hb).
    assert (Hr2 : abs h2 !! r = Some (SVec (Z.of_nat (length xs)), list.resize (Z.to_nat (Z.of_nat (length xs))) None []))
      by (rewrite A2; apply lookup_insert).
    wbind. eapply wp_data_ptr; [exact Ha2|]. intros p Hp.
    wbind. eapply wp_data_ptr; [exact Hb2|]. intros q Hq.
    wbind. eapply wp_data_ptr; [exact Hr2|]. intros po Hpo.
    wbind. eapply wp_loop2; [exact W2|exact Ha2|exact Hp|exact Hb2|exact Hq|exact Hr2|exact Hpo|].
    intros h3 W3 O3 A3. apply HQ; auto. rewrite A3, A2, A1, !insert_insert, avec_zip by lia. reflexivity.
  - replace (Z.of_nat (length xs) =? Z.of_nat (length ys)) with false by lia. simpl. apply HN; auto.
Qed.

Lemma wp_v_op2n_early f h l b xs ys (Q : option loc -> heap F -> Prop) : wf h ->
  abs h !! l = Some (AVec xs) -> abs h !! b = Some (AVec ys) ->
  (length xs = length ys -> forall r h', wf h' -> abs h !! r = None -> abs h' = <[r := AVec (zip_with f xs ys)]> (abs h) -> Q (Some r) h') ->
  (length xs <> length ys -> forall h', wf h' -> abs h' = abs h -> Q None h') ->
  wp (v_op2n_early f l (Some b)) h Q.
Proof.
  intros Hwf Ha Hb HQ HN. pose proof (avec_len _ _ _ Hwf Ha) as Hlen.
  unfold v_op2n_early.
  wbind. apply wp_v_new; [exact Hwf|]. intros r h1 W1 N1 A1 _.
  assert (Ha1 : abs h1 !! l = Some (AVec xs)) by (rewrite A1, !lookup_insert_ne by congruence; exact Ha).
  assert (Hb1 : abs h1 !! b = Some (AVec ys)) by (rewrite A1, !lookup_insert_ne by congruence; exact Hb).
  wbind. eapply wp_v_size_vec; [exact Ha1|].
  wbind. eapply wp_v_size_vec; [exact Hb1|].
  destruct (decide (length xs = length ys)) as [E|E].
  - replace (Z.of_nat (length xs) =? Z.of_nat (length ys)) with true by lia. simpl.
    wbind. eapply wp_v_resize; [exact W1|rewrite A1; apply lookup_insert|lia|]. intros h2 W2 A2 _.
    assert (Ha2 : abs h2 !! l = Some (AVec xs)) by (rewrite A2, A1, !lookup_insert_ne by congruence; exact Ha).
    assert (Hb2 : abs h2 !! b = Some (SVec (Z.of_nat (length xs)), Some <$> ys))
      by (rewrite A2, A1, !lookup_insert_ne by congruence; rewrite E; exact Hb).
    assert (Hr2 : abs h2 !! r = Some (SVec (Z.of_nat (length xs)), list.resize (Z.to_nat (Z.of_nat (length xs))) None []))
      by (rewrite A2; apply lookup_insert).
    wbind. eapply wp_data_ptr; [exact Ha2|]. intros p Hp.
    wbind. eapply wp_data_ptr; [exact Hb2|]. intros q Hq.
    wbind. eapply wp_data_ptr; [exact Hr2|]. intros po Hpo.
    wbind. eapply wp_loop2; [exact W2|exact Ha2|exact Hp|exact Hb2|exact Hq|exact Hr2|exact Hpo|].
    intros h3 W3 O3 A3. apply HQ; auto. rewrite A3, A2, A1, !insert_insert, avec_zip by lia. reflexivity.
  - replace (Z.of_nat (length xs) =? Z.of_nat (length ys)) with false by lia. simpl.
    wbind. eapply wp_del; [exact W1|rewrite A1; apply lookup_insert|]. intros h2 W2 A2 _.
    apply HN; auto. rewrite A2, A1, delete_insert; auto.
Qed.

Lemma resize_operand h l n cs a xs s : wf h -> abs h !! l = Some (SVec n, cs) -> abs h !! a = Some (SVec s, Some <$> xs) ->
  s = Z.of_nat (length xs) ->
  (<[l := (SVec s, list.resize (Z.to_nat s) None cs)]> (abs h)) !! a = Some (SVec s, Some <$> xs).
Proof.
  intros Hwf Hl Ha Hs. destruct (decide (a = l)) as [->|Hne].
  - rewrite lookup_insert. assert (E : (SVec n, cs) = (SVec s, Some <$> xs)) by congruence. injection E as -> ->.
    rewrite resize_same; [reflexivity|]. rewrite fmap_length. lia.
  - rewrite lookup_insert_ne by congruence. exact Ha.
Qed.

Lemma wp_v_op2b_gen f h l n cs a b xs ys (Q : unit -> heap F -> Prop) : wf h ->
  abs h !! l = Some (SVec n, cs) ->
  abs h !! a = Some (AVec xs) -> abs h !! b = Some (AVec ys) -> length xs = length ys ->
  (forall h', wf h' -> abs h' = <[l := AVec (zip_with f xs ys)]> (abs h) -> Q tt h') ->
  wp (v_resize l (Z.of_nat (length xs)) ;;;
      let! pa := data_ptr a in let! pb := data_ptr b in let! po := data_ptr l in
      loop2 f (Z.of_nat (length xs)) pa pb po) h Q /\
  wp ((if n =? Z.of_nat (length xs) then ret tt else v_resize l (Z.of_nat (length xs))) ;;;
      let! pa := data_ptr a in let! pb := data_ptr b in let! po := data_ptr l in
      loop2 f (Z.of_nat (length xs)) pa pb po) h Q.
Proof.
  intros Hwf Hl Ha Hb E HQ. pose proof (avec_len _ _ _ Hwf Ha) as Hlen.
  assert (Hb' : abs h !! b = Some (SVec (Z.of_nat (length xs)), Some <$> ys)) by (rewrite E; exact Hb).
  assert (Hgo : forall h', wf h' -> abs h' = <[l := (SVec (Z.of_nat (length xs)), list.resize (Z.to_nat (Z.of_nat (length xs))) None cs)]> (abs h) ->
     wp (let! pa := data_ptr a in let! pb := data_ptr b in let! po := data_ptr l in
      loop2 f (Z.of_nat (length xs)) pa pb po) h' Q).
  { intros h2 W2 A2.
    pose proof (resize_operand h l n cs a xs _ Hwf Hl Ha eq_refl) as Ha2. rewrite <- A2 in Ha2.
    pose proof (resize_operand h l n cs b ys _ Hwf Hl Hb' ltac:(lia)) as Hb2. rewrite <- A2 in Hb2.
    assert (Hr2 := lookup_insert (abs h) l (SVec (Z.of_nat (length xs)), list.resize (Z.to_nat (Z.of_nat (length xs))) None cs)).
    rewrite <- A2 in Hr2.
    wbind. eapply wp_data_ptr; [exact Ha2|]. intros p Hp.
    wbind. eapply wp_data_ptr; [exact Hb2|]. intros q Hq.
    wbind. eapply wp_data_ptr; [exact Hr2|]. intros po Hpo.
    eapply wp_loop2; [exact W2|exact Ha2|exact Hp|exact Hb2|exact Hq|exact Hr2|exact Hpo|].
    intros h3 W3 O3 A3. apply HQ; auto. rewrite A3, A2, !insert_insert, avec_zip by lia. reflexivity. }
  split; wbind.
  - eapply wp_v_resize; [exact Hwf|exact Hl|lia|]. intros h2 W2 A2 _. apply Hgo; auto.
  - eapply wp_v_resize_cond; [exact Hwf|exact Hl|lia|]. intros h2 W2 A2 _. apply Hgo; auto.
Qed.

Lemma wp_v_op2b f h l n cs a b xs ys (Q : unit -> heap F -> Prop) : wf h ->
  abs h !! l = Some (SVec n, cs) ->
  abs h !! a = Some (AVec xs) -> abs h !! b = Some (AVec ys) ->
  (forall h', wf h' -> abs h' = (if decide (length xs = length ys) then <[l := AVec (zip_with f xs ys)]> (abs h) else abs h) -> Q tt h') ->
  wp (v_op2b f l (Some a) (Some b)) h Q /\ wp (v_op2b_resize f l (Some a) (Some b)) h Q.
Proof.
  intros Hwf Hl Ha Hb HQ. unfold v_op2b, v_op2b_resize.
  destruct (decide (length xs = length ys)) as [E|E].
  - destruct (wp_v_op2b_gen f h l n cs a b xs ys Q Hwf Hl Ha Hb E HQ) as [G1 G2].
    split.
    + wbind. eapply wp_v_size_vec; [exact Ha|]. wbind. eapply wp_v_size_vec; [exact Hb|].
      replace (Z.of_nat (length xs) =? Z.of_nat (length ys)) with true by lia. cbn [negb].
      wbind. eapply wp_v_size; [exact Hl|]. exact G2.
    + wbind. eapply wp_v_size_vec; [exact Ha|]. wbind. eapply wp_v_size_vec; [exact Hb|].
      replace (Z.of_nat (length xs) =? Z.of_nat (length ys)) with true by lia. cbn [negb]. exact G1.
  - split.
    + wbind. eapply wp_v_size_vec; [exact Ha|]. wbind. eapply wp_v_size_vec; [exact Hb|].
      replace (Z.of_nat (length xs) =? Z.of_nat (length ys)) with false by lia. cbn [negb]. apply HQ; auto.
    + wbind. eapply wp_v_size_vec; [exact Ha|]. wbind. eapply wp_v_size_vec; [exact Hb|].
      replace (Z.of_nat (length xs) =? Z.of_nat (length ys)) with false by lia. cbn [negb]. apply HQ; auto.
Qed.

End vecproofs.
