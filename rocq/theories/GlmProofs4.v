(** * The adaptive optimisers of linear regression, for any arithmetic. *)
From Verif Require Import Base BaseProofs Vec VecSpec VecProofs VecProofs2 Mat MatSpec MatProofs MatProofs2 MatProofs3 MatProofs4 MatProofs5 DetProofs Frame Stat StatProofs Act ActProofs ActProofs2 Cost CostProofs Sym Svm LinAlg LinAlgProofs Util UtilProofs Glm GlmProofs GlmProofs2.

(** Equality of heaps built by insertions and deletions at known locations. *)
Ltac map_norm l := repeat first
  [ rewrite lookup_insert | rewrite lookup_delete | rewrite lookup_insert_ne by congruence | rewrite lookup_delete_ne by congruence ].
Ltac map_cases := apply map_eq; let l := fresh "l" in intros l;
  repeat (map_norm l;
    match goal with
    | |- context [<[?a := _]> _ !! l] => destruct (decide (a = l)) as [<-|?]
    | |- context [delete ?a _ !! l] => destruct (decide (a = l)) as [<-|?]
    end); map_norm l; first [reflexivity | congruence].

Ltac nw d h' W N A := intros d h' W N A; match type of A with abs _ = <[_ := _]> (abs ?h0) => match goal with A0 : abs h0 = _ |- _ => rewrite A0 in N, A; split_none N; clear A0 end end.

Section glm.
Context {F : Type} `{Scalar F} `{Libm F}.
Implicit Types (h : heap F) (xs ys ws gs ms vs : list F) (X : nat -> nat -> F).

Lemma wp_vmap f h l xs (Q : option loc -> heap F -> Prop) : wf h -> abs h !! l = Some (AVec xs) ->
  (forall r h', wf h' -> abs h !! r = None -> abs h' = <[r := AVec (f <$> xs)]> (abs h) -> Q (Some r) h') -> wp (vmap f (Some l)) h Q.
Proof. intros W A HQ. unfold vmap. wbind. apply wp_deref_Some. wbind. eapply wp_v_mapn; [exact W|exact A|]. intros r h' W' N' A'. apply wp_ret. apply HQ; assumption. Qed.
Lemma wp_vop f h a b xs ys (Q : option loc -> heap F -> Prop) : wf h -> abs h !! a = Some (AVec xs) -> abs h !! b = Some (AVec ys) -> length xs = length ys ->
  (forall r h', wf h' -> abs h !! r = None -> abs h' = <[r := AVec (zip_with f xs ys)]> (abs h) -> Q (Some r) h') -> wp (vop f (Some a) (Some b)) h Q.
Proof. intros W A B E HQ. unfold vop. wbind. apply wp_deref_Some. eapply wp_v_op2n; [exact W|exact A|exact B| |congruence]. intros _. exact HQ. Qed.
Lemma wp_vope f h a b xs ys (Q : option loc -> heap F -> Prop) : wf h -> abs h !! a = Some (AVec xs) -> abs h !! b = Some (AVec ys) -> length xs = length ys ->
  (forall r h', wf h' -> abs h !! r = None -> abs h' = <[r := AVec (zip_with f xs ys)]> (abs h) -> Q (Some r) h') -> wp (vope f (Some a) (Some b)) h Q.
Proof. intros W A B E HQ. unfold vope. wbind. apply wp_deref_Some. eapply wp_v_op2n_early; [exact W|exact A|exact B| |congruence]. intros _. exact HQ. Qed.
Lemma wp_free h l xs (Q : unit -> heap F -> Prop) : wf h -> abs h !! l = Some (AVec xs) -> (forall h', wf h' -> abs h' = delete l (abs h) -> Q tt h') -> wp (free (Some l)) h Q.
Proof. intros W A HQ. unfold free. cbn [drop_ref]. eapply wp_del; [exact W|exact A|]. intros h' W' A' _. apply HQ; assumption. Qed.

Ltac fr h' W A := eapply wp_free; [eassumption|look|]; intros h' W A; match type of A with abs _ = delete ?d (abs ?h0) => match goal with A0 : abs h0 = _ |- _ => rewrite A0 in A; clear A0 end end;
  rewrite ?delete_insert_ne in A by congruence; rewrite delete_insert in A by (rewrite ?lookup_insert_ne by congruence; first [assumption|congruence]).
(** a v + b g. *)
Definition axpy (a : F) vs (b : F) gs : list F := zip_with s_add ((fun x => s_mul x a) <$> vs) ((fun x => s_mul x b) <$> gs).
Definition descend (lr : F) ws ds : list F := zip_with s_sub ws ((fun x => s_mul x lr) <$> ds).
Lemma axpy_length a vs b gs : length vs = length gs -> length (axpy a vs b gs) = length vs.
Proof. intros E. unfold axpy. rewrite zip_with_length, !fmap_length. lia. Qed.
Lemma wp_v_axpy a b h v g vs gs (Q : option loc -> heap F -> Prop) : wf h -> abs h !! v = Some (AVec vs) -> abs h !! g = Some (AVec gs) -> length vs = length gs ->
  (forall r h', wf h' -> abs h !! r = None -> abs h' = <[r := AVec (axpy a vs b gs)]> (abs h) -> Q (Some r) h') -> wp (v_axpy a (Some v) b (Some g)) h Q.
Proof.
  intros W A B E HQ. unfold v_axpy. wbind. eapply wp_vmap; [exact W|exact A|]. intros p h1 W1 N1 A1. wbind. eapply wp_vmap; [exact W1|look|]. new_as q h2 W2 N2 A2.
  wbind. eapply wp_vop; [exact W2|look|look|rewrite !fmap_length; exact E|]. new_as z h3 W3 N3 A3. wbind. eapply wp_free; [exact W3|look|]. intros h4 W4 A4. rewrite A3 in A4.
  wbind. eapply wp_free; [exact W4|rewrite A4, lookup_delete_ne by congruence; look|]. intros h5 W5 A5. rewrite A4 in A5. apply wp_ret. apply HQ; [exact W5|exact N3|]. rewrite A5. fold (axpy a vs b gs). map_cases.
Qed.
Lemma wp_w_descend lr h w d ws ds (Q : unit -> heap F -> Prop) : wf h -> abs h !! w = Some (AVec ws) -> abs h !! d = Some (AVec ds) -> w <> d -> length ws = length ds ->
  (forall h', wf h' -> abs h' = <[w := AVec (descend lr ws ds)]> (delete d (abs h)) -> Q tt h') -> wp (w_descend lr (Some w) (Some d)) h Q.
Proof.
  intros W A B D E HQ. unfold w_descend. wbind. eapply wp_vmap; [exact W|exact B|]. intros q h1 W1 N1 A1. wbind. apply wp_deref_Some. wbind. eapply wp_v_op2; [exact W1|look|look|]. intros h2 W2 A2.
  rewrite fmap_length, decide_True in A2 by exact E. rewrite A1 in A2. assert (q <> w) by congruence. assert (q <> d) by congruence.
  wbind. eapply wp_free; [exact W2|look|]. intros h3 W3 A3. rewrite A2 in A3. eapply wp_free; [exact W3|rewrite A3, lookup_delete_ne by congruence; look|]. intros h4 W4 A4. rewrite A3 in A4. apply HQ; [exact W4|].
  rewrite A4. fold (descend lr ws ds). map_cases.
Qed.

(** [u(f2(f1(v)))]: two temporaries. *)
Lemma wp_tail f1 f2 f h g v gs vs (kk : option loc -> M F (option loc * option loc)) (Q : option loc * option loc -> heap F -> Prop) : wf h -> abs h !! g = Some (AVec gs) -> abs h !! v = Some (AVec vs) -> length gs = length vs ->
  (forall d h', wf h' -> abs h !! d = None -> abs h' = <[d := AVec (zip_with f gs (f2 <$> (f1 <$> vs)))]> (abs h) -> wp (kk (Some d)) h' Q) ->
  wp (let! a := vmap f1 (Some v) in let! b := vmap f2 a in let! d := vope f (Some g) b in free a ;;; free b ;;; kk d) h Q.
Proof.
  intros W A B E HQ. wbind. eapply wp_vmap; [exact W|exact B|]. intros a h1 W1 N1 A1. wbind. eapply wp_vmap; [exact W1|look|]. new_as b h2 W2 N2 A2.
  wbind. eapply wp_vope; [exact W2|look|look|rewrite !fmap_length; exact E|]. new_as d h3 W3 N3 A3. wbind. eapply wp_free; [exact W3|look|]. intros h4 W4 A4. rewrite A3 in A4.
  wbind. eapply wp_free; [exact W4|rewrite A4, lookup_delete_ne by congruence; look|]. intros h5 W5 A5. rewrite A4 in A5. apply HQ; [exact W5|exact N3|]. rewrite A5. clear - N1 N2 N3 Dq Dq0 Dq1. map_cases.
Qed.

Ltac lens := unfold descend, axpy; repeat first [rewrite fmap_length | rewrite zip_with_length]; slia.
(** ** One update: from the weights, the moments and the gradient to the new weights and moments. *)
Definition opt_pure (k : opt) (lr : F) (epoch : Z) ws ms vs gs : list F * (list F * list F) :=
  match k with
  | Momentum gamma | Nag gamma =>
    let v' := axpy gamma vs lr gs in
    (zip_with s_sub ws v', (ms, v'))
  | Adagrad e =>
    let v' := zip_with s_mul gs gs in
    (descend lr ws (zip_with s_div gs (s_sqrt <$> ((fun x => s_add x e) <$> v'))), (ms, v'))
  | Adadelta b1 e =>
    let v' := axpy b1 vs (s_sub s_one b1) (zip_with s_mul gs gs) in
    (descend lr ws (zip_with s_div gs (s_sqrt <$> ((fun x => s_add x e) <$> v'))), (ms, v'))
  | Adam b1 b2 e =>
    let m' := axpy b1 ms (s_sub s_one b1) gs in
    let v' := axpy b2 vs (s_sub s_one b2) ((fun x => s_pow x s_two) <$> gs) in
    let mh := (fun x => s_mul x (corr b1 epoch)) <$> m' in
    let vh := (fun x => s_mul x (corr b2 epoch)) <$> v' in
    (descend lr ws (zip_with s_div mh ((fun x => s_add x e) <$> (s_sqrt <$> vh))), (m', v'))
  | Adamax b1 b2 =>
    let m' := axpy b1 ms (s_sub s_one b1) gs in
    let v' := zip_with s_max ((fun x => s_mul x b2) <$> vs) (s_abs <$> gs) in
    let mh := (fun x => s_mul x (corr b1 epoch)) <$> m' in
    (descend lr ws (zip_with s_div mh v'), (m', v'))
  | Nadam b1 b2 e =>
    let m' := axpy b1 ms (s_sub s_one b1) gs in
    let v' := axpy b2 vs (s_sub s_one b2) ((fun x => s_pow x s_two) <$> gs) in
    let mf := axpy b1 m' (s_div (s_sub s_one b1) (s_sub s_one (s_pow b1 (s_of_Z epoch)))) gs in
    let vh := (fun x => s_mul x (corr b2 epoch)) <$> v' in
    (descend lr ws (zip_with s_div mf ((fun x => s_add x e) <$> (s_sqrt <$> vh))), (m', v'))
  end.
Lemma opt_pure_length kk lr epoch ws ms vs gs n : length ws = n -> length ms = n -> length vs = n -> length gs = n ->
  length (opt_pure kk lr epoch ws ms vs gs).1 = n /\ length (opt_pure kk lr epoch ws ms vs gs).2.1 = n /\ length (opt_pure kk lr epoch ws ms vs gs).2.2 = n.
Proof. intros E1 E2 E3 E4. destruct kk; cbn -[axpy descend]; repeat split; try assumption; lens. Qed.

Lemma wp_opt_update kk lr epoch h m0 lw lm lv lg ws ms vs gs n (Q : option loc * option loc -> heap F -> Prop) : wf h ->
  abs h = <[lg := AVec gs]> (<[lv := AVec vs]> (<[lm := AVec ms]> (<[lw := AVec ws]> m0))) ->
  m0 !! lw = None -> m0 !! lm = None -> m0 !! lv = None -> m0 !! lg = None -> lw <> lm -> lw <> lv -> lw <> lg -> lm <> lv -> lm <> lg -> lv <> lg ->
  length ws = n -> length ms = n -> length vs = n -> length gs = n ->
  (forall lm' lv' h', wf h' -> m0 !! lm' = None -> m0 !! lv' = None -> lw <> lm' -> lw <> lv' -> lm' <> lv' -> lm' <> lg -> lv' <> lg ->
     abs h' = <[lg := AVec gs]> (<[lv' := AVec (opt_pure kk lr epoch ws ms vs gs).2.2]> (<[lm' := AVec (opt_pure kk lr epoch ws ms vs gs).2.1]> (<[lw := AVec (opt_pure kk lr epoch ws ms vs gs).1]> m0))) ->
     Q (Some lm', Some lv') h') ->
  wp (opt_update kk lr epoch (Some lw) (Some lg) (Some lm, Some lv)) h Q.
Proof.
  intros W A N1 N2 N3 N4 D1 D2 D3 D4 D5 D6 L1 L2 L3 L4 HQ. destruct kk; cbn [opt_update].
  - wbind. eapply wp_v_axpy; [exact W|look|look|congruence|]. nw v' h1 W1 M1 A1. wbind. fr h2 W2 A2. wbind. apply wp_deref_Some. wbind. eapply wp_v_op2; [exact W2|look|look|]. intros h3 W3 A3.
    rewrite axpy_length, decide_True in A3 by congruence. apply wp_ret. apply HQ; [exact W3|first [assumption|congruence]..|]. cbn. rewrite A3, A2. map_cases.
  - wbind. eapply wp_v_axpy; [exact W|look|look|congruence|]. nw v' h1 W1 M1 A1. wbind. fr h2 W2 A2. wbind. apply wp_deref_Some. wbind. eapply wp_v_op2; [exact W2|look|look|]. intros h3 W3 A3.
    rewrite axpy_length, decide_True in A3 by congruence. apply wp_ret. apply HQ; [exact W3|first [assumption|congruence]..|]. cbn. rewrite A3, A2. map_cases.
  - wbind. eapply wp_vope; [exact W|look|look|congruence|]. nw v' h1 W1 M1 A1. wbind. fr h2 W2 A2. eapply wp_tail; [exact W2|look|look|lens|].
    nw d h7 W7 M7 A7. wbind. eapply wp_w_descend; [exact W7|look|look|congruence|lens|]. intros h8 W8 A8.
    apply wp_ret. apply HQ; [exact W8|first [assumption|congruence]..|]. cbn. rewrite A8, A7. map_cases.
  - wbind. eapply wp_vope; [exact W|look|look|congruence|]. nw q h1 W1 M1 A1. wbind. eapply wp_v_axpy; [exact W1|look|look|lens|]. nw v' h1' W1' M1' A1'. wbind. fr h1'' W1'' A1''. wbind. fr h2 W2 A2. eapply wp_tail; [exact W2|look|look|lens|].
    nw d h7 W7 M7 A7. wbind. eapply wp_w_descend; [exact W7|look|look|congruence|lens|]. intros h8 W8 A8.
    apply wp_ret. apply HQ; [exact W8|first [assumption|congruence]..|]. cbn. rewrite A8, A7. map_cases.
  - wbind. eapply wp_v_axpy; [exact W|look|look|lens|]. nw m' h1 W1 M1 A1. wbind. fr h2 W2 A2. wbind. eapply wp_vmap; [exact W2|look|]. nw q h3 W3 M3 A3. wbind. eapply wp_v_axpy; [exact W3|look|look|lens|]. nw v' h4 W4 M4 A4.
    wbind. fr h5 W5 A5. wbind. fr h6 W6 A6. wbind. eapply wp_vmap; [exact W6|look|]. nw mh h7 W7 M7 A7. wbind. eapply wp_vmap; [exact W7|look|]. nw vh h8 W8 M8 A8. eapply wp_tail; [exact W8|look|look|lens|].
    nw d h13 W13 M13 A13.
    wbind. eapply wp_w_descend; [exact W13|look|look|congruence|lens|]. intros h14 W14 A14. rewrite A13 in A14. wbind. eapply wp_free; [exact W14|rewrite A14, lookup_insert_ne, lookup_delete_ne by congruence; look|]. intros h15 W15 A15.
    wbind. eapply wp_free; [exact W15|rewrite A15, A14, lookup_delete_ne, lookup_insert_ne, lookup_delete_ne by congruence; look|]. intros h16 W16 A16. apply wp_ret. apply HQ; [exact W16|first [assumption|congruence]..|]. cbn. rewrite A16, A15, A14. map_cases.
  - wbind. eapply wp_v_axpy; [exact W|look|look|lens|]. nw m' h1 W1 M1 A1. wbind. fr h2 W2 A2. wbind. eapply wp_vmap; [exact W2|look|]. nw p h3 W3 M3 A3. wbind. eapply wp_vmap; [exact W3|look|]. nw q h3' W3' M3' A3'. wbind. eapply wp_vop; [exact W3'|look|look|lens|]. nw v' h4 W4 M4 A4.
    wbind. fr h5' W5' A5'. wbind. fr h5 W5 A5. wbind. fr h6 W6 A6. wbind. eapply wp_vmap; [exact W6|look|]. nw mh h7 W7 M7 A7.
    wbind. eapply wp_vope; [exact W7|look|look|lens|]. nw d h11 W11 M11 A11.
    wbind. eapply wp_w_descend; [exact W11|look|look|congruence|lens|]. intros h14 W14 A14. rewrite A11 in A14. wbind. eapply wp_free; [exact W14|rewrite A14, lookup_insert_ne, lookup_delete_ne by congruence; look|]. intros h15 W15 A15.
    apply wp_ret. apply HQ; [exact W15|first [assumption|congruence]..|]. cbn. rewrite A15, A14. map_cases.
  - wbind. eapply wp_v_axpy; [exact W|look|look|lens|]. nw m' h1 W1 M1 A1. wbind. fr h2 W2 A2. wbind. eapply wp_vmap; [exact W2|look|]. nw q h3 W3 M3 A3. wbind. eapply wp_v_axpy; [exact W3|look|look|lens|]. nw v' h4 W4 M4 A4.
    wbind. fr h5 W5 A5. wbind. fr h6 W6 A6. wbind. eapply wp_v_axpy; [exact W6|look|look|lens|]. nw mf h6' W6' M6' A6'. wbind. eapply wp_vmap; [exact W6'|look|]. nw mh h7 W7 M7 A7. wbind. eapply wp_vmap; [exact W7|look|]. nw vh h8 W8 M8 A8. eapply wp_tail; [exact W8|look|look|lens|].
    nw d h13 W13 M13 A13.
    wbind. eapply wp_w_descend; [exact W13|look|look|congruence|lens|]. intros h14 W14 A14. rewrite A13 in A14. wbind. eapply wp_free; [exact W14|rewrite A14, lookup_insert_ne, lookup_delete_ne by congruence; look|]. intros h15 W15 A15.
    wbind. eapply wp_free; [exact W15|rewrite A15, A14, lookup_delete_ne, lookup_insert_ne, lookup_delete_ne by congruence; look|]. intros h16 W16 A16.
    wbind. eapply wp_free; [exact W16|rewrite A16, A15, A14, !lookup_delete_ne, lookup_insert_ne, lookup_delete_ne by congruence; look|]. intros h17 W17 A17. apply wp_ret. apply HQ; [exact W17|first [assumption|congruence]..|]. cbn. rewrite A17, A16, A15, A14. map_cases.
Qed.
End glm.
