(** Correctness of SortArray: memory safety, termination, permutation, sortedness. *)
From Verif Require Export VecProofs2 Sort.
From Coq Require Import ZifyBool ZifyNat.
Ltac Zify.zify_post_hook ::= Z.to_euclidean_division_equations.

Section sortproofs.
Context {F : Type} `{Scalar F} (P : F -> Prop) (HP : swo_on P) (vd : bool).

Definition le (x y : F) : Prop := s_lt y x = false.

Lemma le_refl x : P x -> le x x.
Proof. apply (swo_irrefl P HP). Qed.
Lemma le_trans x y z : P x -> P y -> P z -> le x y -> le y z -> le x z.
Proof.
  unfold le. intros Px Py Pz H1 H2. destruct (s_lt z x) eqn:E; [|reflexivity].
  destruct (swo_cotrans P HP z y x Pz Py Px E) as [E1|E1]; congruence.
Qed.
Lemma lt_le x y : P x -> P y -> s_lt x y = true -> le x y.
Proof.
  unfold le. intros Px Py E. destruct (s_lt y x) eqn:E2; [|reflexivity].
  pose proof (swo_trans P HP _ _ _ Px Py Px E E2) as E3. rewrite (swo_irrefl P HP) in E3; auto.
Qed.

(** Total access. *)
Definition at_ (a : list F) (i : Z) : F := default s_zero (a !! Z.to_nat i).
Definition upd (a : list F) (i : Z) (v : F) : list F := <[Z.to_nat i := v]> a.
Notation len a := (Z.of_nat (length a)).

Lemma upd_len a i v : length (upd a i v) = length a.
Proof. apply insert_length. Qed.
Lemma at_upd_eq a i v : 0 <= i < len a -> at_ (upd a i v) i = v.
Proof. intros Hi. unfold at_, upd. rewrite list_lookup_insert by lia. reflexivity. Qed.
Lemma at_upd_ne a i j v : 0 <= i -> 0 <= j -> i <> j -> at_ (upd a i v) j = at_ a j.
Proof. intros Hi Hj Hne. unfold at_, upd. rewrite list_lookup_insert_ne by lia. reflexivity. Qed.
Lemma at_upd a i j v : 0 <= i < len a -> 0 <= j -> at_ (upd a i v) j = if i =? j then v else at_ a j.
Proof. intros Hi Hj. destruct (Z.eqb_spec i j) as [->|Hne]; [apply at_upd_eq; lia|apply at_upd_ne; lia]. Qed.
Lemma at_lookup a i : 0 <= i < len a -> a !! Z.to_nat i = Some (at_ a i).
Proof. intros Hi. unfold at_. destruct (lookup_lt_is_Some_2 a (Z.to_nat i)) as [x Hx]; [lia|]. rewrite Hx. reflexivity. Qed.
Lemma upd_at a i : 0 <= i < len a -> upd a i (at_ a i) = a.
Proof. intros Hi. apply list_insert_id. apply at_lookup. lia. Qed.
Lemma upd_upd a i v w : upd (upd a i v) i w = upd a i w.
Proof. apply list_insert_insert. Qed.
Lemma Forall_at a i : Forall P a -> 0 <= i < len a -> P (at_ a i).
Proof. intros Ha Hi. eapply Forall_lookup_1; [exact Ha|]. apply at_lookup. lia. Qed.
Lemma Forall_upd a i v : Forall P a -> P v -> Forall P (upd a i v).
Proof. intros Ha Hv. apply Forall_insert; auto. Qed.
Lemma list_eq_at a b : length a = length b -> (forall i, 0 <= i < len a -> at_ a i = at_ b i) -> a = b.
Proof.
  intros Hl Hat. apply list_eq_same_length with (n := length a); auto. intros i x y Hi Hx Hy.
  specialize (Hat (Z.of_nat i) ltac:(lia)). unfold at_ in Hat. rewrite Nat2Z.id, Hx, Hy in Hat. exact Hat.
Qed.

(** Moving a hole is a permutation. *)
Lemma hole_perm a h c v : 0 <= h < len a -> 0 <= c < len a ->
  upd (upd a h (at_ a c)) c v ≡ₚ upd a h v.
Proof.
  intros Hh Hc. destruct (decide (h = c)) as [->|Hne]; [rewrite upd_upd; reflexivity|].
  apply Permutation_inj. split; [rewrite !upd_len; reflexivity|].
  exists (fun i => if decide (i = Z.to_nat h) then Z.to_nat c else if decide (i = Z.to_nat c) then Z.to_nat h else i).
  split.
  - intros i j. repeat destruct (decide _); subst; lia.
  - intros i. unfold upd, at_. repeat destruct (decide _); subst.
    + rewrite list_lookup_insert_ne by lia. rewrite list_lookup_insert by lia.
      rewrite list_lookup_insert_ne by lia. symmetry. apply at_lookup. lia.
    + rewrite list_lookup_insert by (rewrite insert_length; lia). rewrite list_lookup_insert by lia. reflexivity.
    + rewrite !list_lookup_insert_ne by lia. reflexivity.
Qed.

(** ** The working state *)
Context (h0 : heap F) (l : loc) (p : option blk) (n0 : Z).

Record arr (a : list F) (h : heap F) : Prop := {
  arr_wf : wf h;
  arr_ptr : ptr_of h l = Some p;
  arr_abs : abs h = <[l := AVec a]> (abs h0)
}.

Definition awp {A} (m : M F A) (a : list F) (Q : A -> list F -> Prop) : Prop :=
  forall h, arr a h -> wp m h (fun r h' => exists a', arr a' h' /\ Q r a').

Lemma awp_ret {A} (x : A) a (Q : A -> list F -> Prop) : Q x a -> awp (ret x) a Q.
Proof. intros HQ h Ha. apply wp_ret. eauto. Qed.
Lemma awp_bind {A B} (m : M F A) (k : A -> M F B) a (Q : B -> list F -> Prop) :
  awp m a (fun r a' => awp (k r) a' Q) -> awp (bind m k) a Q.
Proof.
  intros Hm h Ha. apply wp_bind. eapply wp_mono; [apply Hm, Ha|]. intros r h' (a' & Ha' & Hk). apply Hk, Ha'.
Qed.
Lemma awp_mono {A} (m : M F A) a (Q Q' : A -> list F -> Prop) :
  awp m a Q -> (forall r a', Q r a' -> Q' r a') -> awp m a Q'.
Proof. intros Hm HQ h Ha. eapply wp_mono; [apply Hm, Ha|]. intros r h' (a' & Ha' & Hk). eauto. Qed.
Lemma awp_load a i (Q : F -> list F -> Prop) : 0 <= i < len a -> Q (at_ a i) a -> awp (load p i) a Q.
Proof.
  intros Hi HQ h [W Hp A]. eapply wp_load with (l := l); [exact W|exact Hp|rewrite A; apply lookup_insert|lia| |].
  - apply fmap_Some_lookup, at_lookup. lia.
  - exists a. split; [constructor; auto|exact HQ].
Qed.
Lemma awp_store a i v (Q : unit -> list F -> Prop) : 0 <= i < len a -> Q tt (upd a i v) -> awp (store p i v) a Q.
Proof.
  intros Hi HQ h [W Hp A]. eapply wp_store with (l := l); [exact W|exact Hp|rewrite A; apply lookup_insert|rewrite fmap_length; lia|].
  intros h' W' O' _ A'. exists (upd a i v). split; [|exact HQ]. constructor; auto.
  - rewrite (ptr_of_obj h h'); assumption.
  - rewrite A', A, insert_insert. unfold AVec, upd. rewrite insert_length, list_fmap_insert. reflexivity.
Qed.
Lemma awp_for (I : Z -> list F -> Prop) (body : Z -> M F unit) lo hi a (Q : unit -> list F -> Prop) :
  I lo a ->
  (forall i a, lo <= i < hi -> I i a -> awp (body i) a (fun _ a' => I (i + 1) a')) ->
  (forall a, I (Z.max lo hi) a -> Q tt a) ->
  awp (for_ lo hi body) a Q.
Proof.
  intros HI Hb HQ h Ha. eapply wp_for with (I := fun i h => exists a, arr a h /\ I i a).
  - eauto.
  - intros i h' Hi (a' & Ha' & HI'). eapply (Hb i a' Hi HI' h' Ha').
  - intros h' (a' & Ha' & HI'). eauto.
Qed.

Ltac abind := apply awp_bind.

(** ** Heaps over the window [first, first + n) *)
Definition par (c : Z) : Z := Z.quot (c - 1) 2.

Inductive desc (t : Z) : Z -> Prop :=
| desc_refl : desc t t
| desc_left h : desc t h -> desc t (2 * h + 1)
| desc_right h : desc t h -> desc t (2 * h + 2).

Lemma desc_ge t h : 0 <= t -> desc t h -> t <= h.
Proof. intros Ht. induction 1; lia. Qed.
Lemma desc_par t h : 0 <= t -> desc t h -> h <> t -> desc t (par h) /\ t <= par h < h.
Proof.
  intros Ht Hd Hne. destruct Hd as [|h Hd|h Hd]; [congruence| |];
  pose proof (desc_ge t h Ht Hd); unfold par;
  [replace (Z.quot (2 * h + 1 - 1) 2) with h by lia|replace (Z.quot (2 * h + 2 - 1) 2) with h by lia]; (split; [assumption|lia]).
Qed.

Definition heap_from (a : list F) (first t n : Z) : Prop :=
  forall c, 0 < c < n -> t <= par c -> le (at_ a (first + c)) (at_ a (first + par c)).

(** What every helper guarantees: same length, permutation of the reference, elements in P,
    nothing outside the window touched. *)
Record frame (first n : Z) (a b : list F) : Prop := {
  fr_len : length b = length a;
  fr_out : forall i, 0 <= i < len a -> ~ (first <= i < first + n) -> at_ b i = at_ a i
}.
Lemma frame_refl first n a : frame first n a a.
Proof. constructor; auto. Qed.
Lemma frame_trans first n a b c : frame first n a b -> frame first n b c -> frame first n a c.
Proof.
  intros [L1 O1] [L2 O2]. constructor; [congruence|]. intros i Hi Hn. rewrite O2, O1; auto. lia.
Qed.
Lemma frame_upd first n a i v : 0 <= i -> 0 <= first -> first + n <= len a -> first <= i < first + n -> frame first n a (upd a i v).
Proof.
  intros H0 H1 Hn Hi. constructor; [apply upd_len|]. intros j Hj Hnj. rewrite at_upd_ne; auto; lia.
Qed.
Lemma frame_widen first n first' n' a b : frame first n a b -> first' <= first -> first + n <= first' + n' -> frame first' n' a b.
Proof. intros [L O] H1 H2. constructor; auto. intros i Hi Hn. apply O; auto. lia. Qed.

(** *** push_heap *)
Record push_inv (a : list F) (first n t h : Z) (v : F) : Prop := {
  pi1 : forall x, 0 < x < n -> t <= par x -> par x <> h -> x <> h -> le (at_ a (first + x)) (at_ a (first + par x));
  pi2 : forall x, 0 < x < n -> par x = h -> le (at_ a (first + x)) v;
  pi3 : h <> t -> forall x, 0 < x < n -> par x = h -> le (at_ a (first + x)) (at_ a (first + par h))
}.

Lemma push_heap_ok v first n t : 0 <= first -> 0 <= t -> P v ->
  forall fuel a h, Forall P a -> first + n <= len a -> 0 <= h < n -> desc t h -> (Z.to_nat h < fuel)%nat ->
  push_inv a first n t h v ->
  awp (push_heap_loop fuel p first h t v) a (fun _ b =>
    Forall P b /\ heap_from b first t n /\ b ≡ₚ upd a (first + h) v /\ frame first n a b).
Proof.
  intros Hf Ht Pv. induction fuel as [|fuel IH]; intros a h Fa Hn Hh Hd Hfuel [I1 I2 I3]; [lia|].
  cbn [push_heap_loop]. fold (par h).
  assert (Hdone : (h <> t -> le v (at_ a (first + par h))) ->
     awp (store p (first + h) v) a (fun _ b =>
       Forall P b /\ heap_from b first t n /\ b ≡ₚ upd a (first + h) v /\ frame first n a b)).
  { intros Hle. apply awp_store; [lia|]. split; [apply Forall_upd; auto|]. split; [|split; [reflexivity|apply frame_upd; lia]].
    intros c Hc Htc. assert (0 <= par c < c) by (unfold par in *; lia).
    rewrite !at_upd by lia.
    destruct (Z.eqb_spec (first + h) (first + c)) as [E|E].
    - assert (c = h) as -> by lia. replace (first + h =? first + par h) with false by lia. apply Hle. intros ->. lia.
    - destruct (Z.eqb_spec (first + h) (first + par c)) as [E2|E2].
      + apply I2; lia.
      + apply I1; lia. }
  destruct (Z.ltb_spec t h) as [Hth|Hth].
  - destruct (desc_par t h Ht Hd ltac:(lia)) as [Hd' Hp'].
    abind. apply awp_load; [lia|].
    destruct (s_lt (at_ a (first + par h)) v) eqn:E.
    + abind. apply awp_store; [lia|].
      assert (Pp : P (at_ a (first + par h))) by (apply Forall_at; auto; lia).
      eapply awp_mono; [apply IH|].
      * apply Forall_upd; auto.
      * rewrite upd_len. lia.
      * lia.
      * exact Hd'.
      * lia.
      * constructor.
        -- intros x Hx Htx Hnx Hnx2. assert (0 <= par x < x) by (unfold par in *; lia).
           rewrite !at_upd by lia. replace (first + h =? first + x) with false.
           2:{ symmetry. apply Z.eqb_neq. intros E2. assert (x = h) by lia. subst x. congruence. }
           destruct (Z.eqb_spec (first + h) (first + par x)) as [E2|E2].
           ++ apply I3; lia.
           ++ apply I1; auto; try lia. intros ->. congruence.
        -- intros x Hx Hpx. rewrite at_upd by lia. destruct (Z.eqb_spec (first + h) (first + x)) as [E2|E2].
           ++ apply lt_le; auto.
           ++ apply le_trans with (y := at_ a (first + par h)); auto.
              ** apply Forall_at; auto. lia.
              ** rewrite <- Hpx. apply I1; try lia.
              ** apply lt_le; auto.
        -- intros Hnt x Hx Hpx. destruct (desc_par t (par h) Ht Hd' Hnt) as [Hd2 Hp2].
           rewrite !at_upd by lia. replace (first + h =? first + par (par h)) with false by lia.
           assert (Hpp : le (at_ a (first + par h)) (at_ a (first + par (par h)))) by (apply I1; lia).
           destruct (Z.eqb_spec (first + h) (first + x)) as [E2|E2]; [exact Hpp|].
           apply le_trans with (y := at_ a (first + par h)); auto.
           ++ apply Forall_at; auto. lia.
           ++ apply Forall_at; auto. lia.
           ++ rewrite <- Hpx. apply I1; try lia.
      * intros _ b (Fb & Hb & Pb & Frb). split; [exact Fb|]. split; [exact Hb|]. split.
        -- rewrite Pb. apply hole_perm; lia.
        -- eapply frame_trans; [|exact Frb]. apply frame_upd; lia.
    + apply Hdone. intros _. exact E.
  - apply Hdone. intros Hnt. pose proof (desc_ge t h Ht Hd). lia.
Qed.

(** *** adjust_heap: descending phase *)
Record adj_inv (a : list F) (first n t h : Z) : Prop := {
  ai1 : forall c, 0 < c < n -> t <= par c -> par c <> h -> le (at_ a (first + c)) (at_ a (first + par c));
  ai2 : h <> t -> forall c, 0 < c < n -> par c = h -> le (at_ a (first + c)) (at_ a (first + par h))
}.

Lemma adj_step a first n t h c v : 0 <= first -> 0 <= t -> Forall P a -> first + n <= len a -> 0 <= h < n -> desc t h ->
  adj_inv a first n t h -> 0 < c < n -> par c = h ->
  (forall x, 0 < x < n -> par x = h -> le (at_ a (first + x)) (at_ a (first + c))) ->
  adj_inv (upd a (first + h) (at_ a (first + c))) first n t c /\
  upd (upd a (first + h) (at_ a (first + c))) (first + c) v ≡ₚ upd a (first + h) v.
Proof.
  intros Hf Ht Fa Hn Hh Hd [I1 I2] Hc Hpc Hmax.
  assert (Hch : h < c) by (unfold par in *; lia).
  pose proof (desc_ge t h Ht Hd) as Hth.
  split.
  - constructor.
    + intros x Hx Htx Hpx. assert (0 <= par x < x) by (unfold par in *; lia).
      rewrite !at_upd by lia.
      destruct (Z.eqb_spec (first + h) (first + par x)) as [E|E].
      * replace (first + h =? first + x) with false by lia. apply Hmax; lia.
      * destruct (Z.eqb_spec (first + h) (first + x)) as [E2|E2].
        -- assert (x = h) as -> by lia. apply I2; auto. intros ->. lia.
        -- apply I1; lia.
    + intros _ x Hx Hpx. assert (0 <= par x < x) by (unfold par in *; lia). rewrite !at_upd by lia.
      replace (first + h =? first + x) with false by lia.
      rewrite Hpc, Z.eqb_refl. rewrite <- Hpx. apply I1; lia.
  - apply hole_perm; lia.
Qed.

Lemma adjust_loop_ok v first n t : 0 <= first -> 0 <= t -> P v ->
  forall fuel a h, Forall P a -> first + n <= len a -> 0 <= h < n -> desc t h -> (Z.to_nat (n - h) < fuel)%nat ->
  adj_inv a first n t h ->
  awp (adjust_loop fuel p first h (2 * h + 2) n) a (fun '(h', sc) b =>
    Forall P b /\ adj_inv b first n t h' /\ desc t h' /\ 0 <= h' < n /\ sc = 2 * h' + 2 /\ n <= sc /\
    upd b (first + h') v ≡ₚ upd a (first + h) v /\ frame first n a b).
Proof.
  intros Hf Ht Pv. induction fuel as [|fuel IH]; intros a h Fa Hn Hh Hd Hfuel Hinv; [lia|].
  cbn [adjust_loop]. destruct (Z.ltb_spec (2 * h + 2) n) as [Hsc|Hsc].
  - abind. apply awp_load; [lia|]. abind. apply awp_load; [lia|].
    set (c := if s_lt (at_ a (first + (2 * h + 2))) (at_ a (first + (2 * h + 2 - 1))) then 2 * h + 2 - 1 else 2 * h + 2).
    assert (Hc : 0 < c < n /\ par c = h /\ h < c) by (unfold c, par; destruct (s_lt _ _); lia).
    destruct Hc as (Hc1 & Hc2 & Hc3).
    assert (Hmax : forall x, 0 < x < n -> par x = h -> le (at_ a (first + x)) (at_ a (first + c))).
    { intros x Hx Hpx. assert (P1 : P (at_ a (first + (2 * h + 2)))) by (apply Forall_at; auto; lia).
      assert (P2 : P (at_ a (first + (2 * h + 2 - 1)))) by (apply Forall_at; auto; lia).
      assert (x = 2 * h + 2 \/ x = 2 * h + 2 - 1) as [-> | ->] by (unfold par in Hpx; lia); unfold c; destruct (s_lt _ _) eqn:E.
      - apply lt_le; auto.
      - apply le_refl; auto.
      - apply le_refl; auto.
      - exact E. }
    destruct (adj_step a first n t h c v Hf Ht Fa Hn Hh Hd Hinv Hc1 Hc2 Hmax) as [Hinv' Hperm].
    abind. apply awp_load; [lia|]. abind. apply awp_store; [lia|].
    replace (2 * (c + 1)) with (2 * c + 2) by lia.
    eapply awp_mono; [apply IH|].
    + apply Forall_upd; auto. apply Forall_at; auto. lia.
    + rewrite upd_len. lia.
    + lia.
    + unfold c. destruct (s_lt _ _); [replace (2 * h + 2 - 1) with (2 * h + 1) by lia; apply desc_left; auto|apply desc_right; auto].
    + lia.
    + exact Hinv'.
    + intros [h' sc] b (Fb & Hb & Hd' & Hh' & Esc & Hle & Pb & Frb). repeat (split; [assumption|]). split.
      * rewrite Pb. exact Hperm.
      * eapply frame_trans; [|exact Frb]. apply frame_upd; lia.
  - apply awp_ret. repeat (split; [assumption|]). split; [reflexivity|]. split; [lia|]. split; [reflexivity|apply frame_refl].
Qed.

Lemma adjust_heap_ok v first n t a : 0 <= first -> 0 <= t < n -> P v -> Forall P a -> first + n <= len a ->
  heap_from a first (t + 1) n ->
  awp (adjust_heap p first t n v) a (fun _ b =>
    Forall P b /\ heap_from b first t n /\ b ≡ₚ upd a (first + t) v /\ frame first n a b).
Proof.
  intros Hf Ht Pv Fa Hn Hheap. unfold adjust_heap. abind.
  eapply awp_mono; [apply adjust_loop_ok with (v := v) (t := t)|]; auto; try lia.
  - constructor.
  - constructor.
    + intros c Hc Htc Hpc. apply Hheap; auto. lia.
    + congruence.
  - intros [h sc] b (Fb & Hb & Hd & Hh & -> & Hle & Pb & Frb).
    destruct (Z.eqb_spec (2 * h + 2) n) as [E|E].
    + assert (Lb : length b = length a) by apply (fr_len _ _ _ _ Frb).
      abind. apply awp_load; [lia|]. abind. apply awp_store; [lia|].
      assert (Hc : 0 < 2 * h + 1 < n /\ par (2 * h + 1) = h) by (unfold par; lia).
      destruct Hc as [Hc1 Hc2].
      destruct (adj_step b first n t h (2 * h + 1) v Hf ltac:(lia) Fb ltac:(lia) Hh Hd Hb Hc1 Hc2) as [Hinv' Hperm].
      { intros x Hx Hpx. assert (x = 2 * h + 1) as -> by (unfold par in Hpx; lia). apply le_refl. apply Forall_at; auto. lia. }
      replace (2 * h + 2 - 1) with (2 * h + 1) by lia. unfold push_heap.
      eapply awp_mono; [apply push_heap_ok with (n := n) (t := t)|]; auto; try lia.
      * apply Forall_upd; auto. apply Forall_at; auto. lia.
      * rewrite upd_len. lia.
      * apply desc_left. exact Hd.
      * destruct Hinv' as [J1 J2]. constructor.
        -- intros x Hx H1 H2 H3. apply J1; auto.
        -- intros x Hx Hpx. exfalso. unfold par in Hpx. lia.
        -- intros _ x Hx Hpx. exfalso. unfold par in Hpx. lia.
      * intros _ b2 (Fb2 & Hb2 & Pb2 & Frb2). split; [exact Fb2|]. split; [exact Hb2|]. split.
        -- rewrite Pb2, Hperm, Pb. reflexivity.
        -- eapply frame_trans; [exact Frb|]. eapply frame_trans; [|exact Frb2]. apply frame_upd; lia.
    + assert (Lb : length b = length a) by apply (fr_len _ _ _ _ Frb).
      unfold push_heap. eapply awp_mono; [apply push_heap_ok with (n := n) (t := t)|]; auto; try lia.
      * destruct Hb as [J1 J2]. constructor.
        -- intros x Hx H1 H2 H3. apply J1; auto.
        -- intros x Hx Hpx. exfalso. unfold par in Hpx. lia.
        -- intros _ x Hx Hpx. exfalso. unfold par in Hpx. lia.
      * intros _ b2 (Fb2 & Hb2 & Pb2 & Frb2). split; [exact Fb2|]. split; [exact Hb2|]. split.
        -- rewrite Pb2, Pb. reflexivity.
        -- eapply frame_trans; [exact Frb|exact Frb2].
Qed.

(** *** make_heap, sort_heap *)
Lemma make_heap_loop_ok first n : 0 <= first ->
  forall fuel a t, Forall P a -> first + n <= len a -> 0 <= t < n -> (Z.to_nat t < fuel)%nat ->
  heap_from a first (t + 1) n ->
  awp (make_heap_loop fuel p first t n) a (fun _ b =>
    Forall P b /\ heap_from b first 0 n /\ b ≡ₚ a /\ frame first n a b).
Proof.
  intros Hf. induction fuel as [|fuel IH]; intros a t Fa Hn Ht Hfuel Hheap; [lia|]. cbn [make_heap_loop].
  abind. apply awp_load; [lia|]. abind. eapply awp_mono; [apply adjust_heap_ok|]; auto.
  { apply Forall_at; auto. lia. }
  intros _ b (Fb & Hb & Pb & Frb). rewrite upd_at in Pb by lia.
  destruct (Z.eqb_spec t 0) as [->|Hne].
  - apply awp_ret. auto.
  - assert (Lb : length b = length a) by apply (fr_len _ _ _ _ Frb).
    eapply awp_mono; [apply IH|]; auto; try lia.
    + replace (t - 1 + 1) with t by lia. exact Hb.
    + intros _ b2 (Fb2 & Hb2 & Pb2 & Frb2). split; [exact Fb2|]. split; [exact Hb2|]. split.
      * rewrite Pb2, Pb. reflexivity.
      * eapply frame_trans; eauto.
Qed.

Lemma make_heap_ok first last a : 0 <= first <= last -> Forall P a -> last <= len a ->
  awp (make_heap p first last) a (fun _ b =>
    Forall P b /\ heap_from b first 0 (last - first) /\ b ≡ₚ a /\ frame first (last - first) a b).
Proof.
  intros Hf Fa Hn. unfold make_heap. destruct (Z.ltb_spec (last - first) 2) as [H2|H2].
  - apply awp_ret. split; [assumption|]. split; [|split; [reflexivity|apply frame_refl]]. intros c Hc. lia.
  - apply make_heap_loop_ok; auto; try lia. intros c Hc Hp. exfalso. unfold par in Hp. lia.
Qed.

Lemma heap_max a first n : 0 <= first -> Forall P a -> first + n <= len a -> heap_from a first 0 n ->
  forall i, 0 <= i < n -> le (at_ a (first + i)) (at_ a first).
Proof.
  intros Hf Fa Hn Hh. assert (Hind : forall k i, (Z.to_nat i <= k)%nat -> 0 <= i < n -> le (at_ a (first + i)) (at_ a first)).
  { induction k as [|k IH]; intros i Hk Hi.
    - replace (first + i) with first by lia. apply le_refl. apply Forall_at; auto. lia.
    - destruct (decide (i = 0)) as [->|Hne]; [rewrite Z.add_0_r; apply le_refl, Forall_at; auto; lia|].
      assert (0 <= par i < i) by (unfold par; lia).
      apply le_trans with (y := at_ a (first + par i)); try (apply Forall_at; auto; lia).
      + apply Hh; lia.
      + apply IH; lia. }
  intros i Hi. apply (Hind (Z.to_nat i)); auto.
Qed.

Definition sorted_on (a : list F) (first last : Z) : Prop :=
  forall i j, first <= i -> i <= j -> j < last -> le (at_ a i) (at_ a j).

(** Splitting a permutation off an unchanged frame. *)
Definition seg (a : list F) (first n : Z) : list F := take (Z.to_nat n) (drop (Z.to_nat first) a).

Lemma seg_lookup a first n i : 0 <= first -> 0 <= i < n -> seg a first n !! Z.to_nat i = a !! Z.to_nat (first + i).
Proof. intros Hf Hi. unfold seg. rewrite lookup_take by lia. rewrite lookup_drop. f_equal. lia. Qed.

Lemma frame_seg_perm a b first n : 0 <= first -> 0 <= n -> first + n <= len a -> frame first n a b -> b ≡ₚ a -> seg b first n ≡ₚ seg a first n.
Proof.
  intros Hf Hn0 Hn [L O] Hp.
  assert (Hs : forall c : list F, c = take (Z.to_nat first) c ++ seg c first n ++ drop (Z.to_nat (first + n)) c).
  { intros c. unfold seg. replace (drop (Z.to_nat (first + n)) c) with (drop (Z.to_nat n) (drop (Z.to_nat first) c)).
    - rewrite take_drop, take_drop. reflexivity.
    - rewrite drop_drop. f_equal. lia. }
  rewrite (Hs a), (Hs b) in Hp.
  assert (E1 : take (Z.to_nat first) b = take (Z.to_nat first) a).
  { apply list_eq_at; [rewrite !take_length; lia|]. intros i Hi. rewrite take_length in Hi. unfold at_. rewrite !lookup_take by lia.
    apply O; lia. }
  assert (E2 : drop (Z.to_nat (first + n)) b = drop (Z.to_nat (first + n)) a).
  { apply list_eq_at; [rewrite !drop_length; lia|]. intros i Hi. rewrite drop_length in Hi. unfold at_. rewrite !lookup_drop.
    replace (Z.to_nat (first + n) + Z.to_nat i)%nat with (Z.to_nat (first + n + i)) by lia. apply O; lia. }
  rewrite E1, E2 in Hp. apply Permutation_app_inv_l, Permutation_app_inv_r in Hp. exact Hp.
Qed.

Lemma frame_all (R : F -> Prop) a b first n : 0 <= first -> 0 <= n -> first + n <= len a -> frame first n a b -> b ≡ₚ a ->
  (forall i, first <= i < first + n -> R (at_ a i)) -> forall i, first <= i < first + n -> R (at_ b i).
Proof.
  intros Hf Hn0 Hn Hfr Hp HR i Hi. pose proof (frame_seg_perm a b first n Hf Hn0 Hn Hfr Hp) as Hsp.
  assert (Hin : at_ b i ∈ seg b first n).
  { apply elem_of_list_lookup. exists (Z.to_nat (i - first)). rewrite seg_lookup by lia.
    replace (first + (i - first)) with i by lia. apply at_lookup. rewrite (fr_len _ _ _ _ Hfr). lia. }
  rewrite Hsp in Hin. apply elem_of_list_lookup in Hin as [k Hk].
  assert (Hkn : (k < Z.to_nat n)%nat). { apply lookup_lt_Some in Hk. unfold seg in Hk. rewrite take_length in Hk. lia. }
  replace k with (Z.to_nat (Z.of_nat k)) in Hk by lia. rewrite seg_lookup in Hk by lia.
  rewrite at_lookup in Hk by lia. injection Hk as <-. apply HR. lia.
Qed.

Lemma sort_heap_loop_ok first last0 : 0 <= first ->
  forall fuel a last, Forall P a -> first <= last <= last0 -> last0 <= len a -> (Z.to_nat (last - first) < fuel)%nat ->
  heap_from a first 0 (last - first) -> sorted_on a last last0 ->
  (forall i j, first <= i < last -> last <= j < last0 -> le (at_ a i) (at_ a j)) ->
  awp (sort_heap_loop fuel p first last) a (fun _ b =>
    Forall P b /\ sorted_on b first last0 /\ b ≡ₚ a /\ frame first (last0 - first) a b).
Proof.
  intros Hf. induction fuel as [|fuel IH]; intros a last Fa Hl Hn Hfuel Hheap Hs Hc; [lia|]. cbn [sort_heap_loop].
  destruct (Z.ltb_spec 1 (last - first)) as [H1|H1].
  - abind. unfold pop_heap, pop_heap4. abind. apply awp_load; [lia|]. abind. apply awp_load; [lia|]. abind. apply awp_store; [lia|].
    set (a1 := upd a (last - 1) (at_ a first)).
    assert (Pm : P (at_ a first)) by (apply Forall_at; auto; lia).
    assert (Pv : P (at_ a (last - 1))) by (apply Forall_at; auto; lia).
    assert (F1 : Forall P a1) by (apply Forall_upd; auto).
    assert (L1 : length a1 = length a) by apply upd_len.
    replace (last - 1 - first) with (last - first - 1) by lia.
    eapply awp_mono; [apply adjust_heap_ok|]; auto; try lia.
    { intros c Hc' Hp'. assert (0 <= par c < c) by (unfold par in *; lia). unfold a1. rewrite !at_upd_ne by lia. apply Hheap; lia. }
    intros _ b (Fb & Hb & Pb & Frb). rewrite Z.add_0_r in Pb.
    assert (Lb : length b = length a1) by apply (fr_len _ _ _ _ Frb).
    assert (Pba : b ≡ₚ a).
    { rewrite Pb. unfold a1. etrans; [apply hole_perm; lia|]. rewrite upd_at by lia. reflexivity. }
    assert (Fra : frame first (last - first) a b).
    { eapply frame_trans; [|eapply frame_widen; [exact Frb|lia|lia]]. apply frame_upd; lia. }
    assert (Hbl : at_ b (last - 1) = at_ a first).
    { rewrite (fr_out _ _ _ _ Frb) by lia. unfold a1. apply at_upd_eq. lia. }
    assert (Hmaxa : forall i, first <= i < first + (last - first) -> le (at_ b i) (at_ a first)).
    { apply (frame_all (fun x => le x (at_ a first)) a b first (last - first)); auto; try lia.
      intros i Hi. replace i with (first + (i - first)) by lia. apply heap_max with (n := last - first); auto; lia. }
    eapply awp_mono; [apply IH|]; auto; try lia.
    + replace (last - 1 - first) with (last - first - 1) by lia. exact Hb.
    + intros i j Hi Hij Hj. destruct (decide (i = last - 1)) as [->|Hne].
      * destruct (decide (j = last - 1)) as [->|Hne2]; [apply le_refl, Forall_at; auto; lia|].
        rewrite Hbl. rewrite (fr_out _ _ _ _ Fra) by lia. apply Hc; lia.
      * rewrite !(fr_out _ _ _ _ Fra) by lia. apply Hs; lia.
    + intros i j Hi Hj. destruct (decide (j = last - 1)) as [->|Hne].
      * rewrite Hbl. apply Hmaxa. lia.
      * rewrite (fr_out _ _ _ _ Fra j) by lia.
        apply le_trans with (y := at_ a first); auto.
        -- apply Forall_at; auto. lia.
        -- apply Forall_at; auto. lia.
        -- apply Hmaxa. lia.
        -- apply Hc; lia.
    + intros _ b2 (Fb2 & Hs2 & Pb2 & Frb2). split; [exact Fb2|]. split; [exact Hs2|]. split.
      * rewrite Pb2. exact Pba.
      * eapply frame_trans; [eapply frame_widen; [exact Fra|lia|lia]|exact Frb2].
  - apply awp_ret. split; [assumption|]. split; [|split; [reflexivity|apply frame_refl]].
    intros i j Hi Hij Hj. destruct (decide (i < last)) as [Hil|Hil].
    + destruct (decide (j < last)) as [Hjl|Hjl].
      * assert (i = j) as -> by lia. apply le_refl, Forall_at; auto; lia.
      * apply Hc; lia.
    + apply Hs; lia.
Qed.

Lemma partial_sort_ok first last a : 0 <= first <= last -> Forall P a -> last <= len a ->
  awp (partial_sort p first last last) a (fun _ b =>
    Forall P b /\ sorted_on b first last /\ b ≡ₚ a /\ frame first (last - first) a b).
Proof.
  intros Hf Fa Hn. unfold partial_sort. abind. eapply awp_mono; [apply make_heap_ok|]; auto.
  intros _ b (Fb & Hb & Pb & Frb). assert (Lb : length b = length a) by apply (fr_len _ _ _ _ Frb).
  abind. eapply awp_for with (I := fun _ c => c = b); [reflexivity|intros; lia|]. intros c ->.
  unfold sort_heap. eapply awp_mono; [apply sort_heap_loop_ok with (last0 := last)|]; auto; try lia.
  - intros i j Hi Hij Hj. lia.
  - intros _ b2 (Fb2 & Hs2 & Pb2 & Frb2). split; [exact Fb2|]. split; [exact Hs2|]. split.
    + rewrite Pb2. exact Pb.
    + eapply frame_trans; eauto.
Qed.

(** ** Partition *)
Lemma up_loop_ok pivot last0 a : Forall P a -> P pivot -> last0 <= len a ->
  forall fuel first s, 0 <= first -> first <= s < last0 -> (Z.to_nat (s - first) < fuel)%nat ->
  le pivot (at_ a s) ->
  awp (up_loop vd fuel p first last0 pivot) a (fun f b => b = a /\ first <= f <= s /\ le pivot (at_ a f) /\
    forall i, first <= i < f -> s_lt (at_ a i) pivot = true).
Proof.
  intros Fa Pp Hn. induction fuel as [|fuel IH]; intros first s H0 Hs Hfuel Hle; [lia|]. cbn [up_loop].
  abind. apply awp_load; [lia|]. destruct (s_lt (at_ a first) pivot) eqn:E.
  - assert (first <> s) by (intros ->; unfold le in Hle; congruence).
    replace (first =? last0 - 1) with false by lia. rewrite andb_false_r.
    eapply awp_mono; [apply (IH (first + 1) s)|]; auto; try lia.
    intros f b (-> & Hf & Hle' & Hall). split; [reflexivity|]. split; [lia|]. split; [exact Hle'|].
    intros i Hi. destruct (decide (i = first)) as [->|]; [exact E|apply Hall; lia].
  - apply awp_ret. split; [reflexivity|]. split; [lia|]. split; [exact E|]. intros; lia.
Qed.

Lemma down_loop_ok pivot first0 a : Forall P a -> P pivot -> 0 <= first0 ->
  forall fuel last s, last < len a -> first0 <= s <= last -> (Z.to_nat (last - s) < fuel)%nat ->
  le (at_ a s) pivot ->
  awp (down_loop vd fuel p last first0 pivot) a (fun k b => b = a /\ s <= k <= last /\ le (at_ a k) pivot /\
    forall i, k < i <= last -> s_lt pivot (at_ a i) = true).
Proof.
  intros Fa Pp H0. induction fuel as [|fuel IH]; intros last s Hn Hs Hfuel Hle; [lia|]. cbn [down_loop].
  abind. apply awp_load; [lia|]. destruct (s_lt pivot (at_ a last)) eqn:E.
  - assert (last <> s) by (intros ->; unfold le in Hle; congruence).
    replace (last =? first0) with false by lia. rewrite andb_false_r.
    eapply awp_mono; [apply (IH (last - 1) s)|]; auto; try lia.
    intros f b (-> & Hf & Hle' & Hall). split; [reflexivity|]. split; [lia|]. split; [exact Hle'|].
    intros i Hi. destruct (decide (i = last)) as [->|]; [exact E|apply Hall; lia].
  - apply awp_ret. split; [reflexivity|]. split; [lia|]. split; [exact E|]. intros; lia.
Qed.

Lemma swap_perm a i j : 0 <= i < len a -> 0 <= j < len a -> upd (upd a i (at_ a j)) j (at_ a i) ≡ₚ a.
Proof. intros Hi Hj. etrans; [apply hole_perm; lia|]. rewrite upd_at by lia. reflexivity. Qed.

Lemma partition_loop_ok pivot first0 last0 : P pivot -> 0 <= first0 ->
  forall fuel a first last, Forall P a -> last0 <= len a -> first0 <= first <= last -> last <= last0 -> (Z.to_nat (last - first) < fuel)%nat ->
  (forall i, first0 <= i < first -> le (at_ a i) pivot) ->
  (forall i, last <= i < last0 -> le pivot (at_ a i)) ->
  (exists s, first <= s < last0 /\ le pivot (at_ a s) /\ (s <= last)) ->
  (exists s, first0 <= s < last /\ le (at_ a s) pivot /\ first - 1 <= s) ->
  awp (partition_loop vd fuel p first last first0 last0 pivot) a (fun cut b =>
    Forall P b /\ first0 <= cut <= last0 /\ b ≡ₚ a /\ frame first0 (last0 - first0) a b /\
    (forall i, first0 <= i < cut -> le (at_ b i) pivot) /\
    (forall i, cut <= i < last0 -> le pivot (at_ b i))).
Proof.
  intros Pp H0. induction fuel as [|fuel IH]; intros a first last Fa Hn Hf Hl Hfuel Hlo Hhi (s1 & Hs1 & Hs1' & Hs1'') (s2 & Hs2 & Hs2' & Hs2''); [lia|].
  cbn [partition_loop]. abind.
  eapply awp_mono; [apply (up_loop_ok pivot last0 a Fa Pp Hn _ first s1)|]; auto; try lia.
  intros f b (-> & Hf1 & Hf2 & Hf3). abind.
  eapply awp_mono; [apply (down_loop_ok pivot first0 a Fa Pp H0 _ (last - 1) s2)|]; auto; try lia.
  intros k b (-> & Hk1 & Hk2 & Hk3).
  assert (Hlo' : forall i, first0 <= i < f -> le (at_ a i) pivot).
  { intros i Hi. destruct (decide (i < first)); [apply Hlo; lia|]. apply lt_le; auto; [apply Forall_at; auto; lia|]. apply Hf3. lia. }
  assert (Hhi' : forall i, k < i < last0 -> le pivot (at_ a i)).
  { intros i Hi. destruct (decide (last <= i)); [apply Hhi; lia|]. apply lt_le; auto; [apply Forall_at; auto; lia|]. apply Hk3. lia. }
  destruct (Z.ltb_spec f k) as [Hfk|Hfk]; cbn [negb].
  - abind. apply awp_load; [lia|]. abind. apply awp_load; [lia|]. abind. apply awp_store; [lia|].
    abind. apply awp_store; [rewrite upd_len; lia|].
    set (a' := upd (upd a f (at_ a k)) k (at_ a f)).
    assert (La : length a' = length a) by (unfold a'; rewrite !upd_len; reflexivity).
    assert (Hak : at_ a' k = at_ a f) by (unfold a'; apply at_upd_eq; rewrite upd_len; lia).
    assert (Haf : at_ a' f = at_ a k) by (unfold a'; rewrite at_upd_ne by lia; apply at_upd_eq; lia).
    assert (Hao : forall i, 0 <= i -> i <> f -> i <> k -> at_ a' i = at_ a i).
    { intros i Hi Hif Hik. unfold a'. rewrite !at_upd_ne by lia. reflexivity. }
    eapply awp_mono; [apply IH|]; auto; try lia.
    + unfold a'. apply Forall_upd; [apply Forall_upd|]; auto; apply Forall_at; auto; lia.
    + intros i Hi. destruct (decide (i = f)) as [->|]; [rewrite Haf; exact Hk2|]. rewrite Hao by lia. apply Hlo'. lia.
    + intros i Hi. destruct (decide (i = k)) as [->|]; [rewrite Hak; exact Hf2|]. rewrite Hao by lia. apply Hhi'. lia.
    + exists k. rewrite Hak. split; [lia|]. split; [exact Hf2|lia].
    + exists f. rewrite Haf. split; [lia|]. split; [exact Hk2|lia].
    + intros cut b (Fb & Hcut & Pb & Frb & Hb1 & Hb2). split; [exact Fb|]. split; [lia|]. split.
      { rewrite Pb. unfold a'. apply swap_perm; lia. }
      split; [|split; assumption]. eapply frame_trans; [|exact Frb]. unfold a'.
      eapply frame_trans; apply frame_upd; rewrite ?upd_len; lia.
  - apply awp_ret. split; [assumption|]. split; [lia|]. split; [reflexivity|]. split; [apply frame_refl|]. split; [exact Hlo'|].
    intros i Hi. destruct (decide (i = f)) as [->|]; [exact Hf2|]. apply Hhi'. lia.
Qed.

Lemma median_mem a b c : {median_of_3 a b c = a} + {median_of_3 a b c = b} + {median_of_3 a b c = c}.
Proof. unfold median_of_3. repeat destruct (s_lt _ _); auto. Qed.

Lemma partitioner_ok first last a pivot : 0 <= first < last -> Forall P a -> last <= len a -> P pivot ->
  (exists s, first <= s < last /\ at_ a s = pivot) ->
  awp (partitioner vd p first last pivot) a (fun cut b =>
    Forall P b /\ first <= cut <= last /\ b ≡ₚ a /\ frame first (last - first) a b /\
    (forall i, first <= i < cut -> le (at_ b i) pivot) /\
    (forall i, cut <= i < last -> le pivot (at_ b i))).
Proof.
  intros Hf Fa Hn Pp (s & Hs & Es). unfold partitioner. 
  assert (le (at_ a s) pivot) by (rewrite Es; apply le_refl; auto).
  assert (le pivot (at_ a s)) by (rewrite Es; apply le_refl; auto).
  apply partition_loop_ok; auto; try lia.
  - exists s. repeat split; auto; lia.
  - exists s. repeat split; auto; lia.
Qed.

(** ** introsort: every element beyond the first 16 has a not-greater element before it. *)
Definition nearly (a : list F) (first last : Z) : Prop :=
  forall i, first + 16 <= i < last -> exists j, first <= j < i /\ le (at_ a j) (at_ a i).

Lemma introsort_ok depth : forall first last a, 0 <= first <= last -> Forall P a -> last <= len a ->
  awp (introsort vd depth p first last) a (fun _ b =>
    Forall P b /\ b ≡ₚ a /\ frame first (last - first) a b /\ nearly b first last).
Proof.
  induction depth as [|d IH]; intros first last a Hf Fa Hn; cbn [introsort]; destruct (Z.ltb_spec 16 (last - first)) as [H16|H16].
  - eapply awp_mono; [apply partial_sort_ok|]; auto; try lia. intros _ b (Fb & Hs & Pb & Frb).
    split; [exact Fb|]. split; [exact Pb|]. split; [exact Frb|]. intros i Hi. exists (i - 1). split; [lia|]. apply Hs; lia.
  - apply awp_ret. split; [exact Fa|]. split; [reflexivity|]. split; [apply frame_refl|]. intros i Hi. lia.
  - abind. apply awp_load; [lia|]. abind. apply awp_load; [lia|]. abind. apply awp_load; [lia|].
    set (pv := median_of_3 (at_ a first) (at_ a (first + (last - first) ÷ 2)) (at_ a (last - 1))).
    assert (Hpv : exists s, first <= s < last /\ at_ a s = pv).
    { destruct (median_mem (at_ a first) (at_ a (first + (last - first) ÷ 2)) (at_ a (last - 1))) as [[E|E]|E].
      - exists first. split; [lia|]. symmetry. exact E.
      - exists (first + (last - first) ÷ 2). split; [lia|]. symmetry. exact E.
      - exists (last - 1). split; [lia|]. symmetry. exact E. }
    assert (Ppv : P pv) by (destruct Hpv as (s & Hs & <-); apply Forall_at; auto; lia).
    abind. eapply awp_mono; [apply partitioner_ok with (pivot := pv)|]; auto; try lia.
    intros cut b (Fb & Hcut & Pb & Frb & Hlo & Hhi). assert (Lb : length b = length a) by apply (fr_len _ _ _ _ Frb).
    abind. eapply awp_mono; [apply (IH cut last b)|]; auto; try lia.
    intros _ c (Fc & Pc & Frc & Hnc). assert (Lc : length c = length b) by apply (fr_len _ _ _ _ Frc).
    eapply awp_mono; [apply (IH first cut c)|]; auto; try lia.
    intros _ e (Fe & Pe & Fre & Hne). assert (Le : length e = length c) by apply (fr_len _ _ _ _ Fre).
    split; [exact Fe|]. split; [rewrite Pe, Pc, Pb; reflexivity|]. split.
    { eapply frame_trans; [exact Frb|]. eapply frame_trans; [eapply frame_widen; [exact Frc|lia|lia]|eapply frame_widen; [exact Fre|lia|lia]]. }
    assert (Hhi_c : forall i, cut <= i < cut + (last - cut) -> le pv (at_ c i)).
    { apply (frame_all (fun x => le pv x) b c cut (last - cut)); auto; try lia. intros i Hi. apply Hhi. lia. }
    assert (Hlo_c : forall i, first <= i < cut -> le (at_ c i) pv).
    { intros i Hi. rewrite (fr_out _ _ _ _ Frc) by lia. apply Hlo. lia. }
    assert (Hlo_e : forall i, first <= i < first + (cut - first) -> le (at_ e i) pv).
    { apply (frame_all (fun x => le x pv) c e first (cut - first)); auto; try lia. intros i Hi. apply Hlo_c. lia. }
    assert (Hec : forall i, cut <= i < last -> at_ e i = at_ c i).
    { intros i Hi. apply (fr_out _ _ _ _ Fre); lia. }
    intros i Hi. destruct (decide (i < cut)) as [Hic|Hic].
    + apply Hne. lia.
    + destruct (decide (first < cut)) as [Hfc|Hfc].
      * exists first. split; [lia|]. apply le_trans with (y := pv); auto; try (apply Forall_at; auto; lia).
        -- apply Hlo_e. lia.
        -- rewrite Hec by lia. apply Hhi_c. lia.
      * assert (cut = first) as -> by lia. destruct (Hnc i) as (j & Hj & Hjl); [lia|].
        exists j. split; [lia|]. rewrite !Hec by lia. exact Hjl.
  - apply awp_ret. split; [exact Fa|]. split; [reflexivity|]. split; [apply frame_refl|]. intros i Hi. lia.
Qed.

(** ** Insertion sort *)
(** State while inserting [v], originally at [i0], with the hole at [q]:
    [first..q) and (q..i0] hold the sorted prefix around the hole, everything after the hole is > v. *)
Lemma ul_insert_ok v first i0 : 0 <= first -> P v ->
  forall fuel a q, Forall P a -> first < q <= i0 -> i0 < len a -> (Z.to_nat q < fuel)%nat ->
  (forall i j, first <= i -> i <= j -> j <= i0 -> i <> q -> j <> q -> le (at_ a i) (at_ a j)) ->
  (forall j, q < j <= i0 -> le v (at_ a j)) ->
  (exists s, first <= s < q /\ le (at_ a s) v) ->
  awp (ul_insert_loop vd fuel p q v) a (fun _ b =>
    Forall P b /\ sorted_on b first (i0 + 1) /\ b ≡ₚ upd a q v /\ frame first (i0 + 1 - first) a b).
Proof.
  intros Hf Pv. induction fuel as [|fuel IH]; intros a q Fa Hq Hn Hfuel Hsort Hgt (s & Hs & Hsle); [lia|].
  cbn [ul_insert_loop]. abind. apply awp_load; [lia|].
  destruct (s_lt v (at_ a (q - 1))) eqn:E.
  - assert (Hsq : s <> q - 1) by (intros ->; unfold le in Hsle; congruence).
    replace (q - 1 =? 0) with false by lia. rewrite andb_false_r.
    abind. apply awp_store; [lia|].
    assert (Px : P (at_ a (q - 1))) by (apply Forall_at; auto; lia).
    eapply awp_mono; [apply IH|].
    + apply Forall_upd; auto.
    + lia.
    + rewrite upd_len. lia.
    + lia.
    + intros i j Hi Hij Hj Hni Hnj. rewrite !at_upd by lia.
      destruct (Z.eqb_spec q i) as [E1|E1]; destruct (Z.eqb_spec q j) as [E2|E2]; subst.
      * apply le_refl; auto.
      * apply Hsort; lia.
      * apply Hsort; lia.
      * apply Hsort; lia.
    + intros j Hj. rewrite at_upd by lia. destruct (Z.eqb_spec q j); [apply lt_le; auto|]. apply Hgt. lia.
    + exists s. split; [lia|]. rewrite at_upd_ne by lia. exact Hsle.
    + intros _ b (Fb & Hb & Pb & Frb). split; [exact Fb|]. split; [exact Hb|]. split.
      * rewrite Pb. apply hole_perm; lia.
      * eapply frame_trans; [|exact Frb]. apply frame_upd; lia.
  - apply awp_store; [lia|]. split; [apply Forall_upd; auto|]. split; [|split; [reflexivity|apply frame_upd; lia]].
    intros i j Hi Hij Hj. rewrite !at_upd by lia.
    destruct (Z.eqb_spec q i) as [E1|E1]; destruct (Z.eqb_spec q j) as [E2|E2]; subst.
    + apply le_refl; auto.
    + apply Hgt. lia.
    + destruct (decide (i = j - 1)) as [->|]; [exact E|].
      apply le_trans with (y := at_ a (j - 1)); auto; try (apply Forall_at; auto; lia). apply Hsort; lia.
    + apply Hsort; lia.
Qed.

Lemma unguarded_ok first i a : 0 <= first < i -> Forall P a -> i < len a -> sorted_on a first i ->
  (exists s, first <= s < i /\ le (at_ a s) (at_ a i)) ->
  awp (unguarded_linear_insert vd p i (at_ a i)) a (fun _ b =>
    Forall P b /\ sorted_on b first (i + 1) /\ b ≡ₚ a /\ frame first (i + 1 - first) a b).
Proof.
  intros Hf Fa Hn Hs Hex. unfold unguarded_linear_insert.
  eapply awp_mono; [apply ul_insert_ok with (first := first) (i0 := i)|]; auto; try lia.
  - apply Forall_at; auto. lia.
  - intros x y Hx Hxy Hy Hnx Hny. apply Hs; lia.
  - intros _ b (Fb & Hb & Pb & Frb). rewrite upd_at in Pb by lia. auto.
Qed.

Lemma linear_insert_ok first i a : 0 <= first < i -> Forall P a -> i < len a -> sorted_on a first i ->
  awp (linear_insert vd p first i) a (fun _ b =>
    Forall P b /\ sorted_on b first (i + 1) /\ b ≡ₚ a /\ frame first (i + 1 - first) a b).
Proof.
  intros Hf Fa Hn Hs. unfold linear_insert. abind. apply awp_load; [lia|]. abind. apply awp_load; [lia|].
  destruct (s_lt (at_ a i) (at_ a first)) eqn:E.
  - abind. set (v := at_ a i) in *. assert (Pv : P v) by (apply Forall_at; auto; lia).
    apply awp_for with (I := fun k b => Forall P b /\ length b = length a /\ upd b (i - k) v ≡ₚ a /\ frame first (i + 1 - first) a b /\
       forall j, first <= j <= i -> at_ b j = if i - k <? j then at_ a (j - 1) else at_ a j).
    + rewrite Z.sub_0_r. split; [assumption|]. split; [reflexivity|]. split; [unfold v; rewrite upd_at by lia; reflexivity|].
      split; [apply frame_refl|]. intros j Hj. replace (i <? j) with false by lia. reflexivity.
    + intros k b Hk (Fb & Lb & Pb & Frb & Hat). abind. apply awp_load; [lia|]. apply awp_store; [lia|].
      split; [apply Forall_upd; auto; apply Forall_at; auto; lia|]. split; [rewrite upd_len; assumption|]. split.
      { rewrite <- Pb. replace (i - (k + 1)) with (i - k - 1) by lia. apply hole_perm; lia. }
      split. { eapply frame_trans; [exact Frb|]. apply frame_upd; lia. }
      intros j Hj. rewrite at_upd by lia. destruct (Z.eqb_spec (i - k) j) as [<-|Hne].
      * replace (i - (k + 1) <? i - k) with true by lia. rewrite Hat by lia. replace (i - k <? i - k - 1) with false by lia. reflexivity.
      * rewrite Hat by lia. replace (i - (k + 1) <? j) with (i - k <? j) by lia. reflexivity.
    + intros b (Fb & Lb & Pb & Frb & Hat). replace (i - Z.max 0 (i - first)) with first in * by lia.
      apply awp_store; [lia|]. split; [apply Forall_upd; auto|]. split; [|split; [exact Pb|]].
      2:{ eapply frame_trans; [exact Frb|]. apply frame_upd; lia. }
      assert (Hmin : forall j, first <= j < i -> le v (at_ a j)).
      { intros j Hj. apply le_trans with (y := at_ a first); auto; try (apply Forall_at; auto; lia).
        - apply lt_le; auto. apply Forall_at; auto. lia.
        - apply Hs; lia. }
      intros x y Hx Hxy Hy. rewrite !at_upd by lia.
      destruct (Z.eqb_spec first x) as [E1|E1]; destruct (Z.eqb_spec first y) as [E2|E2].
      * apply le_refl; auto.
      * rewrite Hat by lia. replace (first <? y) with true by lia. apply Hmin. lia.
      * lia.
      * rewrite !Hat by lia. replace (first <? y) with true by lia. replace (first <? x) with true by lia. apply Hs; lia.
  - apply unguarded_ok; auto. exists first. split; [lia|]. exact E.
Qed.

Lemma insertion_sort_ok first last a : 0 <= first < last -> Forall P a -> last <= len a ->
  awp (insertion_sort vd p first last) a (fun _ b =>
    Forall P b /\ sorted_on b first last /\ b ≡ₚ a /\ frame first (last - first) a b).
Proof.
  intros Hf Fa Hn. unfold insertion_sort. replace (first =? last) with false by lia.
  apply awp_for with (I := fun i b => Forall P b /\ length b = length a /\ sorted_on b first i /\ b ≡ₚ a /\ frame first (last - first) a b).
  - split; [assumption|]. split; [reflexivity|]. split; [|split; [reflexivity|apply frame_refl]].
    intros i j Hi Hij Hj. assert (i = j) as -> by lia. apply le_refl, Forall_at; auto; lia.
  - intros i b Hi (Fb & Lb & Hs & Pb & Frb). eapply awp_mono; [apply linear_insert_ok|]; auto; try lia.
    intros _ c (Fc & Hc & Pc & Frc). split; [exact Fc|]. split; [rewrite (fr_len _ _ _ _ Frc); exact Lb|]. split; [exact Hc|]. split.
    + rewrite Pc. exact Pb.
    + eapply frame_trans; [exact Frb|]. eapply frame_widen; [exact Frc|lia|lia].
  - intros b (Fb & Lb & Hs & Pb & Frb). replace (Z.max (first + 1) last) with last in Hs by lia. auto.
Qed.

Lemma final_insertion_sort_ok a : 0 < len a -> Forall P a -> nearly a 0 (len a) ->
  awp (final_insertion_sort vd p 0 (len a)) a (fun _ b => Forall P b /\ sorted_on b 0 (len a) /\ b ≡ₚ a /\ length b = length a).
Proof.
  intros H0 Fa Hnear. unfold final_insertion_sort. rewrite Z.sub_0_r, Z.add_0_l. destruct (Z.ltb_spec 16 (len a)) as [H16|H16].
  - abind. eapply awp_mono; [apply insertion_sort_ok|]; auto; try lia.
    intros _ b (Fb & Hs & Pb & Frb). assert (Lb : length b = length a) by apply (fr_len _ _ _ _ Frb).
    unfold unguarded_insertion_sort.
    apply awp_for with (I := fun i c => Forall P c /\ length c = length a /\ sorted_on c 0 i /\ c ≡ₚ a /\ frame 0 i a c).
    + split; [assumption|]. split; [assumption|]. split; [assumption|]. split; [assumption|]. exact Frb.
    + intros i c Hi (Fc & Lc & Hsc & Pc & Frc). abind. apply awp_load; [lia|].
      destruct (Hnear i ltac:(lia)) as (j & Hj & Hjl).
      eapply awp_mono; [apply unguarded_ok with (first := 0)|]; auto; try lia.
      * assert (Eai : at_ c i = at_ a i) by (apply (fr_out _ _ _ _ Frc); lia). rewrite Eai.
        assert (Hex : at_ a j ∈ seg a 0 i).
        { apply elem_of_list_lookup. exists (Z.to_nat j). rewrite seg_lookup by lia. rewrite Z.add_0_l. apply at_lookup. lia. }
        rewrite <- (frame_seg_perm a c 0 i) in Hex; auto; try lia.
        apply elem_of_list_lookup in Hex as [k Hk].
        assert (Hki : (k < Z.to_nat i)%nat). { apply lookup_lt_Some in Hk. unfold seg in Hk. rewrite take_length in Hk. lia. }
        replace k with (Z.to_nat (Z.of_nat k)) in Hk by lia. rewrite seg_lookup, Z.add_0_l in Hk by lia.
        rewrite at_lookup in Hk by lia. injection Hk as Hk. exists (Z.of_nat k). split; [lia|]. rewrite Hk. exact Hjl.
      * intros _ e (Fe & Hse & Pe & Fre). split; [exact Fe|]. split; [rewrite (fr_len _ _ _ _ Fre); exact Lc|]. split; [exact Hse|]. split.
        -- rewrite Pe. exact Pc.
        -- eapply frame_trans; [eapply frame_widen; [exact Frc|lia|lia]|eapply frame_widen; [exact Fre|lia|lia]].
    + intros c (Fc & Lc & Hsc & Pc & Frc). replace (Z.max 16 (len a)) with (len a) in Hsc by lia. auto.
  - eapply awp_mono; [apply insertion_sort_ok|]; auto; try lia. intros _ b (Fb & Hs & Pb & Frb).
    split; [exact Fb|]. split; [exact Hs|]. split; [exact Pb|]. apply (fr_len _ _ _ _ Frb).
Qed.

Lemma bitlog_ok a : forall fuel n k (Q : Z -> list F -> Prop), 0 < n -> (Z.to_nat n < fuel)%nat -> 0 <= k -> (forall k', 0 <= k' -> Q k' a) ->
  awp (bitlog_loop fuel n k) a Q.
Proof.
  induction fuel as [|fuel IH]; intros n k Q Hn Hfuel Hk HQ; [lia|]. cbn [bitlog_loop].
  destruct (Z.eqb_spec n 1); [apply awp_ret; auto|].
  rewrite Z.shiftr_div_pow2 by lia. change (2 ^ 1) with 2. apply IH; auto; lia.
Qed.

Lemma sort_range_ok a : Forall P a -> awp (sort_range vd p 0 (len a)) a (fun _ b =>
  Forall P b /\ sorted_on b 0 (len a) /\ b ≡ₚ a /\ length b = length a).
Proof.
  intros Fa. unfold sort_range. destruct (Z.eqb_spec 0 (len a)) as [E|E]; cbn [negb].
  - apply awp_ret. split; [exact Fa|]. split; [|split; reflexivity]. intros i j Hi Hij Hj. lia.
  - abind. unfold bitlog. apply bitlog_ok; try lia. intros k Hk. abind.
    eapply awp_mono; [apply introsort_ok|]; auto; try lia.
    intros _ b (Fb & Pb & Frb & Hnear). assert (Lb : length b = length a) by apply (fr_len _ _ _ _ Frb).
    rewrite <- Lb. eapply awp_mono; [apply final_insertion_sort_ok|]; auto; try lia.
    + rewrite Lb. exact Hnear.
    + intros _ c (Fc & Hs & Pc & Lc). split; [exact Fc|]. split; [exact Hs|]. split; [rewrite Pc; exact Pb|]. congruence.
Qed.

End sortproofs.

Section vsort.
Context {F : Type} `{Scalar F}.

Lemma wp_v_sort (P : F -> Prop) vd h l xs (Q : unit -> heap F -> Prop) : swo_on P -> wf h -> abs h !! l = Some (AVec xs) -> Forall P xs ->
  (forall ys h', wf h' -> abs h' = <[l := AVec ys]> (abs h) -> ys ≡ₚ xs -> non_decreasing ys -> Q tt h') ->
  wp (v_sort vd l) h Q.
Proof.
  intros HP Hwf Ha Fx HQ. unfold v_sort. wbind. eapply wp_v_size_vec; [exact Ha|].
  destruct (Z.eqb_spec (Z.of_nat (length xs)) 0) as [E|E].
  - apply wp_ret. destruct xs; [|simpl in E; lia]. apply HQ with (ys := []); auto.
    + rewrite insert_id; auto.
    + intros i j x y Hij Hx. rewrite lookup_nil in Hx. discriminate.
  - wbind. eapply wp_data_ptr; [exact Ha|]. intros p Hp.
    eapply wp_mono; [apply (sort_range_ok P HP vd h l p xs Fx)|].
    + constructor; auto. rewrite insert_id; auto.
    + intros [] h' (ys & [W' P' A'] & Fy & Hs & Py & Ly). apply HQ with (ys := ys); auto.
      intros i j x y Hij Hx Hy. pose proof (lookup_lt_Some _ _ _ Hx). pose proof (lookup_lt_Some _ _ _ Hy).
      specialize (Hs (Z.of_nat i) (Z.of_nat j) ltac:(lia) ltac:(lia) ltac:(lia)). unfold le, at_ in Hs.
      rewrite !Nat2Z.id, Hx, Hy in Hs. exact Hs.
Qed.

End vsort.
