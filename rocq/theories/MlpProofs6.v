(** * Constructing and initialising the perceptron, for any arithmetic. *)
From Verif Require Import Base BaseProofs Vec VecSpec VecProofs VecProofs2 Mat MatSpec MatProofs MatProofs2 MatProofs3 MatProofs4 MatProofs5 DetProofs Frame Act ActProofs ActProofs2 Cost CostProofs Sym Svm LinAlg LinAlgProofs Util UtilProofs Glm GlmProofs GlmProofs2 GlmProofs4 Mlp MlpProofs MlpProofs2 MlpProofs3 MlpProofs4.
Section mlp.
Context {F : Type} `{Scalar F} `{Libm F}.
Implicit Types (h : heap F) (xs ys ws v es : list F) (X W : nat -> nat -> F).

(** Writing drawn values to every element of an object. *)
Lemma wp_draw_loop h l p sh old (draw : Z -> F) n (Q : unit -> heap F -> Prop) : wf h -> ptr_of h l = Some p -> abs h !! l = Some (sh, old) -> n = Z.of_nat (length old) ->
  (forall h', wf h' -> abs h' = <[l := (sh, Some <$> vlist (length old) (fun i => draw (Z.of_nat i)))]> (abs h) -> Q tt h') -> wp (for_ 0 n (fun i => store p i (draw i))) h Q.
Proof.
  intros V Hp Ha -> HQ. eapply wp_map_loop with (new := vlist (length old) (fun i => draw (Z.of_nat i))); [exact V|exact Hp|exact Ha|apply vlist_length|reflexivity| |].
  - intros i hi w Q' Hi _ Hw G. rewrite vlist_lookup in Hw by lia. injection Hw as <-. rewrite Z2Nat.id in G by lia. exact G.
  - intros h' W' _ A'. apply HQ; assumption.
Qed.
Lemma wp_weight_init_v h l n cs (draw : Z -> F) (Q : unit -> heap F -> Prop) : wf h -> abs h !! l = Some (SVec n, cs) ->
  (forall h', wf h' -> abs h' = <[l := AVec (vlist (length cs) (fun i => draw (Z.of_nat i)))]> (abs h) -> Q tt h') -> wp (weight_init_v draw l) h Q.
Proof.
  intros V Ha HQ. destruct (vec_len _ _ _ _ V Ha) as [El _]. unfold weight_init_v. wbind. eapply wp_v_size; [exact Ha|]. wbind. eapply wp_data_ptr; [exact Ha|]. intros p Hp.
  eapply wp_draw_loop; [exact V|exact Hp|exact Ha|lia|]. intros h' W' A'. apply HQ; [exact W'|]. rewrite A'. unfold AVec. rewrite vlist_length. do 2 f_equal. f_equal. lia.
Qed.
Lemma wp_weight_init_m h l (c r : nat) cs (draw : Z -> F) (Q : unit -> heap F -> Prop) : wf h -> abs h !! l = Some (SMat (Z.of_nat c) (Z.of_nat r), cs) ->
  (forall h', wf h' -> abs h' = <[l := Mat c r (fun i j => draw (Z.of_nat (i * c + j)))]> (abs h) -> Q tt h') -> wp (weight_init_m draw l) h Q.
Proof.
  intros V Ha HQ. destruct (mat_len _ _ _ _ _ V Ha) as [El _]. unfold weight_init_m. wbind. eapply wp_m_data_size; [exact Ha|]. wbind. eapply wp_data_ptr; [exact Ha|]. intros p Hp.
  eapply wp_draw_loop; [exact V|exact Hp|exact Ha|lia|]. intros h' W' A'. apply HQ; [exact W'|]. rewrite A'. unfold Mat, AMat. do 3 f_equal. assert (E : length cs = (r * c)%nat) by lia. rewrite E.
  unfold mlist, vlist. apply list_eq. intros q. destruct (decide (q < r * c)%nat) as [Hq|Hq].
  - rewrite !list_lookup_fmap, lookup_seq_lt by exact Hq. cbn [fmap option_fmap option_map]. f_equal. f_equal. f_equal. cbn. rewrite Nat.mul_comm. pose proof (Nat.div_mod q c). lia.
  - rewrite !lookup_ge_None_2; [reflexivity| |]; rewrite fmap_length, seq_length; lia.
Qed.

(** The owned objects exist and are separate; everything else is [base]. *)
Record shell (base : gmap loc (aobj F)) (o : mlp (F := F)) h : Prop := {
  sh_wf : wf h;
  sh_own : NoDup (owned o);
  sh_new : forall l, l ∈ owned o -> base !! l = None;
  sh_yh : exists n c, abs h !! p_yh o = Some (SVec n, c);
  sh_w1 : exists a b c, abs h !! p_w1 o = Some (SMat a b, c);
  sh_w2 : exists n c, abs h !! p_w2 o = Some (SVec n, c);
  sh_b1 : exists n c, abs h !! p_b1 o = Some (SVec n, c);
  sh_z2 : exists a b c, abs h !! p_z2 o = Some (SMat a b, c);
  sh_a2 : exists a b c, abs h !! p_a2 o = Some (SMat a b, c);
  sh_frame : forall l, l ∉ owned o -> abs h !! l = base !! l }.
Lemma mlpS_shell base x y k n hh reg la al p Y o h : mlpS base x y k n hh reg la al p Y o h -> shell base o h.
Proof.
  intros S. split; try apply S.
  - destruct Y as [ys|]; [|exact (ms_yh S)]. eexists _, _. exact (ms_yh S).
  - eexists _, _, _. exact (ms_w1 S).
  - eexists _, _. exact (ms_w2 S).
  - eexists _, _. exact (ms_b1 S).
Qed.
Lemma shell_fields base o o' h : shell base o h -> owned o' = owned o -> shell base o' h.
Proof. intros [] E. pose proof E as E'. unfold owned in E'. injection E' as E1 E2 E3 E4 E5 E6. split; rewrite ?E, ?E1, ?E2, ?E3, ?E4, ?E5, ?E6; assumption. Qed.

(** [initialize] on an uninitialised object with data and hidden units. *)
Lemma wp_p_initialize base o h x y k n hh X (iw1 iw2 : Z -> F) stale ib2 nb cb (Q : mlp -> heap F -> Prop) : shell base o h -> p_init o = false -> p_x o = Some x -> p_y o = Some y -> p_hid o = Z.of_nat hh -> hh <> 0%nat ->
  base !! x = Some (Mat k n X) -> Z.of_nat n <= int_max -> Z.of_nat hh <= int_max -> Z.of_nat (hh * k) <= int_max -> abs h !! p_b1 o = Some (SVec nb, cb) ->
  (forall o' h', shell base o' h' ->
     o' = Mlp (Some x) (Some y) (p_yh o') (p_w1 o') (p_w2 o') (p_b1 o') ib2 (p_z2 o') (p_a2 o') (Z.of_nat n) (Z.of_nat k) (Z.of_nat hh) (p_reg o) (p_la o) (p_al o) true ->
     abs h' !! p_w1 o' = Some (Mat hh k (fun i j => iw1 (Z.of_nat (i * hh + j)))) -> abs h' !! p_w2 o' = Some (AVec (vlist hh (fun j => iw2 (Z.of_nat j)))) ->
     abs h' !! p_b1 o' = Some (SVec (Z.of_nat hh), match stale with None => list.resize hh None cb | Some f => Some <$> vlist hh (fun j => f (Z.of_nat j)) end) -> Q o' h') ->
  wp (p_initialize iw1 iw2 stale ib2 o) h Q.
Proof.
  intros S Ei Ex Ey Eh Hh0 Hx Hn Hh Hhk Hb HQ. pose proof (sh_own _ _ _ S) as ND. apply owned_ne in ND as (? & ? & ? & ? & ? & ? & ? & ? & ? & ? & ? & ? & ? & ? & ?).
  assert (Nx : x ∉ owned o) by (intros I; rewrite (sh_new _ _ _ S x I) in Hx; discriminate). assert (Vx : abs h !! x = Some (Mat k n X)) by (rewrite (sh_frame _ _ _ S) by exact Nx; exact Hx).
  destruct (sh_yh _ _ _ S) as (n0 & c0 & V0). destruct (sh_w1 _ _ _ S) as (a1 & b1 & c1 & V1). destruct (sh_w2 _ _ _ S) as (n2 & c2 & V2). destruct (sh_z2 _ _ _ S) as (a3 & b3 & c3 & V3). destruct (sh_a2 _ _ _ S) as (a4 & b4 & c4 & V4).
  unfold p_initialize. rewrite Ei, Ex, Ey, Eh. destruct (Z.eqb_spec (Z.of_nat hh) 0) as [|_]; [lia|].
  wbind. eapply wp_m_size; [exact Vx|]. cbn [fst snd].
  wbind. eapply wp_v_resize; [apply S|exact V0|slia|]. intros h1 W1 A1 _.
  wbind. eapply wp_m_resize; [exact W1|rewrite A1, lookup_insert_ne by congruence; exact V1|clear - Hhk; lia|]. intros h2 W2 A2 _. rewrite A1 in A2.
  wbind. eapply wp_v_resize; [exact W2|rewrite A2, !lookup_insert_ne by congruence; exact V2|slia|]. intros h3 W3 A3 _. rewrite A2 in A3.
  wbind. eapply wp_v_resize; [exact W3|rewrite A3, !lookup_insert_ne by congruence; exact Hb|slia|]. intros h4 W4 A4 _. rewrite A3 in A4. clear A1 A2 A3 W1 W2 W3.
  wbind. eapply (wp_weight_init_m h4 (p_w1 o) hh k); [exact W4|rewrite A4, !lookup_insert_ne by congruence; apply lookup_insert|]. intros h5 W5 A5.
  wbind. eapply wp_weight_init_v; [exact W5|rewrite A5, A4; rewrite !lookup_insert_ne by congruence; apply lookup_insert|]. intros h6 W6 A6. rewrite resize_length, Nat2Z.id in A6.
  assert (B6 : abs h6 !! p_b1 o = Some (SVec (Z.of_nat hh), list.resize hh None cb)) by (rewrite A6, A5, A4, !lookup_insert_ne by congruence; rewrite lookup_insert, Nat2Z.id; reflexivity).
  wbind. set (cb' := match stale with None => list.resize hh None cb | Some f => Some <$> vlist hh (fun j => f (Z.of_nat j)) end).
  assert (G : forall (Q' : unit -> heap F -> Prop), (forall h7, wf h7 -> abs h7 = <[p_b1 o := (SVec (Z.of_nat hh), cb')]> (abs h6) -> Q' tt h7) -> wp (bias_init_v stale (p_b1 o)) h6 Q').
  { intros Q' G. unfold bias_init_v, cb' in *. destruct stale as [f|].
    - eapply (wp_weight_init_v h6 (p_b1 o) _ _ f); [exact W6|exact B6|]. intros h7 W7 A7. apply G; [exact W7|]. rewrite A7, resize_length. unfold AVec. rewrite vlist_length. reflexivity.
    - apply wp_ret. apply G; [exact W6|]. rewrite insert_id; [reflexivity|exact B6]. }
  apply G. clear G. intros h7 W7 A7.
  assert (E7 : forall l, l <> p_yh o -> l <> p_w1 o -> l <> p_w2 o -> l <> p_b1 o -> abs h7 !! l = abs h !! l) by (intros l ? ? ? ?; rewrite A7, A6, A5, A4, !lookup_insert_ne by congruence; reflexivity).
  assert (Y7 : abs h7 !! p_yh o = Some (SVec (Z.of_nat n), list.resize (Z.to_nat (Z.of_nat n)) None c0)) by (rewrite A7, A6, A5, A4, !lookup_insert_ne by congruence; apply lookup_insert).
  assert (M7 : abs h7 !! p_w1 o = Some (Mat hh k (fun i j => iw1 (Z.of_nat (i * hh + j))))) by (rewrite A7, A6, !lookup_insert_ne by congruence; rewrite A5; apply lookup_insert).
  assert (U7 : abs h7 !! p_w2 o = Some (AVec (vlist hh (fun j => iw2 (Z.of_nat j))))) by (rewrite A7, !lookup_insert_ne by congruence; rewrite A6; apply lookup_insert).
  assert (B7 : abs h7 !! p_b1 o = Some (SVec (Z.of_nat hh), cb')) by (rewrite A7; apply lookup_insert).
  clear A7 A6 A5 A4 W4 W5 W6 B6.
  assert (own7 : forall l, l ∈ owned o -> exists a, abs h7 !! l = Some a).
  { intros l I. unfold owned in I. rewrite !elem_of_cons, elem_of_nil in I. destruct I as [->|[->|[->|[->|[->|[->|[]]]]]]]; eauto; eexists; rewrite E7 by congruence; eassumption. }
  wbind. apply wp_m_new; [exact W7|]. intros z h8 W8 N8 A8 _. assert (Nz : z ∉ owned o) by (intros I; destruct (own7 _ I) as [a Ea]; congruence).
  assert (Bz : base !! z = None). { rewrite <- (sh_frame _ _ _ S) by exact Nz. pose proof Nz as Nz'. unfold owned in Nz'. rewrite !not_elem_of_cons in Nz'. destruct Nz' as (? & ? & ? & ? & ? & ? & _). rewrite <- E7 by congruence. exact N8. }
  assert (Dz : z <> p_yh o /\ z <> p_w1 o /\ z <> p_w2 o /\ z <> p_b1 o /\ z <> p_z2 o /\ z <> p_a2 o) by (unfold owned in Nz; rewrite !not_elem_of_cons in Nz; tauto). destruct Dz as (? & ? & ? & ? & ? & ?).
  wbind. eapply wp_del; [exact W8|rewrite A8, lookup_insert_ne by congruence; rewrite E7 by congruence; exact V3|]. intros h9 W9 A9 _.
  wbind. apply wp_m_new; [exact W9|]. intros q h10 W10 N10 A10 _.
  assert (Dq : q <> z). { intros ->. rewrite A9, lookup_delete_ne, A8, lookup_insert in N10 by congruence. discriminate. }
  assert (Dq2 : q ∈ owned o -> q = p_z2 o). { intros I. destruct (decide (q = p_z2 o)) as [E|E]; [exact E|]. destruct (own7 _ I) as [a Ea]. rewrite A9, lookup_delete_ne, A8, lookup_insert_ne in N10 by congruence. congruence. }
  assert (Bq : base !! q = None). { destruct (decide (q ∈ owned o)) as [I|I]; [apply S, I|]. rewrite <- (sh_frame _ _ _ S) by exact I. pose proof I as I'. unfold owned in I'. rewrite !not_elem_of_cons in I'. destruct I' as (? & ? & ? & ? & ? & ? & _). rewrite <- E7 by congruence.
    rewrite A9, lookup_delete_ne, A8, lookup_insert_ne in N10 by congruence. exact N10. }
  assert (Dqs : q <> p_yh o /\ q <> p_w1 o /\ q <> p_w2 o /\ q <> p_b1 o /\ q <> p_a2 o). { repeat split; intros E; (rewrite (Dq2 ltac:(unfold owned; rewrite E, !elem_of_cons; tauto)) in E; congruence). } destruct Dqs as (? & ? & ? & ? & ?).
  wbind. eapply wp_del; [exact W10|rewrite A10, lookup_insert_ne by congruence; rewrite A9, lookup_delete_ne by congruence; rewrite A8, lookup_insert_ne by congruence; rewrite E7 by congruence; exact V4|]. intros h11 W11 A11 _.
  apply wp_ret. rewrite A10, A9, A8 in A11. clear A10 A9 A8.
  assert (L : forall l a, l <> q -> l <> z -> l <> p_z2 o -> l <> p_a2 o -> abs h7 !! l = Some a -> abs h11 !! l = Some a) by (intros l a ? ? ? ? E; rewrite A11; rewrite lookup_delete_ne, lookup_insert_ne, lookup_delete_ne, lookup_insert_ne by congruence; exact E).
  apply HQ; cbn [p_yh p_w1 p_w2 p_b1 p_z2 p_a2 owned]; [|reflexivity|apply L; try congruence; exact M7|apply L; try congruence; exact U7|apply L; try congruence; exact B7].
  split; cbn [p_yh p_w1 p_w2 p_b1 p_z2 p_a2]; unfold owned; cbn [p_yh p_w1 p_w2 p_b1 p_z2 p_a2].
  - exact W11.
  - rewrite !list.NoDup_cons, !not_elem_of_cons. repeat split; try apply not_elem_of_nil; try congruence. apply NoDup_nil_2.
  - intros l I. rewrite !elem_of_cons, elem_of_nil in I. destruct I as [->|[->|[->|[->|[->|[->|[]]]]]]]; try assumption; apply S; unfold owned; rewrite !elem_of_cons; tauto.
  - eexists _, _. apply L; try congruence. exact Y7.
  - eexists _, _, _. apply L; try congruence. exact M7.
  - eexists _, _. apply L; try congruence. exact U7.
  - eexists _, _. apply L; try congruence. exact B7.
  - eexists _, _, _. rewrite A11, lookup_delete_ne, lookup_insert_ne, lookup_delete_ne by congruence. apply lookup_insert.
  - eexists _, _, _. rewrite A11, lookup_delete_ne by congruence. apply lookup_insert.
  - intros l I. rewrite !not_elem_of_cons in I. destruct I as (? & ? & ? & ? & ? & ? & _). rewrite A11.
    destruct (decide (l = p_a2 o)) as [->|D1]; [rewrite lookup_delete; symmetry; apply S; unfold owned; rewrite !elem_of_cons; tauto|]. rewrite lookup_delete_ne, lookup_insert_ne by congruence.
    destruct (decide (l = p_z2 o)) as [->|D2]; [rewrite lookup_delete; symmetry; apply S; unfold owned; rewrite !elem_of_cons; tauto|]. rewrite lookup_delete_ne, lookup_insert_ne by congruence.
    rewrite E7 by congruence. apply S. unfold owned. rewrite !not_elem_of_cons. repeat split; try congruence. apply not_elem_of_nil.
Qed.
(** With readable stale memory the result is a well-formed network. *)
Lemma wp_p_initialize_ok base o h x y k n hh X (iw1 iw2 : Z -> F) f ib2 (Q : mlp -> heap F -> Prop) : shell base o h -> p_init o = false -> p_x o = Some x -> p_y o = Some y -> p_hid o = Z.of_nat hh -> hh <> 0%nat ->
  base !! x = Some (Mat k n X) -> Z.of_nat n <= int_max -> Z.of_nat hh <= int_max -> Z.of_nat (hh * k) <= int_max ->
  (forall o' h', mlpS base x y k n hh (p_reg o) (p_la o) (p_al o) (Par (fun i j => iw1 (Z.of_nat (i * hh + j))) (vlist hh (fun j => f (Z.of_nat j))) (vlist hh (fun j => iw2 (Z.of_nat j))) ib2) None o' h' -> Q o' h') ->
  wp (p_initialize iw1 iw2 (Some f) ib2 o) h Q.
Proof.
  intros S Ei Ex Ey Eh Hh0 Hx Hn Hh Hhk HQ. destruct (sh_b1 _ _ _ S) as (nb & cb & Vb). eapply wp_p_initialize; [exact S|exact Ei|exact Ex|exact Ey|exact Eh|exact Hh0|exact Hx|exact Hn|exact Hh|exact Hhk|exact Vb|].
  intros o' h' S' Eo M1 M2 M3. apply HQ. split; try apply S'; cbn [t_w1 t_w2 t_b1 t_b2].
  - split; apply vlist_length.
  - exact Eo.
  - exact M1.
  - exact M2.
  - rewrite M3. unfold AVec. rewrite vlist_length. reflexivity.
Qed.

(** The constructor allocates the members. *)
Lemma wp_p_new_shell h (rx ry : option loc) hid reg (la al : F) (iw1 iw2 : Z -> F) stale ib2 (Q : mlp -> heap F -> Prop) : wf h ->
  (forall o h', shell (abs h) o h' -> abs h' !! p_b1 o = Some (SVec 0, []) -> o = Mlp rx ry (p_yh o) (p_w1 o) (p_w2 o) (p_b1 o) s_zero (p_z2 o) (p_a2 o) 0 0 hid reg la al false -> wp (p_initialize iw1 iw2 stale ib2 o) h' Q) ->
  wp (p_new rx ry hid reg la al iw1 iw2 stale ib2) h Q.
Proof.
  intros V HQ. unfold p_new.
  wbind. apply wp_v_new; [exact V|]. intros yh h1 W1 N1 A1 _.
  wbind. apply wp_m_new; [exact W1|]. intros w1 h2 W2 N2 A2 _. rewrite A1 in A2, N2.
  wbind. apply wp_v_new; [exact W2|]. intros w2 h3 W3 N3 A3 _. rewrite A2 in A3, N3.
  wbind. apply wp_m_new; [exact W3|]. intros z2 h4 W4 N4 A4 _. rewrite A3 in A4, N4.
  wbind. apply wp_m_new; [exact W4|]. intros a2 h5 W5 N5 A5 _. rewrite A4 in A5, N5.
  wbind. apply wp_v_new; [exact W5|]. intros b1 h6 W6 N6 A6 _. rewrite A5 in A6, N6. clear A1 A2 A3 A4 A5.
  split_none N2. split_none N3. split_none N4. split_none N5. split_none N6.
  apply HQ; cbn [p_yh p_w1 p_w2 p_b1 p_z2 p_a2]; [|look|reflexivity]. split; unfold owned; cbn [p_yh p_w1 p_w2 p_b1 p_z2 p_a2].
  - exact W6.
  - rewrite !list.NoDup_cons, !not_elem_of_cons. repeat split; try apply not_elem_of_nil; try congruence. apply NoDup_nil_2.
  - intros l I. rewrite !elem_of_cons, elem_of_nil in I. destruct I as [->|[->|[->|[->|[->|[->|[]]]]]]]; assumption.
  - eexists _, _. look.
  - eexists _, _, _. look.
  - eexists _, _. look.
  - eexists _, _. look.
  - eexists _, _, _. look.
  - eexists _, _, _. look.
  - intros l I. rewrite !not_elem_of_cons in I. destruct I as (? & ? & ? & ? & ? & ? & _). rewrite A6, !lookup_insert_ne by congruence. reflexivity.
Qed.

(** Reading an unwritten element. *)
Lemma load_hole h l p sh cs i : wf h -> ptr_of h l = Some p -> abs h !! l = Some (sh, cs) -> cs !! i = Some None -> load p (Z.of_nat i) h = UB.
Proof.
  intros Hwf Hp (o & Ho & <- & Hc)%abs_lookup_Some Hi. unfold ptr_of in Hp. rewrite Ho in Hp. injection Hp as <-.
  unfold load. destruct (o_data o) as [bk|]; [|reflexivity]. destruct (h_blk h !! bk) as [cs'|]; [|reflexivity]. cbn in Hc. subst cs'.
  replace (Z.of_nat i <? 0) with false by lia. rewrite Nat2Z.id, Hi. reflexivity.
Qed.
Lemma hidden_z_UB h x w1 b1 k hh n X W cb : wf h -> abs h !! x = Some (Mat k n X) -> abs h !! w1 = Some (Mat hh k W) -> abs h !! b1 = Some (SVec (Z.of_nat hh), cb) -> cb !! 0%nat = Some None -> n <> 0%nat -> hh <> 0%nat ->
  Z.of_nat (n * hh) <= int_max -> hidden_z (Some x) w1 b1 h = UB.
Proof.
  intros V Hx Hw Hb Hc Hn Hh Hl. unfold hidden_z. apply bind_UB. apply wp_deref_Some. apply bind_UB. eapply wp_m_multn; [exact V|exact Hx|exact Hw|exact Hl|]. intros t h1 W1 N1 A1.
  apply bind_UB. apply wp_deref_Some. apply bind_UB_first. unfold m_add_vecn. assert (Vt : abs h1 !! t = Some (Mat hh n (mat_mul k X W))) by (rewrite A1; apply lookup_insert).
  assert (Vb : abs h1 !! b1 = Some (SVec (Z.of_nat hh), cb)) by (rewrite A1, lookup_insert_ne by congruence; exact Hb).
  apply bind_UB. eapply wp_m_size; [exact Vt|]. apply bind_UB. eapply wp_v_size; [exact Vb|]. cbn [fst snd]. rewrite Z.eqb_refl. cbn [negb].
  apply bind_UB. apply wp_m_new; [exact W1|]. intros u h2 W2 N2 A2 _. apply bind_UB. eapply wp_m_resize; [exact W2|rewrite A2; apply lookup_insert|lia|]. intros h3 W3 A3 _. rewrite A2, insert_insert in A3.
  assert (Dt : u <> t) by congruence. assert (Db : u <> b1) by congruence.
  apply bind_UB. eapply wp_data_ptr; [rewrite A3, lookup_insert_ne by congruence; exact Vt|]. intros pa Pa. apply bind_UB. eapply wp_data_ptr; [rewrite A3, lookup_insert_ne by congruence; exact Vb|]. intros pb Pb.
  apply bind_UB. eapply wp_data_ptr; [rewrite A3; apply lookup_insert|]. intros po Po. apply bind_UB_first. unfold add_vec_loop.
  apply for_UB with (I := fun _ h' => h' = h3) (i0 := 0%nat); [lia|reflexivity|intros; lia|]. intros ? ->. apply for_UB with (I := fun _ h' => h' = h3) (i0 := 0%nat); [lia|reflexivity|intros; lia|]. intros ? ->.
  apply bind_UB. change (Z.of_nat 0 * Z.of_nat hh + Z.of_nat 0) with 0.
  eapply wp_load with (l := t) (i := 0); [exact W3|exact Pa|rewrite A3, lookup_insert_ne by congruence; exact Vt|lia|change (Z.to_nat 0) with (0 * hh + 0)%nat; rewrite list_lookup_fmap, mlist_lookup by lia; reflexivity|].
  apply bind_UB_first. eapply load_hole; [exact W3|exact Pb|rewrite A3, lookup_insert_ne by congruence; exact Vb|exact Hc].
Qed.
Lemma hidden_zv_UB h x w1 b1 k hh xs W cb : wf h -> abs h !! x = Some (AVec xs) -> length xs = k -> abs h !! w1 = Some (Mat hh k W) -> abs h !! b1 = Some (SVec (Z.of_nat hh), cb) -> cb !! 0%nat = Some None -> hh <> 0%nat ->
  Z.of_nat hh <= int_max -> hidden_zv (Some x) w1 b1 h = UB.
Proof.
  intros V Hx El Hw Hb Hc Hh Hl. unfold hidden_zv. apply bind_UB. eapply wp_xt_vec; [exact V|exact Hw|exact Hx|exact El|exact Hl|]. intros t h1 W1 N1 A1.
  apply bind_UB. apply wp_deref_Some. apply bind_UB_first. unfold v_addn, v_op2n. assert (Vt : abs h1 !! t = Some (AVec (xt_e k hh W xs))) by (rewrite A1; apply lookup_insert).
  assert (Vb : abs h1 !! b1 = Some (SVec (Z.of_nat hh), cb)) by (rewrite A1, lookup_insert_ne by congruence; exact Hb).
  apply bind_UB. eapply wp_v_size; [exact Vt|]. apply bind_UB. eapply wp_v_size; [exact Vb|]. rewrite xt_e_length, Z.eqb_refl. cbn [negb].
  apply bind_UB. apply wp_v_new; [exact W1|]. intros u h2 W2 N2 A2 _. apply bind_UB. eapply wp_v_resize; [exact W2|rewrite A2; apply lookup_insert|lia|]. intros h3 W3 A3 _. rewrite A2, insert_insert in A3.
  assert (Dt : u <> t) by congruence. assert (Db : u <> b1) by congruence.
  apply bind_UB. eapply wp_data_ptr; [rewrite A3, lookup_insert_ne by congruence; exact Vt|]. intros pa Pa. apply bind_UB. eapply wp_data_ptr; [rewrite A3, lookup_insert_ne by congruence; exact Vb|]. intros pb Pb.
  apply bind_UB. eapply wp_data_ptr; [rewrite A3; apply lookup_insert|]. intros po Po. apply bind_UB_first. unfold loop2.
  apply for_UB with (I := fun _ h' => h' = h3) (i0 := 0%nat); [lia|reflexivity|intros; lia|]. intros ? ->.
  apply bind_UB. eapply wp_load with (l := t) (i := 0); [exact W3|exact Pa|rewrite A3, lookup_insert_ne by congruence; exact Vt|lia|change (Z.to_nat 0) with 0%nat; unfold xt_e; rewrite list_lookup_fmap, vlist_lookup by lia; reflexivity|].
  apply bind_UB_first. eapply load_hole; [exact W3|exact Pb|rewrite A3, lookup_insert_ne by congruence; exact Vb|exact Hc].
Qed.
End mlp.
