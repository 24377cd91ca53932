(** * C62, C63, C64: weight initialisation, hidden layer, output layer. *)
From Verif Require Import Base BaseProofs Vec VecSpec VecProofs VecProofs2 Mat MatSpec MatProofs MatProofs2 MatProofs3 MatProofs4 MatProofs5 Act Sym ActProofs Util UtilProofs Cost Glm GlmProofs GlmProofs2
  Mlp MlpProofs MlpProofs6 Layer RInst LibmR PropAct PropAct2 PropSvm LsqMath GlmMath PropGlm2 LayerSpec LayerProofs Svm.
From Coq Require Import Reals Lra.
Open Scope R_scope.
Implicit Types (h : heap R).

(** ** C62: weight initialisation.  Every element is replaced; element i comes from raw draw i. *)
Theorem C62_vector t raw h l n cs : wf h -> abs h !! l = Some (SVec n, cs) ->
  runs (weight_initialization_v t raw l) h (fun _ h' => abs h' = <[l := AVec (map (fun i => dist_v t (length cs) (raw (Z.of_nat i))) (seq 0 (length cs)))]> (abs h)).
Proof. intros V Hl. apply runs_wp. eapply wp_weight_initialization_v; [exact V|exact Hl|]. intros h' W A. split; assumption. Qed.
Theorem C62_matrix t raw h l (c r : nat) cs : wf h -> abs h !! l = Some (SMat (Z.of_nat c) (Z.of_nat r), cs) -> (1 <= c)%nat -> (Z.of_nat (c + r) <= int_max)%Z ->
  runs (weight_initialization_m t raw l) h (fun _ h' => abs h' = <[l := Mat c r (fun i j => dist_m t c r (raw (Z.of_nat (i * c + j))))]> (abs h)).
Proof. intros V Hl Hc Hs. apply runs_wp. eapply wp_weight_initialization_m; [exact V|exact Hl|exact Hc|exact Hs|]. intros h' W A. split; assumption. Qed.
(** A matrix without columns: the distributions that divide by the column count divide by zero. *)
Theorem C62_matrix_no_columns_UB t raw h l (r : nat) cs : wf h -> abs h !! l = Some (SMat 0 (Z.of_nat r), cs) -> t ∈ [WHeNormal; WHeUniform; WLeCunNormal; WLeCunUniform] ->
  weight_initialization_m t raw l h = UB.
Proof.
  intros V Hl Ht. unfold weight_initialization_m. apply bind_UB. eapply wp_m_size; [exact Hl|]. cbn [fst snd]. apply bind_UB_first.
  rewrite !elem_of_cons, elem_of_nil in Ht. destruct Ht as [->|[->|[->|[->|[]]]]]; reflexivity.
Qed.
Lemma spread_range s u : 0 <= s -> 0 <= u < 1 -> - s <= spread s u <= s.
Proof. intros. unfold spread. nra. Qed.
(** Vectors: the uniform distributions stay within the advertised limit. *)
Theorem C62_vector_limits n u : 0 <= u < 1 -> (1 <= n)%nat ->
  Rabs (dist_v WXavierUniform n u) <= sqrt (6 / (INR n + 1)) /\ Rabs (dist_v WHeUniform n u) <= sqrt (6 / INR n) /\ Rabs (dist_v WLeCunUniform n u) <= sqrt (3 / INR n) /\
  Rabs (dist_v WUniform n u) <= 1 / sqrt (INR n) /\ 0 <= dist_v WDefault n u < 1.
Proof.
  intros Hu Hn. assert (0 < INR n) by (apply lt_0_INR; lia). split_and!; cbn [dist_v]; try lra.
  1-3: apply Rabs_le, spread_range; [apply sqrt_pos|exact Hu].
  apply Rabs_le, spread_range; [|exact Hu]. apply Rlt_le, Rdiv_lt_0_compat; [lra|]. apply sqrt_lt_R0. exact H.
Qed.
(** Matrices: the scale is computed with integer division, so it is zero for all but tiny matrices and every weight is zero. *)
Theorem C62_matrix_scale_refuted t n m u : (1 <= n)%nat ->
  (t = WXavierNormal /\ (2 < n + m)%nat) \/ (t = WXavierUniform /\ (6 < n + m)%nat) \/ (t = WHeNormal /\ (2 < n)%nat) \/ (t = WHeUniform /\ (6 < n)%nat) \/ (t = WLeCunNormal /\ (1 < n)%nat) \/ (t = WLeCunUniform /\ (3 < n)%nat) ->
  dist_m t n m u = 0.
Proof.
  intros Hn Ht. assert (Z0 : forall a b, (0 <= a < b)%Z -> sqrt (IZR (a / b)) = 0) by (intros; rewrite Z.div_small by lia; apply sqrt_0).
  destruct Ht as [[-> Ht]|[[-> Ht]|[[-> Ht]|[[-> Ht]|[[-> Ht]|[-> Ht]]]]]]; cbn [dist_m]; unfold spread; rewrite Z0 by lia; ring.
Qed.
Theorem C62_matrix_limits n m u : 0 <= u < 1 -> (1 <= n)%nat -> Rabs (dist_m WUniform n m u) <= 1 / sqrt (INR n) /\ 0 <= dist_m WDefault n m u < 1.
Proof.
  intros Hu Hn. assert (0 < INR n) by (apply lt_0_INR; lia). split; cbn [dist_m]; [|lra].
  apply Rabs_le, spread_range; [|exact Hu]. apply Rlt_le, Rdiv_lt_0_compat; [lra|]. apply sqrt_lt_R0. exact H.
Qed.

(** ** C63: the hidden layer *)
(** The objects a layer refers to: input, weights, bias, pre-activations; no two matrices coincide. *)
Definition hl_refs (o : hlayer R) (x w b z : loc) : Prop := hl_in o = Some x /\ hl_w o = Some w /\ hl_b o = Some b /\ hl_z o = Some z /\ w <> x /\ z <> x /\ z <> w.
Definition is_matrix h (l : loc) : Prop := exists x y cs, abs h !! l = Some (SMat x y, cs).

(** An initialised layer: z = X W + b, a = activation(z); weights, bias and input are unchanged. *)
Theorem C63_forward (o : hlayer R) raw h x w b z (k n u : nat) X W bs : wf h -> hl_init o = true -> hl_refs o x w b z -> m_ok (hl_act o) ->
  abs h !! x = Some (Mat k n X) -> abs h !! w = Some (Mat u k W) -> abs h !! b = Some (AVec bs) -> length bs = u -> is_matrix h z -> (Z.of_nat (n * u) <= int_max)%Z ->
  runs (hl_forward raw o) h (fun o' h' => exists a, abs h !! a = None /\ hl_a o' = Some a /\ (forall key, key <> KA -> hl_get key o' = hl_get key o) /\ hl_init o' = true /\
    abs h' = <[a := Mat u n (fun i j => run_norm_real (hl_act o) (dense k X W bs i j))]> (<[z := Mat u n (dense k X W bs)]> (abs h))).
Proof.
  intros V Ei (E1 & E2 & E3 & E4 & D1 & D2 & D3) Hf Hx Hw Hb El (x0 & y0 & cz & Hz) Hl. apply runs_wp. unfold hl_forward, hl_initialize. wbind. rewrite Ei. apply wp_ret.
  eapply wp_fwd_body; eauto. intros a h' W' N A. split; [exact W'|]. exists a. split_and!; try assumption; try reflexivity. intros [] Hk; try reflexivity. congruence.
Qed.
(** A layer that is not initialised replaces its weights - the very object it refers to - by drawn ones before it computes. *)
Theorem C63_forward_redraws (o : hlayer R) raw h x w b z (k n u : nat) X bs : wf h -> hl_init o = false -> hl_refs o x w b z -> m_ok (hl_act o) -> hl_n o = Z.of_nat u -> (1 <= u)%nat ->
  abs h !! x = Some (Mat k n X) -> is_matrix h w -> abs h !! b = Some (AVec bs) -> length bs = u -> is_matrix h z -> (Z.of_nat (n * u) <= int_max)%Z -> (Z.of_nat (u * k) <= int_max)%Z -> (Z.of_nat (u + k) <= int_max)%Z ->
  runs (hl_forward raw o) h (fun o' h' => exists a, abs h !! a = None /\ hl_a o' = Some a /\ (forall key, key <> KA -> hl_get key o' = hl_get key o) /\ hl_init o' = true /\
    let W := drawn_m (hl_wi o) u k raw in
    abs h' = <[a := Mat u n (fun i j => run_norm_real (hl_act o) (dense k X W bs i j))]> (<[z := Mat u n (dense k X W bs)]> (<[w := Mat u k W]> (abs h)))).
Proof.
  intros V Ei (E1 & E2 & E3 & E4 & D1 & D2 & D3) Hf Eu Hu Hx (xw & yw & cw & Hw) Hb El (x0 & y0 & cz & Hz) Hl Hl1 Hl2. apply runs_wp. unfold hl_forward. wbind. assert (w <> b) by (intros ->; rewrite Hw in Hb; discriminate). assert (z <> b) by (intros ->; rewrite Hz in Hb; discriminate).
  eapply wp_hl_initialize; eauto. intros h1 W1 A1. assert (A1' : abs h1 = <[w := Mat u k (drawn_m (hl_wi o) u k raw)]> (abs h)).
  { rewrite A1. f_equal. apply insert_id. rewrite Hb. unfold AVec. rewrite El. do 2 f_equal. symmetry. apply resize_all_alt. rewrite fmap_length. congruence. }
  clear A1. assert (x <> b) by (intros ->; rewrite Hx in Hb; discriminate).
  eapply (wp_fwd_body (hl_done o true) h1 x w b z k n u X (drawn_m (hl_wi o) u k raw) bs); [exact W1|exact E1|exact E2|exact E3|exact E4|exact D2|exact D3|exact Hf|look|look|look|exact El|look|exact Hl|].
  intros a h' W' N A. rewrite A1' in N, A. apply lookup_insert_None in N as [N Da]. split; [exact W'|]. exists a. split_and!; try assumption; try reflexivity. intros [] Hk; try reflexivity. congruence.
Qed.
(** A new layer reads its bias before anything has written it. *)
Theorem C63_new_UB (n_hidden : nat) f h x (k n : nat) X t reg la al raw raw' : wf h -> (1 <= n_hidden)%nat -> (1 <= n)%nat ->
  abs h !! x = Some (Mat k n X) -> (Z.of_nat (n * n_hidden) <= int_max)%Z -> (Z.of_nat (n_hidden * k) <= int_max)%Z -> (Z.of_nat (n_hidden + k) <= int_max)%Z ->
  bind (hl_new (Z.of_nat n_hidden) f (Some x) t reg la al raw) (hl_forward raw') h = UB.
Proof.
  intros V Hu Hn Hx Hl Hl1 Hl2. apply bind_UB. unfold hl_new.
  wbind. apply wp_m_new; [exact V|]. intros z h1 W1 N1 A1 _. wbind. apply wp_m_new; [exact W1|]. intros a h2 W2 N2 A2 _. rewrite A1 in N2, A2. clear A1. wbind. apply wp_v_new; [exact W2|]. intros zt h3 W3 N3 A3 _. rewrite A2 in N3, A3. clear A2.
  wbind. apply wp_v_new; [exact W3|]. intros at_ h4 W4 N4 A4 _. rewrite A3 in N4, A4. clear A3. wbind. apply wp_m_new; [exact W4|]. intros d h5 W5 N5 A5 _. rewrite A4 in N5, A5. clear A4.
  wbind. apply wp_m_new; [exact W5|]. intros w h6 W6 N6 A6 _. rewrite A5 in N6, A6. clear A5. wbind. apply wp_v_new; [exact W6|]. intros b h7 W7 N7 A7 _. rewrite A6 in N7, A7. clear A6.
  split_none N2. split_none N3. split_none N4. split_none N5. split_none N6. split_none N7.
  eapply wp_hl_initialize; [exact W7|reflexivity|reflexivity|reflexivity|reflexivity|congruence|reflexivity|exact Hu|look|look|look|exact Hl1|exact Hl2|]. intros h8 W8 A8. rewrite A7 in A8.
  unfold hl_forward. apply bind_UB. apply wp_ret. eapply fwd_body_UB; [exact W8|reflexivity|reflexivity|reflexivity|reflexivity|congruence|congruence|look|look|look| |look|exact Hl|exact Hu|exact Hn].
  clear - Hu. change (Some <$> []) with (@nil (option R)). apply lookup_resize_new; [cbn; lia|lia].
Qed.
(** test: one row through an initialised layer. *)
Theorem C63_test (o : hlayer R) raw h x w b (k u : nat) xs W bs : wf h -> hl_init o = true -> hl_w o = Some w -> hl_b o = Some b -> v_ok (hl_act o) ->
  abs h !! x = Some (AVec xs) -> length xs = k -> abs h !! w = Some (Mat u k W) -> abs h !! b = Some (AVec bs) -> length bs = u -> (Z.of_nat u <= int_max)%Z ->
  runs (hl_test raw (Some x) o) h (fun o' h' => exists zt a zs, hl_zt o' = Some zt /\ hl_at o' = Some a /\ abs h !! zt = None /\ abs h !! a = None /\
    (forall key, key <> KZTest -> key <> KATest -> hl_get key o' = hl_get key o) /\ length zs = u /\
    (forall j, (j < u)%nat -> nth j zs 0 = Rsum k (fun t => nth t xs 0 * W t j) + nth j bs 0) /\
    abs h' = <[a := AVec (run_norm_real (hl_act o) <$> zs)]> (<[zt := AVec zs]> (abs h))).
Proof.
  intros V Ei E2 E3 Hf Hx Ek Hw Hb El Hl. apply runs_wp. unfold hl_test, hl_initialize. wbind. rewrite Ei. apply wp_ret.
  eapply wp_test_body; eauto. intros zt a h' W' N1 N2 D A. split; [exact W'|]. exists zt, a, (dense1 k u xs W bs). unfold dense1 in *. rewrite vlist_length. split_and!; try assumption; try reflexivity.
  - intros [] Hk1 Hk2; try reflexivity; congruence.
  - intros j Hj. rewrite nth_vlist by exact Hj. reflexivity.
Qed.
(** Testing a row of the input gives the row of activations that forward_pass computes. *)
Theorem C63_test_is_row (o : hlayer R) raw raw' h x w b z r (k n u i : nat) X W bs : wf h -> hl_init o = true -> hl_refs o x w b z -> m_ok (hl_act o) ->
  abs h !! x = Some (Mat k n X) -> abs h !! w = Some (Mat u k W) -> abs h !! b = Some (AVec bs) -> length bs = u -> is_matrix h z -> (Z.of_nat (n * u) <= int_max)%Z -> (Z.of_nat u <= int_max)%Z ->
  (i < n)%nat -> abs h !! r = Some (AVec (map (X i) (seq 0 k))) ->
  runs (bind (hl_forward raw o) (hl_test raw' (Some r))) h (fun o' h' => exists a at_ A row, hl_a o' = Some a /\ hl_at o' = Some at_ /\ abs h' !! a = Some (Mat u n A) /\ abs h' !! at_ = Some (AVec row) /\
    length row = u /\ forall j, (j < u)%nat -> nth j row 0 = A i j).
Proof.
  intros V Ei HR Hf Hx Hw Hb El Hz Hl Hu Hi Hr. pose proof HR as (E1 & E2 & E3 & E4 & D1 & D2 & D3). destruct Hz as (x0 & y0 & cz & Hz).
  assert (Hv : v_ok (hl_act o)) by (unfold m_ok, v_ok in *; rewrite !elem_of_cons in Hf; split; tauto).
  apply runs_wp. wbind. unfold hl_forward, hl_initialize. wbind. rewrite Ei. apply wp_ret. eapply wp_fwd_body; eauto. intros a h1 W1 N1 A1.
  unfold hl_test, hl_initialize. wbind. cbn [hl_put_a hl_init]. rewrite Ei. apply wp_ret.
  assert (w <> b) by (intros ->; rewrite Hw in Hb; discriminate). assert (z <> b) by (intros ->; rewrite Hz in Hb; discriminate). assert (z <> r) by (intros ->; rewrite Hz in Hr; discriminate). assert (Len : length (map (X i) (seq 0 k)) = k) by (rewrite map_length; apply seq_length).
  eapply (wp_test_body (hl_put_a o (Some a)) h1 r w b k u _ W bs); [exact W1|exact E2|exact E3|exact Hv|look|exact Len|look|look|exact El|exact Hu|].
  intros zt a' h2 W2 N2 N3 D A2. split; [exact W2|]. rewrite A1 in N2, N3, A2. split_none N2. split_none N3. exists a, a', (fun i j => run_norm_real (hl_act o) (dense k X W bs i j)), (run_norm_real (hl_act o) <$> dense1 k u (map (X i) (seq 0 k)) W bs).
  split_and!; [reflexivity|reflexivity|look|look|unfold dense1; rewrite fmap_length, vlist_length; reflexivity|].
  intros j Hj. rewrite GlmMath.nth_fmap by (unfold dense1; rewrite vlist_length; exact Hj). f_equal. unfold dense1. rewrite nth_vlist by exact Hj. unfold dense. f_equal. apply Rsum_ext. intros t Ht. f_equal.
  change (map (X i) (seq 0 k)) with (vlist k (X i)). apply nth_vlist. exact Ht.
Qed.
(** Setters: the value read back, the other members untouched, and the layer is no longer initialised. *)
Definition hkey_of (s : hset R) : hkey := match s with SN _ => KN | SAct _ => KAct | SInput _ => KInput | SWeights _ => KWeights | SBias _ => KBias | SZ _ => KZ | SA _ => KA | SZTest _ => KZTest | SATest _ => KATest
  | SDelta _ => KDelta | SReg _ => KReg | SLambda _ => KLambda | SAlpha _ => KAlpha | SWInit _ => KWInit end.
Definition hval_of (s : hset R) : val R := match s with SN n => VZ n | SAct f => VAct f | SInput r | SWeights r | SBias r | SZ r | SA r | SZTest r | SATest r | SDelta r => VRef r
  | SReg t => VReg t | SLambda v | SAlpha v => VF v | SWInit t => VWInit t end.
Theorem C63_setters (s : hset R) (o : hlayer R) : hl_get (hkey_of s) (hl_set s o) = Some (hval_of s) /\ (forall key, key <> hkey_of s -> hl_get key (hl_set s o) = hl_get key o) /\ hl_init (hl_set s o) = false.
Proof. destruct s; (split; [reflexivity|split; [|reflexivity]]); intros [] Hk; try reflexivity; exfalso; apply Hk; reflexivity. Qed.
(** Weights handed to a layer are never used: the next forward pass overwrites the caller's matrix with drawn values. *)
Theorem C63_set_weights_lost (o : hlayer R) raw h x w b z (k n u : nat) X (W : nat -> nat -> R) bs : wf h -> hl_refs (hl_set (SWeights (Some w)) o) x w b z -> m_ok (hl_act o) -> hl_n o = Z.of_nat u -> (1 <= u)%nat ->
  abs h !! x = Some (Mat k n X) -> abs h !! w = Some (Mat u k W) -> abs h !! b = Some (AVec bs) -> length bs = u -> is_matrix h z -> (Z.of_nat (n * u) <= int_max)%Z -> (Z.of_nat (u + k) <= int_max)%Z ->
  runs (hl_forward raw (hl_set (SWeights (Some w)) o)) h (fun o' h' => exists a, hl_a o' = Some a /\ abs h' !! w = Some (Mat u k (drawn_m (hl_wi o) u k raw)) /\
    abs h' !! a = Some (Mat u n (fun i j => run_norm_real (hl_act o) (dense k X (drawn_m (hl_wi o) u k raw) bs i j)))).
Proof.
  intros V HR Hf Eu Hu Hx Hw Hb El Hz Hl Hl2. destruct (amat_len h w _ _ _ V Hw) as [_ Hwl]. assert (Hm : is_matrix h w) by (eexists _, _, _; exact Hw).
  destruct (C63_forward_redraws (hl_set (SWeights (Some w)) o) raw h x w b z k n u X bs V eq_refl HR Hf Eu Hu Hx Hm Hb El Hz Hl ltac:(lia) Hl2) as (o' & h' & E & W' & a & N & Ea & _ & _ & A).
  exists o', h'. split; [exact E|]. split; [exact W'|]. exists a. split; [exact Ea|]. cbv zeta in A. destruct HR as (_ & _ & _ & _ & _ & _ & D). destruct Hz as (?&?&?&Hz). split; rewrite A; [|apply lookup_insert].
  rewrite !lookup_insert_ne by congruence. apply lookup_insert.
Qed.
(** With one of the distributions whose scale vanishes, the layer ignores its input. *)
Theorem C63_ignores_input_refuted t (n m k : nat) X X' raw bs i j : (1 <= n)%nat -> (t = WXavierUniform \/ t = WXavierNormal) -> (6 < n + k)%nat ->
  dense k X (drawn_m t n k raw) bs i j = nth j bs 0 /\ dense k X (drawn_m t n k raw) bs i j = dense k X' (drawn_m t n k raw) bs m j.
Proof.
  intros Hn Ht Hk. assert (G : forall X i, dense k X (drawn_m t n k raw) bs i j = nth j bs 0); [|rewrite !G; split; reflexivity].
  intros Y q. unfold dense. rewrite (Rsum_ext k _ (fun _ => 0)); [|intros; unfold drawn_m; rewrite C62_matrix_scale_refuted by (destruct Ht as [-> | ->]; first [assumption|tauto| (right; left; split; [reflexivity|exact Hk]) | (left; split; [reflexivity|lia])]); ring].
  rewrite Rsum_zero. ring.
Qed.

(** ** C64: the output layer *)
Theorem C64_forward (o : olayer R) raw rb h x w (k n : nat) X ws : wf h -> ol_init o = true -> ol_in o = Some x -> ol_w o = Some w -> v_ok (ol_act o) ->
  abs h !! x = Some (Mat k n X) -> abs h !! w = Some (AVec ws) -> length ws = k -> (Z.of_nat n <= int_max)%Z ->
  runs (ol_forward raw rb o) h (fun o' h' => exists z a zs, ol_z o' = Some z /\ ol_a o' = Some a /\ abs h !! z = None /\ abs h !! a = None /\
    (forall key, key <> KZ -> key <> KA -> ol_get key o' = ol_get key o) /\ ol_init o' = true /\ length zs = n /\
    (forall i, (i < n)%nat -> nth i zs 0 = Rsum k (fun t => X i t * nth t ws 0) + ol_b o) /\
    abs h' = <[a := AVec (run_norm_real (ol_act o) <$> zs)]> (<[z := AVec zs]> (abs h))).
Proof.
  intros V Ei E1 E2 Hf Hx Hw El Hl. apply runs_wp. unfold ol_forward, ol_initialize. wbind. rewrite Ei. apply wp_ret. eapply wp_ol_fwd_body; eauto. intros z a h' W' N1 N2 D A. split; [exact W'|].
  exists z, a, (lin n k X ws (ol_b o)). split_and!; try assumption; try reflexivity; try (unfold lin; rewrite vlist_length; reflexivity).
  - intros [] H1 H2; try reflexivity; congruence.
  - intros i Hi. unfold lin. rewrite nth_vlist by exact Hi. reflexivity.
Qed.
(** Not initialised: weights and bias are drawn, whatever they were. *)
Theorem C64_forward_redraws (o : olayer R) raw rb h x w (k n : nat) X nw cw : wf h -> ol_init o = false -> ol_in o = Some x -> ol_w o = Some w -> v_ok (ol_act o) -> ol_n o = Z.of_nat k ->
  abs h !! x = Some (Mat k n X) -> abs h !! w = Some (SVec nw, cw) -> (Z.of_nat n <= int_max)%Z -> (Z.of_nat k <= int_max)%Z ->
  runs (ol_forward raw rb o) h (fun o' h' => exists z a zs, ol_z o' = Some z /\ ol_a o' = Some a /\ abs h !! z = None /\ abs h !! a = None /\
    (forall key, key <> KZ -> key <> KA -> key <> KBias -> ol_get key o' = ol_get key o) /\ ol_b o' = rb /\ ol_init o' = true /\ length zs = n /\
    (forall i, (i < n)%nat -> nth i zs 0 = Rsum k (fun t => X i t * dist_v (ol_wi o) k (raw (Z.of_nat t))) + rb) /\
    abs h' = <[a := AVec (run_norm_real (ol_act o) <$> zs)]> (<[z := AVec zs]> (<[w := AVec (drawn_v (ol_wi o) k raw)]> (abs h)))).
Proof.
  intros V Ei E1 E2 Hf En Hx Hw Hl Hk. assert (x <> w) by (intros ->; rewrite Hx in Hw; discriminate). apply runs_wp. unfold ol_forward. wbind. eapply wp_ol_initialize; eauto. intros h1 W1 A1.
  eapply (wp_ol_fwd_body (ol_ready o rb) h1 x w k n X (drawn_v (ol_wi o) k raw)); [exact W1|exact E1|exact E2|exact Hf|look|look|unfold drawn_v; rewrite map_length; apply seq_length|exact Hl|]. intros z a h' W' N1 N2 D A. split; [exact W'|].
  rewrite A1 in N1, N2, A. split_none N1. split_none N2. exists z, a, (lin n k X (drawn_v (ol_wi o) k raw) rb). split_and!; try assumption; try reflexivity; try (unfold lin; rewrite vlist_length; reflexivity).
  - intros [] H1 H2 H3; try reflexivity; congruence.
  - intros i Hi. unfold lin. rewrite nth_vlist by exact Hi. f_equal. apply Rsum_ext. intros t Ht. f_equal. change (drawn_v (ol_wi o) k raw) with (vlist k (fun i => dist_v (ol_wi o) k (raw (Z.of_nat i)))). apply nth_vlist. exact Ht.
Qed.
Theorem C64_test (o : olayer R) raw rb h x w (k : nat) xs ws : wf h -> ol_init o = true -> ol_w o = Some w -> abs h !! x = Some (AVec xs) -> abs h !! w = Some (AVec ws) -> length xs = k -> length ws = k ->
  runs (ol_test raw rb (Some x) o) h (fun o' h' => ol_zt o' = Rsum k (fun t => nth t xs 0 * nth t ws 0) + ol_b o /\ ol_at o' = run_norm_real (ol_act o) (ol_zt o') /\
    (forall key, key <> KZTest -> key <> KATest -> ol_get key o' = ol_get key o) /\ ol_init o' = true /\ abs h' = abs h).
Proof.
  intros V Ei E2 Hx Hw E3 E4. apply runs_wp. unfold ol_test, ol_initialize. wbind. rewrite Ei. apply wp_ret. rewrite E2. wbind. apply wp_deref_Some. wbind. eapply wp_v_dot; [exact V|exact Hw|exact Hx|]. rewrite decide_True by congruence.
  apply wp_ret. split; [exact V|]. pose proof (dotl_R ws xs ltac:(congruence)) as E. unfold dotl in E. split_and!; try assumption; try reflexivity.
  - cbn [ol_put_t ol_zt]. transitivity (dotl ws xs + ol_b o); [reflexivity|]. rewrite <- E3. f_equal. exact E.
  - intros [] H1 H2; try reflexivity; congruence.
Qed.
Definition okey_of (s : oset R) : hkey := match s with ON _ => KN | OAct _ => KAct | OCost _ => KCost | OInput _ => KInput | OWeights _ => KWeights | OBias _ => KBias | OZ _ => KZ | OA _ => KA | OZTest _ => KZTest | OATest _ => KATest
  | ODelta _ => KDelta | OReg _ => KReg | OLambda _ => KLambda | OAlpha _ => KAlpha | OWInit _ => KWInit end.
Definition oval_of (s : oset R) : val R := match s with ON n => VZ n | OAct f => VAct f | OCost c => VCost c | OInput r | OWeights r | OZ r | OA r | ODelta r => VRef r
  | OReg t => VReg t | OBias v | OZTest v | OATest v | OLambda v | OAlpha v => VF v | OWInit t => VWInit t end.
(** Setters: all but set_reg make the layer uninitialised. *)
Theorem C64_setters (s : oset R) (o : olayer R) : ol_get (okey_of s) (ol_set s o) = Some (oval_of s) /\ (forall key, key <> okey_of s -> ol_get key (ol_set s o) = ol_get key o) /\
  ol_init (ol_set s o) = match s with OReg _ => ol_init o | _ => false end.
Proof. destruct s; (split; [reflexivity|split; [|reflexivity]]); intros [] Hk; try reflexivity; exfalso; apply Hk; reflexivity. Qed.
(** The constructor: an initialised layer with drawn weights and bias. *)
Theorem C64_new (k : nat) f c rx t reg la al raw rb h : wf h -> (Z.of_nat k <= int_max)%Z ->
  runs (ol_new (Z.of_nat k) f c rx t reg la al raw rb) h (fun o h' => exists w, ol_w o = Some w /\ abs h !! w = None /\ abs h' !! w = Some (AVec (drawn_v t k raw)) /\ ol_b o = rb /\ ol_init o = true /\ ol_in o = rx /\ ol_act o = f /\ ol_cost o = c /\
    ol_reg o = reg /\ ol_la o = la /\ ol_al o = al /\ ol_wi o = t /\ ol_n o = Z.of_nat k /\ forall l, abs h !! l <> None -> abs h' !! l = abs h !! l).
Proof.
  intros V Hk. apply runs_wp. unfold ol_new. wbind. apply wp_v_new; [exact V|]. intros z h1 W1 N1 A1 _. wbind. apply wp_v_new; [exact W1|]. intros a h2 W2 N2 A2 _. rewrite A1 in N2, A2. clear A1. wbind. apply wp_v_new; [exact W2|]. intros d h3 W3 N3 A3 _. rewrite A2 in N3, A3. clear A2.
  wbind. apply wp_v_new; [exact W3|]. intros w h4 W4 N4 A4 _. rewrite A3 in N4, A4. clear A3. split_none N2. split_none N3. split_none N4.
  eapply wp_ol_initialize; [exact W4|reflexivity|reflexivity|reflexivity|exact Hk|look|]. intros h5 W5 A5. split; [exact W5|]. exists w. rewrite A4, insert_insert in A5. split_and!; try reflexivity; try assumption.
  - look.
  - intros l Hl. rewrite A5, !lookup_insert_ne by congruence. reflexivity.
Qed.
