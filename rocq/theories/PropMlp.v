(** * C60: the perceptron object (MLPPMLP): construction, initialisation, setters, and what the three training methods compute.
    For any element arithmetic.  [mlpS base x y k n hh reg la al p Y o h] says: object [o] in heap [h] has n rows of k inputs at [x], labels at [y],
    hh hidden units, parameters [p] (and predictions [Y]), owns its six members, and the rest of the heap is [base]. *)
From Verif Require Import Base BaseProofs Vec VecSpec VecProofs VecProofs2 Mat MatSpec MatProofs MatProofs2 MatProofs3 MatProofs5 Act Sym Svm Cost Util UtilProofs Glm GlmProofs GlmProofs2 Mlp MlpProofs MlpProofs2 MlpProofs3 MlpProofs4 MlpProofs5 MlpProofs6.
Section mlp.
Context {F : Type} `{Scalar F} `{Libm F}.
Implicit Types (h : heap F) (ys : list F) (X : nat -> nat -> F).

(** The constructor: row-major drawn hidden weights, drawn output weights and bias; the hidden biases are whatever the memory of the new vector held
    ([stale], assumed readable); x, y and everything else untouched. *)
Theorem C60_new h x y k n hh X reg (la al : F) iw1 iw2 stale ib2 : wf h -> abs h !! x = Some (Mat k n X) -> hh <> 0%nat -> Z.of_nat n <= int_max -> Z.of_nat hh <= int_max -> Z.of_nat (hh * k) <= int_max ->
  runs (p_new (Some x) (Some y) (Z.of_nat hh) reg la al iw1 iw2 (Some stale) ib2) h (fun o h' =>
    mlpS (abs h) x y k n hh reg la al (Par (fun i j => iw1 (Z.of_nat (i * hh + j))) (vlist hh (fun j => stale (Z.of_nat j))) (vlist hh (fun j => iw2 (Z.of_nat j))) ib2) None o h').
Proof.
  intros W Hx Hz Hn Hh Hk. apply runs_wp. apply wp_p_new_shell; [exact W|]. intros o h1 S _ Eo. assert (E : p_init o = false /\ p_x o = Some x /\ p_y o = Some y /\ p_hid o = Z.of_nat hh /\ p_reg o = reg /\ p_la o = la /\ p_al o = al) by (rewrite Eo; auto 10).
  destruct E as (E1 & E2 & E3 & E4 & E5 & E6 & E7). eapply wp_p_initialize_ok; [exact S|exact E1|exact E2|exact E3|exact E4|exact Hz|exact Hx|exact Hn|exact Hh|exact Hk|]. rewrite E5, E6, E7. intros o' h' S'. split; [apply S'|exact S'].
Qed.
(** Defect: bias_initializationv never writes its argument, so the hidden biases of a new network are uninitialised memory, and training,
    testing a set and testing a point all read it. *)
Theorem C60_first_use_UB h x y k n hh X reg (la al : F) iw1 iw2 ib2 : wf h -> abs h !! x = Some (Mat k n X) -> hh <> 0%nat -> n <> 0%nat -> Z.of_nat n <= int_max -> Z.of_nat hh <= int_max -> Z.of_nat (hh * k) <= int_max -> Z.of_nat (n * hh) <= int_max ->
  let new := p_new (Some x) (Some y) (Z.of_nat hh) reg la al iw1 iw2 None ib2 in
  (forall lr max, (let! o := new in p_gradient_descent lr max o) h = UB) /\
  (let! o := new in p_model_set_test o (Some x)) h = UB /\
  (forall t xs, abs h !! t = Some (AVec xs) -> length xs = k -> (let! o := new in p_model_test o (Some t)) h = UB).
Proof.
  intros W Hx Hz Hn0 Hn Hh Hk Hnh new.
  assert (G : forall B (g : mlp -> M F B), (forall o h', shell (abs h) o h' -> p_init o = true -> p_x o = Some x -> abs h' !! p_w1 o = Some (Mat hh k (fun i j => iw1 (Z.of_nat (i * hh + j)))) -> abs h' !! p_b1 o = Some (SVec (Z.of_nat hh), replicate hh None) -> g o h' = UB) -> (let! o := new in g o) h = UB).
  { intros B g G. apply bind_UB. unfold new. apply wp_p_new_shell; [exact W|]. intros o h1 S Vb Eo. assert (E : p_init o = false /\ p_x o = Some x /\ p_y o = Some y /\ p_hid o = Z.of_nat hh) by (rewrite Eo; auto 10). destruct E as (E1 & E2 & E3 & E4).
    eapply wp_p_initialize; [exact S|exact E1|exact E2|exact E3|exact E4|exact Hz|exact Hx|exact Hn|exact Hh|exact Hk|exact Vb|]. intros o' h' S' Eo' M1 M2 M3. apply G; [exact S'|rewrite Eo'; reflexivity|rewrite Eo'; reflexivity|exact M1|]. rewrite M3, resize_nil. reflexivity. }
  assert (R0 : (replicate hh None : list (cell F)) !! 0%nat = Some None) by (apply lookup_replicate; split; [reflexivity|lia]).
  assert (K : forall o h' l a, shell (abs h) o h' -> abs h !! l = Some a -> abs h' !! l = Some a) by (intros o h' l a S E; rewrite (sh_frame _ _ _ S); [exact E|]; intros I; rewrite (sh_new _ _ _ S l I) in E; discriminate).
  split_and!.
  - intros lr max. apply G. intros o h' S Ei Ex M1 M3. unfold p_gradient_descent. rewrite Ei. cbn [negb]. destruct (sh_yh _ _ _ S) as (n0 & c0 & V0). apply bind_UB. eapply wp_v_fill; [apply S|exact V0|]. intros h2 W2 _ A2.
    pose proof (sh_own _ _ _ S) as ND. apply owned_ne in ND as (? & ? & ? & ? & ? & ? & ? & ? & ? & ? & ? & ? & ? & ? & ?).
    assert (Dx : x <> p_yh o) by (intros ->; rewrite (K _ _ _ _ S Hx) in V0; discriminate).
    apply bind_UB_first. unfold p_forward_pass, propagatem. rewrite Ex. apply bind_UB_first, bind_UB_first. eapply hidden_z_UB; [exact W2|rewrite A2, lookup_insert_ne by congruence; eapply K; eassumption|rewrite A2, lookup_insert_ne by congruence; exact M1|rewrite A2, lookup_insert_ne by congruence; exact M3|exact R0|exact Hn0|exact Hz|exact Hnh].
  - apply G. intros o h' S Ei Ex M1 M3. apply bind_UB_first. eapply hidden_z_UB; [apply S|eapply K; eassumption|exact M1|exact M3|exact R0|exact Hn0|exact Hz|exact Hnh].
  - intros t xs Ht El. apply G. intros o h' S Ei Ex M1 M3. apply bind_UB_first. eapply hidden_zv_UB; [apply S|eapply K; eassumption|exact El|exact M1|exact M3|exact R0|exact Hz|exact Hh].
Qed.
(** Without data, or with no hidden units, initialize does nothing; on an initialised object it does nothing either. *)
Theorem C60_initialize_refused o h iw1 iw2 stale (ib2 : F) : p_init o = true \/ p_x o = None \/ p_y o = None \/ p_hid o = 0 -> p_initialize iw1 iw2 stale ib2 o h = Ok o h.
Proof.
  unfold p_initialize. destruct (p_init o); [reflexivity|]. intros [E|[E|[E|E]]]; [discriminate|rewrite E; reflexivity|rewrite E; destruct (p_x o); reflexivity|]. destruct (p_x o), (p_y o); try reflexivity. rewrite E. reflexivity.
Qed.
(** Training an object that is not initialised does nothing. *)
Theorem C60_uninitialised o h (lr : F) max idx size : p_init o = false -> p_gradient_descent lr max o h = Ok o h /\ p_sgd lr max idx o h = Ok o h /\ p_mbgd lr max size o h = Ok o h.
Proof. intros E. unfold p_gradient_descent, p_sgd, p_mbgd. rewrite E. cbn. auto. Qed.
(** Every setter leaves the object uninitialised, so training does nothing until the next initialize. *)
Theorem C60_setters o h (lr v : F) max idx size r (t : regtype) z :
  Forall (fun o' => p_init o' = false /\ p_gradient_descent lr max o' h = Ok o' h /\ p_sgd lr max idx o' h = Ok o' h /\ p_mbgd lr max size o' h = Ok o' h)
    [p_set_input_set o r; p_set_output_set o r; p_set_n_hidden o z; p_set_lambda o v; p_set_alpha o v; p_set_reg o t].
Proof. assert (G : forall o', p_init o' = false -> p_init o' = false /\ p_gradient_descent lr max o' h = Ok o' h /\ p_sgd lr max idx o' h = Ok o' h /\ p_mbgd lr max size o' h = Ok o' h) by (intros o' E; split; [exact E|apply C60_uninitialised, E]). repeat constructor; apply G; reflexivity. Qed.
(** ... and that initialize draws new parameters: whatever [p] was learned is lost, only the changed setting and the data remain. *)
Theorem C60_setter_discards_training base x y k n hh X reg la al p Y o h iw1 iw2 stale ib2 (v : F) (t : regtype) : mlpS base x y k n hh reg la al p Y o h -> base !! x = Some (Mat k n X) -> hh <> 0%nat -> Z.of_nat n <= int_max -> Z.of_nat hh <= int_max -> Z.of_nat (hh * k) <= int_max ->
  let p' := Par (fun i j => iw1 (Z.of_nat (i * hh + j))) (vlist hh (fun j => stale (Z.of_nat j))) (vlist hh (fun j => iw2 (Z.of_nat j))) ib2 in
  runs (p_initialize iw1 iw2 (Some stale) ib2 (p_set_lambda o v)) h (fun o' h' => mlpS base x y k n hh reg v al p' None o' h') /\
  runs (p_initialize iw1 iw2 (Some stale) ib2 (p_set_alpha o v)) h (fun o' h' => mlpS base x y k n hh reg la v p' None o' h') /\
  runs (p_initialize iw1 iw2 (Some stale) ib2 (p_set_reg o t)) h (fun o' h' => mlpS base x y k n hh t la al p' None o' h') /\
  runs (p_initialize iw1 iw2 (Some stale) ib2 (p_set_input_set o (Some x))) h (fun o' h' => mlpS base x y k n hh reg la al p' None o' h').
Proof.
  intros S Hx Hz Hn Hh Hk p'. pose proof (mlpS_shell _ _ _ _ _ _ _ _ _ _ _ _ _ S) as Sh. destruct (obj_fields _ _ _ _ _ _ _ _ _ _ _ _ _ S) as (Ex & Ey & En & Eb & Er & Ela & Eal & Ei). assert (Eh : p_hid o = Z.of_nat hh) by (rewrite (ms_obj S); reflexivity).
  split_and!; apply runs_wp; (eapply wp_p_initialize_ok; [eapply shell_fields; [exact Sh|reflexivity]|reflexivity|first [exact Ex | reflexivity]|exact Ey|exact Eh|exact Hz|exact Hx|exact Hn|exact Hh|exact Hk|]);
    cbn [p_reg p_la p_al p_set_lambda p_set_alpha p_set_reg p_set_input_set]; rewrite ?Er, ?Ela, ?Eal; intros o' h' S'; (split; [apply S'|exact S']).
Qed.

(** Training.  [mgd]: one batch step; [msgd]: one example step; [mmb]: one epoch over the batches (MlpProofs.v, MlpProofs5.v give the formulas).
    After training the stored predictions are those of the final parameters. *)
Section run.
Context (base : gmap loc (aobj F)) (x y : loc) (k n hh : nat) X ys (reg : regtype) (la al : F).
Context (Hx : base !! x = Some (Mat k n X)) (Hy : base !! y = Some (AVec ys)) (El : length ys = n).
Context (Hn : Z.of_nat n <= int_max) (Hk : Z.of_nat k <= int_max) (Hh : Z.of_nat hh <= int_max) (Hnh : Z.of_nat (n * hh) <= int_max) (Hkh : Z.of_nat (k * hh) <= int_max).
Notation obj := (mlpS base x y k n hh reg la al).
Theorem C60_gd_run (lr : F) max p Y o h : max < int_max -> obj p Y o h ->
  runs (p_gradient_descent lr max o) h (fun o' h' => let p' := Nat.iter (Z.to_nat (Z.max 1 max)) (mgd lr n k hh X ys reg la al) p in obj p' (Some (outs n k hh X p')) o' h').
Proof using All. intros Hm S. apply runs_wp. eapply (wp_obj_gd base x y k n hh X ys reg la al Hx Hy El Hn Hh Hnh Hkh); [exact Hm|exact S|]. intros o' h'. cbv zeta. intros S'. split; [apply S'|exact S']. Qed.
Theorem C60_sgd_run (lr : F) max (idx : Z -> Z) (ix : nat -> nat) p Y o h : max < int_max -> (forall e, Z.of_nat e < Z.max 1 max -> idx (Z.of_nat e + 1) = Z.of_nat (ix e) /\ (ix e < n)%nat) -> obj p Y o h ->
  runs (p_sgd lr max idx o) h (fun o' h' => let p' := foldl (fun p i => msgd lr k hh X ys reg la al i p) p (ix <$> seq 0 (Z.to_nat (Z.max 1 max))) in obj p' (Some (outs n k hh X p')) o' h').
Proof using All. intros Hm Hi S. apply runs_wp. eapply (wp_p_sgd x y k n hh reg la al Hh Hkh base X ys Hx Hy El Hn Hk Hnh lr max idx ix); [exact Hm|exact Hi|exact S|]. intros o' h'. cbv zeta. intros S'. split; [apply S'|exact S']. Qed.
Theorem C60_mbgd_run (lr : F) max m p Y o h : max < int_max -> (0 < m <= n)%nat -> obj p Y o h ->
  runs (p_mbgd lr max (Z.of_nat m) o) h (fun o' h' => let nb := (n / m)%nat in let p' := Nat.iter (Z.to_nat (Z.max 1 max)) (mmb k hh reg la al X ys lr (n / nb) nb) p in obj p' (Some (outs n k hh X p')) o' h').
Proof using All. intros Hm Hi S. apply runs_wp. eapply (wp_p_mbgd x y k n hh reg la al Hh Hkh base X ys Hx Hy El Hn Hk Hnh lr max m); [exact Hm|exact Hi|exact S|]. intros o' h'. cbv zeta. intros S'. split; [apply S'|exact S']. Qed.
End run.
(** Defect: with several batches the labels after the first n / nb are never looked at. *)
Theorem C60_mbgd_ignores_labels_refuted base base' x y k n hh X ys ys' reg la al (lr : F) max m p Y Y' o o' h h' :
  base !! x = Some (Mat k n X) -> base !! y = Some (AVec ys) -> length ys = n -> base' !! x = Some (Mat k n X) -> base' !! y = Some (AVec ys') -> length ys' = n ->
  Z.of_nat n <= int_max -> Z.of_nat k <= int_max -> Z.of_nat hh <= int_max -> Z.of_nat (n * hh) <= int_max -> Z.of_nat (k * hh) <= int_max -> max < int_max -> (0 < m <= n)%nat ->
  take (n / (n / m)) ys = take (n / (n / m)) ys' ->
  mlpS base x y k n hh reg la al p Y o h -> mlpS base' x y k n hh reg la al p Y' o' h' ->
  exists p', runs (p_mbgd lr max (Z.of_nat m) o) h (fun o1 h1 => mlpS base x y k n hh reg la al p' (Some (outs n k hh X p')) o1 h1) /\
             runs (p_mbgd lr max (Z.of_nat m) o') h' (fun o1 h1 => mlpS base' x y k n hh reg la al p' (Some (outs n k hh X p')) o1 h1).
Proof.
  intros Hx Hy El Hx' Hy' El' Hn Hk Hh Hnh Hkh Hm Hmn Et S S'. eexists. split; [eapply C60_mbgd_run; eassumption|].
  assert (E : mmb k hh reg la al X ys lr (n / (n / m)) (n / m) = mmb k hh reg la al X ys' lr (n / (n / m)) (n / m)) by (unfold mmb; rewrite Et; reflexivity). rewrite E. eapply C60_mbgd_run; eassumption.
Qed.
(** A mini-batch size of 0 divides by zero; one larger than the number of rows gives zero batches, and the batch builder divides by that. *)
Theorem C60_mbgd_bad_size_UB base x y k n hh X reg la al (lr : F) max (size : Z) p Y o h : mlpS base x y k n hh reg la al p Y o h -> base !! x = Some (Mat k n X) -> size = 0 \/ Z.of_nat n < size ->
  p_mbgd lr max size o h = UB.
Proof.
  intros S Hx Hs. destruct (obj_fields _ _ _ _ _ _ _ _ _ _ _ _ _ S) as (Ex & Ey & En & Eb & Er & Ela & Eal & Ei). unfold p_mbgd. rewrite Ei. cbn [negb]. apply bind_UB. apply wp_m_new; [apply S|]. intros lz h1 W1 N1 A1 _. apply bind_UB. apply wp_m_new; [exact W1|]. intros lq h2 W2 N2 A2 _.
  rewrite A1 in A2, N2. rewrite En. destruct (obj_in S Hx) as [Vx _].
  assert (Vx2 : abs h2 !! x = Some (Mat k n X)) by (split_none N2; rewrite A2, !lookup_insert_ne by congruence; exact Vx).
  destruct Hs as [->|Hs]; [apply bind_UB_first; reflexivity|]. assert (Eq : idiv (F := F) (Z.of_nat n) size h2 = Ok 0 h2).
  { unfold idiv. destruct (Z.eqb_spec size 0); [lia|]. rewrite Z.quot_small by lia. reflexivity. }
  unfold bind at 1. rewrite Eq. apply bind_UB_first. rewrite Ex. eapply mini_batches_mv_UB. exact Vx2.
Qed.
End mlp.
