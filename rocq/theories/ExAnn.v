(** * The hypotheses of C62-C66 are met by concrete layers and networks. *)
From Verif Require Import Base BaseProofs Vec VecSpec VecProofs VecProofs2 Mat MatSpec MatProofs MatProofs2 MatProofs3 MatProofs4 MatProofs5 Act Sym StatProofs ActProofs Util UtilProofs PropUtil Cost CostSpec CostProofs PropCost PropCost2 Glm GlmProofs GlmProofs2
  Layer Ann RInst LibmR PropAct PropAct2 PropSvm LsqMath GlmMath LayerSpec LayerProofs PropLayer AnnSpec AnnProofs PropAnn PropAnn2 PropAnn3 ExBuild.
From Coq Require Import Reals Lra.
Open Scope R_scope.
Implicit Types (h : heap R).
Lemma sm (n : nat) : (n <= 100)%nat -> (Z.of_nat n <= int_max)%Z. Proof. unfold int_max. lia. Qed.
Definition row2 (a b : R) (j : nat) : R := match j with O => a | _ => b end.
Definition X32 (i j : nat) : R := match i with O => row2 1 2 j | 1%nat => row2 3 4 j | _ => row2 5 6 j end.
Definition W22 (i j : nat) : R := match i with O => row2 1 (-1) j | _ => row2 (1/2) 2 j end.
Lemma Mat_of h l c rows r f : abs h !! l = Some (Rows c rows) -> width c rows -> length rows = r -> (forall i j, (i < r)%nat -> (j < c)%nat -> nth j (nth i rows []) 0 = f i j) -> abs h !! l = Some (Mat c r f).
Proof. intros Hl Hw Hr E. rewrite Rows_Mat in Hl by exact Hw. rewrite Hl, Hr. f_equal. apply Mat_ext. intros i j Hi Hj. apply E; assumption. Qed.
Ltac cells := let i := fresh "i" in let j := fresh "j" in intros i j ? ?; destruct i as [|[|[|i]]]; try lia; destruct j as [|[|j]]; try lia; reflexivity.

(** An initialised hidden layer with two units on three rows. *)
Lemma layer_data : exists h x w b z, wf h /\ abs h !! x = Some (Mat 2 3 X32) /\ abs h !! w = Some (Mat 2 2 W22) /\ abs h !! b = Some (AVec [1; -1]) /\ is_matrix h z /\ w <> x /\ z <> x /\ z <> w /\
  exists r v, abs h !! r = Some (AVec [3; 4]) /\ abs h !! v = Some (AVec [1; 1/2]).
Proof.
  reach [LM 2 [[1;2];[3;4];[5;6]]; LM 2 [[1;-1];[1/2;2]]; LV [1;-1]; LM 1 [[0]]; LV [3;4]; LV [1;1/2]].
  exists h, d, d0, d1, d2. split; [exact W|]. split; [eapply Mat_of; [exact Hd|repeat constructor|reflexivity|cells]|]. split; [eapply Mat_of; [exact Hd0|repeat constructor|reflexivity|cells]|]. split; [exact Hd1|].
  split; [eexists _, _, _; exact Hd2|]. split_and!; [intros ->; rewrite Hd in Hd0; discriminate|intros ->; rewrite Hd in Hd2; discriminate|intros ->; rewrite Hd0 in Hd2; discriminate|]. exists d3, d4. split; assumption.
Qed.
Definition hl0 (init : bool) x w b z : hlayer R := HL 2 SIGMOID (Some x) (Some w) (Some b) (Some z) None None None None RNone 0 0 WUniform init.
Example ex_C62 : exists h l (n : Z) cs, wf h /\ abs h !! l = Some (SVec n, cs) /\ length cs = 2%nat /\
  runs (weight_initialization_v WUniform (fun _ => 1/2) l) h (fun _ h' => abs h' !! l = Some (AVec [0; 0])).
Proof.
  destruct layer_data as (h & x & w & b & z & V & _ & _ & Hb & _). exists h, b. eexists _, _. split; [exact V|]. split; [exact Hb|]. split; [reflexivity|].
  destruct (C62_vector WUniform (fun _ => 1/2) h b _ _ V Hb) as (u & h' & E & W' & A). exists u, h'. split; [exact E|]. split; [exact W'|]. rewrite A, lookup_insert. do 2 f_equal. cbn [length map seq]. unfold dist_v, spread. rewrite !Rmult_eq_0_compat_r by lra. reflexivity.
Qed.
Example ex_C63_forward : exists h o, runs (hl_forward (fun _ => 0) o) h (fun o' h' => exists a A, hl_a o' = Some a /\ abs h' !! a = Some (Mat 2 3 A) /\ A 1%nat 0%nat = run_norm_real SIGMOID 6).
Proof.
  destruct layer_data as (h & x & w & b & z & V & Hx & Hw & Hb & Hz & D1 & D2 & D3 & _). exists h, (hl0 true x w b z).
  destruct (C63_forward (hl0 true x w b z) (fun _ => 0) h x w b z 2 3 2 X32 W22 [1;-1] V eq_refl) as (o' & h' & E & W' & a & Na & Ea & _ & _ & A); try assumption; try reflexivity; try (apply sm; lia).
  - split_and!; try reflexivity; assumption.
  - unfold m_ok. cbn. rewrite !elem_of_cons, elem_of_nil. intuition discriminate.
  - exists o', h'. split; [exact E|]. split; [exact W'|]. eexists a, _. split; [exact Ea|]. split; [rewrite A; apply lookup_insert|]. cbv beta. f_equal. unfold dense. rewrite !Rsum_S. cbn. lra.
Qed.
Example ex_C63_redraws : exists h o w, abs h !! w = Some (Mat 2 2 W22) /\ hl_w o = Some w /\ runs (hl_forward (fun _ => 1/2) (hl_set (SWeights (Some w)) o)) h (fun o' h' => exists a W, abs h' !! w = Some (Mat 2 2 W) /\ W 1%nat 1%nat = 0 /\ hl_a o' = Some a).
Proof.
  destruct layer_data as (h & x & w & b & z & V & Hx & Hw & Hb & Hz & D1 & D2 & D3 & _). exists h, (hl0 true x w b z), w. split; [exact Hw|]. split; [reflexivity|].
  destruct (C63_set_weights_lost (hl0 true x w b z) (fun _ => 1/2) h x w b z 2 3 2 X32 W22 [1;-1] V) as (o' & h' & E & W' & a & Ea & A & _); try assumption; try reflexivity; try (apply sm; lia); try lia.
  - split_and!; try reflexivity; assumption.
  - unfold m_ok. cbn. rewrite !elem_of_cons, elem_of_nil. intuition discriminate.
  - exists o', h'. split; [exact E|]. split; [exact W'|]. eexists a, _. split; [exact A|]. split; [unfold drawn_m, dist_m, spread; cbn [hl0 hl_wi]; lra|exact Ea].
Qed.
Example ex_C63_test : exists h o r, runs (bind (hl_forward (fun _ => 0) o) (hl_test (fun _ => 0) (Some r))) h (fun o' h' => exists a at_ A row, hl_a o' = Some a /\ hl_at o' = Some at_ /\ abs h' !! a = Some (Mat 2 3 A) /\ abs h' !! at_ = Some (AVec row) /\
    length row = 2%nat /\ forall j, (j < 2)%nat -> nth j row 0 = A 1%nat j).
Proof.
  destruct layer_data as (h & x & w & b & z & V & Hx & Hw & Hb & Hz & D1 & D2 & D3 & r & v & Hr & _). exists h, (hl0 true x w b z), r.
  eapply (C63_test_is_row (hl0 true x w b z) (fun _ => 0) (fun _ => 0) h x w b z r 2 3 2 1 X32 W22 [1;-1]); try assumption; try reflexivity; try (apply sm; lia); try lia.
  - split_and!; try reflexivity; assumption.
  - unfold m_ok. cbn. rewrite !elem_of_cons, elem_of_nil. intuition discriminate.
Qed.
Definition ol0 (init : bool) rx w rz : olayer R := OL 2 LINEAR MSE rx (Some w) 1 rz None 0 0 None RRidge (1/10) 0 WUniform init.
Example ex_C64 : exists h o, runs (ol_forward (fun _ => 0) 0 o) h (fun o' h' => exists a ys, ol_a o' = Some a /\ abs h' !! a = Some (AVec ys) /\ length ys = 3%nat /\ nth 2 ys 0 = 9).
Proof.
  destruct layer_data as (h & x & w & b & z & V & Hx & _ & _ & _ & _ & _ & _ & r & v & _ & Hv). exists h, (ol0 true (Some x) v None).
  destruct (C64_forward (ol0 true (Some x) v None) (fun _ => 0) 0 h x v 2 3 X32 [1; 1/2] V) as (o' & h' & E & W' & z' & a & zs & _ & Ea & _ & _ & _ & _ & Lz & Hzs & A); try assumption; try reflexivity; try (apply sm; lia).
  - split; discriminate.
  - exists o', h'. split; [exact E|]. split; [exact W'|]. eexists a, _. split; [exact Ea|]. split; [rewrite A; apply lookup_insert|]. split; [rewrite fmap_length; exact Lz|]. rewrite GlmMath.nth_fmap by lia. rewrite Hzs by lia. rewrite !Rsum_S. change (Rsum 0 _) with 0. cbn [nth X32 row2 ol0 ol_act ol_b run_norm_real]. unfold linear_normr. lra.
Qed.

(** Two hidden layers (2 and 3 units) and an output layer, three rows of two inputs. *)
Lemma net_data : exists h o out is wo x, net_ready h o out is wo x 2 3 /\ an_x o = Some x /\ abs h !! x = Some (Mat 2 3 X32) /\ length is = 2%nat /\ li_s <$> is = [SLay SIGMOID WUniform 2 [1;2]; SLay TANH WDefault 3 [1;2;3]] /\ ol_act out = LINEAR /\ ol_wi out = WUniform.
Proof.
  reach [LM 2 [[1;2];[3;4];[5;6]]; LM 1 [[0]]; LM 2 [[0;0]]; LM 3 [[0;0;0]]; LM 1 [[0];[0]]; LV [1;2]; LV [1;2;3]; LV [7]].
  assert (d <> d0 /\ d <> d1 /\ d <> d2 /\ d <> d3) as (? & ? & ? & ?) by (split_and!; intros ->; rewrite Hd in *; discriminate).
  assert (d0 <> d1 /\ d0 <> d2 /\ d0 <> d3) as (? & ? & ?) by (split_and!; intros ->; rewrite Hd0 in *; discriminate).
  assert (d1 <> d2 /\ d1 <> d3 /\ d2 <> d3) as (? & ? & ?) by (split_and!; intros ->; rewrite ?Hd1, ?Hd2 in *; discriminate).
  assert (d6 <> d4 /\ d6 <> d5) as (? & ?) by (split; intros ->; rewrite ?Hd4, ?Hd5 in *; discriminate).
  exists h, (Ann (Some d) None None [HL 2 SIGMOID None (Some d0) (Some d4) (Some d1) None None None None RNone 0 0 WUniform true; HL 3 TANH None (Some d2) (Some d5) (Some d3) None None None None RNone 0 0 WDefault true]
    (Some (OL 3 LINEAR MSE None (Some d6) 1 None None 0 0 None RNone 0 0 WUniform true)) 3 2 SchedNone 0 0), (OL 3 LINEAR MSE None (Some d6) 1 None None 0 0 None RNone 0 0 WUniform true),
    [LI (SLay SIGMOID WUniform 2 [1;2]) d0 d4 d1; LI (SLay TANH WDefault 3 [1;2;3]) d2 d5 d3], d6, d.
  split; [|split; [reflexivity|]; split; [eapply Mat_of; [exact Hd|repeat constructor|reflexivity|cells]|split_and!; reflexivity]].
  unfold net_ready. split; [exact W|]. split; [reflexivity|]. split.
  { constructor; [|constructor; [|constructor]]; unfold layer_is; cbn; (split_and!; try reflexivity; try assumption); try (eexists _, _, _; eassumption); unfold m_ok; rewrite !elem_of_cons, elem_of_nil; intuition discriminate. }
  split; [cbn; repeat (apply list.NoDup_cons; split; [rewrite ?elem_of_cons, ?elem_of_nil; intuition congruence|]); constructor|].
  split; [cbn; rewrite !elem_of_cons, elem_of_nil; intuition congruence|]. split; [cbn; rewrite !elem_of_cons, elem_of_nil; intuition congruence|].
  split; [cbn; split_and!; try lia; unfold int_max; try lia; exact I|]. split; [|split; [apply sm; lia|apply sm; cbn; lia]].
  unfold out_is. cbn. split_and!; try reflexivity; [split; discriminate|]. eexists _, _. exact Hd6.
Qed.
Example ex_C65 : exists h o x ps, an_x o = Some x /\ length (an_net o) = 2%nat /\ length ps = 3%nat /\ forall d, dr_b d = 1 -> (forall t, dr_o d t = 1/2) -> ps = [1; 1; 1] /\
  runs (an_model_set_test d (Some x) o) h (fun p h' => exists a, p.2 = Some a /\ abs h' !! a = Some (AVec ps)).
Proof.
  destruct net_data as (h & o & out & is & wo & x & R & Ex & Hx & Li & Es & Ea & Ew). exists h, o, x, [1;1;1]. split; [exact Ex|]. split; [rewrite (Forall2_length _ _ _ (proj1 (proj2 (proj2 R)))); exact Li|]. split; [reflexivity|].
  intros d E1 E2. split; [reflexivity|]. destruct (C65_model_set_test o out is wo x 2 3 X32 d h R Hx) as (p & h' & E & W' & a & out' & Ep & _ & Ha & _). exists p, h'. split; [exact E|]. split; [exact W'|]. exists a. split; [exact Ep|]. rewrite Ha. do 2 f_equal. rewrite Ea, Ew.
  unfold net_out. change [1;1;1] with (map (fun _ : nat => 1) (seq 0 3)). apply map_ext. intros i. rewrite E1. rewrite (Rsum_ext _ _ (fun _ => 0)) by (intros t Ht; rewrite E2; unfold dist_v, spread; lra). rewrite Rsum_zero. cbn. unfold linear_normr. lra.
Qed.
Example ex_C65_model_test : exists h o out ss x, tnet_at h 2 (an_net o) ss /\ length ss = 1%nat /\ an_out o = Some out /\ runs (an_model_test (Draws (fun _ _ => 0) (fun _ => 0) 0) (Some x) o) h
  (fun p h' => p.2 = tnet_fun 2 (row2 3 4) ss 0 + 1/2 * tnet_fun 2 (row2 3 4) ss 1 + 1).
Proof.
  destruct layer_data as (h & x & w & b & z & V & Hx & Hw & Hb & Hz & D1 & D2 & D3 & r & v & Hr & Hv).
  set (o := Ann (Some x) None None [hl0 true x w b z] (Some (ol0 true None v None)) 3 2 SchedNone 0 0). set (ss := [TL SIGMOID 2 W22 [1;-1]]).
  assert (T : tnet_at h 2 (an_net o) ss). { cbn. split; [|exact I]. exists w, b. split_and!; try reflexivity; try assumption; try (split; discriminate); unfold int_max; lia. }
  exists h, o, (ol0 true None v None), ss, r. split; [exact T|]. split; [reflexivity|]. split; [reflexivity|].
  destruct (C65_model_test o (ol0 true None v None) ss 2 r [3;4] v [1;1/2] (Draws (fun _ _ => 0) (fun _ => 0) 0) h V T eq_refl eq_refl eq_refl Hv eq_refl Hr eq_refl) as (p & h' & E & W' & Ep & _). exists p, h'. split; [exact E|]. split; [exact W'|]. rewrite Ep.
  cbn [length]. rewrite !Rsum_S. change (Rsum 0 _) with 0. rewrite !(tnet_ext ss 2 (fun i => nth i [3; 4] 0) (row2 3 4)) by (first [intros [|[|t]] Ht; try lia; reflexivity|cbn; lia]). unfold run_norm_real, linear_normr. cbn [ol0 ol_act ol_b nth]. generalize (tnet_fun 2 (row2 3 4) ss 0) (tnet_fun 2 (row2 3 4) ss 1). intros p0 p1. cbn. lra.
Qed.
(** A network without hidden layers, ready to train. *)
Lemma train_data : exists h o out x y w z, trainable h o out x y w 2 3 X32 [1;0;1] /\ (forall e, rate_ok o e) /\ ol_cost out = MSE /\ ol_init out = true /\ ol_in out = Some x /\ abs h !! w = Some (AVec [1; 1/2]) /\ ol_z out = Some z /\ abs h !! z = Some (AVec [1;2;3]) /\ ol_wi out = WUniform /\ ol_act out = LINEAR.
Proof.
  reach [LM 2 [[1;2];[3;4];[5;6]]; LV [1;0;1]; LV [1;1/2]; LV [1;2;3]].
  exists h, (Ann (Some d) (Some d0) None [] (Some (ol0 true (Some d) d1 (Some d2))) 3 2 SchedTime (1/10) 0), (ol0 true (Some d) d1 (Some d2)), d, d0, d1, d2. split.
  - constructor; try assumption; try reflexivity; try (apply sm; lia).
    + split; discriminate.
    + unfold act_d_ok. cbn. rewrite !elem_of_cons, elem_of_nil. intuition discriminate.
    + eexists _, _. exact Hd1.
    + intros ->. rewrite Hd0 in Hd1. apply (f_equal (fun t : option (aobj R) => match t with Some (SVec m, _) => m | _ => 0%Z end)) in Hd1. vm_compute in Hd1. discriminate.
  - split_and!; try reflexivity; try assumption. intros e E. discriminate.
Qed.
Example ex_C66 : exists h o, forall lr d, runs (an_gradient_descent lr 5 d o) h (fun o' h' => exists a, an_yh o' = Some a /\ abs h' !! a = Some (AVec (net_out (d 5%Z) LINEAR WUniform [] 2 3 X32))).
Proof.
  destruct train_data as (h & o & out & x & y & w & z & T & Hr & Hc & _ & _ & _ & _ & _ & Ew & Ea). exists h, o. intros lr d.
  destruct (C66_gradient_descent o out x y w 2 3 X32 [1;0;1] lr 5 d h T ltac:(vm_compute; reflexivity) Hr ltac:(intros e E; congruence)) as (o' & h' & E & W' & out' & w' & a & _ & _ & _ & _ & Ea' & Ha & _). exists o', h'. split; [exact E|]. split; [exact W'|]. exists a. split; [exact Ea'|]. rewrite Ea, Ew in Ha. exact Ha.
Qed.
Example ex_C66_sgd : exists h o, forall lr d, an_sgd lr 5 (fun _ => 1%Z) d d (d 0%Z) o h = UB.
Proof.
  destruct train_data as (h & o & out & x & y & w & z & T & Hr & Hc & Hi & Hin & Hw & Ez & Hz & _). exists h, o. intros lr d.
  apply (C66_sgd_UB o out x y w z 2 3 1 X32 [1;0;1] [1;1/2] [1;2;3] lr 5 (fun _ => 1%Z) d d (d 0%Z) h T Hi Hin Hw eq_refl Ez Hz); try apply Hr; try congruence; try reflexivity; try discriminate; lia.
Qed.
