(** * Training the perceptron: gradient_descent, sgd, mbgd, for any arithmetic. *)
From Verif Require Import Base BaseProofs Vec VecSpec VecProofs VecProofs2 Mat MatSpec MatProofs MatProofs2 MatProofs3 MatProofs4 MatProofs5 DetProofs Frame Act ActProofs ActProofs2 Cost CostProofs Sym Svm LinAlg LinAlgProofs Util UtilProofs Glm GlmProofs GlmProofs2 GlmProofs4 Mlp MlpProofs MlpProofs2.
Section mlp.
Context {F : Type} `{Scalar F} `{Libm F}.
Implicit Types (h : heap F) (xs ys ws v es : list F) (X W : nat -> nat -> F).

(** The objects owned by the network. *)
Definition owned (o : mlp (F := F)) : list loc := [p_yh o; p_w1 o; p_w2 o; p_b1 o; p_z2 o; p_a2 o].
(** The network object [o] in heap [h]: data x, y; parameters p; predictions Y; the rest of the heap is [base]. *)
Record mlpS (base : gmap loc (aobj F)) (x y : loc) (k n hh : nat) (reg : regtype) (la al : F) (p : par) (Y : option (list F)) (o : mlp) h : Prop := {
  ms_wf : wf h;
  ms_shape : shaped hh p;
  ms_obj : o = Mlp (Some x) (Some y) (p_yh o) (p_w1 o) (p_w2 o) (p_b1 o) (t_b2 p) (p_z2 o) (p_a2 o) (Z.of_nat n) (Z.of_nat k) (Z.of_nat hh) reg la al true;
  ms_own : NoDup (owned o);
  ms_new : forall l, l ∈ owned o -> base !! l = None;
  ms_w1 : abs h !! p_w1 o = Some (Mat hh k (t_w1 p));
  ms_w2 : abs h !! p_w2 o = Some (AVec (t_w2 p));
  ms_b1 : abs h !! p_b1 o = Some (AVec (t_b1 p));
  ms_yh : match Y with Some ys => abs h !! p_yh o = Some (AVec ys) | None => exists m c, abs h !! p_yh o = Some (SVec m, c) end;
  ms_z2 : exists x0 y0 c, abs h !! p_z2 o = Some (SMat x0 y0, c);
  ms_a2 : exists x0 y0 c, abs h !! p_a2 o = Some (SMat x0 y0, c);
  ms_frame : forall l, l ∉ owned o -> abs h !! l = base !! l }.

Arguments ms_wf {base x y k n hh reg la al p Y o h}.
Arguments ms_shape {base x y k n hh reg la al p Y o h}.
Arguments ms_obj {base x y k n hh reg la al p Y o h}.
Arguments ms_own {base x y k n hh reg la al p Y o h}.
Arguments ms_new {base x y k n hh reg la al p Y o h}.
Arguments ms_w1 {base x y k n hh reg la al p Y o h}.
Arguments ms_w2 {base x y k n hh reg la al p Y o h}.
Arguments ms_b1 {base x y k n hh reg la al p Y o h}.
Arguments ms_yh {base x y k n hh reg la al p Y o h}.
Arguments ms_z2 {base x y k n hh reg la al p Y o h}.
Arguments ms_a2 {base x y k n hh reg la al p Y o h}.
Arguments ms_frame {base x y k n hh reg la al p Y o h}.

Lemma owned_ne o : NoDup (owned o) ->
  p_yh o <> p_w1 o /\ p_yh o <> p_w2 o /\ p_yh o <> p_b1 o /\ p_yh o <> p_z2 o /\ p_yh o <> p_a2 o /\ p_w1 o <> p_w2 o /\ p_w1 o <> p_b1 o /\ p_w1 o <> p_z2 o /\ p_w1 o <> p_a2 o /\
  p_w2 o <> p_b1 o /\ p_w2 o <> p_z2 o /\ p_w2 o <> p_a2 o /\ p_b1 o <> p_z2 o /\ p_b1 o <> p_a2 o /\ p_z2 o <> p_a2 o.
Proof. unfold owned. rewrite !list.NoDup_cons, !not_elem_of_cons. tauto. Qed.

(** forward_pass: z2, a2, y_hat are overwritten. *)
Lemma wp_p_forward (o : mlp (F := F)) hh k p h x n X x0 y0 c0 x1 y1 c1 n2 c2 (Q : unit -> heap F -> Prop) : shaped hh p -> p_b2 o = t_b2 p -> p_x o = Some x -> NoDup (owned o) -> wf h -> pars o hh k p h ->
  abs h !! x = Some (Mat k n X) -> abs h !! p_z2 o = Some (SMat x0 y0, c0) -> abs h !! p_a2 o = Some (SMat x1 y1, c1) -> abs h !! p_yh o = Some (SVec n2, c2) -> Z.of_nat n <= int_max -> Z.of_nat (n * hh) <= int_max ->
  (forall h', wf h' -> abs h' = <[p_yh o := AVec (outs n k hh X p)]> (<[p_a2 o := Mat hh n (ha k X p)]> (<[p_z2 o := Mat hh n (hz k X p)]> (abs h))) -> Q tt h') -> wp (p_forward_pass o) h Q.
Proof.
  intros Hs Eb Ex ND V P Hx Hz Ha Hy Hn Hl HQ. apply owned_ne in ND as (? & ? & ? & ? & ? & ? & ? & ? & ? & ? & ? & ? & ? & ? & ?). unfold p_forward_pass. rewrite Ex.
  wbind. eapply wp_propagatem; [exact Hs|exact V|exact P|exact Hx|exact Hl|exact Hz|exact Ha|congruence|]. intros h1 W1 A1. destruct P as (P1 & P2 & P3). destruct Hs as [S1 S2].
  wbind. eapply wp_output_y; [exact W1|look|look|exact S2|exact Hn|]. intros d h2 W2 N2 A2. rewrite A1 in A2, N2. split_none N2. assert (d <> p_yh o) by congruence.
  eapply wp_assign_v; [exact W2|look|look|congruence|]. intros h3 W3 A3. rewrite A2, delete_insert in A3 by (rewrite !lookup_insert_ne by congruence; exact N2). rewrite Eb in A3. apply HQ; [exact W3|exact A3].
Qed.

Section obj.
Context (base : gmap loc (aobj F)) (x y : loc) (k n hh : nat) (X : nat -> nat -> F) (ys : list F) (reg : regtype) (la al : F).
Context (Hx : base !! x = Some (Mat k n X)) (Hy : base !! y = Some (AVec ys)) (El : length ys = n).
Context (Hn : Z.of_nat n <= int_max) (Hh : Z.of_nat hh <= int_max) (Hnh : Z.of_nat (n * hh) <= int_max) (Hkh : Z.of_nat (k * hh) <= int_max).
Notation obj := (mlpS base x y k n hh reg la al).
Notation O p o := (Mlp (Some x) (Some y) (p_yh o) (p_w1 o) (p_w2 o) (p_b1 o) (t_b2 p) (p_z2 o) (p_a2 o) (Z.of_nat n) (Z.of_nat k) (Z.of_nat hh) reg la al true).

Lemma obj_in p Y o h l a : obj p Y o h -> base !! l = Some a -> abs h !! l = Some a /\ l ∉ owned o.
Proof. intros S E. assert (N : l ∉ owned o). { intros I. rewrite (ms_new S l I) in E. congruence. } split; [|exact N]. rewrite (ms_frame S l N). exact E. Qed.
Lemma obj_pars p Y o h : obj p Y o h -> pars o hh k p h.
Proof. intros S. split; [apply S|]. split; [exact (ms_b1 S)|apply S]. Qed.
Lemma obj_yh p Y o h : obj p Y o h -> exists m c, abs h !! p_yh o = Some (SVec m, c).
Proof. intros S. pose proof (ms_yh S) as E. destruct Y as [v|]; [eauto|exact E]. Qed.

Lemma wp_obj_forward p Y o h (Q : unit -> heap F -> Prop) : obj p Y o h ->
  (forall h', obj p (Some (outs n k hh X p)) o h' -> abs h' !! p_z2 o = Some (Mat hh n (hz k X p)) -> abs h' !! p_a2 o = Some (Mat hh n (ha k X p)) -> Q tt h') -> wp (p_forward_pass o) h Q.
Proof using Hx Hn Hnh.
  intros S HQ. destruct (obj_in _ _ _ _ _ _ S Hx) as [Vx Nx]. destruct (obj_yh _ _ _ _ S) as (m0 & c0 & Vy). destruct (ms_z2 S) as (x1 & y1 & c1 & Vz). destruct (ms_a2 S) as (x2 & y2 & c2 & Va).
  pose proof (obj_pars _ _ _ _ S) as P. pose proof (ms_obj S) as Eo. pose proof (ms_own S) as ND.
  eapply wp_p_forward; [apply S|rewrite Eo; reflexivity|rewrite Eo; reflexivity|exact ND|apply S|exact P|exact Vx|exact Vz|exact Va|exact Vy|exact Hn|exact Hnh|]. intros h' W' A'.
  pose proof ND as ND'. apply owned_ne in ND' as (? & ? & ? & ? & ? & ? & ? & ? & ? & ? & ? & ? & ? & ? & ?). destruct P as (P1 & P2 & P3).
  apply HQ; [|look|look]. split; [exact W'|apply S|exact Eo|exact ND|apply S|look|look|look|look| | |].
  - eexists _, _, _. look.
  - eexists _, _, _. look.
  - intros l Nl. rewrite A'. assert (l <> p_yh o /\ l <> p_a2 o /\ l <> p_z2 o) as (? & ? & ?) by (unfold owned in Nl; rewrite !not_elem_of_cons in Nl; tauto).
    rewrite !lookup_insert_ne by congruence. apply S, Nl.
Qed.

Lemma wp_obj_gd_epoch lr p o h (Q : mlp -> heap F -> Prop) : obj p (Some (outs n k hh X p)) o h -> abs h !! p_z2 o = Some (Mat hh n (hz k X p)) -> abs h !! p_a2 o = Some (Mat hh n (ha k X p)) ->
  (forall o' h', let p' := mgd lr n k hh X ys reg la al p in obj p' (Some (outs n k hh X p')) o' h' -> abs h' !! p_z2 o' = Some (Mat hh n (hz k X p')) -> abs h' !! p_a2 o' = Some (Mat hh n (ha k X p')) -> Q o' h') ->
  wp (p_gd_epoch lr o) h Q.
Proof using Hx Hy El Hn Hh Hnh Hkh.
  intros S Vz Va HQ. destruct (obj_in _ _ _ _ _ _ S Hx) as [Vx Nx]. destruct (obj_in _ _ _ _ _ _ S Hy) as [Vy Ny]. pose proof (ms_yh S) as Vyh. cbn in Vyh.
  pose proof (obj_pars _ _ _ _ S) as P. pose proof (ms_obj S) as Eo. pose proof (ms_own S) as ND. pose proof ND as ND'. apply owned_ne in ND' as (? & ? & ? & ? & ? & ? & ? & ? & ? & ? & ? & ? & ? & ? & ?).
  assert (Ex : p_x o = Some x) by (rewrite Eo; reflexivity). assert (Ey : p_y o = Some y) by (rewrite Eo; reflexivity). assert (En : p_n o = Z.of_nat n) by (rewrite Eo; reflexivity).
  assert (Eb : p_b2 o = t_b2 p) by (rewrite Eo; reflexivity). assert (Er : p_reg o = reg /\ p_la o = la /\ p_al o = al) by (rewrite Eo; auto). destruct Er as (Er & Ela & Eal).
  unfold p_gd_epoch. rewrite Ex, Ey, En. wbind. apply wp_deref_Some. wbind. eapply wp_p_cost; [apply S|exact P|exact Vyh|exact Vy|rewrite outs_length; congruence|].
  wbind. eapply (wp_backprop lr o hh k p h x y (p_yh o) (p_z2 o) (p_a2 o) n X ys (outs n k hh X p)); [apply S|exact Eb|apply S|exact P|congruence|exact Vx|exact Vy|exact Vyh|exact El|apply outs_length|exact Vz|exact Va|exact Hh|exact Hnh|exact Hkh|].
  rewrite Er, Ela, Eal. fold (mgd lr n k hh X ys reg la al p). cbv zeta. set (p' := mgd lr n k hh X ys reg la al p) in *. intros h1 W1 A1.
  assert (S1 : obj p' None (p_set_b2 o (t_b2 p')) h1).
  { split; [exact W1|apply bp_shaped, S|rewrite Eo; reflexivity|exact ND|apply S|cbn [p_set_b2 p_w1]; look|cbn [p_set_b2 p_w2]; look|cbn [p_set_b2 p_b1]; look| | | |].
    - cbn [p_set_b2 p_yh]. eexists _, _. look.
    - cbn [p_set_b2 p_z2]. eexists _, _, _. look.
    - cbn [p_set_b2 p_a2]. eexists _, _, _. look.
    - intros l Nl. change (l ∉ owned o) in Nl. rewrite A1. assert (l <> p_b1 o /\ l <> p_w1 o /\ l <> p_w2 o) as (? & ? & ?) by (unfold owned in Nl; rewrite !not_elem_of_cons in Nl; tauto).
      rewrite !lookup_insert_ne by congruence. apply S, Nl. }
  wbind. eapply wp_obj_forward; [exact S1|]. intros h2 S2 Z2 A2. apply wp_ret. apply (HQ _ h2 S2 Z2 A2).
Qed.
Lemma wp_obj_gd lr max p Y o h (Q : mlp -> heap F -> Prop) : max < int_max -> obj p Y o h ->
  (forall o' h', let p' := Nat.iter (Z.to_nat (Z.max 1 max)) (mgd lr n k hh X ys reg la al) p in obj p' (Some (outs n k hh X p')) o' h' -> Q o' h') -> wp (p_gradient_descent lr max o) h Q.
Proof using Hx Hy El Hn Hh Hnh Hkh.
  intros Hm S HQ. unfold p_gradient_descent. replace (p_init o) with true by (rewrite (ms_obj S); reflexivity). cbn [negb].
  destruct (obj_yh _ _ _ _ S) as (m0 & c0 & Vy). wbind. eapply wp_v_fill; [apply S|exact Vy|]. intros h1 W1 _ A1.
  pose proof (ms_own S) as ND. pose proof ND as ND'. apply owned_ne in ND' as (? & ? & ? & ? & ? & ? & ? & ? & ? & ? & ? & ? & ? & ? & ?).
  assert (S1 : obj p None o h1).
  { split; [exact W1|apply S|apply (ms_obj S)|exact ND|apply S| | | | | | |]; rewrite ?A1.
    - rewrite lookup_insert_ne by congruence. apply S.
    - rewrite lookup_insert_ne by congruence. apply S.
    - rewrite lookup_insert_ne by congruence. exact (ms_b1 S).
    - eexists _, _. rewrite lookup_insert. reflexivity.
    - rewrite lookup_insert_ne by congruence. apply S.
    - rewrite lookup_insert_ne by congruence. exact (ms_a2 S).
    - intros l Nl. rewrite lookup_insert_ne by (unfold owned in Nl; rewrite !not_elem_of_cons in Nl; destruct Nl as [N0 _]; congruence). apply S, Nl. }
  wbind. eapply wp_obj_forward; [exact S1|]. intros h2 S2 Z2 A2.
  apply wp_train with (I := fun i o h => let p' := Nat.iter i (mgd lr n k hh X ys reg la al) p in obj p' (Some (outs n k hh X p')) o h /\ abs h !! p_z2 o = Some (Mat hh n (hz k X p')) /\ abs h !! p_a2 o = Some (Mat hh n (ha k X p'))); [exact Hm|split; [exact S2|split; [exact Z2|exact A2]]| |].
  - intros i o1 h3 _ (S3 & Z3 & A3). eapply wp_obj_gd_epoch; [exact S3|exact Z3|exact A3|]. cbv zeta. intros o2 h4 S4 Z4 A4. split; [exact S4|]. split; [exact Z4|exact A4].
  - intros o1 h3 (S3 & _ & _). apply (HQ _ _ S3).
Qed.
End obj.
End mlp.
Arguments ms_wf {F base x y k n hh reg la al p Y o h}.
Arguments ms_shape {F base x y k n hh reg la al p Y o h}.
Arguments ms_obj {F base x y k n hh reg la al p Y o h}.
Arguments ms_own {F base x y k n hh reg la al p Y o h}.
Arguments ms_new {F base x y k n hh reg la al p Y o h}.
Arguments ms_w1 {F base x y k n hh reg la al p Y o h}.
Arguments ms_w2 {F base x y k n hh reg la al p Y o h}.
Arguments ms_b1 {F base x y k n hh reg la al p Y o h}.
Arguments ms_yh {F base x y k n hh reg la al p Y o h}.
Arguments ms_z2 {F base x y k n hh reg la al p Y o h}.
Arguments ms_a2 {F base x y k n hh reg la al p Y o h}.
Arguments ms_frame {F base x y k n hh reg la al p Y o h}.
Arguments obj_yh {F base x y k n hh reg la al p Y o h}.
Arguments obj_pars {F base x y k n hh reg la al p Y o h}.
Arguments obj_in {F base x y k n hh reg la al p Y o h l a}.
