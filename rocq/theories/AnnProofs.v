(** * Proofs about the network: prediction. *)
From Verif Require Import Base BaseProofs Vec VecSpec VecProofs VecProofs2 Mat MatSpec MatProofs MatProofs2 MatProofs3 MatProofs4 MatProofs5 Act Sym ActProofs Util UtilProofs Cost Glm GlmProofs GlmProofs2
  Mlp MlpProofs MlpProofs6 Layer Ann RInst LibmR PropAct PropAct2 PropSvm LsqMath GlmMath PropGlm2 LayerSpec LayerProofs PropLayer AnnSpec Svm.
From Coq Require Import Reals Lra.
Open Scope R_scope.
Implicit Types (h : heap R).

Lemma layer_is_frame h h' o i : layer_is h o i -> (forall l, l ∈ [li_w i; li_z i; li_b i] -> abs h' !! l = abs h !! l) -> layer_is h' o i.
Proof.
  intros (E1 & E2 & E3 & E4 & E5 & E6 & E7 & (a&b&c&E8) & (a'&b'&c'&E9) & E10 & E11) Hf. split_and!; try assumption.
  - exists a, b, c. rewrite Hf by set_solver. exact E8.
  - exists a', b', c'. rewrite Hf by set_solver. exact E9.
  - rewrite Hf by set_solver. exact E10.
Qed.
Lemma wp_net_forward (is : list li) : forall ls raw x (k n : nat) X h (Q : list (hlayer R) * option loc -> heap R -> Prop), wf h -> Forall2 (layer_is h) ls is -> NoDup (li_locs is) -> x ∉ li_locs is ->
  abs h !! x = Some (Mat k n X) -> net_fits n k (li_s <$> is) ->
  (forall ls' a h', wf h' -> Forall2 (layer_is h') ls' is -> (a = x \/ abs h !! a = None) -> abs h' !! a = Some (Mat (net_fun raw k X (li_s <$> is)).1 n (net_fun raw k X (li_s <$> is)).2) ->
     (forall l, abs h !! l <> None -> l ∉ li_locs is -> abs h' !! l = abs h !! l) -> (forall l, abs h !! l <> None -> abs h' !! l <> None) -> Q (ls', Some a) h') ->
  wp (net_forward raw (Some x) ls) h Q.
Proof.
  induction is as [|i is IH]; intros ls raw x k n X h Q V HF ND Nx Hx Hfit HQ; inversion HF; subst; cbn [net_forward].
  - apply wp_ret. eapply (HQ [] x h); auto.
  - rename x0 into o. rename l into ls. match goal with A : layer_is h o i |- _ => rename A into HL end. match goal with A : Forall2 _ ls is |- _ => rename A into HLs end.
    cbn [li_locs flat_map app] in ND, Nx. change (flat_map _ is) with (li_locs is) in ND, Nx. apply list.NoDup_cons in ND as [Dw ND]. apply list.NoDup_cons in ND as [Dz ND]. rewrite !elem_of_cons in Nx. rewrite elem_of_cons in Dw.
    cbn [fmap list_fmap net_fits] in Hfit. destruct Hfit as (Hu & F1 & F2 & F3 & Hfit). pose proof HL as (E1 & E2 & E3 & E4 & E5 & E6 & E7 & (a1&b1&c1&E8) & (a2&b2&c2&E9) & E10 & E11).
    set (u := sl_u (li_s i)) in *. wbind. unfold hl_forward. wbind. assert (Dwb : li_w i <> li_b i) by (intros E; rewrite E, E10 in E8; discriminate). assert (Dzb : li_z i <> li_b i) by (intros E; rewrite E, E10 in E9; discriminate).
    assert (Dxb : x <> li_b i) by (intros E; rewrite E, E10 in Hx; discriminate).
    eapply (wp_hl_initialize (raw 0%nat) (hl_set (SInput (Some x)) o) h x (li_w i) (li_b i) k n u X); [exact V|reflexivity|reflexivity|exact E4|exact E5|intros E; apply Nx; left; congruence|exact E3|exact Hu|exact Hx|exact E8|exact E10|exact F2|exact F3|].
    intros h1 W1 A1. cbn [hl_set hl_wi] in A1. rewrite E2 in A1. set (W := drawn_m (sl_wi (li_s i)) u k (raw 0%nat)) in *.
    assert (A1' : abs h1 = <[li_w i := Mat u k W]> (abs h)) by (rewrite A1; f_equal; apply insert_id; rewrite E10; unfold AVec; rewrite E11; do 2 f_equal; symmetry; apply resize_all_alt; rewrite fmap_length; congruence). clear A1.
    eapply (wp_fwd_body (hl_done (hl_set (SInput (Some x)) o) true) h1 x (li_w i) (li_b i) (li_z i) k n u X W (sl_bs (li_s i))).
    + exact W1.
    + reflexivity.
    + exact E4.
    + exact E5.
    + exact E6.
    + intros E; apply Nx; right; left; congruence.
    + intros E; apply Dw; left; congruence.
    + cbn [hl_done hl_set hl_act]. rewrite E1. exact E7.
    + rewrite A1', lookup_insert_ne by (intros E; apply Nx; left; congruence). exact Hx.
    + rewrite A1'. apply lookup_insert.
    + rewrite A1', lookup_insert_ne by congruence. exact E10.
    + exact E11.
    + rewrite A1', lookup_insert_ne by (intros E; apply Dw; left; congruence). exact E9.
    + exact F1.
    + intros a h2 W2 N2 A2. rewrite A1' in N2, A2. apply lookup_insert_None in N2 as [N2 Da]. cbn [hl_done hl_set hl_act] in A2. rewrite E1 in A2.
      assert (Fr : forall l, abs h !! l <> None -> l <> li_w i -> l <> li_z i -> abs h2 !! l = abs h !! l) by (intros l Hl H1 H2; rewrite A2, !lookup_insert_ne by congruence; reflexivity).
      assert (Hall : forall l, l ∈ li_locs is -> abs h !! l <> None).
      { clear - HLs. intros l Hl. apply elem_of_list_In, in_flat_map in Hl as (i' & Hi & Hl). apply elem_of_list_In in Hi. apply elem_of_list_lookup in Hi as [q Hq]. destruct (Forall2_lookup_r _ _ _ _ _ HLs Hq) as (o' & _ & (_&_&_&_&_&_&_&(?&?&?&G1)&(?&?&?&G2)&_)).
        cbn in Hl. destruct Hl as [<-|[<-|[]]]; [rewrite G1|rewrite G2]; discriminate. }
      wbind. eapply (IH ls (fun q => raw (S q)) a u n (fun i0 j => run_norm_real (sl_act (li_s i)) (dense k X W (sl_bs (li_s i)) i0 j)) h2); [exact W2| |exact ND| |rewrite A2; apply lookup_insert|exact Hfit|].
      * apply Forall2_lookup. intros q. pose proof (proj1 (Forall2_lookup _ _ _) HLs q) as G. destruct (ls !! q) as [o'|] eqn:Eo, (is !! q) as [i'|] eqn:Ei; inversion G; subst; constructor.
        match goal with A : layer_is h o' i' |- _ => rename A into G' end. apply (layer_is_frame h); [exact G'|]. intros l Hl. assert (I1 : li_w i' ∈ li_locs is /\ li_z i' ∈ li_locs is).
        { split; apply elem_of_list_In, in_flat_map; exists i'; (split; [apply elem_of_list_In, (elem_of_list_lookup_2 _ _ _ Ei)|cbn; tauto]). }
        pose proof G' as (_&_&_&_&_&_&_&(?&?&?&G1)&(?&?&?&G2)&G3&_). rewrite !elem_of_cons, elem_of_nil in Hl. apply Fr.
        -- destruct Hl as [->|[->|[->|[]]]]; [rewrite G1|rewrite G2|rewrite G3]; discriminate.
        -- intros ->. destruct Hl as [Hl|[Hl|[Hl|[]]]]; [apply Dw; right; rewrite Hl; apply I1|apply Dw; right; rewrite Hl; apply I1|]. rewrite Hl, G3 in E8. discriminate.
        -- intros ->. destruct Hl as [Hl|[Hl|[Hl|[]]]]; [apply Dz; rewrite Hl; apply I1|apply Dz; rewrite Hl; apply I1|]. rewrite Hl, G3 in E9. discriminate.
      * intros I. apply Hall in I. congruence.
      * intros ls' a' h3 W3 HF3 Na3 Ha3 Fr3 Al3. apply wp_ret. cbn [fst snd]. apply HQ.
        -- exact W3.
        -- constructor; [|exact HF3]. assert (Nb : li_b i ∉ li_locs is).
           { clear - HLs E10. intros Hl. apply elem_of_list_In, in_flat_map in Hl as (i' & Hi & Hl). apply elem_of_list_In in Hi. apply elem_of_list_lookup in Hi as [q Hq]. destruct (Forall2_lookup_r _ _ _ _ _ HLs Hq) as (o' & _ & (_&_&_&_&_&_&_&(?&?&?&G1)&(?&?&?&G2)&_)).
             cbn in Hl. destruct Hl as [E|[E|[]]]; rewrite E in *; rewrite E10 in *; discriminate. }
           assert (Fw : abs h2 !! li_w i = Some (Mat u k W)) by (rewrite A2, lookup_insert_ne, lookup_insert_ne by (first [congruence|intros E; apply Dw; left; congruence]); apply lookup_insert).
           assert (Fz : abs h2 !! li_z i = Some (Mat u n (dense k X W (sl_bs (li_s i))))) by (rewrite A2, lookup_insert_ne by congruence; apply lookup_insert).
           split_and!; try assumption.
           ++ eexists _, _, _. rewrite Fr3; [exact Fw|congruence|intros I; apply Dw; right; exact I].
           ++ eexists _, _, _. rewrite Fr3; [exact Fz|congruence|exact Dz].
           ++ assert (Fb : abs h2 !! li_b i = Some (AVec (sl_bs (li_s i)))) by (rewrite Fr by congruence; exact E10). rewrite Fr3; [exact Fb|congruence|exact Nb].
        -- right. destruct Na3 as [->|Na3]; [exact N2|]. rewrite A2 in Na3. split_none Na3. exact Na3.
        -- exact Ha3.
        -- intros l Hl Nl. cbn [li_locs flat_map app] in Nl. change (flat_map _ is) with (li_locs is) in Nl. rewrite !elem_of_cons in Nl. rewrite Fr3; [apply Fr; tauto| |tauto]. rewrite Fr by tauto. exact Hl.
        -- intros l Hl. apply Al3. rewrite A2. destruct (decide (a = l)) as [->|]; [rewrite lookup_insert; discriminate|]. rewrite lookup_insert_ne by assumption. destruct (decide (li_z i = l)) as [->|]; [rewrite lookup_insert; discriminate|]. rewrite lookup_insert_ne by assumption.
           destruct (decide (li_w i = l)) as [->|]; [rewrite lookup_insert; discriminate|]. rewrite lookup_insert_ne by assumption. exact Hl.
Qed.

Lemma net_fun_width ss : forall raw k X, (net_fun raw k X ss).1 = net_width k ss.
Proof.
  unfold net_width. induction ss as [|s ss IH]; intros raw k X; [reflexivity|]. cbn [net_fun]. rewrite IH. destruct ss as [|s' ss]; [reflexivity|]. change (list.last (s :: s' :: ss)) with (list.last (s' :: ss)).
  destruct (list.last (s' :: ss)) eqn:E; [reflexivity|]. apply last_None in E. discriminate.
Qed.
Lemma wp_model_set_test (is : list li) (o : ann R) out wo (d : draws R) x (k n : nat) X h (Q : ann R * option loc -> heap R -> Prop) : wf h -> Forall2 (layer_is h) (an_net o) is -> NoDup (li_locs is) -> x ∉ li_locs is -> wo ∉ li_b <$> is ->
  an_out o = Some out -> abs h !! x = Some (Mat k n X) -> net_fits n k (li_s <$> is) -> let N := net_fun (dr_h d) k X (li_s <$> is) in out_is h out wo N.1 -> (Z.of_nat n <= int_max)%Z -> (Z.of_nat N.1 <= int_max)%Z ->
  (forall ls' xin z a h', wf h' -> Forall2 (layer_is h') ls' is -> (xin = x \/ abs h !! xin = None) -> z <> a -> abs h !! z = None -> abs h !! a = None ->
     abs h' !! xin = Some (Mat N.1 n N.2) -> abs h' !! wo = Some (AVec (drawn_v (ol_wi out) N.1 (dr_o d))) -> abs h' !! z = Some (AVec (lin n N.1 N.2 (drawn_v (ol_wi out) N.1 (dr_o d)) (dr_b d))) ->
     abs h' !! a = Some (AVec (run_norm_real (ol_act out) <$> lin n N.1 N.2 (drawn_v (ol_wi out) N.1 (dr_o d)) (dr_b d))) ->
     (forall l, abs h !! l <> None -> l ∉ li_locs is -> l <> wo -> abs h' !! l = abs h !! l) ->
     Q (an_put o ls' (ol_put_za (ol_ready (ol_set (OInput (Some xin)) out) (dr_b d)) (Some z) (Some a)), Some a) h') ->
  wp (an_model_set_test d (Some x) o) h Q.
Proof.
  intros V HF ND Nx Nb Eo Hx Hfit N (E1 & E2 & Hv & m & cs & Hw) Hn Hk HQ. unfold an_model_set_test. rewrite Eo. wbind. eapply wp_net_forward; [exact V|exact HF|exact ND|exact Nx|exact Hx|exact Hfit|]. intros ls' xin h1 W1 HF1 Hxin Hin Fr1 Al1. fold N in Hin. cbn [snd].
  assert (Nw : wo ∉ li_locs is).
  { clear - HF Hw. intros Hl. apply elem_of_list_In, in_flat_map in Hl as (i' & Hi & Hl). apply elem_of_list_In in Hi. apply elem_of_list_lookup in Hi as [q Hq]. destruct (Forall2_lookup_r _ _ _ _ _ HF Hq) as (o' & _ & (_&_&_&_&_&_&_&(?&?&?&G1)&(?&?&?&G2)&_)).
    cbn in Hl. destruct Hl as [E|[E|[]]]; rewrite E in *; rewrite Hw in *; discriminate. }
  assert (Hw1 : abs h1 !! wo = Some (SVec m, cs)) by (rewrite Fr1 by (first [congruence|exact Nw]); exact Hw). assert (Dxw : xin <> wo) by (intros ->; rewrite Hw1 in Hin; discriminate).
  wbind. unfold ol_forward. wbind. eapply (wp_ol_initialize (dr_o d) (dr_b d) (ol_set (OInput (Some xin)) out) h1 wo N.1); [exact W1|reflexivity|exact E1|exact E2|exact Hk|exact Hw1|]. intros h2 W2 A2. cbn [ol_set ol_wi] in A2.
  eapply (wp_ol_fwd_body (ol_ready (ol_set (OInput (Some xin)) out) (dr_b d)) h2 xin wo N.1 n N.2 (drawn_v (ol_wi out) N.1 (dr_o d))); [exact W2|reflexivity|exact E1|exact Hv|rewrite A2, lookup_insert_ne by congruence; exact Hin|rewrite A2; apply lookup_insert|unfold drawn_v; rewrite map_length; apply seq_length|exact Hn|].
  intros z a h3 W3 N1 N2 D A3. cbn [ol_ready ol_b ol_set ol_act] in A3. rewrite A2 in N1, N2, A3. split_none N1. split_none N2. apply wp_ret. cbn [fst snd]. cbn [ol_put_za ol_a].
  assert (Na : abs h !! a = None) by (destruct (abs h !! a) eqn:E; [exfalso; apply (Al1 a); congruence|reflexivity]). assert (Nz : abs h !! z = None) by (destruct (abs h !! z) eqn:E; [exfalso; apply (Al1 z); congruence|reflexivity]).
  eapply HQ with (z := z).
  - exact W3.
  - apply Forall2_lookup. intros q. pose proof (proj1 (Forall2_lookup _ _ _) HF1 q) as G. destruct (ls' !! q) as [o'|] eqn:Eq, (is !! q) as [i'|] eqn:Ei; inversion G; subst; constructor.
    match goal with A : layer_is h1 o' i' |- _ => rename A into G' end. apply (layer_is_frame h1); [exact G'|]. intros l Hl. pose proof G' as (_&_&_&_&_&_&_&(?&?&?&G1)&(?&?&?&G2)&G3&_). rewrite !elem_of_cons, elem_of_nil in Hl.
    assert (l <> a /\ l <> z) by (destruct Hl as [->|[->|[->|[]]]]; split; congruence). 
    destruct (decide (l = wo)) as [->|]; [|rewrite A3, !lookup_insert_ne by (intuition congruence); reflexivity]. 
    exfalso. destruct Hl as [E|[E|[E|[]]]]; [rewrite E in Hw1; congruence|rewrite E in Hw1; congruence|]. apply Nb. rewrite E. apply elem_of_list_fmap_1. exact (elem_of_list_lookup_2 _ _ _ Ei).
  - exact Hxin.
  - exact D.
  - exact Nz.
  - exact Na.
  - rewrite A3, !lookup_insert_ne by congruence. exact Hin.
  - rewrite A3, !lookup_insert_ne by congruence. apply lookup_insert.
  - rewrite A3, lookup_insert_ne by congruence. apply lookup_insert.
  - rewrite A3. apply lookup_insert.
  - intros l Hl1 Hl2 Hl3. pose proof (Al1 l Hl1). rewrite A3, !lookup_insert_ne by congruence. apply Fr1; assumption.
Qed.
