(** * What the link-function regressions compute, for any arithmetic. *)
From Verif Require Import Base BaseProofs Vec VecSpec VecProofs VecProofs2 Mat MatSpec MatProofs MatProofs2 MatProofs3 MatProofs4 MatProofs5 DetProofs Frame Stat StatProofs Act ActProofs ActProofs2 Cost CostProofs Sym Svm LinAlg LinAlgProofs Util UtilProofs Glm GlmProofs GlmProofs2 GlmProofs4 Lnk.
Ltac fr h' W A := eapply wp_free; [eassumption|look|]; intros h' W A; match type of A with abs _ = delete ?d (abs ?h0) => match goal with A0 : abs h0 = _ |- _ => rewrite A0 in A; clear A0 end end;
  rewrite ?delete_insert_ne in A by congruence; rewrite delete_insert in A by (rewrite ?lookup_insert_ne by congruence; first [assumption|congruence]).
Section lnk.
Context {F : Type} `{Scalar F} `{Libm F}.
Implicit Types (h : heap F) (xs ys ws es zs : list F) (X : nat -> nat -> F) (m : gmap loc (aobj F)).

(** ** Pure counterparts *)
Definition lpre (n k : nat) X ws (b : F) : list F := (fun z => s_add z b) <$> vlist n (mv_row X ws k).
Definition lpreds (c : lcls) (n k : nat) X ws (b : F) : list F := asem (norm_v c) <$> lpre n k X ws b.
Definition lerrs (c : lcls) (mle : bool) (n k : nat) X ys ws (b : F) : list F :=
  match c, mle with Probit, true => zip_with s_sub ys (lpreds c n k X ws b) | _, _ => zip_with s_sub (lpreds c n k X ws b) ys end.
Definition lslope (c : lcls) es zs : list F := zip_with s_mul es (asem (deriv_v c) <$> zs).
(** One update of weights and bias from the slopes [p1] (weights) and [p2] (bias) of the N rows X; [d] divides. *)
Definition lmove (op : F -> F -> F) (lr d : F) (N k : nat) X (p1 p2 : list F) (reg : regtype) (la al : F) (s : list F * F) : list F * F :=
  (rw1 la al reg <$> zip_with op s.1 ((fun x => s_mul x (s_div lr d)) <$> xt_e N k X p1), op s.2 (s_div (s_mul lr (sumv p2)) d)).
Definition dir (mle : bool) : F -> F -> F := if mle then s_add else s_sub.
Definition lgd_pure (c : lcls) (mle : bool) (lr : F) (n k : nat) X ys (reg : regtype) (la al : F) (s : list F * F) : list F * F :=
  let p := lslope c (lerrs c mle n k X ys s.1 s.2) (lpre n k X s.1 s.2) in
  lmove (dir mle) lr (s_of_Z (Z.of_nat n)) n k X p p reg la al s.

Lemma lpre_length n k X ws b : length (lpre n k X ws b) = n.
Proof. unfold lpre. rewrite fmap_length. apply vlist_length. Qed.
Lemma lpreds_length c n k X ws b : length (lpreds c n k X ws b) = n.
Proof. unfold lpreds. rewrite fmap_length. apply lpre_length. Qed.
Lemma lerrs_length c mle n k X ys ws b : length ys = n -> length (lerrs c mle n k X ys ws b) = n.
Proof. intros. unfold lerrs. destruct c, mle; rewrite zip_with_length, lpreds_length; lia. Qed.
Lemma lslope_length c es zs : length es = length zs -> length (lslope c es zs) = length es.
Proof. intros. unfold lslope. rewrite zip_with_length, fmap_length. lia. Qed.
Lemma lmove_length op lr d N k X p1 p2 reg la al s : length s.1 = k -> length (lmove op lr d N k X p1 p2 reg la al s).1 = k.
Proof. intros E. cbn. rewrite fmap_length, zip_with_length, fmap_length, xt_e_length. lia. Qed.

(** ** Steps *)
Lemma wp_norm c h z zs (Q : option loc -> heap F -> Prop) : wf h -> abs h !! z = Some (AVec zs) ->
  (forall d h', wf h' -> abs h !! d = None -> abs h' = <[d := AVec (asem (norm_v c) <$> zs)]> (abs h) -> Q (Some d) h') -> wp (run_exp (norm_v c) (Some z)) h Q.
Proof. intros W Hz HQ. eapply (run_exp_val (norm_v c) KV h z 0 0); [exact W|exact Hz|destruct c; reflexivity..|exact HQ]. Qed.
Lemma wp_deriv c h z zs (Q : option loc -> heap F -> Prop) : wf h -> abs h !! z = Some (AVec zs) ->
  (forall d h', wf h' -> abs h !! d = None -> abs h' = <[d := AVec (asem (deriv_v c) <$> zs)]> (abs h) -> Q (Some d) h') -> wp (run_exp (deriv_v c) (Some z)) h Q.
Proof. intros W Hz HQ. eapply (run_exp_val (deriv_v c) KV h z 0 0); [exact W|exact Hz|destruct c; reflexivity..|exact HQ]. Qed.
Lemma wp_l_evaluatem c (o : lnk F) h x w k n X ws b (Q : option loc -> heap F -> Prop) : wf h -> g_w (l_g o) = Some w -> g_b (l_g o) = b -> abs h !! x = Some (Mat k n X) -> abs h !! w = Some (AVec ws) -> length ws = k -> Z.of_nat n <= int_max ->
  (forall d h', wf h' -> abs h !! d = None -> abs h' = <[d := AVec (lpreds c n k X ws b)]> (abs h) -> Q (Some d) h') -> wp (l_evaluatem c o (Some x)) h Q.
Proof.
  intros W Ew Eb Hx Hw El Hn HQ. unfold l_evaluatem, propagatem. rewrite Ew, Eb. wbind. eapply wp_propagate; [exact W|exact Hx|exact Hw|exact El|exact Hn|]. intros z h1 W1 N1 A1.
  wbind. eapply wp_norm; [exact W1|look|]. new_as d h2 W2 N2 A2. wbind. cbn [drop_ref]. dele h3 W3 A3. apply wp_ret. apply HQ; assumption.
Qed.
Lemma wp_propagatev (o : lnk F) h w b r xs ws (Q : F -> heap F -> Prop) : wf h -> g_w (l_g o) = Some w -> g_b (l_g o) = b -> abs h !! w = Some (AVec ws) -> abs h !! r = Some (AVec xs) -> length ws = length xs ->
  Q (s_add (dotl ws xs) b) h -> wp (propagatev o (Some r)) h Q.
Proof. intros W Ew Eb Hw Hr El HQ. unfold propagatev. rewrite Ew, Eb. wbind. apply wp_deref_Some. wbind. eapply wp_v_dot; [exact W|exact Hw|exact Hr|]. rewrite decide_True by exact El. apply wp_ret. exact HQ. Qed.
Lemma wp_l_evaluatev c (o : lnk F) h w b r xs ws (Q : F -> heap F -> Prop) : wf h -> g_w (l_g o) = Some w -> g_b (l_g o) = b -> abs h !! w = Some (AVec ws) -> abs h !! r = Some (AVec xs) -> length ws = length xs ->
  Q (norm_r c (s_add (dotl ws xs) b)) h -> wp (l_evaluatev c o (Some r)) h Q.
Proof. intros W Ew Eb Hw Hr El HQ. unfold l_evaluatev. wbind. eapply wp_propagatev; [exact W|exact Ew|exact Eb|exact Hw|exact Hr|exact El|]. apply wp_ret. exact HQ. Qed.
Lemma wp_slope c h e z es zs (Q : option loc -> heap F -> Prop) : wf h -> abs h !! e = Some (AVec es) -> abs h !! z = Some (AVec zs) -> length es = length zs ->
  (forall d h', wf h' -> abs h !! d = None -> abs h' = <[d := AVec (lslope c es zs)]> (abs h) -> Q (Some d) h') -> wp (slope c (Some e) (Some z)) h Q.
Proof.
  intros W He Hz El HQ. unfold slope. wbind. eapply wp_deriv; [exact W|exact Hz|]. intros d h1 W1 N1 A1. wbind. eapply wp_vope; [exact W1|look|look|rewrite fmap_length; exact El|]. new_as p h2 W2 N2 A2.
  wbind. fr h3 W3 A3. apply wp_ret. apply HQ; assumption.
Qed.

Section obj.
Context (c : lcls) (x y : loc) (k n : nat) (X : nat -> nat -> F) (ys : list F) (reg : regtype) (la al : F) (gn gk : Z).
Context (El : length ys = n) (Hn : Z.of_nat n <= int_max) (Hk : Z.of_nat k <= int_max) (Hgn : c = CLogLog -> gn = Z.of_nat n).
Definition mklnk (lw ly : loc) (rz : option loc) (b : F) : lnk F := Lnk (Glm (Some x) (Some y) (Some ly) (Some lw) b gn gk reg la al true) rz.
Definition withz (rz : option loc) (Z : aobj F) m := match rz with None => m | Some lz => <[lz := Z]> m end.
(** The object before training: _z may be null or hold anything. *)
Definition lnkS m (s : list F * F) (Yh : aobj F) (o : lnk F) h : Prop :=
  wf h /\ length s.1 = k /\ exists lw ly rz Z, o = mklnk lw ly rz s.2 /\ lw <> ly /\ m !! lw = None /\ m !! ly = None /\
    (forall lz, rz = Some lz -> lz <> lw /\ lz <> ly /\ m !! lz = None) /\ abs h = withz rz Z (<[ly := Yh]> (<[lw := AVec s.1]> m)).
(** The object during training: _z and _y_hat are up to date. *)
Definition lnkT m (s : list F * F) (o : lnk F) h : Prop :=
  wf h /\ length s.1 = k /\ exists lw ly lz, o = mklnk lw ly (Some lz) s.2 /\ lw <> ly /\ lz <> lw /\ lz <> ly /\ m !! lw = None /\ m !! ly = None /\ m !! lz = None /\
    abs h = <[lz := AVec (lpre n k X s.1 s.2)]> (<[ly := AVec (lpreds c n k X s.1 s.2)]> (<[lw := AVec s.1]> m)).
Lemma lnkT_S m s o h : lnkT m s o h -> lnkS m s (AVec (lpreds c n k X s.1 s.2)) o h.
Proof.
  intros (W & Ls & lw & ly & lz & -> & D1 & D2 & D3 & N1 & N2 & N3 & A). split; [exact W|]. split; [exact Ls|]. exists lw, ly, (Some lz), (AVec (lpre n k X s.1 s.2)). split_and!; try assumption; try reflexivity. intros ? [= <-]. auto.
Qed.

Lemma wp_l_forward m s Yh o h (Q : lnk F -> heap F -> Prop) : m !! x = Some (Mat k n X) -> lnkS m s Yh o h -> (forall o' h', lnkT m s o' h' -> Q o' h') -> wp (l_forward c o) h Q.
Proof using Hn.
  intros Hx (W & Ls & lw & ly & rz & Z & -> & D & N1 & N2 & Nz & A) HQ. unfold l_forward, propagatem. cbn [mklnk l_g l_z g_w g_b g_x g_yh].
  assert (Hx' : abs h !! x = Some (Mat k n X)). { rewrite A. destruct rz as [lz|]; cbn [withz]; [destruct (Nz lz eq_refl) as (? & ? & ?)|]; rewrite !lookup_insert_ne by congruence; exact Hx. }
  assert (Hw' : abs h !! lw = Some (AVec s.1)). { rewrite A. destruct rz as [lz|]; cbn [withz]; [destruct (Nz lz eq_refl) as (? & ? & ?); rewrite (lookup_insert_ne _ lz) by congruence|]; rewrite lookup_insert_ne by congruence; apply lookup_insert. }
  wbind. eapply wp_propagate; [exact W|exact Hx'|exact Hw'|exact Ls|exact Hn|]. intros z h1 W1 N3 A1. fold (lpre n k X s.1 s.2) in A1.
  assert (E2 : wp (drop_ref true rz) h1 (fun _ h2 => wf h2 /\ m !! z = None /\ z <> ly /\ z <> lw /\ abs h2 = <[z := AVec (lpre n k X s.1 s.2)]> (<[ly := Yh]> (<[lw := AVec s.1]> m)))).
  { destruct rz as [lz|]; cbn [drop_ref withz] in *.
    - destruct (Nz lz eq_refl) as (P1 & P2 & P3). rewrite A in N3, A1. split_none N3. eapply wp_del; [exact W1|rewrite A1, lookup_insert_ne by congruence; apply lookup_insert|]. intros h2 W2 A2 _. split_and!; try congruence; try assumption. rewrite A2, A1. map_cases.
    - rewrite A in N3, A1. split_none N3. apply wp_ret. split_and!; try congruence; assumption. }
  wbind. eapply wp_mono; [exact E2|]. cbv beta. intros _ h2 (W2 & N4 & D4 & D5 & A2). wbind. eapply wp_norm; [exact W2|look|]. intros a h3 W3 N5 A3. rewrite A2 in N5, A3. split_none N5.
  wbind. cbn [drop_ref]. eapply wp_del; [exact W3|rewrite A3, !lookup_insert_ne by congruence; apply lookup_insert|]. intros h4 W4 A4 _. apply wp_ret. apply HQ. split; [exact W4|]. split; [exact Ls|].
  exists lw, a, z. cbn [set_yh g_x g_y g_w g_b g_n g_k g_reg g_la g_al g_init]. split_and!; try congruence; [reflexivity|]. rewrite A4, A3. fold (lpreds c n k X s.1 s.2). map_cases.
Qed.

(** The weight and bias update; [mm] is the heap without the weights. *)
Lemma wp_l_update op lr bx e z1 z2 N Xb es zs1 zs2 lw ly rz s h mm (Q : lnk F -> heap F -> Prop) : wf h -> length s.1 = k -> abs h = <[lw := AVec s.1]> mm -> mm !! lw = None ->
  mm !! x = Some (Mat k n X) -> mm !! bx = Some (Mat k N Xb) -> mm !! e = Some (AVec es) -> mm !! z1 = Some (AVec zs1) -> mm !! z2 = Some (AVec zs2) -> length es = N -> length zs1 = N -> length zs2 = N ->
  (forall lw' h', wf h' -> mm !! lw' = None -> let s' := lmove op lr (s_of_Z (Z.of_nat n)) N k Xb (lslope c es zs1) (lslope c es zs2) reg la al s in
    abs h' = <[lw' := AVec s'.1]> mm -> Q (mklnk lw' ly rz s'.2) h') ->
  wp (l_update c op lr (Some bx) (Some e) (Some z1) (Some z2) (mklnk lw ly rz s.2)) h Q.
Proof using Hk Hgn.
  intros W Ls A N1 Hx Hb He Hz1 Hz2 Le Lz1 Lz2 HQ. assert (x <> lw) by congruence. assert (bx <> lw) by congruence. assert (e <> lw) by congruence. assert (z1 <> lw) by congruence. assert (z2 <> lw) by congruence.
  unfold l_update. wbind. eapply wp_slope; [exact W|look|look|congruence|]. new_as p h1 W1 N2 A1.
  wbind. eapply wp_xt_vec; [exact W1|look|look|rewrite lslope_length by congruence; exact Le|exact Hk|]. new_as g h2 W2 N3 A2. wbind. fr h3 W3 A3.
  wbind. apply wp_mono with (Q := fun v h' => v = Z.of_nat n /\ h' = h3).
  { unfold l_rows. cbn [mklnk l_g g_n g_x]. destruct c; [apply wp_ret; split; [apply Hgn|]; reflexivity|..]; (wbind; apply wp_deref_Some; wbind; eapply wp_m_size; [look; exact Hx|]; apply wp_ret; split; reflexivity). }
  intros ? ? [-> ->]. cbn [mklnk l_g].
  wbind. eapply (wp_upd reg la al op _ g (xt_e N k Xb (lslope c es zs1)) s.1 _ h3 mm lw); [exact W3|reflexivity|reflexivity|reflexivity|reflexivity|exact A3|exact N3|exact N1|congruence|rewrite xt_e_length; congruence|].
  intros lw' h4 W4 N4 A4. set (ws' := rw1 la al reg <$> _) in *. assert (e <> lw') by congruence. assert (z2 <> lw') by congruence.
  wbind. eapply wp_slope; [exact W4|look|look|congruence|]. new_as p2 h5 W5 N5 A5. wbind. apply wp_deref_Some. wbind. eapply wp_v_sum; [exact W5|look|]. fold (sumv (lslope c es zs2)). wbind. fr h6 W6 A6. apply wp_ret.
  cbn [l_setg set_w set_b g_x g_y g_yh g_w g_b g_n g_k g_reg g_la g_al g_init l_z]. apply (HQ lw' h6); assumption.
Qed.

Lemma wp_lerr m s mle lw ly lz h (Q : option loc -> heap F -> Prop) : wf h -> m !! y = Some (AVec ys) -> lw <> ly -> lz <> lw -> lz <> ly -> m !! lw = None -> m !! ly = None -> m !! lz = None ->
  abs h = <[lz := AVec (lpre n k X s.1 s.2)]> (<[ly := AVec (lpreds c n k X s.1 s.2)]> (<[lw := AVec s.1]> m)) ->
  (forall d h', wf h' -> abs h !! d = None -> abs h' = <[d := AVec (lerrs c mle n k X ys s.1 s.2)]> (abs h) -> Q (Some d) h') ->
  wp (match c, mle with Probit, true => vop s_sub (Some y) (Some ly) | _, _ => vop s_sub (Some ly) (Some y) end) h Q.
Proof using El.
  intros W Hy D1 D2 D3 N1 N2 N3 A HQ. assert (y <> lw) by congruence. assert (y <> ly) by congruence. assert (y <> lz) by congruence. unfold lerrs in HQ. clear Hgn.
  destruct c, mle; eapply wp_vop; try exact HQ; try exact W; try (look; fail); rewrite lpreds_length; congruence.
Qed.
Lemma wp_l_gd_epoch m mle lr s o h (Q : lnk F -> heap F -> Prop) : m !! x = Some (Mat k n X) -> m !! y = Some (AVec ys) -> lnkT m s o h ->
  (forall o' h', lnkT m (lgd_pure c mle lr n k X ys reg la al s) o' h' -> Q o' h') -> wp (l_gd_epoch c mle lr o) h Q.
Proof using El Hn Hk Hgn.
  intros Hx Hy (W & Ls & lw & ly & lz & -> & D1 & D2 & D3 & N1 & N2 & N3 & A) HQ. assert (x <> lw) by congruence. assert (x <> ly) by congruence. assert (x <> lz) by congruence. assert (y <> lw) by congruence. assert (y <> ly) by congruence. assert (y <> lz) by congruence.
  unfold l_gd_epoch, l_cost. cbn [mklnk l_g l_z g_yh g_y g_x].
  wbind. eapply (wp_g_cost Lin _ h ly y lw); [exact W|reflexivity|look|look|rewrite lpreds_length; congruence|look|]. intros _.
  wbind. eapply (wp_lerr m s mle lw ly lz); [exact W|exact Hy|exact D1|exact D2|exact D3|exact N1|exact N2|exact N3|exact A|]. new_as e h1 W1 N4 A1. set (es := lerrs c mle n k X ys s.1 s.2) in *. assert (Les : length es = n) by (apply lerrs_length; exact El).
  wbind. fold (dir mle). change (Lnk (Glm (Some x) (Some y) (Some ly) (Some lw) s.2 gn gk reg la al true) (Some lz)) with (mklnk lw ly (Some lz) s.2).
  eapply (wp_l_update (dir mle) lr x e lz lz n X es (lpre n k X s.1 s.2) (lpre n k X s.1 s.2) lw ly (Some lz) s h1 (<[e := AVec es]> (<[lz := AVec (lpre n k X s.1 s.2)]> (<[ly := AVec (lpreds c n k X s.1 s.2)]> m))));
    [exact W1|exact Ls|rewrite A1; map_cases|rewrite !lookup_insert_ne by congruence; exact N1|look|look|look|look|look|exact Les|apply lpre_length|apply lpre_length|].
  intros lw' h2 W2 N5. cbv zeta. fold (lgd_pure c mle lr n k X ys reg la al s). set (s' := lgd_pure c mle lr n k X ys reg la al s). intros A2. split_none N5.
  assert (Ls' : length s'.1 = k) by (apply lmove_length; exact Ls).
  wbind. eapply (wp_l_forward (<[e := AVec es]> m) s' (AVec (lpreds c n k X s.1 s.2))); [look| |].
  { split; [exact W2|]. split; [exact Ls'|]. exists lw', ly, (Some lz), (AVec (lpre n k X s.1 s.2)). split_and!; try reflexivity; try congruence; try (rewrite lookup_insert_ne by congruence; assumption). { intros ? [= <-]. rewrite lookup_insert_ne by congruence. split_and!; congruence. } cbn [withz]. rewrite A2. map_cases. }
  intros o' h3 (W3 & _ & lw2 & ly2 & lz2 & -> & P1 & P2 & P3 & M1 & M2 & M3 & A3). split_none M1. split_none M2. split_none M3. wbind. fr h4 W4 A4. apply wp_ret. apply HQ. split; [exact W4|]. split; [exact Ls'|]. exists lw2, ly2, lz2. split_and!; try reflexivity; try assumption.
Qed.

Lemma wp_needs_init m s Yh ny cs o h (Q : bool -> heap F -> Prop) : m !! x = Some (Mat k n X) -> Yh = (SVec ny, cs) -> (c <> CLogLog -> ny = Z.of_nat n) -> lnkS m s Yh o h -> Q false h -> wp (needs_init c o) h Q.
Proof.
  intros Hx -> Ey (W & Ls & lw & ly & rz & Z & -> & D & N1 & N2 & Nz & A) HQ. unfold needs_init. cbn [mklnk l_g g_x g_y g_yh g_w].
  assert (Hx' : abs h !! x = Some (Mat k n X)). { rewrite A. destruct rz as [lz|]; cbn [withz]; [destruct (Nz lz eq_refl) as (? & ? & ?)|]; rewrite !lookup_insert_ne by congruence; exact Hx. }
  assert (Hw' : abs h !! lw = Some (AVec s.1)). { rewrite A. destruct rz as [lz|]; cbn [withz]; [destruct (Nz lz eq_refl) as (? & ? & ?); rewrite (lookup_insert_ne _ lz) by congruence|]; rewrite lookup_insert_ne by congruence; apply lookup_insert. }
  assert (Hy' : abs h !! ly = Some (SVec ny, cs)). { rewrite A. destruct rz as [lz|]; cbn [withz]; [destruct (Nz lz eq_refl) as (? & ? & ?); rewrite (lookup_insert_ne _ lz) by congruence|]; apply lookup_insert. }
  assert (G : c <> CLogLog -> wp (let! s0 := m_size x in let! yh := deref (Some ly) in let! a := v_size yh in if negb (a =? s0.2) then ret true else let! w := deref (Some lw) in let! b := v_size w in ret (negb (b =? s0.1))) h Q).
  { intros Hc. wbind. eapply wp_m_size; [exact Hx'|]. wbind. apply wp_deref_Some. wbind. eapply wp_v_size; [exact Hy'|]. cbn [fst snd]. rewrite Ey by exact Hc. rewrite Z.eqb_refl. cbn [negb].
    wbind. apply wp_deref_Some. wbind. eapply wp_v_size; [exact Hw'|]. rewrite Ls, Z.eqb_refl. apply wp_ret. exact HQ. }
  clear Hgn. destruct c; [apply wp_ret; exact HQ|apply G; discriminate..].
Qed.
(** Training with all rows. *)
Lemma wp_l_gd m mle lr max s Yh ny cs o h (Q : lnk F -> heap F -> Prop) : m !! x = Some (Mat k n X) -> m !! y = Some (AVec ys) -> max < int_max -> Yh = (SVec ny, cs) -> (c <> CLogLog -> ny = Z.of_nat n) -> lnkS m s Yh o h ->
  (forall o' h', lnkT m (Nat.iter (Z.to_nat (Z.max 1 max)) (lgd_pure c mle lr n k X ys reg la al) s) o' h' -> Q o' h') -> wp (l_gradient_descent c mle lr max o) h Q.
Proof using El Hn Hk Hgn.
  intros Hx Hy Hm EY Ey HS HQ. unfold l_gradient_descent. wbind. eapply wp_needs_init; [exact Hx|exact EY|exact Ey|exact HS|]. wbind. eapply wp_l_forward; [exact Hx|exact HS|]. intros o1 h1 HT.
  apply wp_train with (I := fun i o h => lnkT m (Nat.iter i (lgd_pure c mle lr n k X ys reg la al) s) o h); [exact Hm|exact HT| |exact HQ].
  intros i o2 h2 _ H2. eapply wp_l_gd_epoch; [exact Hx|exact Hy|exact H2|]. intros o3 h3 H3. exact H3.
Qed.
End obj.
End lnk.
