(** * Matrix proofs 6: product into the left operand, rotation matrices, rows from vectors. *)
From Verif Require Export MatProofs5.

Section proofs.
Context {F : Type} `{Scalar F}.
Implicit Types (h : heap F) (l a b : loc).

Lemma wp_mult_loop_zero_left h lb pb lc pc ni m c fb cx rc cb rb (Q : unit -> heap F -> Prop) :
  (forall x : F, s_add s_zero (s_mul s_zero x) = s_zero) -> wf h -> lb <> lc ->
  abs h !! lb = Some (Mat cb rb fb) -> ptr_of h lb = Some pb ->
  abs h !! lc = Some (Mat cx rc (fun _ _ => s_zero)) -> ptr_of h lc = Some pc ->
  (ni <= rc)%nat -> (c <= cx)%nat -> (m <= cx)%nat -> (m <= rb)%nat -> (c <= cb)%nat ->
  (forall h', wf h' -> h_obj h' = h_obj h -> abs h' = abs h -> Q tt h') ->
  wp (mult_loop (Z.of_nat ni) (Z.of_nat m) (Z.of_nat c) (Z.of_nat cx) (Z.of_nat cb) (Z.of_nat cx) pc pb pc) h Q.
Proof.
  intros Hz Hwf Hne Hx Hpx Hc Hpc H1 H2 H3 H4 H5 HQ. unfold mult_loop.
  pose (I := fun (_ : nat) hi => mst h lc cx rc (fun _ _ => Some s_zero) hi).
  apply wp_for_n with (I := I); unfold I; clear I.
  - rewrite Mat_MatP in Hc. apply mst_init; auto.
  - intros i hi Hi HI. apply wp_for_n with (I := fun (_ : nat) hi => mst h lc cx rc (fun _ _ => Some s_zero) hi); auto.
    clear hi HI. intros k hi Hk HI. apply wp_for_n with (I := fun (_ : nat) hi => mst h lc cx rc (fun _ _ => Some s_zero) hi); auto.
    clear hi HI. intros j hi Hj HI.
    wbind. eapply wp_mload; [exact HI|exact Hpc|lia|lia|reflexivity|].
    wbind. eapply wp_mload; [exact HI|exact Hpc|lia|lia|reflexivity|].
    wbind. eapply wp_mload_other; [exact HI|exact Hpx|congruence|exact Hx|lia|lia|].
    eapply wp_mstore; [exact HI|exact Hpc|lia|lia|]. intros h' HI'.
    eapply mst_ext; [exact HI'|]. intros i' j' _ _. unfold upd. destruct (decide _); [rewrite Hz|]; reflexivity.
  - intros h1 [W O A]. apply HQ; auto. rewrite A. rewrite insert_id; [reflexivity|]. rewrite <- Mat_MatP. exact Hc.
Qed.

(** C.multb(C, B) with B at least as wide as high: the product is lost. *)
Lemma wp_m_multb_alias_left h l b r m c fa fb (Q : unit -> heap F -> Prop) : wf h -> (forall x : F, s_add s_zero (s_mul s_zero x) = s_zero) -> b <> l ->
  abs h !! l = Some (Mat m r fa) -> abs h !! b = Some (Mat c m fb) -> (m <= c)%nat -> Z.of_nat (r * c) <= int_max ->
  (forall h', wf h' -> abs h' = <[l := Mat c r (fun _ _ => s_zero)]> (abs h) -> Q tt h') ->
  wp (m_multb l (Some l) (Some b)) h Q.
Proof.
  intros Hwf Hz Hbl Hl Hb Hmc Hle HQ.
  unfold m_multb. wbind. eapply wp_m_size; [exact Hl|]. wbind. eapply wp_m_size; [exact Hb|]. cbn [fst snd].
  rewrite Z.eqb_refl. cbn [negb].
  wbind. eapply wp_m_resize_if; [exact Hwf|exact Hl|lia|]. intros h2 W2 A2 _.
  wbind. eapply wp_m_fill_mat; [exact W2|rewrite A2; apply lookup_insert|]. intros h3 W3 O3 A3.
  assert (Hl3 : abs h3 !! l = Some (Mat c r (fun _ _ => s_zero))) by (rewrite A3; apply lookup_insert).
  assert (Hb3 : abs h3 !! b = Some (Mat c m fb)) by (rewrite A3, A2, !lookup_insert_ne by congruence; exact Hb).
  wbind. eapply wp_data_ptr; [exact Hl3|]. intros p Hp.
  wbind. eapply wp_data_ptr; [exact Hb3|]. intros q Hq.
  wbind. eapply wp_data_ptr; [exact Hl3|]. intros po Hpo. assert (p = po) as -> by congruence.
  wbind. eapply wp_m_size; [exact Hl3|]. wbind. eapply wp_m_size; [exact Hb3|]. wbind. eapply wp_m_size; [exact Hl3|]. cbn [fst snd].
  eapply wp_mult_loop_zero_left with (lb := b) (lc := l) (rb := m) (rc := r);
    [exact Hz|exact W3|exact Hbl|exact Hb3|exact Hq|exact Hl3|exact Hpo|lia|lia|lia|lia|lia|].
  intros h4 W4 O4 A4. apply HQ; auto. rewrite A4, A3, A2, !insert_insert. reflexivity.
Qed.

(** ** Rotation matrices *)
Definition rot2 (t : F) : nat -> nat -> F := fun i j => nth j (nth i [[s_cos t; s_opp (s_sin t)]; [s_cos t; s_cos t]] []) s_zero.
Definition rot_x (t : F) : nat -> nat -> F := fun i j =>
  nth j (nth i [[s_one; s_zero; s_zero]; [s_zero; s_cos t; s_opp (s_sin t)]; [s_zero; s_sin t; s_cos t]] []) s_zero.
Definition rot_y (t : F) : nat -> nat -> F := fun i j =>
  nth j (nth i [[s_cos t; s_zero; s_sin t]; [s_zero; s_one; s_zero]; [s_opp (s_sin t); s_zero; s_cos t]] []) s_zero.
Definition rot_z (t : F) : nat -> nat -> F := fun i j =>
  nth j (nth i [[s_cos t; s_opp (s_sin t); s_zero]; [s_sin t; s_cos t; s_zero]; [s_one; s_zero; s_zero]] []) s_zero.

Lemma wp_fill9 h l p (x0 x1 x2 x3 x4 x5 x6 x7 x8 : F) (Q : unit -> heap F -> Prop) : wf h -> abs h !! l = Some (SMat 3 3, replicate 9 None) -> ptr_of h l = Some p ->
  (forall h', wf h' -> abs h' = <[l := AMat 3 3 [x0;x1;x2;x3;x4;x5;x6;x7;x8]]> (abs h) -> Q tt h') ->
  wp (store p 0 x0 ;;; store p 1 x1 ;;; store p 2 x2 ;;; store p 3 x3 ;;; store p 4 x4 ;;; store p 5 x5 ;;; store p 6 x6 ;;; store p 7 x7 ;;; store p 8 x8) h Q.
Proof.
  intros Hwf Hl Hp HQ.
  assert (E : mst h l 3 3 (fun _ _ => None) h) by (apply mst_init; auto).
  wbind. eapply (wp_mstore _ _ 3 3 _ _ _ 0 0); [exact E|exact Hp|lia|lia|]. clear E. intros h1 E.
  wbind. eapply (wp_mstore _ _ 3 3 _ _ _ 0 1); [exact E|exact Hp|lia|lia|]. clear E. intros h2 E.
  wbind. eapply (wp_mstore _ _ 3 3 _ _ _ 0 2); [exact E|exact Hp|lia|lia|]. clear E. intros h3 E.
  wbind. eapply (wp_mstore _ _ 3 3 _ _ _ 1 0); [exact E|exact Hp|lia|lia|]. clear E. intros h4 E.
  wbind. eapply (wp_mstore _ _ 3 3 _ _ _ 1 1); [exact E|exact Hp|lia|lia|]. clear E. intros h5 E.
  wbind. eapply (wp_mstore _ _ 3 3 _ _ _ 1 2); [exact E|exact Hp|lia|lia|]. clear E. intros h6 E.
  wbind. eapply (wp_mstore _ _ 3 3 _ _ _ 2 0); [exact E|exact Hp|lia|lia|]. clear E. intros h7 E.
  wbind. eapply (wp_mstore _ _ 3 3 _ _ _ 2 1); [exact E|exact Hp|lia|lia|]. clear E. intros h8 E.
  eapply (wp_mstore _ _ 3 3 _ _ _ 2 2); [exact E|exact Hp|lia|lia|]. clear E. intros h9 E.
  destruct E as [W O A]. apply HQ; [exact W|]. rewrite A. f_equal.
Qed.

Lemma wp_fill4 h l p (x0 x1 x2 x3 : F) (Q : unit -> heap F -> Prop) : wf h -> abs h !! l = Some (SMat 2 2, replicate 4 None) -> ptr_of h l = Some p ->
  (forall h', wf h' -> abs h' = <[l := AMat 2 2 [x0;x1;x2;x3]]> (abs h) -> Q tt h') ->
  wp (store p 0 x0 ;;; store p 1 x1 ;;; store p 2 x2 ;;; store p 3 x3) h Q.
Proof.
  intros Hwf Hl Hp HQ.
  assert (E : mst h l 2 2 (fun _ _ => None) h) by (apply mst_init; auto).
  wbind. eapply (wp_mstore _ _ 2 2 _ _ _ 0 0); [exact E|exact Hp|lia|lia|]. clear E. intros h1 E.
  wbind. eapply (wp_mstore _ _ 2 2 _ _ _ 0 1); [exact E|exact Hp|lia|lia|]. clear E. intros h2 E.
  wbind. eapply (wp_mstore _ _ 2 2 _ _ _ 1 0); [exact E|exact Hp|lia|lia|]. clear E. intros h3 E.
  eapply (wp_mstore _ _ 2 2 _ _ _ 1 1); [exact E|exact Hp|lia|lia|]. clear E. intros h4 E.
  destruct E as [W O A]. apply HQ; [exact W|]. rewrite A. f_equal.
Qed.

Definition rot_obj (t : F) (axis : Z) : aobj F :=
  if axis =? -1 then Mat 2 2 (rot2 t) else if axis =? 0 then Mat 3 3 (rot_x t) else
  if axis =? 1 then Mat 3 3 (rot_y t) else if axis =? 2 then Mat 3 3 (rot_z t) else Mat 0 0 (fun _ _ => s_zero).

Lemma wp_m_rotation h t axis (Q : loc -> heap F -> Prop) : wf h ->
  (forall d h', wf h' -> abs h !! d = None -> abs h' = <[d := rot_obj t axis]> (abs h) -> Q d h') -> wp (m_rotation t axis) h Q.
Proof.
  intros Hwf HQ. unfold m_rotation, rot_obj in *. wbind. apply wp_m_new; [exact Hwf|]. intros d h1 W1 N1 A1 _.
  wbind. destruct (axis =? -1); [|destruct (axis =? 0); [|destruct (axis =? 1); [|destruct (axis =? 2)]]].
  1-4: wbind; eapply wp_m_resize; [exact W1|rewrite A1; apply lookup_insert|unfold int_max; lia|]; intros h2 W2 A2 _;
    wbind; eapply wp_data_ptr; [rewrite A2; apply lookup_insert|]; intros p Hp;
    (apply wp_fill9 with (l := d) || apply wp_fill4 with (l := d)); [exact W2|rewrite A2; rewrite lookup_insert; reflexivity|exact Hp|];
    intros h3 W3 A3; apply wp_ret; apply HQ; [exact W3|exact N1|]; rewrite A3, A2, A1, !insert_insert; reflexivity.
  do 2 apply wp_ret. apply HQ; auto.
Qed.

(** ** Rows from vectors *)
Lemma wp_m_set_from_vecs h l x0 y0 cs c vs rows (Q : unit -> heap F -> Prop) : wf h -> abs h !! l = Some (SMat x0 y0, cs) ->
  Forall2 (fun q row => exists v, q = Some v /\ abs h !! v = Some (AVec row)) vs rows -> width c rows ->
  (0 < c)%nat -> rows <> [] -> Z.of_nat (length rows * c) <= int_max ->
  (forall h', wf h' -> abs h' = <[l := Rows c rows]> (abs h) -> Q tt h') -> wp (m_set_from_vecs l vs) h Q.
Proof.
  intros Hwf Ha HF Hw Hc Hne Hle HQ.
  pose proof (Forall2_length _ _ _ HF) as Elen.
  destruct vs as [|q0 vs'] eqn:Evs; [destruct rows; [congruence|discriminate]|]. rewrite <- Evs in *.
  assert (H0 : exists v row, q0 = Some v /\ abs h !! v = Some (AVec row) /\ length row = c).
  { rewrite Evs in HF. inversion HF as [|x row xs' rows' (v & -> & Hv) HF' E1 E2]. subst. exists v, row. split; [reflexivity|]. split; [exact Hv|].
    inversion Hw; auto. }
  destruct H0 as (v & row & -> & Hv & Hrow).
  assert (0 < length rows)%nat by (destruct rows; cbn; [congruence|lia]).
  unfold m_set_from_vecs. rewrite Evs at 1. rewrite Elen. wbind. eapply wp_v_size; [exact Hv|]. rewrite Hrow.
  wbind. eapply wp_m_resize; [exact Hwf|exact Ha|lia|]. intros h1 W1 A1 _.
  wbind. eapply wp_m_data_size; [rewrite A1; apply lookup_insert|]. destruct (Z.eqb_spec (Z.of_nat c * Z.of_nat (length rows)) 0) as [E|_]; [nia|].
  destruct (cells_MatP h1 l c (length rows) _ W1 ltac:(rewrite A1; apply lookup_insert)) as [g0 Hl1].
  pose (u := fun i j => nth j (nth i rows []) s_zero).
  apply wp_for_n with (I := fun i hi => mst h1 l c (length rows) (grid g0 u i 0) hi).
  - eapply mst_ext; [apply mst_init; eauto|]. intros i j _ _. unfold grid. rewrite decide_False by lia. reflexivity.
  - intros i hi Hi HI. rewrite Nat2Z.id. destruct (lookup_lt_is_Some_2 rows i Hi) as [ri Hr].
    destruct (Forall2_lookup_r _ _ _ _ _ HF Hr) as (q & Hq & w & -> & Hw1). rewrite Hq.
    assert (Hlr : length ri = c) by (eapply width_row; eauto).
    assert (Hwl : w <> l). { intros ->. rewrite Ha in Hw1. discriminate. }
    pose proof HI as [W O A].
    assert (Hw2 : abs hi !! w = Some (AVec ri)) by (rewrite A, lookup_insert_ne, A1, lookup_insert_ne by congruence; exact Hw1).
    assert (Hw3 : abs h1 !! w = Some (AVec ri)) by (rewrite A1, lookup_insert_ne by congruence; exact Hw1).
    wbind. eapply wp_v_size; [exact Hw2|]. rewrite Hlr, Z.eqb_refl. cbn [negb].
    wbind. eapply wp_data_ptr; [exact Hw2|]. intros qw Hqw.
    wbind. eapply wp_data_ptr; [rewrite A; apply lookup_insert|]. intros p Hp.
    rewrite (ptr_of_obj h1 hi) in Hp, Hqw by assumption.
    apply wp_for_n with (I := fun j hi => mst h1 l c (length rows) (grid g0 u i j) hi).
    + exact HI.
    + clear hi HI W O A Hw2. intros j hi Hj HI. destruct (lookup_lt_is_Some_2 ri j) as [x Hx]; [lia|].
      wbind. eapply wp_mload_vec; [exact HI|exact Hqw|exact Hwl|exact Hw3|exact Hx|].
      eapply wp_mstore; [exact HI|exact Hp|exact Hi|exact Hj|]. intros h' HI'. eapply mst_ext; [exact HI'|].
      intros i' j' _ _. unfold upd, grid. destruct (decide (i' = i /\ j' = j)) as [[-> ->]|E].
      { rewrite decide_True by lia. unfold u. rewrite (nth_lookup_Some rows i [] ri Hr), (nth_lookup_Some ri j s_zero x Hx). reflexivity. }
      destruct (decide (i' < i \/ i' = i /\ j' < j)%nat); [rewrite decide_True by lia; reflexivity|].
      rewrite decide_False by lia. reflexivity.
    + intros h' HI'. eapply mst_ext; [exact HI'|]. intros i' j' Hi' Hj'. unfold grid.
      destruct (decide (i' < i \/ i' = i /\ j' < c)%nat); [rewrite decide_True by lia; reflexivity|].
      rewrite decide_False by lia. reflexivity.
  - intros h2 [W O A]. apply HQ; auto. rewrite A, A1, insert_insert, Rows_Mat, Mat_MatP by exact Hw. f_equal. apply MatP_ext. intros i j Hi Hj.
    unfold grid. rewrite decide_True by lia. reflexivity.
Qed.
End proofs.
