(** * Property C27 (rotation matrices) over exact reals, and the real-number instance of C22-C26. *)
From Verif Require Import PropDet RInst.
From Verif Require RField.
From Coq Require Import ZifyBool ZifyNat Rtrigo1.
Open Scope R_scope.

(** The real numbers with the operations of [R_scalar] are an exact field. *)
Lemma Rpow_sign (i : nat) : Rpow (-1) (IZR (Z.of_nat i)) = ssralg.GRing.exp (R := RField.R_ringType) (-1) i.
Proof.
  unfold Rpow. destruct (Rlt_dec 0 (-1)); [lra|].
  assert (Hi : Int_part (IZR (Z.of_nat i)) = Z.of_nat i).
  { unfold Int_part. rewrite <- (tech_up (IZR (Z.of_nat i)) (Z.of_nat i + 1)); [lia| |]; rewrite plus_IZR; lra. }
  rewrite Hi. destruct (Req_EM_T _ _); [|congruence]. rewrite <- pow_powerRZ. clear.
  assert (P : forall k, ssralg.GRing.exp (R := RField.R_ringType) (-1) k = (-1) ^ k).
  { induction k as [|k IH]; [reflexivity|]. rewrite ssralg.GRing.exprS, IH. reflexivity. }
  symmetry. apply P.
Qed.
Theorem R_exact_field : exact_field RField.R_fieldType.
Proof.
  split; try reflexivity. intros i. exact (Rpow_sign i).
Qed.

Section c27.
Implicit Types (h : heap R) (t : R).

Lemma cs2 t : cos t * cos t + sin t * sin t = 1.
Proof. pose proof (sin2_cos2 t) as E. unfold Rsqr in E. lra. Qed.

Definition axis_obj (axis : Z) : Prop := (axis = 0 \/ axis = 1)%Z.
(** Entries of the rotation matrix about coordinate axis [axis] (0: x, 1: y), counter-clockwise by [t]. *)
Definition rot (axis : Z) t : nat -> nat -> R := fun i j =>
  nth j (nth i (if (axis =? 0)%Z then [[1; 0; 0]; [0; cos t; - sin t]; [0; sin t; cos t]]
                else [[cos t; 0; sin t]; [0; 1; 0]; [- sin t; 0; cos t]]) []) 0.

Lemma wp_rot h t axis (Q : loc -> heap R -> Prop) : axis_obj axis -> wf h ->
  (forall d h', wf h' -> abs h !! d = None -> abs h' = <[d := Mat 3 3 (rot axis t)]> (abs h) -> Q d h') -> wp (m_rotation t axis) h Q.
Proof.
  intros Ho Hw HQ. apply wp_m_rotation; [exact Hw|]. intros d h' W N A. apply HQ; auto. rewrite A.
  destruct Ho as [-> | ->]; reflexivity.
Qed.

(** create_rotation_matrix(t, 0) and (t, 1): the rotation matrices. *)
Theorem C27_rotation_entries h t axis : axis_obj axis -> wf h ->
  runs (m_rotation t axis) h (fun d h' => abs h !! d = None /\ abs h' = <[d := Mat 3 3 (rot axis t)]> (abs h)).
Proof. intros Ho Hw. r_. eapply wp_rot; eauto. Qed.

Lemma rot_add axis t u i j : axis_obj axis -> (i < 3)%nat -> (j < 3)%nat -> mat_mul 3 (rot axis t) (rot axis u) i j = rot axis (t + u) i j.
Proof.
  intros [-> | ->] Hi Hj; destruct i as [|[|[|]]], j as [|[|[|]]]; try lia; cbn; unfold lsum; cbn; rewrite ?cos_plus, ?sin_plus; ring.
Qed.
Lemma rot_0 axis i j : axis_obj axis -> (i < 3)%nat -> (j < 3)%nat -> rot axis 0 i j = mat_id i j.
Proof.
  intros [-> | ->] Hi Hj; destruct i as [|[|[|]]], j as [|[|[|]]]; try lia; cbn; rewrite ?cos_0, ?sin_0; lra.
Qed.
Lemma rot_tr axis t i j : axis_obj axis -> (i < 3)%nat -> (j < 3)%nat -> mat_tr (rot axis t) i j = rot axis (- t) i j.
Proof.
  intros [-> | ->] Hi Hj; destruct i as [|[|[|]]], j as [|[|[|]]]; try lia; cbn; rewrite ?cos_neg, ?sin_neg; lra.
Qed.
Lemma rot_inv axis t i j : axis_obj axis -> (i < 3)%nat -> (j < 3)%nat -> mat_mul 3 (rot axis t) (rot axis (- t)) i j = mat_id i j.
Proof. intros Ho Hi Hj. rewrite rot_add by assumption. replace (t + - t) with 0 by ring. apply rot_0; assumption. Qed.
Lemma R_ring : @exact_ring R _. Proof. exact (field_ring _ R_exact_field). Qed.

(** R R^T = R^T R = identity, for every angle. *)
Theorem C27_orthogonal h t axis : axis_obj axis -> wf h ->
  runs (let! r := m_rotation t axis in let! rt := m_transposen r in let! rx := m_multn r (Some rt) in let! x := deref rx in
        let! ry := m_multn rt (Some r) in let! y := deref ry in let! e := m_identity_mat 3 in ret (x, y, e)) h
    (fun '(x, y, e) h' => same h' x e /\ same h' y e).
Proof.
  intros Ho Hw. assert (Hs : (Z.of_nat (3 * 3) <= int_max)%Z) by (vm_compute; discriminate).
  r_. wbind. apply wp_rot; [exact Ho|exact Hw|]. intros r h1 W1 N1 A1. fresh_step h h1 r (@Mat R 3 3 (rot axis t)) N1 A1. clear N1 A1.
  call1 wp_m_transposen. call wp_m_multn. call wp_m_multn.
  wbind. apply (wp_m_identity_mat _ 3); [eassumption|exact Hs|]. intros e h4 W4 N4 A4.
  match type of A4 with abs _ = <[_ := ?X]> (abs ?h0) => fresh_step h0 h4 e X N4 A4 end.
  apply wp_ret. split; [assumption|]. split; (split; [congruence|]; eexists _, _, _; split; [eassumption|]).
  - erewrite Mat_ext; [eassumption|]. intros i j Hi Hj. cbv beta.
    rewrite (mat_mul_ext 3 _ (rot axis t) _ (rot axis (- t))); [apply rot_inv; assumption|auto|]. intros k Hk. apply rot_tr; assumption.
  - erewrite Mat_ext; [eassumption|]. intros i j Hi Hj. cbv beta.
    rewrite (mat_mul_ext 3 _ (rot axis (- t)) _ (rot axis t)); [|intros k Hk; apply rot_tr; assumption|auto].
    rewrite <- (Ropp_involutive t) at 2. apply rot_inv; assumption.
Qed.

Lemma pow_sign_vals : pow_sign 0 = 1 /\ pow_sign 1 = -1 /\ pow_sign 2 = 1.
Proof.
  unfold pow_sign. cbn. assert (P : forall i : nat, Rpow (-(1)) (IZR (Z.of_nat i)) = (-1) ^ i).
  { intros i. unfold Rpow. destruct (Rlt_dec 0 (-(1))); [lra|].
    assert (Hi : Int_part (IZR (Z.of_nat i)) = Z.of_nat i).
    { unfold Int_part. rewrite <- (tech_up (IZR (Z.of_nat i)) (Z.of_nat i + 1)); [lia| |]; rewrite plus_IZR; lra. }
    rewrite Hi. destruct (Req_EM_T _ _); [|congruence]. rewrite <- pow_powerRZ. reflexivity. }
  pose proof (P 0%nat) as P0. pose proof (P 1%nat) as P1. pose proof (P 2%nat) as P2. cbn in P0, P1, P2. rewrite P0, P1, P2. lra.
Qed.
Lemma det3 (f : nat -> nat -> R) : det_code 0 Rplus Rminus Rmult pow_sign 3 f =
  f 0%nat 0%nat * (f 1%nat 1%nat * f 2%nat 2%nat - f 1%nat 2%nat * f 2%nat 1%nat)
  - f 0%nat 1%nat * (f 1%nat 0%nat * f 2%nat 2%nat - f 1%nat 2%nat * f 2%nat 0%nat)
  + f 0%nat 2%nat * (f 1%nat 0%nat * f 2%nat 1%nat - f 1%nat 1%nat * f 2%nat 0%nat).
Proof.
  destruct pow_sign_vals as (P0 & P1 & P2). cbn [det_code Nat.eqb]. unfold fsum. cbn [seq List.fold_left]. rewrite P0, P1, P2. unfold minor, skip. cbn. ring.
Qed.
(** det R = 1, for every angle. *)
Theorem C27_det_one h t axis : axis_obj axis -> wf h ->
  runs (let! r := m_rotation t axis in m_det r (-1)) h (fun d _ => d = 1).
Proof.
  intros Ho Hw. r_. wbind. apply wp_rot; [exact Ho|exact Hw|]. intros r h1 W1 N1 A1.
  eapply wp_m_det; [exact W1|rewrite A1; apply lookup_insert|]. intros h2 W2 _. split; [exact W2|].
  change (det_code 0 Rplus Rminus Rmult pow_sign 3 (rot axis t) = 1). rewrite det3. pose proof (cs2 t).
  destruct Ho as [-> | ->]; cbn; lra.
Qed.
(** rotate, rotaten, rotateb: the product of the matrix with the rotation matrix (in place / as a new object / into a target);
    the temporary rotation matrix is released, nothing else changes. *)
Theorem C27_rotate h l t axis rows f : axis_obj axis -> wf h -> abs h !! l = Some (Mat 3 rows f) ->
  let p := mat_mul 3 f (rot axis t) in
  runs (m_rotate l t axis) h (fun _ h' => abs h' = <[l := Mat 3 rows p]> (abs h)) /\
  runs (m_rotaten l t axis) h (fun o h' => exists d, o = Some d /\ abs h !! d = None /\ abs h' = <[d := Mat 3 rows p]> (abs h)) /\
  (forall u x0 y0 cs, u <> l -> abs h !! u = Some (SMat x0 y0, cs) ->
     runs (m_rotateb u (Some l) t axis) h (fun _ h' => abs h' = <[u := Mat 3 rows p]> (abs h))).
Proof.
  intros Ho Hw Hl p. assert (Hs : (Z.of_nat (rows * 3) <= int_max)%Z) by (destruct (amat_len h l _ _ _ Hw Hl); lia).
  split; [|split]; [| |intros u x0 y0 cs Hul Hu]; r_.
  - unfold m_rotate. wbind. apply wp_rot; [exact Ho|exact Hw|]. intros r h1 W1 N1 A1. assert (l <> r) by congruence.
    wbind. eapply wp_m_mult; [exact W1|congruence|rewrite A1, lookup_insert_ne by congruence; exact Hl|rewrite A1; apply lookup_insert|exact Hs|].
    intros h2 W2 A2. eapply wp_del; [exact W2|rewrite A2, A1, lookup_insert_ne by congruence; apply lookup_insert|]. intros h3 W3 A3 _.
    split; [exact W3|]. rewrite A3, A2, A1, insert_commute, delete_insert by (try congruence; rewrite lookup_insert_ne by congruence; exact N1). reflexivity.
  - unfold m_rotaten. wbind. apply wp_rot; [exact Ho|exact Hw|]. intros r h1 W1 N1 A1. assert (l <> r) by congruence.
    wbind. eapply wp_m_multn; [exact W1|rewrite A1, lookup_insert_ne by congruence; exact Hl|rewrite A1; apply lookup_insert|exact Hs|].
    intros x h2 W2 N2 A2. assert (x <> r) by (intros ->; rewrite A1, lookup_insert in N2; discriminate).
    wbind. eapply wp_del; [exact W2|rewrite A2, A1, lookup_insert_ne by congruence; apply lookup_insert|]. intros h3 W3 A3 _. apply wp_ret.
    split; [exact W3|]. rewrite A1, lookup_insert_ne in N2 by congruence. exists x. split; [reflexivity|]. split; [exact N2|].
    rewrite A3, A2, A1, insert_commute, delete_insert by (try congruence; rewrite lookup_insert_ne by congruence; exact N1). reflexivity.
  - unfold m_rotateb. wbind. apply wp_rot; [exact Ho|exact Hw|]. intros r h1 W1 N1 A1. assert (l <> r) by congruence. assert (u <> r) by congruence.
    wbind. eapply wp_m_multb; [exact W1| | |rewrite A1, lookup_insert_ne by congruence; exact Hu|rewrite A1, lookup_insert_ne by congruence; exact Hl|rewrite A1; apply lookup_insert|exact Hs|]; [congruence..|].
    intros h2 W2 A2. eapply wp_del; [exact W2|rewrite A2, A1, lookup_insert_ne by congruence; apply lookup_insert|]. intros h3 W3 A3 _.
    split; [exact W3|]. rewrite A3, A2, A1, insert_commute, delete_insert by (try congruence; rewrite lookup_insert_ne by congruence; exact N1). reflexivity.
Qed.
(** Rotating the rows of a matrix by t and then by -t gives the matrix back. *)
Theorem C27_rotate_back h l t axis rows f : axis_obj axis -> wf h -> abs h !! l = Some (Mat 3 rows f) ->
  runs (let! rx := m_rotaten l t axis in let! x := deref rx in let! ry := m_rotaten x (- t) axis in deref ry) h
    (fun y h' => same h' y l).
Proof.
  intros Ho Hw Hl. assert (Hs : (Z.of_nat (rows * 3) <= int_max)%Z) by (destruct (amat_len h l _ _ _ Hw Hl); lia).
  r_. unfold m_rotaten. wbind. wbind. apply wp_rot; [exact Ho|exact Hw|]. intros r h1 W1 N1 A1.
  assert (l <> r) by congruence.
  wbind. eapply wp_m_multn; [exact W1|rewrite A1, lookup_insert_ne by congruence; exact Hl|rewrite A1; apply lookup_insert|exact Hs|].
  intros x h2 W2 N2 A2. assert (x <> r) by (intros ->; rewrite A1, lookup_insert in N2; discriminate).
  wbind. eapply wp_del; [exact W2|rewrite A2, A1, lookup_insert_ne by congruence; apply lookup_insert|]. intros h3 W3 A3 _. apply wp_ret.
  assert (E3 : abs h3 = <[x := Mat 3 rows (mat_mul 3 f (rot axis t))]> (abs h)).
  { rewrite A3, A2, A1, insert_commute, delete_insert by (try congruence; rewrite lookup_insert_ne by congruence; exact N1). reflexivity. }
  rewrite A1, lookup_insert_ne in N2 by congruence. assert (l <> x) by congruence.
  wbind. apply wp_ret. wbind. wbind. apply wp_rot; [exact Ho|exact W3|]. intros r2 h4 W4 N4 A4.
  assert (x <> r2) by (intros ->; rewrite E3, lookup_insert in N4; discriminate).
  assert (l <> r2) by (intros ->; rewrite E3, lookup_insert_ne in N4 by congruence; congruence).
  wbind. eapply wp_m_multn; [exact W4|rewrite A4, lookup_insert_ne, E3 by congruence; apply lookup_insert|rewrite A4; apply lookup_insert|exact Hs|].
  intros y h5 W5 N5 A5. assert (y <> r2) by (intros ->; rewrite A4, lookup_insert in N5; discriminate).
  assert (y <> l) by (intros ->; rewrite A4, E3, !lookup_insert_ne in N5 by congruence; congruence).
  wbind. eapply wp_del; [exact W5|rewrite A5, A4, lookup_insert_ne by congruence; apply lookup_insert|]. intros h6 W6 A6 _. apply wp_ret. apply wp_ret.
  split; [exact W6|]. split; [assumption|]. exists 3%nat, rows, f. split.
  - rewrite A6, lookup_delete_ne, A5, lookup_insert by congruence. f_equal. apply Mat_ext. intros i j Hi Hj.
    rewrite (mat_mul_assoc R_ring). rewrite (mat_mul_ext 3 f f _ mat_id); [apply (mat_mul_id_r R_ring); exact Hj|auto|].
    intros k Hk. apply rot_inv; assumption.
  - rewrite A6, lookup_delete_ne, A5, lookup_insert_ne, A4, lookup_insert_ne, E3, lookup_insert_ne by congruence. exact Hl.
Qed.

(** The 2D matrix (axis -1) is [[cos -sin] [cos cos]]: it is orthogonal only at the angles where sin = cos. *)
Theorem C27_2d_not_rotation h t : wf h ->
  runs (let! r := m_rotation t (-1) in let! rt := m_transposen r in let! rx := m_multn r (Some rt) in let! x := deref rx in
        let! e := m_identity_mat 2 in ret (r, x, e)) h
    (fun '(r, x, e) h' => abs h' !! r = Some (Rows 2 [[cos t; - sin t]; [cos t; cos t]]) /\ (same h' x e <-> sin t = cos t)).
Proof.
  intros Hw. assert (Hs : (Z.of_nat (2 * 2) <= int_max)%Z) by (vm_compute; discriminate).
  r_. wbind. apply wp_m_rotation; [exact Hw|]. intros r h1 W1 N1 A1. change (rot_obj t (-1)) with (@Mat R 2 2 (rot2 t)) in A1.
  fresh_step h h1 r (@Mat R 2 2 (rot2 t)) N1 A1. clear N1 A1.
  call1 wp_m_transposen. call wp_m_multn.
  wbind. apply (wp_m_identity_mat _ 2); [eassumption|exact Hs|]. intros e h4 W4 N4 A4.
  match type of A4 with abs _ = <[_ := ?X]> (abs ?h0) => fresh_step h0 h4 e X N4 A4 end.
  apply wp_ret. split; [assumption|]. split.
  { match goal with H : abs h4 !! r = Some _ |- _ => rewrite H end. reflexivity. }
  match goal with H : abs h4 !! d0 = Some (Mat 2 2 ?p) |- _ => rename H into Hx; set (q := p) in * end.
  match goal with H : abs h4 !! e = Some _ |- _ => rename H into He end.
  assert (Hq : forall i j, q i j = rot2 t i 0%nat * rot2 t j 0%nat + rot2 t i 1%nat * rot2 t j 1%nat).
  { intros i j. unfold q, mat_mul, mat_tr, lsum. cbn [seq foldl]. cbn. ring. }
  split.
  - intros (_ & c & rr & f0 & H1 & H2). assert (Em : Mat 2 2 q = Mat 2 2 mat_id) by congruence.
    pose proof (Mat_inj 2 2 _ _ Em) as EE. pose proof (EE 0%nat 1%nat ltac:(lia) ltac:(lia)) as E1. pose proof (EE 1%nat 1%nat ltac:(lia) ltac:(lia)) as E2.
    rewrite Hq in E1, E2. cbn in E1, E2. assert (cos t <> 0) by (intros Z; rewrite Z in E2; lra).
    assert (cos t * (cos t - sin t) = 0) as E3 by lra. apply Rmult_integral in E3 as [|]; lra.
  - intros Esc. split; [congruence|]. exists 2%nat, 2%nat, (@mat_id R _). split; [|exact He]. rewrite Hx. f_equal. apply Mat_ext.
    intros i j Hi Hj. rewrite Hq. pose proof (cs2 t). rewrite Esc in *. destruct i as [|[|]], j as [|[|]]; try lia; cbn; rewrite ?Esc; lra.
Qed.
(** The matrix for axis 2 has last row (1, 0, 0) and determinant 0, for every angle. *)
Theorem C27_axis2_not_rotation h t : wf h ->
  runs (let! r := m_rotation t 2 in let! d := m_det r (-1) in ret (r, d)) h
    (fun '(r, d) h' => d = 0 /\ abs h' !! r = Some (Rows 3 [[cos t; - sin t; 0]; [sin t; cos t; 0]; [1; 0; 0]])).
Proof.
  intros Hw. r_. wbind. apply wp_m_rotation; [exact Hw|]. intros r h1 W1 N1 A1. change (rot_obj t 2) with (@Mat R 3 3 (rot_z t)) in A1.
  wbind. eapply wp_m_det; [exact W1|rewrite A1; apply lookup_insert|]. intros h2 W2 A2. apply wp_ret. split; [exact W2|]. split.
  - change (det_code 0 Rplus Rminus Rmult pow_sign 3 (rot_z t) = 0). rewrite det3. cbn. lra.
  - rewrite A2, A1, lookup_insert. reflexivity.
Qed.
End c27.
