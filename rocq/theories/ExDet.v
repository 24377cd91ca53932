(** * Concrete cases for PropDet.v and PropRot.v. *)
From Verif Require Import PropDet PropRot RInst Inst.
From Verif Require RField.
From mathcomp Require ssralg.
Open Scope R_scope.

(** 0: [[2 1] [1 1]], 1: [[1 2] [0 1]], 2: vector [3; 5]; built through the API. *)
Definition build : M R (list loc) :=
  let! a := m_new in m_set_from_lists a [[2;1];[1;1]] ;;;
  let! b := m_new in m_set_from_lists b [[1;2];[0;1]] ;;;
  let! v := v_new in v_set_from_vector v [3;5] ;;;
  ret [a; b; v].
Definition A (i j : nat) : R := nth j (nth i [[2;1];[1;1]] []) 0.
Definition B (i j : nat) : R := nth j (nth i [[1;2];[0;1]] []) 0.

Lemma build_ok : exists a b v h, build empty_heap = Ok [a; b; v] h /\ wf h /\
  abs h !! a = Some (Mat 2 2 A) /\ abs h !! b = Some (Mat 2 2 B) /\ abs h !! v = Some (AVec [3;5]).
Proof.
  assert (W : wp build empty_heap (fun r h => exists a b v, r = [a; b; v] /\ wf h /\
    abs h !! a = Some (Mat 2 2 A) /\ abs h !! b = Some (Mat 2 2 B) /\ abs h !! v = Some (AVec [3;5]))).
  { unfold build.
    wbind. apply wp_m_new; [apply wf_empty|]. intros a h1 W1 _ A1 _.
    wbind. eapply wp_m_set_from_lists with (c := 2%nat); [exact W1|rewrite A1; apply lookup_insert|repeat constructor|lia|discriminate|vm_compute; discriminate|]. intros h2 W2 A2.
    wbind. apply wp_m_new; [exact W2|]. intros b h3 W3 N3 A3 _. assert (a <> b) by (intros ->; rewrite A2, lookup_insert in N3; discriminate).
    wbind. eapply wp_m_set_from_lists with (c := 2%nat); [exact W3|rewrite A3; apply lookup_insert|repeat constructor|lia|discriminate|vm_compute; discriminate|]. intros h4 W4 A4.
    wbind. apply wp_v_new; [exact W4|]. intros v h5 W5 N5 A5 _.
    assert (v <> b) by (intros ->; rewrite A4, lookup_insert in N5; discriminate).
    assert (v <> a) by (intros ->; rewrite A4, lookup_insert_ne, A3, lookup_insert_ne, A2, lookup_insert in N5 by congruence; discriminate).
    wbind. eapply wp_v_set_from_vector; [exact W5|rewrite A5; apply lookup_insert|vm_compute; discriminate|]. intros h6 W6 A6.
    apply wp_ret. exists a, b, v. split; [reflexivity|]. split; [exact W6|]. rewrite A6, A5. split; [|split].
    - rewrite !lookup_insert_ne, A4, lookup_insert_ne, A3, lookup_insert_ne, A2, lookup_insert by congruence. reflexivity.
    - rewrite !lookup_insert_ne, A4, lookup_insert by congruence. reflexivity.
    - rewrite lookup_insert. reflexivity. }
  unfold wp in W. destruct (build empty_heap) as [r h| | |]; try contradiction. destruct W as (a & b & v & -> & HR).
  exists a, b, v, h. split; [reflexivity|exact HR].
Qed.

Lemma detA : DetMC.mc_det (R := ssralg.GRing.Field.ringType RField.R_fieldType) 2 A = 1.
Proof. transitivity (det_code 0 Rplus Rminus Rmult pow_sign 2 A). - symmetry. exact (DetMC.ops_det R_exact_field A (le_n 2)). - cbn. lra. Qed.
Lemma detA_nz : DetMC.mc_det (R := ssralg.GRing.Field.ringType RField.R_fieldType) 2 A <> 0.
Proof. rewrite detA. lra. Qed.

(** The hypotheses of C22_det ... C26_pinverse_iff_symmetric hold together in this heap, and the values are as expected. *)
Example ex_C22 : exists a h, abs h !! a = Some (Mat 2 2 A) /\ runs (m_det a (-1)) h (fun d h' => d = 1 /\ abs h' = abs h).
Proof.
  destruct build_ok as (a & b & v & h & _ & W & Ha & _). exists a, h. split; [exact Ha|].
  pose proof (C22_det _ R_exact_field h a 2 A (le_n 2) W Ha) as C. rewrite detA in C. exact C.
Qed.
Example ex_C23 : exists a h g, abs h !! a = Some (Mat 2 2 A) /\ two_sided_inverse RField.R_fieldType 2 A g /\
  runs (m_inverse a) h (fun d h' => abs h !! d = None /\ abs h' = <[d := Mat 2 2 g]> (abs h)).
Proof.
  destruct build_ok as (a & b & v & h & _ & W & Ha & _). destruct (C23_inverse _ R_exact_field h a 2 A (le_n 2) detA_nz W Ha) as (g & I & R1 & _).
  exists a, h, g. auto.
Qed.
Example ex_C24 : exists a v h xs, solves RField.R_fieldType 2 A xs [3;5] /\
  runs (m_solve a (Some v)) h (fun o h' => exists d, o = Some d /\ abs h !! d = None /\ abs h' = <[d := AVec xs]> (abs h)) /\ xs = [-2; 7].
Proof.
  destruct build_ok as (a & b & v & h & _ & W & Ha & _ & Hv).
  destruct (C24_solve _ R_exact_field h a v 2 A [3;5] (le_n 2) detA_nz W Ha Hv eq_refl) as (xs & S & U & R1).
  exists a, v, h, xs. split; [exact S|]. split; [exact R1|]. symmetry. apply U. split; [reflexivity|]. split; [reflexivity|].
  intros i Hi. destruct i as [|[|]]; [| |lia]; unfold lsum; cbn; lra.
Qed.
Example ex_C25 : exists a h, abs h !! a = Some (Mat 2 2 A) /\ runs (m_powern a 3) h (fun d h' => abs h !! d = None /\ abs h' = <[d := Rows 2 [[13;8];[8;5]]]> (abs h)).
Proof.
  destruct build_ok as (a & b & v & h & _ & W & Ha & _). exists a, h. split; [exact Ha|].
  pose proof (C25_powern_nonneg h a 2 A 3 W Ha) as C. assert (Ev : Mat 2 2 (Nat.iter 3 (fun p => mat_mul 2 p A) mat_id) = Rows 2 [[13;8];[8;5]]); [|rewrite Ev in C; exact C].
  transitivity (Mat 2 2 (fun i j : nat => nth j (nth i [[13;8];[8;5]] []) 0)); [|reflexivity].
  apply Mat_ext. intros i j Hi Hj. destruct i as [|[|]], j as [|[|]]; try lia; cbn [Nat.iter]; unfold mat_mul, lsum; cbn; ring.
Qed.
(** A is symmetric, so A.pinverse() is a pseudo-inverse; B is not symmetric and B.pinverse() is none. *)
Lemma detB_nz : DetMC.mc_det (R := ssralg.GRing.Field.ringType RField.R_fieldType) 2 B <> 0.
Proof.
  assert (DetMC.mc_det (R := ssralg.GRing.Field.ringType RField.R_fieldType) 2 B = 1) as ->; [|lra].
  transitivity (det_code 0 Rplus Rminus Rmult pow_sign 2 B). - symmetry. exact (DetMC.ops_det R_exact_field B (le_n 2)). - cbn. lra.
Qed.
Example ex_C26 : exists b h, abs h !! b = Some (Mat 2 2 B) /\
  runs (let! rx := m_pinverse b in let! x := deref rx in let! ry := m_multn b (Some x) in let! y := deref ry in let! rz := m_multn y (Some b) in deref rz) h
    (fun z h' => ~ same h' z b).
Proof.
  destruct build_ok as (a & b & v & h & _ & W & _ & Hb & _). exists b, h. split; [exact Hb|].
  destruct (C26_pinverse_iff_symmetric _ R_exact_field h b 2 B (le_n 2) detB_nz W Hb) as (z & h' & E & W' & _ & I).
  exists z, h'. split; [exact E|]. split; [exact W'|]. rewrite I. intros Hs. specialize (Hs 0%nat 1%nat ltac:(lia) ltac:(lia)). cbn in Hs. lra.
Qed.
Close Scope R_scope.

(** Executions on exact integers: 3x3 determinant, adjugate, 1x1 determinant. *)
Definition run1 (rows : list (list Z)) {X} (m : loc -> M Z X) : option X :=
  match (let! a := m_new in m_set_from_lists a rows ;;; m a) empty_heap with Ok x _ => Some x | _ => None end.
Example ex_det3 : run1 [[2;0;1];[1;3;2];[1;1;4]] (fun a => m_det a (-1)) = Some 18. Proof. vm_compute. reflexivity. Qed.
Example ex_det1 : run1 [[7]] (fun a => m_det a (-1)) = Some 0. Proof. vm_compute. reflexivity. Qed.
Example ex_adj : run1 [[2;0;1];[1;3;2];[1;1;4]] (fun a => let! r := m_adjoint a in let! d := deref r in
   let! x := m_get d 0 0 in let! y := m_get d 0 1 in let! z := m_get d 1 0 in ret (x, y, z)) = Some (10, 1, -2). Proof. vm_compute. reflexivity. Qed.
