(** * Concrete cases meeting the hypotheses of C73 - C76. *)
From Verif Require Import Base BaseProofs RErf RInst Vec VecSpec VecProofs VecProofs2 Mat MatSpec MatProofs MatProofs2 Ten TenSpec TenProofs ExBuild PropMode StatProofs PropSvm RSum Act LibmR Sym Glm Num NumSpec NumProofs PropNum PropNum2 PropNum3 Svm MatProofs5.
From Coq Require Import String.
From Coq Require Import Reals Lra Lia List.
Open Scope R_scope.
Local Notation S := Datatypes.S.
Local Notation shift := NumSpec.shift.
Local Notation length := Datatypes.length.

(** C73: the derivative of the exponential function at 0 is found up to an error of 3e-10. *)
Lemma exp_derivative a b : has_derivative exp exp a b. Proof. intros t _. apply derivable_pt_lim_exp. Qed.
Lemma exp_lipschitz : lipschitz exp 3 0 (0 + step1).
Proof.
  pose proof step1_pos as P. assert (Hs : step1 <= 1). { Local Transparent step1. unfold step1. apply (Rmult_le_reg_l (10 ^ 10)); [lra|]. rewrite Rinv_r; lra. }
  assert (E3 : forall t, 0 <= t <= step1 -> exp t <= 3). { intros t Ht. eapply Rle_trans; [|exact exp_le_3]. destruct (Req_dec t 1) as [->|]; [lra|]. left. apply exp_increasing. lra. }
  assert (G : forall s t, 0 <= s -> s < t -> t <= step1 -> Rabs (exp s - exp t) <= 3 * Rabs (s - t)).
  { intros s t H1 H2 H3. destruct (MVT_cor2 exp exp s t H2) as (c & E & Hc); [intros; apply derivable_pt_lim_exp|]. rewrite Rabs_minus_sym, E, Rabs_mult, (Rabs_minus_sym s t), (Rabs_right (exp c)); [|left; apply exp_pos].
    apply Rmult_le_compat_r; [apply Rabs_pos|]. apply E3. lra. }
  intros s t H1 H2. rewrite Rplus_0_l in *. destruct (Rtotal_order s t) as [H|[->|H]]; [apply G; lra| |rewrite Rabs_minus_sym, (Rabs_minus_sym s t); apply G; lra].
  replace (exp t - exp t) with 0 by ring. replace (t - t) with 0 by ring. rewrite Rabs_R0. lra.
Qed.
Example ex_C73 : Rabs (num_diff exp 0 - exp 0) <= 3 * step1.
Proof. apply (C73_first_error exp exp 3 0); [apply exp_derivative|exact exp_lipschitz]. Qed.

(** C74: Newton on t^2 - 4 from 6: convex, root 2, slope at least 4 from there on; the error shrinks geometrically. *)
Lemma sq_convex : convex_from (fun t => t * t - 4) 2.
Proof. intros s t u Hs Ht Hu. assert (0 <= u * (1 - u) * ((s - t) * (s - t))) as G; [|nra]. apply Rmult_le_pos; [nra|]. apply (Rle_0_sqr (s - t)). Qed.
Example ex_C74_newton : forall n (h : heap R), (Z.of_nat n <= int_max)%Z ->
  exists x, newton (fun t => t * t - 4) 6 (INR n) h = Ok x h /\ 2 <= x <= 6 /\ x - 2 <= (1 - 4 / (12 + step1)) ^ n * (6 - 2).
Proof.
  pose proof step1_pos as P. destruct (C74_newton_convex (fun t => t * t - 4) 2 4 6 sq_convex) as [_ G]; [ring|lra|intros x Hx; nra|lra|].
  intros n h Hn. destruct (G n h Hn) as (x & E & Hx & Hb). exists x. split; [exact E|]. split; [exact Hx|]. replace (((6 + step1) * (6 + step1) - 4 - (6 * 6 - 4)) / step1) with (12 + step1) in Hb by (field; lra). exact Hb.
Qed.
(** Inverse quadratic interpolation on three points of t^3 - 2. *)
Example ex_C74_inv_quad : exists (h : heap R) x, abs h !! x = Some (AVec [1; 2; 3]) /\
  runs (inv_quad (fun t => t) (Some x) 1) h (fun v h' => v = 0 /\ abs h' = abs h).
Proof.
  reach [LV [1; 2; 3]]. exists h, d. split; [exact Hd|]. destruct (C74_inv_quad (fun t => t) d [1;2;3] 1 h W Hd) as (v & h' & E & W' & -> & A'); [cbn; lia|unfold int_max; lia|].
  eexists _, _. split; [exact E|]. split; [exact W'|]. split; [|exact A']. cbn [iterate iq_points app List.last]. apply (C74_inverse_quadratic (fun t => t) 1 2 3 0 1 0); try lra. intros t _. ring.
Qed.
(** Euler's method for y' = 2 t from 0 to 1 in four steps. *)
Example ex_C74_euler (h : heap R) : exists y, euler (fun t => 2 * t) 0 5 1 (1 / 4) h = Ok y h /\ Rabs (y - 6) <= 4 * (2 * (1 / 4) * (1 / 4)).
Proof.
  destruct (C74_euler_error (fun t => 2 * t) (fun t => t * t + 5) 2 0 5 1 (1 / 4) 4 h) as (y & E & Hy); [unfold int_max; lia|lra|cbn; lra| | |ring|].
  - intros t _. replace (2 * t) with (1 * t + t * 1 + 0) by ring. apply (derivable_pt_lim_plus (fun t => t * t) (fun _ => 5)); [apply (derivable_pt_lim_mult (fun t => t) (fun t => t)); apply derivable_pt_lim_id|apply derivable_pt_lim_const].
  - intros s t _ _. replace (2 * s - 2 * t) with (2 * (s - t)) by ring. rewrite Rabs_mult, (Rabs_right 2) by lra. lra.
  - exists y. split; [exact E|]. replace (INR 4) with 4 in Hy by (cbn; ring). replace ((0 + 4 * (1 / 4)) * (0 + 4 * (1 / 4)) + 5) with 6 in Hy by field. exact Hy.
Qed.

(** A callback written with the vector interface: a x^2 + m x y + c y^2 + p x + r y. *)
Definition poly (a m c p r : R) (rv : option loc) : M R R :=
  let! l := deref rv in let! x := v_get l 0 in let! y := v_get l 1 in ret (a * x * x + m * x * y + c * y * y + p * x + r * y).
Definition pb (p r : R) (i : nat) : R := match i with O => p | _ => r end.
Definition pq (a m c : R) (i j : nat) : R := match i, j with O, O => a | O, _ => m | _, O => 0 | _, _ => c end.
Lemma poly_computes a m c p r : computes (poly a m c p r) (quadratic 2 0 (pb p r) (pq a m c)).
Proof.
  intros h x xs W A. unfold poly, deref. unfold bind at 1. unfold ret at 1. cbv beta iota. apply wp_eq. wbind. eapply wp_v_get; [exact W|exact A|]. wbind. eapply wp_v_get; [exact W|exact A|]. apply wp_ret. split; [|reflexivity].
  change ((0 <? 0)%Z) with false. change ((1 <? 0)%Z) with false. cbv iota. change (Z.to_nat 0) with 0%nat. change (Z.to_nat 1) with 1%nat. unfold quadratic, co. rewrite !Rsum_S. change (Rsum 0 ?u) with 0. rewrite !nth_lookup. cbn [pb pq]. change (@s_zero R _) with 0. ring.
Qed.
(** C75: the Hessian of x^2 + 4 x y + y^2 - 6 x - 6 y at (3, 5). *)
Example ex_C75 : exists (h : heap R) x, abs h !! x = Some (AVec [3; 5]) /\
  runs (hessian (poly 1 4 1 (-6) (-6)) (Some x)) h (fun d h' => abs h' = <[d := Mat 2 2 (fun i j => if decide (i = j) then 2 else 4)]> (abs h)).
Proof.
  reach [LV [3; 5]]. exists h, d. split; [exact Hd|]. destruct (C75_hessian_quadratic _ h d [3;5] 0 _ _ (poly_computes 1 4 1 (-6) (-6)) W Hd) as (o & h' & E & W' & A'); [vm_compute; discriminate|].
  eexists _, _. split; [exact E|]. split; [exact W'|]. rewrite A'. f_equal. apply Mat_ext. intros [|[|i]] [|[|j]] Hi Hj; cbn [length] in Hi, Hj; try lia; cbn [pq]; repeat case_decide; try lra; lia.
Qed.
(** C76: the linear approximation of x + y about (0, 0), at (1, 1), is 1: the second coordinate is lost. *)
Example ex_C76_linear : exists (h : heap R) c x, abs h !! c = Some (AVec [0; 0]) /\ abs h !! x = Some (AVec [1; 1]) /\
  runs (lin_approxv (poly 0 0 0 1 1) (Some c) (Some x)) h (fun v h' => v = 1).
Proof.
  reach [LV [0; 0]; LV [1; 1]]. exists h, d, d0. split; [exact Hd|]. split; [exact Hd0|]. assert (C : computes (poly 0 0 0 1 1) (affine 2 0 (pb 1 1))).
  { intros h0 x xs W0 A. rewrite (poly_computes 0 0 0 1 1 h0 x xs W0 A). f_equal. unfold quadratic, affine. rewrite !Rsum_S. change (Rsum 0 ?u) with 0. cbn [pq]. ring. }
  destruct (C76_linear_affine _ h d d0 [0;0] [1;1] 0 (pb 1 1) C W Hd Hd0) as (v & h' & E & W' & ->); [reflexivity|discriminate|cbn; unfold int_max; lia|]. eexists _, _. split; [exact E|]. split; [exact W'|].
  unfold affine. cbn [length Nat.sub]. rewrite !Rsum_S. change (Rsum 0 ?u) with 0. unfold co. cbn [nth pb]. ring.
Qed.
(** The point (1, 1) is a minimum of x^2 + x y + y^2 - 3 x - 3 y and a saddle of x^2 + 4 x y + y^2 - 6 x - 6 y. *)
Example ex_C76_test other : exists (h : heap R) x, abs h !! x = Some (AVec [1; 1]) /\
  runs (derivative_test other (poly 1 1 1 (-3) (-3)) (Some x)) h (fun s h' => s = "min"%string) /\
  runs (derivative_test other (poly 1 4 1 (-6) (-6)) (Some x)) h (fun s h' => s = "saddle"%string).
Proof.
  reach [LV [1; 1]]. exists h, d. split; [exact Hd|]. split.
  - destruct (C76_derivative_test other _ h d [1;1] 0 _ _ (poly_computes 1 1 1 (-3) (-3)) W Hd eq_refl) as (s & h' & E & W' & A' & Hm & _).
    { intros [|[|i]] Hi; [| |lia]; rewrite !Rsum_S; change (Rsum 0 ?u) with 0; unfold co; cbn; ring. }
    eexists _, _. split; [exact E|]. split; [exact W'|]. apply Hm. intros ys Ey Hy. destruct ys as [|u [|v [|]]]; try discriminate Ey. unfold quadratic, co. rewrite !Rsum_S. change (Rsum 0 ?u) with 0. cbn [nth pb pq].
    assert (0 < (u - 1) * (u - 1) + (u - 1) * (v - 1) + (v - 1) * (v - 1)); [|nra]. destruct (Req_dec v 1) as [->|Hv].
    + assert (u <> 1) by (intros ->; apply Hy; reflexivity). assert (0 < (u - 1) * (u - 1)) by (apply sq_pos; lra). nra.
    + assert (0 < (v - 1) * (v - 1)) by (apply sq_pos; lra). pose proof (Rle_0_sqr (u - 1 + (v - 1) / 2)) as Q. unfold Rsqr in Q. nra.
  - destruct (C76_derivative_test other _ h d [1;1] 0 _ _ (poly_computes 1 4 1 (-6) (-6)) W Hd eq_refl) as (s & h' & E & W' & A' & _ & _ & Hs).
    { intros [|[|i]] Hi; [| |lia]; rewrite !Rsum_S; change (Rsum 0 ?u) with 0; unfold co; cbn; ring. }
    eexists _, _. split; [exact E|]. split; [exact W'|]. apply Hs. split; [exists [2;1]|exists [2;0]]; (split; [reflexivity|]); unfold quadratic, co; rewrite !Rsum_S; change (Rsum 0 ?u) with 0; cbn [nth pb pq]; lra.
Qed.
