(** * C73, C74: finite differences, Taylor approximations, root finding and Euler's method for functions of one real variable. *)
From Verif Require Import Base BaseProofs RErf RInst Vec VecProofs Act LibmR Num NumSpec.
From Coq Require Import Reals Lra Lia.
Open Scope R_scope.

Lemma e10_R : e10 = step1. Proof. unfold e10, lit, step1. cbn [s_div s_of_Z R_scalar]. lra. Qed.
Lemma e5_R : e5 = step2. Proof. unfold e5, lit, step2. cbn [s_div s_of_Z R_scalar]. lra. Qed.
Lemma two_R : s_two = 2. Proof. reflexivity. Qed.
Lemma three_R : s_three = 3. Proof. reflexivity. Qed.
Lemma half_R : s_half = / 2. Proof. unfold s_half, s_two. cbn. lra. Qed.
Lemma step1_pos : 0 < step1. Proof. unfold step1. apply Rinv_0_lt_compat, pow_lt. lra. Qed.
Lemma step2_pos : 0 < step2. Proof. unfold step2. apply Rinv_0_lt_compat, pow_lt. lra. Qed.
Ltac unr := cbn [s_add s_sub s_mul s_div s_opp s_zero s_one s_of_Z s_exp R_scalar] in *; rewrite ?e10_R, ?e5_R, ?two_R, ?three_R, ?half_R in *.
Global Opaque step1 step2.

(** ** The values *)
Lemma num_diff_R f x : num_diff f x = (f (x + step1) - f x) / step1.
Proof. unfold num_diff. unr. reflexivity. Qed.
Lemma num_diff2_R f x : num_diff2 f x = (f (x + 2 * step2) - 2 * f (x + step2) + f x) / (step2 * step2).
Proof. unfold num_diff2. unr. reflexivity. Qed.
Lemma num_diff3_R f x : num_diff3 f x = (f (x + 3 * step2) - 3 * f (x + 2 * step2) + 3 * f (x + step2) - f x) / (step2 * step2 * step2).
Proof. unfold num_diff3. unr. pose proof step2_pos. field. lra. Qed.

Lemma shift_D (f f' : R -> R) e t : derivable_pt_lim f (t + e) (f' (t + e)) -> derivable_pt_lim (fun u => f (u + e)) t (f' (t + e)).
Proof. intros D eps He. destruct (D eps He) as [dl Hd]. exists dl. intros hh H1 H2. specialize (Hd hh H1 H2). replace (t + hh + e) with (t + e + hh) by ring. exact Hd. Qed.
Lemma diff_D (f f' : R -> R) e a b : 0 <= e -> has_derivative f f' a (b + e) -> has_derivative (fun u => f (u + e) - f u) (fun u => f' (u + e) - f' u) a b.
Proof. intros He D t Ht. apply (derivable_pt_lim_minus (fun u => f (u + e)) f); [apply shift_D, D; lra|apply D; lra]. Qed.
Lemma mvt (f f' : R -> R) a e : 0 < e -> has_derivative f f' a (a + e) -> exists t, a < t < a + e /\ f (a + e) - f a = e * f' t.
Proof. intros He D. destruct (MVT_cor2 f f' a (a + e)) as (c & E & Hc); [lra|exact D|]. exists c. split; [exact Hc|]. rewrite E. ring. Qed.

(** ** C73 *)
(** The numerical derivatives are the exact derivatives at a point at most one, two, three steps away: no assumption on [f] but
    differentiability near [x]. *)
Theorem C73_first_derivative (f f' : R -> R) x : has_derivative f f' x (x + step1) ->
  exists t, x < t < x + step1 /\ num_diff f x = f' t.
Proof.
  intros D. pose proof step1_pos. destruct (mvt f f' x step1 H D) as (t & Ht & E). exists t. split; [exact Ht|].
  rewrite num_diff_R, E. field. lra.
Qed.
Theorem C73_second_derivative (f f' f'' : R -> R) x : has_derivative f f' x (x + 2 * step2) -> has_derivative f' f'' x (x + 2 * step2) ->
  exists t, x < t < x + 2 * step2 /\ num_diff2 f x = f'' t.
Proof.
  intros D D'. pose proof step2_pos. set (e := step2) in *.
  destruct (mvt (fun u => f (u + e) - f u) (fun u => f' (u + e) - f' u) x e H) as (s & Hs & E).
  { apply diff_D; [lra|]. intros t Ht. apply D. lra. }
  destruct (mvt f' f'' s e H) as (t & Ht & E'). { intros t Ht. apply D'. lra. }
  exists t. split; [lra|]. rewrite num_diff2_R. fold e. cbv beta in E. rewrite E' in E.
  replace (x + 2 * e) with (x + e + e) by ring. replace (f (x + e + e) - 2 * f (x + e) + f x) with (e * (e * f'' t)) by (rewrite <- E; ring). field. lra.
Qed.
Theorem C73_third_derivative (f f' f'' f''' : R -> R) x : has_derivative f f' x (x + 3 * step2) -> has_derivative f' f'' x (x + 3 * step2) ->
  has_derivative f'' f''' x (x + 3 * step2) ->
  exists t, x < t < x + 3 * step2 /\ num_diff3 f x = f''' t.
Proof.
  intros D D' D''. pose proof step2_pos. set (e := step2) in *.
  destruct (mvt (fun u => (f (u + e + e) - f (u + e)) - (f (u + e) - f u)) (fun u => (f' (u + e + e) - f' (u + e)) - (f' (u + e) - f' u)) x e H) as (s & Hs & E).
  { apply (diff_D (fun u => f (u + e) - f u) (fun u => f' (u + e) - f' u)); [lra|]. apply diff_D; [lra|]. intros t Ht. apply D. lra. }
  destruct (mvt (fun u => f' (u + e) - f' u) (fun u => f'' (u + e) - f'' u) s e H) as (r & Hr & E').
  { apply diff_D; [lra|]. intros t Ht. apply D'. lra. }
  destruct (mvt f'' f''' r e H) as (t & Ht & E''). { intros t Ht. apply D''. lra. }
  exists t. split; [lra|]. rewrite num_diff3_R. fold e. cbv beta in E, E'. rewrite E'' in E'. rewrite E' in E.
  replace (x + 3 * e) with (x + e + e + e) by ring. replace (x + 2 * e) with (x + e + e) by ring.
  replace (f (x + e + e + e) - 3 * f (x + e + e) + 3 * f (x + e) - f x) with (e * (e * (e * f''' t))) by (rewrite <- E; ring). field. lra.
Qed.
(** Hence the error of [num_diffr] is at most the step times the Lipschitz constant of the derivative. *)
Theorem C73_first_error (f f' : R -> R) K x : has_derivative f f' x (x + step1) -> lipschitz f' K x (x + step1) ->
  Rabs (num_diff f x - f' x) <= K * step1.
Proof.
  intros D L. destruct (C73_first_derivative f f' x D) as (t & Ht & ->). pose proof step1_pos.
  eapply Rle_trans; [apply L; lra|].
  assert (0 <= K). { assert (0 <= K * Rabs (x + step1 - x)) by (eapply Rle_trans; [apply Rabs_pos|apply (L (x + step1) x); lra]). replace (x + step1 - x) with step1 in * by ring. rewrite Rabs_right in * by lra. nra. }
  apply Rmult_le_compat_l; [assumption|]. rewrite Rabs_right; lra.
Qed.
(** Exact on polynomials of the right degree. *)
Theorem C73_exact a b c d x :
  num_diff (fun t => b * t + c) x = b /\
  num_diff2 (fun t => a * t ^ 2 + b * t + c) x = 2 * a /\
  num_diff3 (fun t => d * t ^ 3 + a * t ^ 2 + b * t + c) x = 6 * d.
Proof. rewrite num_diff_R, num_diff2_R, num_diff3_R. pose proof step1_pos. pose proof step2_pos. repeat split; field; lra. Qed.

(** The Taylor approximations: the value at the centre, and the error of the first two. *)
Theorem C73_constant f c : const_approx (F := R) f c = f c.
Proof. reflexivity. Qed.
Lemma lin_approx_R f c x : lin_approx f c x = f c + num_diff f c * (x - c).
Proof. unfold lin_approx, const_approx. unr. reflexivity. Qed.
Lemma quad_approx_R f c x : quad_approx f c x = f c + num_diff f c * (x - c) + / 2 * num_diff2 f c * (x - c) * (x - c).
Proof. unfold quad_approx. rewrite lin_approx_R. unr. ring. Qed.
Theorem C73_linear_error (f f' : R -> R) K c x a b : a <= c -> a <= x <= b -> c + step1 <= b ->
  has_derivative f f' a b -> lipschitz f' K a b ->
  Rabs (lin_approx f c x - f x) <= K * (Rabs (x - c) + step1) * Rabs (x - c).
Proof.
  intros Ha Hx Hb D L. pose proof step1_pos as P.
  destruct (C73_first_derivative f f' c) as (t & Ht & E). { intros u Hu. apply D. lra. }
  rewrite lin_approx_R, E.
  destruct (Req_dec x c) as [->|Hne]. { replace (f c + f' t * (c - c) - f c) with 0 by ring. replace (c - c) with 0 by ring. rewrite Rabs_R0. lra. }
  assert (0 <= K) as HK. { assert (0 <= K * Rabs (c + step1 - c)) by (eapply Rle_trans; [apply Rabs_pos|apply (L (c + step1) c); lra]). replace (c + step1 - c) with step1 in * by ring. rewrite Rabs_right in * by lra. nra. }
  assert (exists s, Rmin c x <= s <= Rmax c x /\ f x - f c = f' s * (x - c)) as (s & Hs & E').
  { destruct (Rlt_dec c x) as [Hlt|Hge].
    - destruct (MVT_cor2 f f' c x Hlt) as (s & E' & Hs). { intros u Hu. apply D. lra. } exists s. rewrite Rmin_left, Rmax_right by lra. split; [lra|exact E'].
    - destruct (MVT_cor2 f f' x c) as (s & E' & Hs). { lra. } { intros u Hu. apply D. lra. } exists s. rewrite Rmin_right, Rmax_left by lra. split; [lra|]. lra. }
  replace (f c + f' t * (x - c) - f x) with ((f' t - f' s) * (x - c)) by lra. rewrite Rabs_mult.
  apply Rmult_le_compat_r; [apply Rabs_pos|].
  assert (a <= s <= b /\ Rabs (t - s) <= Rabs (x - c) + step1) as [Hs2 Hd].
  { unfold Rmin, Rmax in Hs. destruct (Rle_dec c x).
    - rewrite (Rabs_right (x - c)) by lra. split; [lra|]. apply Rabs_le. lra.
    - rewrite (Rabs_left (x - c)) by lra. split; [lra|]. apply Rabs_le. lra. }
  eapply Rle_trans; [apply L; lra|]. apply Rmult_le_compat_l; assumption.
Qed.
Theorem C73_linear_exact b k c x : lin_approx (fun t => b * t + k) c x = b * x + k.
Proof. rewrite lin_approx_R. destruct (C73_exact 0 b k 0 c) as [-> _]. ring. Qed.
Theorem C73_quadratic_exact a b k c x :
  quad_approx (fun t => a * t ^ 2 + b * t + k) c x = (a * x ^ 2 + b * x + k) + a * step1 * (x - c).
Proof. rewrite quad_approx_R. destruct (C73_exact a b k 0 c) as (_ & -> & _). rewrite num_diff_R. pose proof step1_pos. field. lra. Qed.
(** DEFECT: the factor [1 / 6] is an integer division: the cubic term is never added, so that the cubic approximation is the
    quadratic one; e.g. for t^3 about 0 it misses the whole value, up to 3 steps. *)
Theorem C73_cubic_is_quadratic f c x : cubic_approx (F := R) f c x = quad_approx f c x.
Proof. unfold cubic_approx. change (1 / 6)%Z with 0%Z. unr. ring. Qed.

(** ** C74 *)
(** The iterations run [epochs] times for every integral count (a real count is rounded up). *)
Lemma real_loop_R bound step n fuel i x (h : heap R) : (0 <= i)%Z -> (i + Z.of_nat n <= int_max)%Z -> (n < fuel)%nat ->
  IZR (i + Z.of_nat n) - 1 < bound -> bound <= IZR (i + Z.of_nat n) -> (n = 0%nat -> bound <= IZR i) ->
  real_loop fuel i bound step x h = Ok (Nat.iter n step x) h.
Proof.
  revert fuel i x. induction n as [|n IH]; intros [|fuel] i x Hi Hm Hf Hb1 Hb2 H0; try lia; cbn [real_loop].
  - cbn [s_lt s_of_Z R_scalar]. rewrite (proj2 (Rltb_false (IZR i) bound)); [reflexivity|]. auto.
  - cbn [s_lt s_of_Z R_scalar]. rewrite (proj2 (Rltb_true (IZR i) bound)).
    + unfold bind, chk. replace ((- int_max - 1 <=? i + 1)%Z && (i + 1 <=? int_max)%Z) with true by (unfold int_max in *; lia).
      cbv beta iota delta [ret]. rewrite IH; try lia.
      * f_equal. symmetry. apply Nat.iter_succ_r.
      * replace (i + 1 + Z.of_nat n)%Z with (i + Z.of_nat (S n))%Z by lia. exact Hb1.
      * replace (i + 1 + Z.of_nat n)%Z with (i + Z.of_nat (S n))%Z by lia. exact Hb2.
      * intros ->. replace (i + 1)%Z with (i + Z.of_nat 1)%Z by lia. exact Hb2.
    + assert (IZR i <= IZR (i + Z.of_nat (S n)) - 1) by (rewrite <- minus_IZR; apply IZR_le; lia). lra.
Qed.
Lemma iterate_iter {A} n (g : A -> A) a : iterate n g a = Nat.iter n g a.
Proof. induction n as [|n IH]; [reflexivity|]. cbn [iterate]. rewrite IH. symmetry. apply Nat.iter_succ. Qed.
Lemma run_real_R (bound : R) step n x (h : heap R) : (Z.of_nat n <= int_max)%Z -> INR n - 1 < bound <= INR n -> (n = 0%nat -> bound <= 0) ->
  run_real bound step x h = Ok (iterate n step x) h.
Proof.
  intros Hn Hb H0. rewrite INR_IZR_INZ in Hb. unfold run_real. rewrite (real_loop_R bound step n); rewrite ?iterate_iter; try reflexivity; try lia; rewrite ?Z.add_0_l; try lra.
  exact H0.
Qed.
Lemma newton_step_R f x : newton_step f x = x - f x / num_diff f x.
Proof. reflexivity. Qed.
(** The method with [n] epochs is [n] steps of x - f(x) / slope, the slope measured over one step to the right. *)
Theorem C74_newton_iterates (f : R -> R) x0 n (h : heap R) : (Z.of_nat n <= int_max)%Z ->
  newton f x0 (INR n) h = Ok (iterate n (fun x => x - f x / ((f (x + step1) - f x) / step1)) x0) h.
Proof.
  intros Hn. unfold newton. rewrite (run_real_R (INR n) _ n); [|exact Hn|lra|intros ->; cbn; lra]. f_equal.
  rewrite !iterate_iter. clear Hn. induction n as [|n IH]; [reflexivity|]. rewrite !Nat.iter_succ, IH, newton_step_R, num_diff_R. reflexivity.
Qed.
(** A count that is not integral is rounded up, one that is not positive runs nothing. *)
Theorem C74_epoch_count (f : R -> R) x0 (bound : R) n (h : heap R) : (Z.of_nat n <= int_max)%Z -> INR n - 1 < bound <= INR n ->
  newton f x0 bound h = newton f x0 (INR n) h /\ halley f x0 bound h = halley f x0 (INR n) h.
Proof.
  intros Hn Hb. unfold newton, halley. split; rewrite (run_real_R bound _ n), (run_real_R (INR n) _ n); try reflexivity; try assumption; try lra; intros ->; cbn in *; lra.
Qed.
Lemma real_loop_0 k (bound : R) step x (h : heap R) : bound <= 0 -> real_loop (S k) 0 bound step x h = Ok x h.
Proof. intros Hb. cbn [real_loop s_lt s_of_Z R_scalar]. rewrite (proj2 (Rltb_false 0 bound)) by exact Hb. reflexivity. Qed.
Theorem C74_no_epochs (f : R -> R) x0 (bound : R) (h : heap R) : bound <= 0 -> newton f x0 bound h = Ok x0 h /\ halley f x0 bound h = Ok x0 h.
Proof. intros Hb. split; apply real_loop_0, Hb. Qed.
(** A root is a fixed point; on a non-constant affine function every positive number of epochs gives the root. *)
Lemma iterate_fix {A} (g : A -> A) a n : g a = a -> iterate n g a = a.
Proof. intros E. induction n; cbn; congruence. Qed.
Theorem C74_newton_root (f : R -> R) x0 n (h : heap R) : (Z.of_nat n <= int_max)%Z -> f x0 = 0 -> newton f x0 (INR n) h = Ok x0 h.
Proof. intros Hn E. rewrite C74_newton_iterates by exact Hn. f_equal. apply iterate_fix. rewrite E. unfold Rdiv. ring. Qed.
Theorem C74_newton_affine b k x0 n (h : heap R) : b <> 0 -> (0 < n)%nat -> (Z.of_nat n <= int_max)%Z ->
  newton (fun t => b * t + k) x0 (INR n) h = Ok (- k / b) h.
Proof.
  intros Hb Hp Hn. rewrite C74_newton_iterates by exact Hn. f_equal. pose proof step1_pos.
  assert (forall x, x - (b * x + k) / ((b * (x + step1) + k - (b * x + k)) / step1) = - k / b) as E by (intros x; field; split; nra).
  destruct n as [|n]; [lia|]. cbn [iterate]. apply E.
Qed.

(** For a convex function with a root [r], growing at least with slope [m] to the right of it, Newton's method as coded never
    overshoots the root and the distance to it shrinks at every epoch by the factor 1 - m / s0, [s0] the first slope; in particular
    it converges from every starting point to the right of the root. *)
Lemma Rdiv_le_0_compat a b : 0 <= a -> 0 < b -> 0 <= a / b.
Proof. intros. apply Rmult_le_pos; [assumption|]. apply Rlt_le, Rinv_0_lt_compat. assumption. Qed.
Lemma convex_slopes f a x y z : convex_from f a -> a <= x -> x < y -> y < z -> (f y - f x) / (y - x) <= (f z - f y) / (z - y).
Proof.
  intros C Ha H1 H2. set (u := (z - y) / (z - x)).
  assert (0 <= u <= 1) as Hu. { unfold u. split; [apply Rdiv_le_0_compat; lra|]. apply (Rmult_le_reg_r (z - x)); [lra|]. unfold Rdiv. rewrite Rmult_assoc, Rinv_l by lra. lra. }
  pose proof (C x z u Ha ltac:(lra) Hu) as E. replace (u * x + (1 - u) * z) with y in E by (unfold u; field; lra).
  assert ((z - x) * f y <= (z - y) * f x + (y - x) * f z) as E'.
  { apply (Rmult_le_compat_l (z - x)) in E; [|lra]. replace ((z - x) * (u * f x + (1 - u) * f z)) with ((z - y) * f x + (y - x) * f z) in E by (unfold u; field; lra). exact E. }
  apply (Rmult_le_reg_r ((y - x) * (z - y))); [nra|].
  replace ((f y - f x) / (y - x) * ((y - x) * (z - y))) with ((f y - f x) * (z - y)) by (field; lra).
  replace ((f z - f y) / (z - y) * ((y - x) * (z - y))) with ((f z - f y) * (y - x)) by (field; lra). nra.
Qed.
Lemma convex_slopes_mono f a e x y : convex_from f a -> 0 < e -> a <= x -> x <= y -> (f (x + e) - f x) / e <= (f (y + e) - f y) / e.
Proof.
  intros C He Ha Hxy. destruct (Req_dec x y) as [->|Hne]; [lra|].
  (* f (x + e) + f y <= f x + f (y + e): both inner points are convex combinations of the outer ones *)
  set (d := y - x). set (u := e / (d + e)). assert (0 < d) by (unfold d; lra).
  assert (0 <= u <= 1) as Hu. { unfold u. split; [apply Rdiv_le_0_compat; lra|]. apply (Rmult_le_reg_r (d + e)); [lra|]. unfold Rdiv. rewrite Rmult_assoc, Rinv_l by lra. lra. }
  pose proof (C x (y + e) u Ha ltac:(lra) Hu) as E1. pose proof (C x (y + e) (1 - u) Ha ltac:(lra) ltac:(lra)) as E2.
  replace (u * x + (1 - u) * (y + e)) with y in E1 by (unfold u, d in *; field; lra).
  replace ((1 - u) * x + (1 - (1 - u)) * (y + e)) with (x + e) in E2 by (unfold u, d in *; field; lra).
  apply (Rmult_le_reg_r e); [lra|]. replace ((f (x + e) - f x) / e * e) with (f (x + e) - f x) by (field; lra). replace ((f (y + e) - f y) / e * e) with (f (y + e) - f y) by (field; lra). lra.
Qed.
Theorem C74_newton_convex (f : R -> R) r m x0 : convex_from f r -> f r = 0 -> 0 < m -> (forall x, r <= x -> m * (x - r) <= f x) -> r < x0 ->
  let s0 := (f (x0 + step1) - f x0) / step1 in
  m <= s0 /\
  forall n (h : heap R), (Z.of_nat n <= int_max)%Z ->
    exists x, newton f x0 (INR n) h = Ok x h /\ r <= x <= x0 /\ x - r <= (1 - m / s0) ^ n * (x0 - r).
Proof.
  intros C Hr Hm Hg Hx0 s0. pose proof step1_pos as P. set (e := step1) in *.
  assert (forall x, r < x -> f x / (x - r) <= (f (x + e) - f x) / e) as Hsl.
  { intros x Hx. pose proof (convex_slopes f r r x (x + e) C ltac:(lra) Hx ltac:(lra)) as E. rewrite Hr, Rminus_0_r in E. replace (x + e - x) with e in E by ring. exact E. }
  assert (forall x, r < x -> m <= f x / (x - r)) as Hm'.
  { intros x Hx. apply (Rmult_le_reg_r (x - r)); [lra|]. unfold Rdiv. rewrite Rmult_assoc, Rinv_l, Rmult_1_r by lra. apply Hg. lra. }
  assert (m <= s0) as Hs0 by (eapply Rle_trans; [apply Hm', Hx0|apply Hsl, Hx0]). split; [exact Hs0|].
  intros n h Hn. exists (iterate n (fun x => x - f x / ((f (x + e) - f x) / e)) x0). split; [apply C74_newton_iterates, Hn|]. clear Hn h.
  assert (0 <= 1 - m / s0) as Hq. { assert (m / s0 <= 1); [|lra]. apply (Rmult_le_reg_r s0); [lra|]. unfold Rdiv. rewrite Rmult_assoc, Rinv_l by lra. lra. }
  induction n as [|n IH]; cbn [iterate pow]; [lra|].
  set (x := iterate n _ x0) in *. destruct IH as [[H1 H2] H3].
  destruct (Req_dec x r) as [->|Hne].
  { rewrite Hr. unfold Rdiv at 1 3 5. rewrite !Rmult_0_l, !Rminus_0_r. split; [lra|]. rewrite Rmult_assoc. replace (r - r) with 0 by ring. apply Rmult_le_pos; [exact Hq|]. lra. }
  assert (r < x) as Hx by lra. set (s := (f (x + e) - f x) / e).
  assert (m <= s) as Hs by (eapply Rle_trans; [apply Hm', Hx|apply Hsl, Hx]).
  assert (s <= s0) as Hs1 by (apply (convex_slopes_mono f r); [exact C|lra|lra|lra]).
  assert (f x / s <= x - r) as Hup.
  { apply (Rmult_le_reg_r s); [lra|]. replace (f x / s * s) with (f x) by (field; lra). pose proof (Hsl x Hx) as E. fold s in E.
    apply (Rmult_le_compat_r (x - r)) in E; [|lra]. replace (f x / (x - r) * (x - r)) with (f x) in E by (field; lra). lra. }
  assert (m / s0 * (x - r) <= f x / s) as Hlo.
  { apply (Rmult_le_reg_r (s0 * s)); [nra|]. replace (m / s0 * (x - r) * (s0 * s)) with (m * (x - r) * s) by (field; lra). replace (f x / s * (s0 * s)) with (f x * s0) by (field; lra).
    pose proof (Hg x ltac:(lra)). assert (0 <= m * (x - r)) by (apply Rmult_le_pos; lra). nra. }
  assert (0 <= m / s0) by (apply Rdiv_le_0_compat; lra).
  split; [split; [lra|]|].
  - assert (0 <= m / s0 * (x - r)) by (apply Rmult_le_pos; lra). lra.
  - assert (x - f x / s - r <= (1 - m / s0) * (x - r)) by lra. eapply Rle_trans; [eassumption|]. rewrite Rmult_assoc. apply Rmult_le_compat_l; assumption.
Qed.
