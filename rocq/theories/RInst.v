(** * Exact real numbers as scalars, and finite sums of reals.
    Used to state the mathematical meaning of the code: theorems over this instance say what the code
    computes when rounding is ignored.  [s_inf] has no meaning here and no theorem over [R] uses it. *)
From Verif Require Import Base.
From Coq Require Export Reals Lra.
From Verif Require Import RErf.
Close Scope R_scope. Close Scope nat_scope.
Global Open Scope Z_scope.

Definition Rltb (x y : R) : bool := if Rlt_dec x y then true else false.
Definition Reqb (x y : R) : bool := if Req_EM_T x y then true else false.

(** C pow on exact reals: positive base, zero base, negative base with integral exponent. *)
Definition Rpow (x y : R) : R :=
  if Rlt_dec 0 x then Rpower x y else
  if Req_EM_T (IZR (Int_part y)) y then powerRZ x (Int_part y) else 0%R.


Global Instance R_scalar : Scalar R := {|
  s_zero := 0%R; s_one := 1%R; s_inf := 0%R;
  s_add := Rplus; s_sub := Rminus; s_mul := Rmult; s_div := Rdiv; s_opp := Ropp;
  s_lt := Rltb; s_eq := Reqb; s_of_Z := IZR;
  s_log := ln; s_log10 := (fun x => ln x / ln 10)%R; s_exp := exp; s_erf := Rerf; s_sqrt := sqrt;
  s_sin := sin; s_cos := cos; s_pow := Rpow |}.

Lemma Rltb_true x y : Rltb x y = true <-> (x < y)%R.
Proof. unfold Rltb. destruct (Rlt_dec x y); split; intros; try congruence; auto; contradiction. Qed.
Lemma Rltb_false x y : Rltb x y = false <-> (y <= x)%R.
Proof. unfold Rltb. destruct (Rlt_dec x y); split; intros; try congruence; lra. Qed.
Lemma Reqb_true x y : Reqb x y = true <-> x = y.
Proof. unfold Reqb. destruct (Req_EM_T x y); split; congruence. Qed.
Lemma Reqb_false x y : Reqb x y = false <-> x <> y.
Proof. unfold Reqb. destruct (Req_EM_T x y); split; congruence. Qed.
Lemma s_abs_R x : s_abs x = Rabs x.
Proof.
  unfold s_abs. cbn. unfold Rltb. destruct (Rlt_dec x 0).
  - rewrite Rabs_left; auto.
  - rewrite Rabs_right; auto. lra.
Qed.

(** ** Sums *)
Fixpoint rsum (xs : list R) : R := match xs with [] => 0%R | x :: xs' => (x + rsum xs')%R end.

Section sums.
Open Scope R_scope.
Implicit Types xs ys : list R.

Lemma foldl_add_acc {A} (f : A -> R) (xs : list A) c : foldl (fun c x => c + f x) c xs = c + rsum (f <$> xs).
Proof. revert c. induction xs as [|x xs IH]; intros c; cbn; [lra|]. rewrite IH. lra. Qed.
Lemma foldl_Rplus xs : foldl Rplus 0 xs = rsum xs.
Proof. rewrite (foldl_add_acc (fun x => x)), list_fmap_id. lra. Qed.
Lemma rsum_app xs ys : rsum (xs ++ ys) = rsum xs + rsum ys.
Proof. induction xs as [|x xs IH]; cbn; [lra|]. rewrite IH. lra. Qed.
Lemma rsum_perm xs ys : xs ≡ₚ ys -> rsum xs = rsum ys.
Proof. induction 1; cbn; lra. Qed.
Lemma rsum_map_plus {A} (f g : A -> R) (xs : list A) : rsum ((fun x => f x + g x) <$> xs) = rsum (f <$> xs) + rsum (g <$> xs).
Proof. induction xs as [|x xs IH]; cbn; [lra|]. rewrite IH. lra. Qed.
Lemma rsum_map_minus {A} (f g : A -> R) (xs : list A) : rsum ((fun x => f x - g x) <$> xs) = rsum (f <$> xs) - rsum (g <$> xs).
Proof. induction xs as [|x xs IH]; cbn; [lra|]. rewrite IH. lra. Qed.
Lemma rsum_map_scal {A} c (f : A -> R) (xs : list A) : rsum ((fun x => c * f x) <$> xs) = c * rsum (f <$> xs).
Proof. induction xs as [|x xs IH]; cbn; [lra|]. rewrite IH. lra. Qed.
Lemma rsum_map_const {A} c (xs : list A) : rsum ((fun _ => c) <$> xs) = INR (length xs) * c.
Proof. induction xs as [|x xs IH]; [cbn; lra|]. cbn [fmap list_fmap rsum length]. cbn in IH. rewrite IH, S_INR. lra. Qed.
Lemma rsum_map_ext {A} (f g : A -> R) (xs : list A) : (forall x, x ∈ xs -> f x = g x) -> rsum (f <$> xs) = rsum (g <$> xs).
Proof.
  induction xs as [|x xs IH]; intros Hx; cbn; [reflexivity|]. rewrite Hx by left. f_equal. apply IH. intros y Hy. apply Hx. right. exact Hy.
Qed.
Lemma rsum_nonneg xs : Forall (fun x => 0 <= x) xs -> 0 <= rsum xs.
Proof. induction 1; cbn; lra. Qed.
Lemma rsum_map_nonneg {A} (f : A -> R) (xs : list A) : (forall x, 0 <= f x) -> 0 <= rsum (f <$> xs).
Proof. intros Hf. induction xs as [|x xs IH]; cbn; [lra|]. pose proof (Hf x). cbn in IH. lra. Qed.
Lemma rsum_map_zero {A} (f : A -> R) (xs : list A) : (forall x, 0 <= f x) -> rsum (f <$> xs) = 0 -> forall x, x ∈ xs -> f x = 0.
Proof.
  intros Hf. induction xs as [|x xs IH]; intros Hs y Hy; [inversion Hy|].
  cbn in Hs. pose proof (Hf x). pose proof (rsum_map_nonneg f xs Hf) as Hn. cbn in Hn.
  apply elem_of_cons in Hy as [->|Hy]; [lra|]. apply IH; auto. cbn. lra.
Qed.
Lemma rsum_le {A} (f g : A -> R) (xs : list A) : (forall x, x ∈ xs -> f x <= g x) -> rsum (f <$> xs) <= rsum (g <$> xs).
Proof.
  induction xs as [|x xs IH]; intros Hx; cbn; [lra|].
  pose proof (Hx x ltac:(left)). assert (rsum (f <$> xs) <= rsum (g <$> xs)) as Hi. { apply IH. intros y Hy. apply Hx. right. exact Hy. } cbn in Hi. lra.
Qed.

(** Cauchy-Schwarz for sums indexed by any list. *)
Lemma rsum_cauchy {A} (f g : A -> R) (xs : list A) :
  rsum ((fun x => f x * g x) <$> xs) * rsum ((fun x => f x * g x) <$> xs)
  <= rsum ((fun x => f x * f x) <$> xs) * rsum ((fun x => g x * g x) <$> xs).
Proof.
  set (a := rsum ((fun x => f x * f x) <$> xs)). set (b := rsum ((fun x => f x * g x) <$> xs)). set (c := rsum ((fun x => g x * g x) <$> xs)).
  assert (Hq : forall t, 0 <= a * (t * t) + 2 * t * b + c).
  { intros t. pose proof (rsum_map_nonneg (fun x => (t * f x + g x) * (t * f x + g x)) xs (fun x => Rle_0_sqr _)) as Hn.
    rewrite (rsum_map_ext _ (fun x => (t * t) * (f x * f x) + ((2 * t) * (f x * g x) + g x * g x))) in Hn by (intros; ring).
    rewrite rsum_map_plus, rsum_map_plus, !rsum_map_scal in Hn. fold a b c in Hn. lra. }
  assert (Ha : 0 <= a) by (apply rsum_map_nonneg; intros; apply Rle_0_sqr).
  assert (Hc : 0 <= c) by (apply rsum_map_nonneg; intros; apply Rle_0_sqr).
  destruct (Req_dec a 0) as [Ea|Ea].
  - assert (b = 0) as ->; [|rewrite Ea; lra].
    destruct (Req_dec b 0) as [|Eb]; [assumption|]. exfalso.
    pose proof (Hq (- (c + 1) / b)) as Hx. rewrite Ea in Hx.
    replace (0 * (- (c + 1) / b * (- (c + 1) / b)) + 2 * (- (c + 1) / b) * b + c) with (- 2 * (c + 1) + c) in Hx by (field; assumption). lra.
  - pose proof (Hq (- b / a)) as Hx. 
    replace (a * (- b / a * (- b / a)) + 2 * (- b / a) * b + c) with ((a * c - b * b) / a) in Hx by (field; assumption).
    assert (0 < a) by lra. assert (0 <= (a * c - b * b) / a * a) by (apply Rmult_le_pos; lra).
    replace ((a * c - b * b) / a * a) with (a * c - b * b) in * by (field; assumption). lra.
Qed.

Lemma sqrt_sq_abs x : sqrt (x * x) = Rabs x. Proof. apply sqrt_Rsqr_abs. Qed.

(** Minkowski. *)
Lemma rsum_minkowski {A} (f g : A -> R) (xs : list A) :
  sqrt (rsum ((fun x => (f x + g x) * (f x + g x)) <$> xs))
  <= sqrt (rsum ((fun x => f x * f x) <$> xs)) + sqrt (rsum ((fun x => g x * g x) <$> xs)).
Proof.
  rewrite (rsum_map_ext _ (fun x => f x * f x + (2 * (f x * g x) + g x * g x))) by (intros; ring).
  rewrite rsum_map_plus, rsum_map_plus, rsum_map_scal.
  pose proof (rsum_cauchy f g xs) as Hcs.
  assert (Ha : 0 <= rsum ((fun x => f x * f x) <$> xs)) by (apply rsum_map_nonneg; intros; apply Rle_0_sqr).
  assert (Hc : 0 <= rsum ((fun x => g x * g x) <$> xs)) by (apply rsum_map_nonneg; intros; apply Rle_0_sqr).
  revert Hcs Ha Hc. generalize (rsum ((fun x => f x * f x) <$> xs)), (rsum ((fun x => f x * g x) <$> xs)), (rsum ((fun x => g x * g x) <$> xs)).
  intros a b c Hcs Ha Hc.
  assert (Hsa : sqrt a * sqrt a = a) by (apply sqrt_sqrt; assumption).
  assert (Hsc : sqrt c * sqrt c = c) by (apply sqrt_sqrt; assumption).
  pose proof (sqrt_pos a). pose proof (sqrt_pos c).
  assert (Hb : b <= sqrt a * sqrt c).
  { rewrite <- sqrt_mult by assumption. destruct (Rle_dec b 0); [pose proof (sqrt_pos (a * c)); lra|].
    rewrite <- (sqrt_square b) by lra. apply sqrt_le_1_alt. exact Hcs. }
  rewrite <- (sqrt_square (sqrt a + sqrt c)) by lra. apply sqrt_le_1_alt. nra.
Qed.
End sums.
