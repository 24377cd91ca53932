(** * The recursion of DetCode.v is the determinant / adjugate / inverse of linear algebra (mathcomp). *)
Set Warnings "-notation-overridden,-ambiguous-paths".
From mathcomp Require Import all_ssreflect all_algebra.
From Verif Require Import DetCode.
From Coq Require List.
Set Implicit Arguments. Unset Strict Implicit. Unset Printing Implicit Defensive.
Import GRing.Theory.
Local Open Scope ring_scope.

(** The n x n mathcomp matrix with entries [f i j], and its determinant. *)
Definition mx_of (R : ringType) (n m : nat) (f : nat -> nat -> R) : 'M[R]_(n, m) := \matrix_(i < n, j < m) f i j.
Definition mc_det (R : ringType) (n : nat) (f : nat -> nat -> R) : R := \det (mx_of n n f).

Section ring.
Context (R : comRingType).
Implicit Types f g : nat -> nat -> R.
Notation fsumR := (fsum (0 : R) +%R).
Notation sgR := (fun i : nat => (-1) ^+ i : R).
Notation detR := (det_code (0 : R) +%R (fun x y => x - y) *%R sgR).
Notation adjR := (adj_code (0 : R) 1 +%R (fun x y => x - y) *%R -%R sgR).

Lemma fsumE n (u : nat -> R) : fsumR n u = \sum_(i < n) u i.
Proof.
rewrite /fsum.
have H : forall m s (acc : R), List.fold_left (fun a k => a + u k) (List.seq s m) acc = acc + \sum_(i < m) u (s + i)%N.
  elim=> [|m IH] s acc /=; first by rewrite big_ord0 addr0.
  rewrite IH big_ord_recl addrA addn0. congr (_ + _). apply: eq_bigr => i _. by rewrite /= /bump /= addSnnS.
rewrite H add0r. by apply: eq_bigr => i _; rewrite add0n.
Qed.

Lemma skip_lift n (i : 'I_n.+1) (k : 'I_n) : skip i k = lift i k.
Proof.
rewrite /skip /= /bump. case: PeanoNat.Nat.ltb_spec => [/ltP|/leP] H.
  by rewrite leqNgt H add0n.
by rewrite H add1n.
Qed.

Lemma mx_of_minor n f (i j : 'I_n.+1) : mx_of n n (minor i j f) = row' i (col' j (mx_of n.+1 n.+1 f)).
Proof. by apply/matrixP => a b; rewrite !mxE /minor !skip_lift. Qed.

Lemma det_codeE n f : (2 <= n)%N -> detR n f = mc_det n f.
Proof.
elim: n f => [//|n IH] f Hn. rewrite /=. case: PeanoNat.Nat.eqb_spec => E.
  subst n. rewrite /mc_det (expand_det_row _ ord0) big_ord_recl big_ord1 /cofactor !det_mx11 !mxE /=.
  by rewrite expr0 expr1 mul1r mulN1r mulrN.
have Hn2 : (2 <= n)%N.
  move: Hn. rewrite ltnS leq_eqVlt => /orP[/eqP E1|//]. by case: E.
rewrite fsumE /mc_det (expand_det_row _ ord0). apply: eq_bigr => i _. rewrite IH //.
rewrite !mxE /cofactor -mulrA mulrCA. congr (_ * _). rewrite add0n. congr (_ * _).
by rewrite /mc_det (mx_of_minor f ord0 i).
Qed.

Lemma det_code1 f : detR 1 f = 0.
Proof. by rewrite /= fsumE big_ord1 mulr0. Qed.

Lemma evenE k : Nat.even k = ~~ odd k.
Proof. elim: k => // k IH. by rewrite PeanoNat.Nat.even_succ -PeanoNat.Nat.negb_even IH. Qed.

Lemma adj_codeE n f : (2 <= n)%N -> mx_of n n (adjR n f) = \adj (mx_of n n f).
Proof.
case: n => [|[|[|n]]] // _.
  apply/matrixP => i j. rewrite !mxE /cofactor.
  case: i => [[|[|//]] Hi]; case: j => [[|[|//]] Hj] /=; rewrite det_mx11 !mxE /= ?expr0 ?expr1 ?expr2 ?mul1r ?mulN1r ?opprK ?mul1r //.
apply/matrixP => a b. rewrite [LHS]mxE [RHS]mxE /cofactor -(mx_of_minor f b a) /adj_code evenE.
rewrite -signr_odd -/(mc_det _ _) -det_codeE //. by case: (odd _).
Qed.
End ring.

Section field.
Context (K : fieldType).
Implicit Types f g : nat -> nat -> K.
Notation fsumK := (fsum (0 : K) +%R).
Notation sgK := (fun i : nat => (-1) ^+ i : K).
Notation detK := (det_code (0 : K) +%R (fun x y => x - y) *%R sgK).
Notation adjK := (adj_code (0 : K) 1 +%R (fun x y => x - y) *%R -%R sgK).

Lemma mx_of_eq n m f g : (forall i j, (i < n)%coq_nat -> (j < m)%coq_nat -> f i j = g i j) <-> mx_of n m f = mx_of n m g.
Proof.
split=> [E|/matrixP E i j /ltP Hi /ltP Hj].
  by apply/matrixP => i j; rewrite !mxE; apply: E; apply/ltP.
by move: (E (Ordinal Hi) (Ordinal Hj)); rewrite !mxE.
Qed.
Lemma mx_of_mul r m c f g : mx_of r c (fun i j => fsumK m (fun k => f i k * g k j)) = mx_of r m f *m mx_of m c g.
Proof. by apply/matrixP => i j; rewrite !mxE fsumE; apply: eq_bigr => k _; rewrite !mxE. Qed.
Lemma mx_of_id n : mx_of n n (fun i j => if PeanoNat.Nat.eqb i j then 1 else 0) = 1%:M :> 'M[K]_n.
Proof.
apply/matrixP => i j; rewrite !mxE. case: PeanoNat.Nat.eqb_spec => E.
  by move/ord_inj: E => ->; rewrite eqxx.
by case: eqP => // E2; case: E; rewrite E2.
Qed.
Lemma mx_of_scale n m a f : mx_of n m (fun i j => f i j * a) = a *: mx_of n m f :> 'M[K]_(n, m).
Proof. by apply/matrixP => i j; rewrite !mxE mulrC. Qed.

Definition inv_code n f : nat -> nat -> K := fun i j => adjK n f i j * (1 / detK n f).
Lemma inv_codeE n f : (2 <= n)%N -> mc_det n f <> 0 -> mx_of n n (inv_code n f) = invmx (mx_of n n f).
Proof.
move=> Hn /eqP Hd. rewrite /inv_code mx_of_scale adj_codeE // det_codeE // /invmx unitmxE unitfE -/(mc_det n f) Hd.
by rewrite div1r.
Qed.
Lemma unit_of n f : mc_det n f <> 0 -> mx_of n n f \in unitmx.
Proof. by move=> /eqP H; rewrite unitmxE unitfE. Qed.

Lemma inv_code_right n f : (2 <= n)%N -> mc_det n f <> 0 ->
  forall i j, (i < n)%coq_nat -> (j < n)%coq_nat ->
    fsumK n (fun k => f i k * inv_code n f k j) = if PeanoNat.Nat.eqb i j then 1 else 0.
Proof.
move=> Hn Hd. apply/(mx_of_eq n n). rewrite mx_of_mul inv_codeE // mx_of_id mulmxV //. exact: unit_of.
Qed.
Lemma inv_code_left n f : (2 <= n)%N -> mc_det n f <> 0 ->
  forall i j, (i < n)%coq_nat -> (j < n)%coq_nat ->
    fsumK n (fun k => inv_code n f i k * f k j) = if PeanoNat.Nat.eqb i j then 1 else 0.
Proof.
move=> Hn Hd. apply/(mx_of_eq n n). rewrite mx_of_mul inv_codeE // mx_of_id mulVmx //. exact: unit_of.
Qed.
(** Determinants of products, transposes and identities, in the same vocabulary. *)
Lemma mc_det_ext n f g : (forall i j, (i < n)%coq_nat -> (j < n)%coq_nat -> f i j = g i j) -> mc_det n f = mc_det n g.
Proof. by move=> /mx_of_eq E; rewrite /mc_det E. Qed.
Lemma mc_det_mul n f g : mc_det n (fun i j => fsumK n (fun k => f i k * g k j)) = mc_det n f * mc_det n g.
Proof. by rewrite /mc_det mx_of_mul det_mulmx. Qed.
Lemma mc_det_tr n f : mc_det n (fun i j => f j i) = mc_det n f.
Proof. rewrite /mc_det -det_tr. congr (\det _). by apply/matrixP => i j; rewrite !mxE. Qed.
Lemma mc_det_id n : mc_det n (fun i j => if PeanoNat.Nat.eqb i j then 1 else 0) = 1 :> K.
Proof. by rewrite /mc_det mx_of_id det1. Qed.
(** The matrix has a right inverse iff its determinant is not zero. *)
Lemma mc_det_invertible n f : (exists g, forall i j, (i < n)%coq_nat -> (j < n)%coq_nat ->
    fsumK n (fun k => f i k * g k j) = if PeanoNat.Nat.eqb i j then 1 else 0) -> mc_det n f <> 0.
Proof.
move=> [g /mx_of_eq E] D. move: (f_equal determinant E). rewrite mx_of_id det1 mx_of_mul det_mulmx -/(mc_det n f) D mul0r => /eqP.
by rewrite eq_sym oner_eq0.
Qed.
End field.

(** ** The same facts for any operations that are those of a field.

    [field_ops K zero one ...]: the given operations are the operations of the mathcomp field [K], and [sg i] is (-1)^i. *)
Record field_ops (K : fieldType) (zero one : K) (add sub mul div : K -> K -> K) (opp : K -> K) (sg : nat -> K) : Prop := {
  fo_zero : zero = 0;
  fo_one : one = 1;
  fo_add : add = +%R;
  fo_sub : sub = (fun x y => x - y);
  fo_mul : mul = *%R;
  fo_div : div = (fun x y => x / y);
  fo_opp : opp = -%R;
  fo_sg : forall i, sg i = (-1) ^+ i }.

Lemma det_code_sg (F : Type) (zero : F) add sub mul sg sg' d f : (forall i : nat, sg i = sg' i) ->
  det_code zero add sub mul sg d f = det_code zero add sub mul sg' d f.
Proof.
move=> E. elim: d f => [//|d IH] f /=. case: PeanoNat.Nat.eqb_spec => // _. rewrite /fsum.
have H : forall (g g' : F -> nat -> F) s a, (forall a k, g a k = g' a k) -> List.fold_left g s a = List.fold_left g' s a.
  move=> g g' s a Hg. elim: s a => //= k s IHs a. by rewrite Hg IHs.
apply: H => a k. by rewrite E IH.
Qed.
Lemma adj_code_sg (F : Type) (zero one : F) add sub mul opp sg sg' n f a b : (forall i : nat, sg i = sg' i) ->
  adj_code zero one add sub mul opp sg n f a b = adj_code zero one add sub mul opp sg' n f a b.
Proof. move=> E. by case: n => [|[|[|n]]] //; rewrite /adj_code (det_code_sg _ _ _ _ _ _ E). Qed.

Section ops.
Context (K : fieldType) (zero one : K) (add sub mul div : K -> K -> K) (opp : K -> K) (sg : nat -> K).
Context (E : field_ops zero one add sub mul div opp sg).
Implicit Types f g : nat -> nat -> K.
Notation detO := (det_code zero add sub mul sg).
Notation adjO := (adj_code zero one add sub mul opp sg).

Lemma ops_ring : Ring_theory.ring_theory zero one add mul sub opp eq.
Proof.
case: E => -> -> -> -> -> _ -> _. split.
- exact: add0r. - exact: addrC. - exact: addrA. - exact: mul1r. - exact: mulrC. - exact: mulrA. - exact: mulrDl.
- by []. - exact: subrr.
Qed.
Lemma ops_det n f : (2 <= n)%coq_nat -> detO n f = mc_det n f.
Proof. move=> /leP Hn. case: E => -> _ -> -> -> _ _ Hs. by rewrite (det_code_sg _ _ _ _ _ _ Hs) det_codeE. Qed.
Lemma ops_inv n f : (2 <= n)%coq_nat -> mc_det n f <> zero -> forall i j, (i < n)%coq_nat -> (j < n)%coq_nat ->
  fsum zero add n (fun k => mul (f i k) (mul (adjO n f k j) (div one (detO n f)))) = (if PeanoNat.Nat.eqb i j then one else zero) /\
  fsum zero add n (fun k => mul (mul (adjO n f i k) (div one (detO n f))) (f k j)) = (if PeanoNat.Nat.eqb i j then one else zero).
Proof.
move=> /leP Hn Hd i j Hi Hj. case: E Hd => -> -> -> -> -> -> -> Hs Hd.
have Hx k l : adj_code 0 1 +%R (fun x y : K => x - y) *%R -%R sg n f k l * (1 / det_code 0 +%R (fun x y : K => x - y) *%R sg n f) = inv_code n f k l.
  by rewrite /inv_code (adj_code_sg _ _ _ _ _ _ _ _ _ _ Hs) (det_code_sg _ _ _ _ _ _ Hs).
split.
- rewrite -(inv_code_right Hn Hd Hi Hj) !fsumE. by apply: eq_bigr => k _; rewrite Hx.
- rewrite -(inv_code_left Hn Hd Hi Hj) !fsumE. by apply: eq_bigr => k _; rewrite Hx.
Qed.
(** Entry (j, i) of the adjugate: (-1)^(i+j) times the determinant without row i and column j. *)
Lemma ops_adj n f : (2 <= n)%coq_nat -> forall i j, (i < n)%coq_nat -> (j < n)%coq_nat ->
  adjO n f j i = mul (sg (i + j)) (mc_det (n - 1)%coq_nat (minor i j f)).
Proof.
move=> /leP Hn i j /ltP Hi /ltP Hj. case: n Hn Hi Hj => // n Hn Hi Hj.
have := adj_codeE f Hn => /matrixP /(_ (Ordinal Hj) (Ordinal Hi)).
rewrite [LHS]mxE [RHS]mxE /cofactor -(mx_of_minor f (Ordinal Hi) (Ordinal Hj)).
case: E => -> -> -> -> -> _ -> Hs. rewrite (adj_code_sg _ _ _ _ _ _ _ _ _ _ Hs) Hs => ->.
by rewrite minusE subn1.
Qed.
Lemma ops_det_mul n f g : mc_det n (fun i j => fsum zero add n (fun k => mul (f i k) (g k j))) = mul (mc_det n f) (mc_det n g).
Proof. case: E => -> _ -> _ -> _ _ _. exact: mc_det_mul. Qed.
Lemma ops_det_invertible n f : (exists g, forall i j, (i < n)%coq_nat -> (j < n)%coq_nat ->
    fsum zero add n (fun k => mul (f i k) (g k j)) = if PeanoNat.Nat.eqb i j then one else zero) -> mc_det n f <> zero.
Proof. case: E => -> -> -> _ -> _ _ _. exact: mc_det_invertible. Qed.
Lemma ops_det_id n : mc_det n (fun i j => if PeanoNat.Nat.eqb i j then one else zero) = one :> K.
Proof. case: E => -> -> _ _ _ _ _ _. exact: mc_det_id. Qed.
Lemma ops_mul_eq0 (x y : K) : mul x y = zero -> x = zero \/ y = zero.
Proof. case: E => -> _ _ _ -> _ _ _ /eqP. by rewrite mulf_eq0 => /orP[/eqP|/eqP] ->; [left|right]. Qed.
Lemma ops_one_zero : one <> zero.
Proof. case: E => -> -> _ _ _ _ _ _. apply/eqP. exact: oner_neq0. Qed.
End ops.
