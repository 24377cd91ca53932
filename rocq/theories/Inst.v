(** * Instances of [Scalar]: exact integers (used only to run examples) and IEEE-754 binary floats. *)
From Verif Require Import Base VecSpec.
From Coq Require Import Reals.
From Flocq Require Import Core IEEE754.BinarySingleNaN.
Close Scope R_scope.
Open Scope Z_scope.

(** Exact integers; division and the transcendental functions are placeholders that no theorem uses. *)
Global Instance Z_scalar : Scalar Z := {|
  s_zero := 0; s_one := 1; s_inf := 10 ^ 30;
  s_add := Z.add; s_sub := Z.sub; s_mul := Z.mul; s_div := Z.div; s_opp := Z.opp;
  s_lt := Z.ltb; s_eq := Z.eqb; s_of_Z := fun z => z;
  s_log := Z.log2; s_log10 := Z.log2; s_exp := fun x => x; s_erf := fun x => x; s_sqrt := Z.sqrt;
  s_sin := fun x => x; s_cos := fun x => x; s_pow := Z.pow |}.

(** The transcendental functions of the C library: arbitrary. *)
Record libm (F : Type) := Libm { m_log : F -> F; m_log10 : F -> F; m_exp : F -> F; m_erf : F -> F;
  m_sin : F -> F; m_cos : F -> F; m_pow : F -> F -> F }.
Global Arguments m_log {F}. Global Arguments m_log10 {F}. Global Arguments m_exp {F}. Global Arguments m_erf {F}.
Global Arguments m_sin {F}. Global Arguments m_cos {F}. Global Arguments m_pow {F}.

Section ieee.
Context (prec emax : Z) {Hprec : Prec_gt_0 prec} {Hmax : Prec_lt_emax prec emax}.
Notation flt := (binary_float prec emax).

(** IEEE-754 arithmetic, round to nearest even; infinities, signed zeros and NaN included. *)
Definition ieee_scalar (m : libm flt) : Scalar flt := {|
  s_zero := B754_zero false; s_one := Bone; s_inf := B754_infinity false;
  s_add := Bplus mode_NE; s_sub := Bminus mode_NE; s_mul := Bmult mode_NE; s_div := Bdiv mode_NE;
  s_opp := Bopp; s_lt := Bltb; s_eq := Beqb;
  s_of_Z := fun z => binary_normalize prec emax Hprec Hmax mode_NE z 0 false;
  s_log := m_log m; s_log10 := m_log10 m; s_exp := m_exp m; s_erf := m_erf m; s_sqrt := Bsqrt mode_NE;
  s_sin := m_sin m; s_cos := m_cos m; s_pow := m_pow m |}.

Lemma Bltb_fin (x y : flt) : is_finite x = true -> is_finite y = true -> Bltb x y = true <-> (B2R x < B2R y)%R.
Proof.
  intros Hx Hy. rewrite Bltb_correct by assumption. destruct (Rlt_bool_spec (B2R x) (B2R y)); split; auto; [discriminate|].
  intros. exfalso. apply (Rlt_not_le (B2R y) (B2R x)); assumption.
Qed.

(** -1, 0, 1: minus infinity, finite, plus infinity. *)
Definition rank (x : flt) : Z := match x with B754_infinity true => -1 | B754_infinity false => 1 | _ => 0 end.
Definition lt_spec (x y : flt) : Prop := rank x < rank y \/ (rank x = 0 /\ rank y = 0 /\ (B2R x < B2R y)%R).

Lemma Bltb_spec (x y : flt) : is_nan x = false -> is_nan y = false -> Bltb x y = true <-> lt_spec x y.
Proof.
  intros Hx Hy. unfold lt_spec.
  destruct (is_finite x) eqn:Fx; destruct (is_finite y) eqn:Fy.
  - rewrite Bltb_fin by assumption.
    assert (Rx : rank x = 0) by (destruct x; try discriminate; reflexivity).
    assert (Ry : rank y = 0) by (destruct y; try discriminate; reflexivity).
    rewrite Rx, Ry. split; [auto|]. intros [?|(_ & _ & ?)]; [lia|assumption].
  - assert (Rx : rank x = 0) by (destruct x; try discriminate; reflexivity). rewrite Rx.
    destruct y as [| [] | |]; try discriminate; destruct x as [[]|[]| |[]]; try discriminate; cbn; split; intros HH; try discriminate; try lia; try (destruct HH as [?|(_&?&_)]; lia); auto.
  - assert (Ry : rank y = 0) by (destruct y; try discriminate; reflexivity). rewrite Ry.
    destruct x as [| [] | |]; try discriminate; destruct y as [[]|[]| |[]]; try discriminate; cbn; split; intros HH; try discriminate; try lia; try (destruct HH as [?|(?&_&_)]; lia); auto.
  - destruct x as [| [] | |]; try discriminate; destruct y as [| [] | |]; try discriminate; cbn; split; intros HH; try discriminate; try lia; try (destruct HH as [?|(?&_&_)]; lia); auto.
Qed.

Lemma ieee_swo (m : libm flt) : @swo_on flt (ieee_scalar m) (fun x => is_nan x = false).
Proof.
  constructor; cbn.
  - intros x Hx. destruct (Bltb x x) eqn:E; [|reflexivity]. apply Bltb_spec in E; try assumption.
    destruct E as [?|(_ & _ & ?)]; [lia|]. exfalso. eapply Rlt_irrefl; eassumption.
  - intros x y z Hx Hy Hz Hxy Hyz. apply Bltb_spec in Hxy, Hyz; try assumption. apply Bltb_spec; try assumption.
    destruct Hxy as [?|(? & ? & ?)]; destruct Hyz as [?|(? & ? & ?)]; [left; lia|left; lia|left; lia|].
    right. split; [assumption|]. split; [assumption|]. eapply Rlt_trans; eassumption.
  - intros x y z Hx Hy Hz Hxz. apply Bltb_spec in Hxz; try assumption. rewrite !Bltb_spec by assumption.
    unfold lt_spec in *. destruct (Z_lt_le_dec (rank x) (rank y)); [left; left; assumption|].
    destruct (Z_lt_le_dec (rank y) (rank z)); [right; left; assumption|].
    destruct Hxz as [?|(? & ? & Hr)]; [lia|]. assert (rank y = 0) by lia.
    destruct (Rlt_le_dec (B2R x) (B2R y)); [left; right; auto|]. right; right. split; [assumption|]. split; [assumption|].
    eapply Rle_lt_trans; eassumption.
Qed.

Lemma ieee_finite_swo (m : libm flt) : @swo_on flt (ieee_scalar m) (fun x => is_finite x = true).
Proof.
  assert (G : forall x : flt, is_finite x = true -> is_nan x = false) by (intros []; cbn; congruence).
  destruct (ieee_swo m) as [H1 H2 H3]. constructor.
  - intros x Hx. apply H1, G, Hx.
  - intros x y z Hx Hy Hz. apply H2; apply G; assumption.
  - intros x y z Hx Hy Hz. apply H3; apply G; assumption.
Qed.

Lemma ieee_inf (x : flt) : is_finite x = true -> Bltb (B754_infinity true) x = true /\ Bltb x (B754_infinity false) = true.
Proof. destruct x as [[]|[]| |[]]; try discriminate; intros _; split; reflexivity. Qed.
End ieee.

(** float and double (platform/sfw.h:292-296). *)
Global Instance prec24 : Prec_gt_0 24. Proof. reflexivity. Qed.
Global Instance pmax24 : Prec_lt_emax 24 128. Proof. reflexivity. Qed.
Global Instance prec53 : Prec_gt_0 53. Proof. reflexivity. Qed.
Global Instance pmax53 : Prec_lt_emax 53 1024. Proof. reflexivity. Qed.
