(** * C05, C06, C13 for IEEE-754 floats of any format, any behaviour of the C math library. *)
From Verif Require Import PropVec Inst.
From Coq Require Import Reals.
From Flocq Require Import Core IEEE754.BinarySingleNaN.
Close Scope R_scope.
Open Scope Z_scope.

Section ieee.
Context (prec emax : Z) {Hprec : Prec_gt_0 prec} {Hmax : Prec_lt_emax prec emax}.
Notation flt := (binary_float prec emax).
Context (m : libm flt).
Local Existing Instance ieee_scalar.
Local Instance S : Scalar flt := ieee_scalar prec emax m.

(** Sorting any NaN-free vector of floats (infinities and signed zeros allowed). *)
Theorem C05_sort_ieee vd (h : heap flt) l xs : wf h -> abs h !! l = Some (AVec xs) ->
  Forall (fun x => is_nan x = false) xs ->
  runs (v_sort (H := S) vd l) h (fun _ h' => exists ys, ys ≡ₚ xs /\
    (forall i j x y, (i <= j)%nat -> ys !! i = Some x -> ys !! j = Some y -> Bltb y x = false) /\
    abs h' = <[l := AVec ys]> (abs h)).
Proof. intros Hw Ha HF. exact (C05_sort (H := S) _ vd h l xs (ieee_swo prec emax m) Hw Ha HF). Qed.

Theorem C06_ordered_insert_ieee (h : heap flt) l xs v : wf h -> abs h !! l = Some (AVec xs) ->
  Forall (fun x => is_nan x = false) xs -> is_nan v = false ->
  (forall i j x y, (i <= j)%nat -> xs !! i = Some x -> xs !! j = Some y -> Bltb y x = false) ->
  Z.of_nat (length xs) < int_max ->
  runs (v_ordered_insert (H := S) l v) h (fun _ h' => exists pre post, xs = pre ++ post /\
    abs h' = <[l := AVec (pre ++ v :: post)]> (abs h) /\
    (forall i j x y, (i <= j)%nat -> (pre ++ v :: post) !! i = Some x -> (pre ++ v :: post) !! j = Some y -> Bltb y x = false) /\
    Forall (fun y => Bltb v y = false) pre /\ Forall (fun y => Bltb v y = true) post).
Proof. intros Hw Ha HF Hv Hs Hl. exact (C06_ordered_insert (H := S) _ h l xs v (ieee_swo prec emax m) Hw Ha HF Hv Hs Hl). Qed.

Theorem C13_max_element_ieee (h : heap flt) l xs : wf h -> abs h !! l = Some (AVec xs) ->
  Forall (fun x => is_finite x = true) xs -> xs <> [] ->
  exists k x, v_max_element_index (H := S) l h = Ok k h /\ v_max_element (H := S) l h = Ok x h /\
    0 <= k /\ xs !! Z.to_nat k = Some x /\
    (forall j y, xs !! j = Some y -> (B2R y <= B2R x)%R) /\
    (forall j y, (j < Z.to_nat k)%nat -> xs !! j = Some y -> (B2R y < B2R x)%R).
Proof.
  intros Hw Ha HF Hne.
  destruct (C13_max_element (H := S) _ h l xs (ieee_finite_swo prec emax m) Hw Ha HF Hne) as (k & x & E1 & E2 & Hk & Hx & H1 & H2).
  { intros y Hy. apply ieee_inf, Hy. }
  exists k, x. rewrite Forall_lookup in HF. repeat split; try assumption.
  - intros j y Hy. apply Rnot_lt_le. intros Hlt. apply Bltb_fin in Hlt; eauto. rewrite (H1 j y Hy : Bltb _ _ = _) in Hlt. discriminate.
  - intros j y Hj Hy. apply Bltb_fin; eauto. exact (H2 j y Hj Hy).
Qed.

Theorem C13_min_element_ieee (h : heap flt) l xs : wf h -> abs h !! l = Some (AVec xs) ->
  Forall (fun x => is_finite x = true) xs -> xs <> [] ->
  exists k x, v_min_element_index (H := S) l h = Ok k h /\ v_min_element (H := S) l h = Ok x h /\
    0 <= k /\ xs !! Z.to_nat k = Some x /\
    (forall j y, xs !! j = Some y -> (B2R x <= B2R y)%R) /\
    (forall j y, (j < Z.to_nat k)%nat -> xs !! j = Some y -> (B2R x < B2R y)%R).
Proof.
  intros Hw Ha HF Hne.
  destruct (C13_min_element (H := S) _ h l xs (ieee_finite_swo prec emax m) Hw Ha HF Hne) as (k & x & E1 & E2 & Hk & Hx & H1 & H2).
  { intros y Hy. apply ieee_inf, Hy. }
  exists k, x. rewrite Forall_lookup in HF. repeat split; try assumption.
  - intros j y Hy. apply Rnot_lt_le. intros Hlt. apply Bltb_fin in Hlt; eauto. rewrite (H1 j y Hy : Bltb _ _ = _) in Hlt. discriminate.
  - intros j y Hj Hy. apply Bltb_fin; eauto. exact (H2 j y Hj Hy).
Qed.
End ieee.
