(** * The discrete cosine transform: /repo/core/transforms.cpp (line numbers below unless another file is named).  Proof-free file.

    One scalar type for all real arithmetic (in a float build the compiler evaluates the expressions with Math_PI in double).
    [2 * k + 1] is int arithmetic and checked for overflow. *)
From Verif Require Import Base Vec Mat Act.

Section dct.
Context {F : Type} `{Scalar F} `{Libm F}.
Implicit Types (rx : option loc).

(** 76: [Math::cos((Math_PI * i * (2 * k + 1)) / (2 * M))]. *)
Definition dct_cos (mm : F) (i k : Z) : M F F :=
  let! a := chk (2 * k + 1) in
  ret (s_cos (s_div (s_mul (s_mul m_pi (s_of_Z i)) (s_of_Z a)) (s_mul s_two mm))).
(** 60-71: alphaI, alphaJ. *)
Definition dct_alpha (mm : F) (i : Z) : F := if i =? 0 then s_div s_one (s_sqrt mm) else s_sqrt (s_div s_two mm).
(** 43-84 [discrete_cosine_transform]. *)
Definition dct rx : M F loc :=
  let! x := deref rx in
  let! a := m_scalar_addn (s_of_Z (-128)) x in
  let! s := m_size a in
  let! b := m_new in
  m_resize b s ;;;
  let mm := s_of_Z s.2 in
  for_ 0 s.2 (fun i => for_ 0 s.1 (fun j =>
    let! v :=
      let! t := for_acc 0 s.2 s_zero (fun k acc => for_acc 0 s.1 acc (fun f acc =>
        let! w := m_get a k f in
        let! u := dct_cos mm i k in
        let! v := dct_cos mm j f in
        ret (s_add acc (s_mul (s_mul w u) v)))) in
      ret (s_mul (s_mul t (dct_alpha mm i)) (dct_alpha mm j)) in
    m_set b i j v)) ;;;
  del_obj a ;;; ret b.
End dct.
