(** * MLPPLinAlg: /repo/core/lin_alg.cpp (line numbers refer to it).  Proof-free file.

    The methods of MLPPLinAlg whose bodies repeat a method of MLPPVector / MLPPMatrix statement for statement are modelled by
    the model of that method (the line comments say which).  Simplifications as in [Act]: one scalar type, left-to-right
    evaluation of call arguments (all of them only read), temporaries released after their last use. *)
From Verif Require Import Base Vec Mat Act Stat Cost.

Section linalg.
Context {F : Type} `{Scalar F} `{Libm F}.
Implicit Types (l a b : loc) (r ra rb : option loc).

(** 45-47 [gram_matrix]: A->transposen()->multn(A). *)
Definition la_gram ra : M F (option loc) :=
  let! a := deref ra in
  let! t := m_transposen a in
  let! g := m_multn t (Some a) in
  del_obj t ;;;
  ret g.
(** 49-55 [linear_independence_checker]: gram_matrix(A)->det(A->size().y) == 0 is negated. *)
Definition la_independent ra : M F bool :=
  let! g := la_gram ra in
  let! gl := deref g in
  let! a := deref ra in
  let! s := m_size a in
  let! d := m_det gl s.2 in
  del_obj gl ;;;
  ret (if s_eq d s_zero then false else true).
(** 436-471 [detm]: as MLPPMatrix::detb, with a null test.  (B is created before the test d == 2; for d == 2 it is released
    unused, which has no effect here.) *)
Definition la_det ra (d : Z) : M F F :=
  match ra with None => ret s_zero | Some a => m_detb (S (Z.to_nat d)) a d end.
(** 506-545 [adjointnm] with 483-505 [cofactornm]: null test, then as MLPPMatrix::adjoint. *)
Definition la_adjoint ra : M F (option loc) :=
  match ra with None => ret None | Some a => m_adjoint a end.
(** 262-275 [scalar_multiplynm]: duplicate_fast, then every entry *= scalar; as MLPPMatrix::scalar_multiplyn. *)
Definition la_scale (c : F) ra : M F loc := let! a := deref ra in m_scalar_multiplyn c a.
(** 546-548 [inversenm]. *)
Definition la_inverse ra : M F loc :=
  let! a := deref ra in
  let! s := m_size a in
  let! d := la_det ra s.2 in
  let! adj := la_adjoint ra in
  let! o := la_scale (s_div s_one d) adj in
  drop_ref true adj ;;;
  ret o.
(** 549-551 [pinversenm]: (A^T A)^-1 A^T. *)
Definition la_pinverse ra : M F (option loc) :=
  let! t := la_transpose ra in
  let! g := la_matmult t ra in
  let! i := la_inverse g in
  let! t2 := la_transpose ra in
  let! o := la_matmult (Some i) t2 in
  drop_ref true t ;;; drop_ref true g ;;; del_obj i ;;; drop_ref true t2 ;;;
  ret o.
(** 1028-1030 [solve]: A->inverse()->mult_vec(b). *)
Definition la_solve ra rb : M F (option loc) :=
  let! a := deref ra in
  let! i := m_inverse a in
  let! o := m_mult_vec i rb in
  del_obj i ;;;
  ret o.
(** 1011-1026 [flattenvvnv]: a new vector with the entries in storage order. *)
Definition la_flatten ra : M F loc := let! a := deref ra in m_flatten a.

(** 698-725 [covnm]: entry (i, j) for i < rows, j < COLUMNS is the covariance of rows i and j. *)
Definition la_cov ra : M F loc :=
  let! o := m_new in
  let! a := deref ra in
  let! s := m_size a in
  m_resize o s ;;;
  let! ri := v_new in
  v_resize ri s.1 ;;;
  let! rj := v_new in
  v_resize rj s.1 ;;;
  for_ 0 s.2 (fun i =>
    m_row_get_into a i (Some ri) ;;;
    for_ 0 s.1 (fun j =>
      m_row_get_into a j (Some rj) ;;;
      let! c := st_covariance (Some ri) (Some rj) in
      m_set o i j c)) ;;;
  del_obj rj ;;; del_obj ri ;;;
  ret o.

(** 897-901 [vector_projection]: a * ((a . b) / (a . a)). *)
Definition la_projection ra rb : M F loc :=
  let! a := deref ra in
  let! ab := v_dot a rb in
  let! aa := v_dot a ra in
  v_scalar_multiplyn (s_div ab aa) a.

(** 903-949 [gram_schmidt_process]: classical Gram-Schmidt on the columns of A (rows of its transpose). *)
Definition gs_normalise b bi (i : Z) : M F unit :=       (* 936-939, and 918-919 *)
  let! n := v_norm_2 bi in
  v_scalar_multiply (s_div s_one n) bi ;;;
  m_row_set_vec b i (Some bi).
Definition gs_inner a b ai bi bj (i j : Z) : M F unit := (* 926-934 *)
  m_row_get_into a i (Some ai) ;;;
  m_row_get_into b j (Some bj) ;;;
  m_row_get_into b i (Some bi) ;;;
  let! p := la_projection (Some bj) (Some ai) in
  v_sub bi (Some p) ;;;
  del_obj p ;;;
  m_row_set_vec b i (Some bi).
Definition la_gram_schmidt ra : M F loc :=
  let! a0 := deref ra in
  let! a := m_transposen a0 in
  let! s := m_size a in
  let! b := m_new in
  m_resize b s ;;;
  m_fill b s_zero ;;;
  let! bi := v_new in
  v_resize bi s.1 ;;;
  m_row_get_into a 0 (Some bi) ;;;
  gs_normalise b bi 0 ;;;
  let! ai := v_new in
  v_resize ai s.1 ;;;
  let! bj := v_new in
  v_resize bj s.1 ;;;
  for_ 1 s.2 (fun i =>
    m_row_get_into a i (Some bi) ;;;
    m_row_set_vec b i (Some bi) ;;;
    (* for (j = i - 1; j >= 0; j--): the k-th round has j = i - 1 - k *)
    for_ 0 i (fun k => gs_inner a b ai bi bj i (i - 1 - k)) ;;;
    m_row_get_into b i (Some bi) ;;;
    gs_normalise b bi i) ;;;
  let! o := m_transposen b in
  del_obj bj ;;; del_obj ai ;;; del_obj bi ;;; del_obj b ;;; del_obj a ;;;
  ret o.
(** 951-958 [qrd]: Q and R = Q^T A. *)
Definition la_qrd ra : M F (loc * option loc) :=
  let! q := la_gram_schmidt ra in
  let! t := m_transposen q in
  let! rr := m_multn t ra in
  del_obj t ;;;
  ret (q, rr).

(** 960-997 [cholesky]: L and its transpose; both null when A is not square. *)
Definition chol_cell a ll (j i : Z) : M F unit :=        (* 969-989 *)
  if i =? j then
    let! sum := for_acc 0 j s_zero (fun k sum => let! x := m_get ll i k in ret (s_add sum (s_mul x x))) in
    let! v := m_get a i j in
    m_set ll i j (s_sqrt (s_sub v sum))
  else
    let! sum := for_acc 0 j s_zero (fun k sum => let! x := m_get ll i k in let! y := m_get ll j k in ret (s_add sum (s_mul x y))) in
    let! v := m_get a i j in
    let! d := m_get ll j j in
    m_set ll i j (s_div (s_sub v sum) d).
Definition la_cholesky ra : M F (option loc * option loc) :=
  let! a := deref ra in
  let! s := m_size a in
  if negb (s.1 =? s.2) then ret (None, None) else
  let! ll := m_full s.2 s.1 s_zero in
  for_ 0 s.2 (fun j => for_ j s.2 (fun i => chol_cell a ll j i)) ;;;
  let! lt := m_transposen ll in
  ret (Some ll, Some lt).
End linalg.
