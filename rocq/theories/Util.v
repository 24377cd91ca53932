(** * MLPPUtilities: /repo/core/utilities.cpp (line numbers refer to it), the mini-batch splitters and the scores.
    Proof-free file.

    Simplification: the containers Vector<Ref<..>> that hold the batches are Coq lists of references. *)
From Verif Require Import Base Vec Mat Act.

Section util.
Context {F : Type} `{Scalar F} `{Libm F}.
Implicit Types (l : loc) (r rx ry : option loc).

(** C++ [int / int]: division by zero is undefined, the quotient is truncated, INT_MIN / -1 overflows. *)
Definition idiv (a b : Z) : M F Z := if b =? 0 then ub else chk (Z.quot a b).

(** The inner loop shared by the splitters: [src->row_get_into_mlpp_vector(off + j, row_tmp);
    dst->row_set_mlpp_vector(j, row_tmp);]. *)
Definition copy_row l row dst (from j : Z) : M F unit :=
  m_row_get_into l from (Some row) ;;;
  m_row_set_vec dst j (Some row).

(** 629-664 [create_mini_batchesm]: the start offset of batch i is [n_mini_batch * i]. *)
Definition mini_batches_m rx (nb : Z) : M F (list loc) :=
  let! x := deref rx in
  let! s := m_size x in
  let! m := idiv s.2 nb in
  let! row := v_new in
  v_resize row s.1 ;;;
  let! bs := for_acc 0 nb [] (fun i acc =>
    let! bi := m_new in
    m_resize bi (s.1, m) ;;;
    for_ 0 m (fun j => copy_row x row bi (nb * i + j) j) ;;;
    ret (acc ++ [bi])) in
  del_obj row ;;;
  ret bs.

(** 666-710 [create_mini_batchesmv]: start offset [mini_batch_element_count * i] for the inputs; the outputs are read at
    [j], not at the offset. *)
Definition mini_batches_mv rx ry (nb : Z) : M F (list (loc * loc)) :=
  let! x := deref rx in
  let! s := m_size x in
  let! m := idiv s.2 nb in
  let! row := v_new in
  v_resize row s.1 ;;;
  let! bs := for_acc 0 nb [] (fun i acc =>
    let! bi := m_new in
    m_resize bi (s.1, m) ;;;
    let! bo := v_new in
    v_resize bo m ;;;
    for_ 0 m (fun j =>
      copy_row x row bi (m * i + j) j ;;;
      let! y := deref ry in
      let! e := v_get y j in
      v_set bo j e) ;;;
    ret (acc ++ [(bi, bo)])) in
  del_obj row ;;;
  ret bs.

(** 712-762 [create_mini_batchesmm]: start offset [n_mini_batch * i] for both. *)
Definition mini_batches_mm rx ry (nb : Z) : M F (list (loc * loc)) :=
  let! x := deref rx in
  let! s := m_size x in
  let! y := deref ry in
  let! t := m_size y in
  let! m := idiv s.2 nb in
  let! row := v_new in
  v_resize row s.1 ;;;
  let! orow := v_new in
  v_resize orow t.1 ;;;
  let! bs := for_acc 0 nb [] (fun i acc =>
    let! bi := m_new in
    m_resize bi (s.1, m) ;;;
    let! bo := m_new in
    m_resize bo (t.1, m) ;;;
    for_ 0 m (fun j =>
      copy_row x row bi (nb * i + j) j ;;;
      copy_row y orow bo (nb * i + j) j) ;;;
    ret (acc ++ [(bi, bo)])) in
  del_obj row ;;;
  del_obj orow ;;;
  ret bs.

(** platform/sfw.h 2639-2650 [Math::is_equal_approx(a, b)]: the tolerance is CMP_EPSILON * |a|, at least CMP_EPSILON = 1e-5
    (sfw.h CMP_EPSILON). *)
Definition cmp_eps : F := lit 1 100000.
Definition s_approx (a b : F) : bool :=
  if s_eq a b then true else
  let t := s_mul cmp_eps (s_abs a) in
  let t := if s_lt t cmp_eps then cmp_eps else t in
  s_lt (s_abs (s_sub a b)) t.

(** 336-347 [performance_vec]; [rnd] is Math::round. *)
Definition performance_vec (rnd : F -> F) ra rb : M F F :=
  match ra, rb with
  | Some a, Some b =>
    let! n := v_size a in
    let! c := for_acc 0 n 0 (fun i c =>
      let! x := v_get a i in
      let! y := v_get b i in
      ret (if s_approx (rnd x) y then c + 1 else c)) in
    ret (s_div (s_of_Z c) (s_of_Z n))
  | _, _ => ret s_zero
  end.
(** 348-369 [performance_mat]; the counter [correct] is a real_t incremented by 1. *)
Definition performance_mat (rnd : F -> F) ra rb : M F F :=
  match ra, rb with
  | Some a, Some b =>
    let! s := m_size a in
    let! c := for_acc 0 s.2 s_zero (fun i c =>
      let! p := for_acc 0 s.1 (0, c) (fun j p =>
        let! x := m_get a i j in
        let! y := m_get b i j in
        let sub := if s_approx (rnd x) y then fst p + 1 else fst p in
        ret (sub, if sub =? s.1 then s_add (snd p) s_one else snd p)) in
      ret (snd p)) in
    ret (s_div c (s_of_Z s.2))
  | _, _ => ret s_zero
  end.

(** 811-862 [TF_PN], [recall], [precision], [accuracy], [f1_score] on std::vector; the counters are real_t.  An index past
    the end of [y] is undefined. *)
Fixpoint tf_pn (yh y : list F) (c : F * F * F * F) : option (F * F * F * F) :=
  match yh, y with
  | [], _ => Some c
  | _ :: _, [] => None
  | a :: yh, b :: y =>
    let '(tp, fp, tn, fn) := c in
    tf_pn yh y (if s_eq a b then if s_eq a s_one then (s_add tp s_one, fp, tn, fn) else (tp, fp, s_add tn s_one, fn)
                else if s_eq a s_one then (tp, s_add fp s_one, tn, fn) else (tp, fp, tn, s_add fn s_one))
  end.
Definition scores (f : F -> F -> F -> F -> F) (yh y : list F) : M F F :=
  match tf_pn yh y (s_zero, s_zero, s_zero, s_zero) with
  | Some (tp, fp, tn, fn) => ret (f tp fp tn fn)
  | None => ub
  end.
Definition u_recall := scores (fun tp fp tn fn => s_div tp (s_add tp fn)).
Definition u_precision := scores (fun tp fp tn fn => s_div tp (s_add tp fp)).
Definition u_accuracy := scores (fun tp fp tn fn => s_div (s_add tp tn) (s_add (s_add (s_add tp fp) fn) tn)).
Definition u_f1 (yh y : list F) : M F F :=
  let! p := u_precision yh y in let! q := u_recall yh y in
  let! p' := u_precision yh y in let! q' := u_recall yh y in
  ret (s_div (s_mul (s_mul s_two p) q) (s_add p' q')).
End util.
