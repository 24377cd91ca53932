(** * Data preparation: /repo/core/data.cpp (line numbers below unless another file is named).  Proof-free file.

    [LocalVector<real_t>] and [Array] are lists.  Not modelled: reading files and printing (146-358, 935-947), the image and text
    functions on std::vector and String (448-933).  Reading an [Array] outside its bounds fails a CRASH_BAD_INDEX check. *)
From Verif Require Import Base Vec Mat Act Stat Glm.

Section data.
Context {F : Type} `{Scalar F} `{Libm F}.
Implicit Types (l : loc) (r rx ry : option loc).

(** [static_cast<int>(x)], [int n = x]: undefined when the value does not fit. *)
Definition cast_int (x : F) : M F Z := match m_to_int x with Some k => ret k | None => ub end.

(** 949-983 [feature_scaling].  The pairs are (max_elements[i], min_elements[i]). *)
Definition scale_bounds (t row : loc) (n : Z) : M F (list (F * F)) :=
  for_acc 0 n [] (fun i acc =>
    m_row_get_into t i (Some row) ;;;
    let! a := v_max_element row in
    let! b := v_min_element row in
    ret (acc ++ [(a, b)])).
Definition feature_scaling rx : M F loc :=
  let! x := deref rx in
  let! t := m_transposen x in
  let! s := m_size t in
  let! row := v_new in
  v_resize row s.1 ;;;
  let! mm := scale_bounds t row s.2 in
  for_ 0 s.2 (fun i =>
    let p := nth (Z.to_nat i) mm (s_zero, s_zero) in
    for_ 0 s.1 (fun j =>
      let! v := let! w := m_get t i j in ret (s_div (s_sub w p.2) (s_sub p.1 p.2)) in
      m_set t i j v)) ;;;
  let! o := m_transposen t in
  del_obj row ;;; del_obj t ;;; ret o.

(** 985-1009 [mean_centering]. *)
Definition mean_centering rx : M F loc :=
  let! o := m_new in
  let! x := deref rx in
  let! s0 := m_size x in
  m_resize o s0 ;;;
  let! s := m_size o in
  let! row := v_new in
  v_resize row s.1 ;;;
  for_ 0 s.2 (fun i =>
    m_row_get_into x i (Some row) ;;;
    let! mu := st_mean (Some row) in
    for_ 0 s.1 (fun j =>
      let! v := let! w := m_get x i j in ret (s_sub w mu) in
      m_set o i j v)) ;;;
  del_obj row ;;; ret o.

(** 1011-1033 [mean_normalization]. *)
Definition mean_normalization rx : M F loc :=
  let! o := mean_centering rx in
  let! s := m_size o in
  let! row := v_new in
  v_resize row s.1 ;;;
  for_ 0 s.2 (fun i =>
    m_row_get_into o i (Some row) ;;;
    let! sd := st_sd (Some row) in
    v_scalar_multiply (s_div s_one sd) row ;;;
    m_row_set_vec o i (Some row)) ;;;
  del_obj row ;;; ret o.

(** 1035-1057 [one_hot_rep]. *)
Definition one_hot_rep ry (k : Z) : M F (option loc) :=
  match ry with
  | None => ret None
  | Some y =>
    let! o := m_new in
    let! n := v_size y in
    let! p := data_ptr y in
    m_resize o (k, n) ;;;
    for_ 0 n (fun i => for_ 0 k (fun j =>
      let! v := let! w := load p i in let! c := cast_int w in ret (if c =? j then s_one else s_zero) in
      m_set o i j v)) ;;;
    ret (Some o)
  end.

(** platform/sfw.cpp 19241-19253 [Array::shuffle]; [draw i] is the value of [Math::rand()] for that i (unsigned). *)
Definition swap (l : list Z) (i j : nat) : list Z := match l !! i, l !! j with Some a, Some b => <[i := b]> (<[j := a]> l) | _, _ => l end.
Fixpoint shuffle_from (draw : nat -> nat) (i : nat) (l : list Z) : list Z :=
  match i with O => l | S k => shuffle_from draw k (swap l i (draw i mod (i + 1))%nat) end.
Definition shuffle (draw : nat -> nat) (l : list Z) : list Z := shuffle_from draw (length l - 1) l.
(** [indices[i]]. *)
Definition index_at (ix : list Z) (i : Z) : M F Z :=
  if i <? 0 then crash else match ix !! Z.to_nat i with Some k => ret k | None => crash end.

(** 119-131 [MLPPDataComplex]: the members _input, _output. *)
Definition dataset := (option loc * option loc)%type.
Definition copy_rows (src_i src_o dst_i dst_o ri ro : loc) (ix : list Z) (from n : Z) : M F unit :=
  for_ 0 n (fun i =>
    let! k := index_at ix (from + i) in
    m_row_get_into src_i k (Some ri) ;;;
    m_row_get_into src_o k (Some ro) ;;;
    m_row_set_vec dst_i i (Some ri) ;;;
    m_row_set_vec dst_o i (Some ro)).
(** 361-436 [train_test_split]; the result is (train, test).  437-446 [train_test_split_bind] only wraps the two in an Array. *)
Definition train_test_split (draw : nat -> nat) (d : option dataset) (test_size : F) : M F (dataset * dataset) :=
  let! ai := m_new in let! ao := m_new in
  let! bi := m_new in let! bo := m_new in
  let res := ((Some ai, Some ao), (Some bi, Some bo)) in
  match d with
  | Some (Some x, Some y) =>
    let! sx := m_size x in
    let! sy := m_size y in
    let n := Z.min sx.2 sy.2 in
    let ix := shuffle draw (seqZ 0 n) in
    let! ri := v_new in v_resize ri sx.1 ;;;
    let! ro := v_new in v_resize ro sy.1 ;;;
    let! t := cast_int (s_mul test_size (s_of_Z n)) in
    m_resize bi (sx.1, t) ;;;
    m_resize bo (sy.1, t) ;;;
    copy_rows x y bi bo ri ro ix 0 t ;;;
    let! t' := chk (n - t) in
    m_resize ai (sx.1, t') ;;;
    m_resize ao (sy.1, t') ;;;
    copy_rows x y ai ao ri ro ix t t' ;;;
    del_obj ro ;;; del_obj ri ;;;
    ret res
  | _ => ret res
  end.
End data.
