(** * MLPPTensor3: core/mlpp_tensor3.h and core/mlpp_tensor3.cpp, function by function.

    Line numbers refer to core/mlpp_tensor3.cpp unless prefixed with "h:" (core/mlpp_tensor3.h).
    [l] is the receiver; a [Ref] argument is [option loc]; [Size3i] is a triple ((x, y), z).  The products of
    sizes that the code computes in [int] go through [chk] (overflow is UB): [z_slice_data_size] is x*y,
    [data_size] is (x*y)*z.  Element indices stay inside the allocated size and need no check.
    Not modelled from this file: images (700-1404), [to_flat_byte_array] (2001-2007), strings (2234-2289),
    std::vector adapters (2291-2357), bindings (2359-), commented-out code.
    Proof-free file. *)
From Verif Require Export Base Vec Mat.

Section ten.
Context {F : Type} `{Scalar F}.
Implicit Types (l : loc) (r : option loc).

(** h:107 [size()]. *)
Definition t_size l : M F (Z * Z * Z) :=
  let! o := get_obj l in
  match o_shape o with STen x y z => ret (x, y, z) | _ => ub end.
(** h:101 [z_slice_data_size()], h:106 [data_size()]. *)
Definition t_zds l : M F Z := let! sz := t_size l in let '(x, y, z) := sz in chk (x * y).
Definition t_data_size l : M F Z := let! sz := t_size l in let '(x, y, z) := sz in let! a := chk (x * y) in chk (a * z).
Definition size3_eq (a b : Z * Z * Z) : bool := (a.1.1 =? b.1.1) && (a.1.2 =? b.1.2) && (a.2 =? b.2).

(** [Ref<MLPPTensor3>::instance()]. *)
Definition t_new : M F loc := new_obj (STen 0 0 0).

(** 249-265 [resize]. *)
Definition t_resize l (s : Z * Z * Z) : M F unit :=
  let! a := chk (s.1.1 * s.1.2) in
  let! ds := chk (a * s.2) in
  if ds =? 0 then obj_free l (STen s.1.1 s.1.2 s.2) else obj_realloc l (STen s.1.1 s.1.2 s.2).
Definition t_resize_if l (s : Z * Z * Z) : M F unit :=
  let! s0 := t_size l in
  if size3_eq s0 s then ret tt else t_resize l s.
(** h:91 [clear], h:92-98 [reset] (nothing happens when [_data] is NULL). *)
Definition t_clear l : M F unit := t_resize l (0, 0, 0).
Definition t_reset l : M F unit :=
  let! o := get_obj l in
  match o_data o with Some _ => obj_free l (STen 0 0 0) | None => ret tt end.
(** h:100 [empty]. *)
Definition t_empty l : M F bool := let! s := t_size l in ret (size3_eq s (0, 0, 0)).

(** 267-276 [shape_set]. *)
Definition t_shape_set l (s : Z * Z * Z) : M F unit :=
  let! ds := t_data_size l in
  let! a := chk (s.1.1 * s.1.2) in
  let! nds := chk (a * s.2) in
  if negb (ds =? nds) then ret tt else
  let! o := get_obj l in
  put_obj l (Obj (STen s.1.1 s.1.2 s.2) (o_data o)).

(** h:131-141 [element_get_index], [element_set_index]. *)
Definition t_get_index l (i : Z) : M F F :=
  let! n := t_data_size l in
  if (i <? 0) || (n <=? i) then ret s_zero else
  let! p := data_ptr l in load p i.
Definition t_set_index l (i : Z) (v : F) : M F unit :=
  let! n := t_data_size l in
  if (i <? 0) || (n <=? i) then ret tt else
  let! p := data_ptr l in store p i v.
(** h:121-129 [operator[]]: CRASH_BAD_INDEX. *)
Definition t_at l (i : Z) : M F F :=
  let! n := t_data_size l in
  if (i <? 0) || (n <=? i) then crash else
  let! p := data_ptr l in load p i.

(** h:143-160 [element_get], [element_set]; arguments z, y, x. *)
Definition t_get l (z y x : Z) : M F F :=
  let! sz := t_size l in let '(sx, sy, sz) := sz in
  if (x <? 0) || (sx <=? x) then ret s_zero else
  if (y <? 0) || (sy <=? y) then ret s_zero else
  if (z <? 0) || (sz <=? z) then ret s_zero else
  let! p := data_ptr l in load p (y * sx + x + sx * sy * z).
Definition t_set l (z y x : Z) (v : F) : M F unit :=
  let! sz := t_size l in let '(sx, sy, sz) := sz in
  if (x <? 0) || (sx <=? x) then ret tt else
  if (y <? 0) || (sy <=? y) then ret tt else
  if (z <? 0) || (sz <=? z) then ret tt else
  let! p := data_ptr l in store p (y * sx + x + sx * sy * z) v.

(** 39-58 [get_data]; 1979-1985 [to_flat_vector] and 1987-1999 [to_flat_pool_vector] return the second part. *)
Definition t_get_data l : M F ((Z * Z * Z) * list F) :=
  let! n := t_data_size l in
  let! p := data_ptr l in
  let! xs := for_acc 0 n [] (fun i acc => let! x := load p i in ret (acc ++ [x])) in
  let! s := t_size l in
  ret (s, xs).
(** 60-82 [set_data]; an array with other than two entries is [None]. *)
Definition t_set_data l (d : option ((Z * Z * Z) * list F)) : M F unit :=
  match d with
  | None => ret tt
  | Some (s, xs) =>
    let! a := chk (s.1.1 * s.1.2) in
    let! ds := chk (a * s.2) in
    if negb (ds =? Z.of_nat (length xs)) then ret tt else
    t_resize_if l s ;;;
    m_copy_list l 0 xs
  end.

(** Loop [for i < n: dst[po + i] = src[qo + i]] between two objects' buffers. *)
Definition t_copy dst (po : Z) src (qo n : Z) : M F unit :=
  let! p := data_ptr dst in
  let! q := data_ptr src in
  for_ 0 n (fun i => let! x := load q (qo + i) in store p (po + i) x).

(** 84-105 [z_slice_add], 107-129 [z_slice_add_pool_vector]; [++_size.z] is performed together with the reallocation. *)
Definition t_slice_add l (xs : list F) : M F unit :=
  let n := Z.of_nat (length xs) in
  if n =? 0 then ret tt else
  let! fms := t_zds l in
  if negb (fms =? n) then ret tt else
  let! ci := t_data_size l in
  let! sz := t_size l in let '(sx, sy, sz) := sz in
  let! _ := chk (fms * (sz + 1)) in
  obj_realloc l (STen sx sy (sz + 1)) ;;;
  m_copy_list l ci xs.
(** 131-156 [z_slice_add_mlpp_vector]. *)
Definition t_slice_add_vec l r : M F unit :=
  match r with
  | None => ret tt
  | Some b =>
    let! n := v_size b in
    if n =? 0 then ret tt else
    let! fms := t_zds l in
    if negb (fms =? n) then ret tt else
    let! ci := t_data_size l in
    let! sz := t_size l in let '(sx, sy, sz) := sz in
    let! _ := chk (fms * (sz + 1)) in
    obj_realloc l (STen sx sy (sz + 1)) ;;;
    t_copy l ci b 0 n
  end.
(** 158-184 [z_slice_add_mlpp_matrix]. *)
Definition t_slice_add_mat l r : M F unit :=
  match r with
  | None => ret tt
  | Some b =>
    let! n := m_data_size b in
    if n =? 0 then ret tt else
    let! ms := m_size b in
    let! sz := t_size l in let '(sx, sy, sz) := sz in
    if negb (size_eq (sx, sy) ms) then ret tt else
    let! ci := t_data_size l in
    let! _ := chk (sx * sy * (sz + 1)) in
    obj_realloc l (STen sx sy (sz + 1)) ;;;
    t_copy l ci b 0 n
  end.

(** 186-207 [z_slice_remove]. *)
Definition t_slice_remove l (idx : Z) : M F unit :=
  let! sz := t_size l in let '(sx, sy, sz) := sz in
  if (idx <? 0) || (sz <=? idx) then ret tt else
  let ds := sx * sy * (sz - 1) in
  if ds =? 0 then obj_free l (STen sx sy (sz - 1)) else
  let! p := data_ptr l in
  for_ (sx * sy * idx) ds (fun i => let! x := load p (i + sx * sy) in store p i x) ;;;
  obj_realloc l (STen sx sy (sz - 1)).
(** 211-233 [z_slice_remove_unordered]: reads from [ds + i] with [i] counted from the start of the removed slice. *)
Definition t_slice_remove_unordered l (idx : Z) : M F unit :=
  let! sz := t_size l in let '(sx, sy, sz) := sz in
  if (idx <? 0) || (sz <=? idx) then ret tt else
  let ds := sx * sy * (sz - 1) in
  if ds =? 0 then obj_free l (STen sx sy (sz - 1)) else
  let! p := data_ptr l in
  for_ (sx * sy * idx) (sx * sy * (idx + 1)) (fun i => let! x := load p (ds + i) in store p i x) ;;;
  obj_realloc l (STen sx sy (sz - 1)).
(** 235-247 [z_slice_swap]. *)
Definition t_slice_swap l (i1 i2 : Z) : M F unit :=
  let! sz := t_size l in let '(sx, sy, sz) := sz in
  if (i1 <? 0) || (sz <=? i1) then ret tt else
  if (i2 <? 0) || (sz <=? i2) then ret tt else
  let! p := data_ptr l in
  for_ 0 (sx * sy) (fun i =>
    let! a := load p (sx * sy * i1 + i) in
    let! b := load p (sx * sy * i2 + i) in
    store p (sx * sy * i1 + i) b ;;; store p (sx * sy * i2 + i) a).

(** 278-299 [row_get_vector]: the slice index is checked but not used in the address. *)
Definition t_row_get l (z y : Z) : M F (list F) :=
  let! sz := t_size l in let '(sx, sy, sz) := sz in
  if (y <? 0) || (sy <=? y) then ret [] else
  if (z <? 0) || (sz <=? z) then ret [] else
  if sx =? 0 then ret [] else
  let! p := data_ptr l in
  for_acc 0 sx [] (fun i acc => let! x := load p (y * sx + i) in ret (acc ++ [x])).
(** 301-324 [row_get_pool_vector]. *)
Definition t_row_get_pool l (z y : Z) : M F (list F) :=
  let! sz := t_size l in let '(sx, sy, sz) := sz in
  if (y <? 0) || (sy <=? y) then ret [] else
  if (z <? 0) || (sz <=? z) then ret [] else
  if sx =? 0 then ret [] else
  let! p := data_ptr l in
  for_acc 0 sx [] (fun i acc => let! x := load p (y * sx + sx * sy * z + i) in ret (acc ++ [x])).
(** 326-349 [row_get_mlpp_vector]. *)
Definition t_row_get_vec l (z y : Z) : M F (option loc) :=
  let! sz := t_size l in let '(sx, sy, sz) := sz in
  if (y <? 0) || (sy <=? y) then ret None else
  if (z <? 0) || (sz <=? z) then ret None else
  let! out := v_new in
  if sx =? 0 then ret (Some out) else
  v_resize out sx ;;;
  t_copy out 0 l (y * sx + sx * sy * z) sx ;;;
  ret (Some out).
(** 351-368 [row_get_into_mlpp_vector]. *)
Definition t_row_get_into l (z y : Z) r : M F unit :=
  match r with
  | None => ret tt
  | Some t =>
    let! sz := t_size l in let '(sx, sy, sz) := sz in
    if (y <? 0) || (sy <=? y) then ret tt else
    if (z <? 0) || (sz <=? z) then ret tt else
    let! n := v_size t in
    (if n =? sx then ret tt else v_resize t sx) ;;;
    t_copy t 0 l (y * sx + sx * sy * z) sx
  end.
(** 370-383 [row_set_vector], 385-399 [row_set_pool_vector]. *)
Definition t_row_set l (z y : Z) (xs : list F) : M F unit :=
  let! sz := t_size l in let '(sx, sy, sz) := sz in
  if negb (Z.of_nat (length xs) =? sx) then ret tt else
  if (y <? 0) || (sy <=? y) then ret tt else
  if (z <? 0) || (sz <=? z) then ret tt else
  m_copy_list l (y * sx + sx * sy * z) xs.
(** 401-415 [row_set_mlpp_vector]. *)
Definition t_row_set_vec l (z y : Z) r : M F unit :=
  match r with
  | None => ret tt
  | Some b =>
    let! n := v_size b in
    let! sz := t_size l in let '(sx, sy, sz) := sz in
    if negb (n =? sx) then ret tt else
    if (y <? 0) || (sy <=? y) then ret tt else
    if (z <? 0) || (sz <=? z) then ret tt else
    t_copy l (y * sx + sx * sy * z) b 0 sx
  end.

(** 417-439 [z_slice_get_vector], 441-464 [z_slice_get_pool_vector]. *)
Definition t_slice_get l (z : Z) : M F (list F) :=
  let! sz := t_size l in let '(sx, sy, sz) := sz in
  if (z <? 0) || (sz <=? z) then ret [] else
  let! n := t_zds l in
  if n =? 0 then ret [] else
  let! p := data_ptr l in
  for_acc 0 n [] (fun i acc => let! x := load p (sx * sy * z + i) in ret (acc ++ [x])).
(** 466-489 [z_slice_get_mlpp_vector]. *)
Definition t_slice_get_vec l (z : Z) : M F (option loc) :=
  let! sz := t_size l in let '(sx, sy, sz) := sz in
  if (z <? 0) || (sz <=? z) then ret None else
  let! out := v_new in
  let! n := t_zds l in
  if n =? 0 then ret (Some out) else
  v_resize out n ;;;
  t_copy out 0 l (sx * sy * z) n ;;;
  ret (Some out).
(** 491-508 [z_slice_get_into_mlpp_vector]: the target is dereferenced without a null check. *)
Definition t_slice_get_into_vec l (z : Z) r : M F unit :=
  let! sz := t_size l in let '(sx, sy, sz) := sz in
  if (z <? 0) || (sz <=? z) then ret tt else
  let! n := t_zds l in
  let! t := deref r in
  let! m := v_size t in
  (if m =? n then ret tt else v_resize t n) ;;;
  t_copy t 0 l (sx * sy * z) n.
(** 510-533 [z_slice_get_mlpp_matrix]. *)
Definition t_slice_get_mat l (z : Z) : M F (option loc) :=
  let! sz := t_size l in let '(sx, sy, sz) := sz in
  if (z <? 0) || (sz <=? z) then ret None else
  let! out := m_new in
  let! n := t_zds l in
  if n =? 0 then ret (Some out) else
  m_resize out (sx, sy) ;;;
  t_copy out 0 l (sx * sy * z) n ;;;
  ret (Some out).
(** 535-553 [z_slice_get_into_mlpp_matrix]: no null check either. *)
Definition t_slice_get_into_mat l (z : Z) r : M F unit :=
  let! sz := t_size l in let '(sx, sy, sz) := sz in
  if (z <? 0) || (sz <=? z) then ret tt else
  let! n := t_zds l in
  let! t := deref r in
  m_resize_if t (sx, sy) ;;;
  t_copy t 0 l (sx * sy * z) n.
(** 555-570 [z_slice_set_vector], 572-588 [z_slice_set_pool_vector]. *)
Definition t_slice_set l (z : Z) (xs : list F) : M F unit :=
  let! sz := t_size l in let '(sx, sy, sz) := sz in
  if (z <? 0) || (sz <=? z) then ret tt else
  let! n := t_zds l in
  if negb (Z.of_nat (length xs) =? n) then ret tt else
  m_copy_list l (sx * sy * z) xs.
(** 590-606 [z_slice_set_mlpp_vector]. *)
Definition t_slice_set_vec l (z : Z) r : M F unit :=
  let! sz := t_size l in let '(sx, sy, sz) := sz in
  if (z <? 0) || (sz <=? z) then ret tt else
  match r with
  | None => ret tt
  | Some b =>
    let! n := t_zds l in
    let! m := v_size b in
    if negb (m =? n) then ret tt else
    t_copy l (sx * sy * z) b 0 n
  end.
(** 608-624 [z_slice_set_mlpp_matrix]. *)
Definition t_slice_set_mat l (z : Z) r : M F unit :=
  let! sz := t_size l in let '(sx, sy, sz) := sz in
  if (z <? 0) || (sz <=? z) then ret tt else
  match r with
  | None => ret tt
  | Some b =>
    let! n := t_zds l in
    let! ms := m_size b in
    if negb (size_eq ms (sx, sy)) then ret tt else
    t_copy l (sx * sy * z) b 0 n
  end.

(** 626-640 [x_slice_get_into]: the slice number is passed as the row and the row as the column. *)
Definition t_xslice_get_into l (xi : Z) r : M F unit :=
  let! sz := t_size l in let '(sx, sy, sz) := sz in
  if (xi <? 0) || (sx <=? xi) then ret tt else
  match r with
  | None => ret tt
  | Some t =>
    m_resize_if t (sy, sz) ;;;
    for_ 0 sz (fun z => for_ 0 sy (fun y => let! v := t_get l z xi y in m_set t z y v))
  end.
(** 641-650 [x_slice_get]. *)
Definition t_xslice_get l (xi : Z) : M F (option loc) :=
  let! sz := t_size l in let '(sx, sy, sz) := sz in
  if (xi <? 0) || (sx <=? xi) then ret None else
  let! m := m_new in
  t_xslice_get_into l xi (Some m) ;;;
  ret (Some m).
(** 651-661 [x_slice_set]. *)
Definition t_xslice_set l (xi : Z) r : M F unit :=
  let! sz := t_size l in let '(sx, sy, sz) := sz in
  if (xi <? 0) || (sx <=? xi) then ret tt else
  match r with
  | None => ret tt
  | Some b =>
    let! ms := m_size b in
    if negb (size_eq ms (sy, sz)) then ret tt else
    for_ 0 sz (fun z => for_ 0 sy (fun y => let! v := m_get b z y in t_set l z xi y v))
  end.
(** 663-676 [y_slice_get_into]: the size test is against (y, z), the resize to (x, z). *)
Definition t_yslice_get_into l (yi : Z) r : M F unit :=
  let! sz := t_size l in let '(sx, sy, sz) := sz in
  if (yi <? 0) || (sy <=? yi) then ret tt else
  match r with
  | None => ret tt
  | Some t =>
    let! ts := m_size t in
    (if size_eq ts (sy, sz) then ret tt else m_resize t (sx, sz)) ;;;
    for_ 0 sz (fun z => for_ 0 sx (fun x => let! v := t_get l z x yi in m_set t z x v))
  end.
(** 678-686 [y_slice_get]. *)
Definition t_yslice_get l (yi : Z) : M F (option loc) :=
  let! sz := t_size l in let '(sx, sy, sz) := sz in
  if (yi <? 0) || (sy <=? yi) then ret None else
  let! m := m_new in
  t_yslice_get_into l yi (Some m) ;;;
  ret (Some m).
(** 688-698 [y_slice_set]. *)
Definition t_yslice_set l (yi : Z) r : M F unit :=
  let! sz := t_size l in let '(sx, sy, sz) := sz in
  if (yi <? 0) || (sy <=? yi) then ret tt else
  match r with
  | None => ret tt
  | Some b =>
    let! ms := m_size b in
    if negb (size_eq ms (sy, sz)) then ret tt else
    for_ 0 sz (fun z => for_ 0 sx (fun x => let! v := m_get b z x in t_set l z x yi v))
  end.

(** 2031-2040 [set_from_mlpp_tensor3r], 2018-2029 [set_from_mlpp_tensor3], 2009-2016 [duplicate_fast]. *)
Definition t_set_from_ten l b : M F unit :=
  let! s := t_size b in
  t_resize l s ;;;
  let! n := t_data_size b in
  t_copy l 0 b 0 n.
Definition t_set_from l r : M F unit := match r with None => ret tt | Some b => t_set_from_ten l b end.
Definition t_duplicate l : M F loc :=
  let! d := t_new in
  t_set_from_ten d l ;;;
  ret d.
(** 2042-2054 [set_from_mlpp_matrix], 2056-2066 [set_from_mlpp_matrixr]. *)
Definition t_set_from_mat l r : M F unit :=
  match r with
  | None => ret tt
  | Some b =>
    let! s := m_size b in
    t_resize l (s.1, s.2, 1) ;;;
    let! n := m_data_size b in
    t_copy l 0 b 0 n
  end.
(** 2068-2099 [set_from_mlpp_vectors], 2138-2171 [set_from_mlpp_vectors_array]: one slice whose rows are the vectors;
    null vectors and vectors of another size than the first are skipped (ERR_CONTINUE). *)
Definition t_set_from_vecs l (vs : list (option loc)) : M F unit :=
  match vs with
  | [] | None :: _ => t_reset l
  | Some v0 :: _ =>
    let! n0 := v_size v0 in
    t_resize l (n0, Z.of_nat (length vs), 1) ;;;
    let! n := t_data_size l in
    if n =? 0 then t_reset l else
    for_ 0 (Z.of_nat (length vs)) (fun i =>
      match vs !! Z.to_nat i with
      | Some (Some v) =>
        let! nv := v_size v in
        if negb (nv =? n0) then ret tt else t_copy l (i * n0) v 0 n0
      | _ => ret tt
      end)
  end.
(** 2101-2136 [set_from_mlpp_matricess], 2173-2209 [set_from_mlpp_matrices_array]. *)
Definition t_set_from_mats l (ms : list (option loc)) : M F unit :=
  match ms with
  | [] | None :: _ => t_reset l
  | Some m0 :: _ =>
    let! s0 := m_size m0 in
    t_resize l (s0.1, s0.2, Z.of_nat (length ms)) ;;;
    let! n := t_data_size l in
    if n =? 0 then t_reset l else
    for_ 0 (Z.of_nat (length ms)) (fun i =>
      match ms !! Z.to_nat i with
      | Some (Some m) =>
        let! s := m_size m in
        if negb (size_eq s s0) then ret tt else t_copy l (s0.1 * s0.2 * i) m 0 (s0.1 * s0.2)
      | _ => ret tt
      end)
  end.

(** 1968-1977 [fill]: returns at once when [_data] is NULL. *)
Definition t_fill l (v : F) : M F unit :=
  let! p := data_ptr l in
  match p with
  | None => ret tt
  | Some _ => let! n := t_data_size l in for_ 0 n (fun i => store p i v)
  end.
(** 1874-1888 [flatten], 1890-1905 [flatteno]. *)
Definition t_flatten l : M F loc :=
  let! n := t_data_size l in
  let! out := v_new in
  v_resize out n ;;;
  t_copy out 0 l 0 n ;;;
  ret out.
Definition t_flatteno l r : M F unit :=
  match r with
  | None => ret tt
  | Some t =>
    let! n := t_data_size l in
    let! m := v_size t in
    (if m =? n then ret tt else v_resize t n) ;;;
    t_copy t 0 l 0 n
  end.
(** 1921-1942 [tensor_vec_mult]; the vector may be null ([dot] logs and returns 0). *)
Definition t_vec_mult l r : M F loc :=
  let! sz := t_size l in let '(sx, sy, sz) := sz in
  let! c := m_new in
  m_resize c (sy, sz) ;;;
  let! row := v_new in
  v_resize row sx ;;;
  for_ 0 sz (fun i => for_ 0 sy (fun j =>
    t_row_get_into l i j (Some row) ;;;
    let! d := v_dot row r in
    m_set c i j d)) ;;;
  del_obj row ;;;
  ret c.

(** ** Binary element-wise templates *)
(** In-place form: [add] 1406-1418, [sub] 1459-1471, [division_element_wise] 1512-1524, [hadamard_product] 1722-1734, [max] 1777-1789. *)
Definition t_op2 (f : F -> F -> F) l r : M F unit :=
  match r with
  | None => ret tt
  | Some b =>
    let! s := t_size l in
    let! s2 := t_size b in
    if negb (size3_eq s s2) then ret tt else
    let! pb := data_ptr b in
    let! pa := data_ptr l in
    let! n := t_data_size l in
    loop2 f n pa pb pa
  end.
(** Returning form: 1419-1438, 1472-1491, 1525-1545, 1735-1755, 1790-1809. *)
Definition t_op2n (f : F -> F -> F) l r : M F (option loc) :=
  match r with
  | None => ret None
  | Some b =>
    let! s := t_size l in
    let! s2 := t_size b in
    if negb (size3_eq s s2) then ret None else
    let! out := t_new in
    t_resize out s ;;;
    let! pa := data_ptr l in
    let! pb := data_ptr b in
    let! po := data_ptr out in
    let! n := t_data_size l in
    loop2 f n pa pb po ;;;
    ret (Some out)
  end.
(** Into-target form: 1439-1457, 1492-1510, 1546-1565, 1756-1775, 1810-1828. *)
Definition t_op2b (f : F -> F -> F) l ra rb : M F unit :=
  match ra, rb with
  | Some a, Some b =>
    let! s := t_size a in
    let! s2 := t_size b in
    if negb (size3_eq s s2) then ret tt else
    t_resize_if l s ;;;
    let! pa := data_ptr a in
    let! pb := data_ptr b in
    let! po := data_ptr l in
    let! n := t_data_size a in
    loop2 f n pa pb po
  | _, _ => ret tt
  end.
Definition t_add := t_op2 s_add.       Definition t_addn := t_op2n s_add.       Definition t_addb := t_op2b s_add.
Definition t_sub := t_op2 s_sub.       Definition t_subn := t_op2n s_sub.       Definition t_subb := t_op2b s_sub.
Definition t_div := t_op2 s_div.       Definition t_divn := t_op2n s_div.       Definition t_divb := t_op2b s_div.
Definition t_hadamard := t_op2 s_mul.  Definition t_hadamardn := t_op2n s_mul.  Definition t_hadamardb := t_op2b s_mul.
Definition t_max := t_op2 s_max.       Definition t_maxn := t_op2n s_max.       Definition t_maxb := t_op2b s_max.

(** ** Unary element-wise templates: [sqrt] 1567-1609, [exponentiate] 1611-1653, [abs] 1830-1872. *)
Definition t_map (f : F -> F) l : M F unit :=
  let! n := t_data_size l in
  let! p := data_ptr l in
  loop1 f n p p.
Definition t_mapn (f : F -> F) l : M F loc :=
  let! out := t_new in
  let! s := t_size l in
  t_resize out s ;;;
  let! n := t_data_size l in
  let! pa := data_ptr l in
  let! po := data_ptr out in
  loop1 f n pa po ;;;
  ret out.
Definition t_mapb (f : F -> F) l r : M F unit :=
  match r with
  | None => ret tt
  | Some a =>
    let! s := t_size a in
    t_resize_if l s ;;;
    let! n := t_data_size l in
    let! pa := data_ptr a in
    let! po := data_ptr l in
    loop1 f n pa po
  end.
(** 1655-1671, 1689-1705 [scalar_multiply(n)], [scalar_add(n)]: the n-form duplicates, then maps in place. *)
Definition t_mapn_dup (f : F -> F) l : M F loc :=
  let! d := t_duplicate l in
  t_map f d ;;;
  ret d.
(** 1673-1687, 1707-1720 [scalar_multiplyb], [scalar_addb]: only the argument's size is used. *)
Definition t_mapb_own (f : F -> F) l r : M F unit :=
  match r with
  | None => ret tt
  | Some a =>
    let! s := t_size a in
    t_resize_if l s ;;;
    t_map f l
  end.
Definition t_sqrt := t_map s_sqrt.     Definition t_sqrtn := t_mapn s_sqrt.     Definition t_sqrtb := t_mapb s_sqrt.
Definition t_exponentiate (e : F) := t_map (fun x => s_pow x e).
Definition t_exponentiaten (e : F) := t_mapn (fun x => s_pow x e).
Definition t_exponentiateb (e : F) := t_mapb (fun x => s_pow x e).
Definition t_abs := t_map s_abs.       Definition t_absn := t_mapn s_abs.       Definition t_absb := t_mapb s_abs.
Definition t_scalar_multiply (c : F) := t_map (fun x => s_mul x c).
Definition t_scalar_multiplyn (c : F) := t_mapn_dup (fun x => s_mul x c).
Definition t_scalar_multiplyb (c : F) := t_mapb_own (fun x => s_mul x c).
Definition t_scalar_add (c : F) := t_map (fun x => s_add x c).
Definition t_scalar_addn (c : F) := t_mapn_dup (fun x => s_add x c).
Definition t_scalar_addb (c : F) := t_mapb_own (fun x => s_add x c).

(** 2211-2232 [is_equal_approx]. *)
Definition t_is_equal_approx l r (tol : F) : M F bool :=
  match r with
  | None => ret false
  | Some b =>
    if Nat.eqb l b then ret true else
    let! s := t_size l in
    let! s2 := t_size b in
    if negb (size3_eq s s2) then ret false else
    let! n := t_data_size l in
    let! p := data_ptr l in
    let! q := data_ptr b in
    equal_approx_loop (Z.to_nat n) p q 0 tol
  end.

End ten.
