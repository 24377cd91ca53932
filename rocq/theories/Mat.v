(** * MLPPMatrix: core/mlpp_matrix.h and core/mlpp_matrix.cpp, function by function.

    Line numbers refer to core/mlpp_matrix.cpp unless prefixed with "h:" (core/mlpp_matrix.h).
    [l] is the receiver; a [Ref<MLPPMatrix>]/[Ref<MLPPVector>] argument is [option loc]; temporaries
    held in local Refs are destroyed ([del_obj]) where the C++ scope ends.  [Size2i] is a pair
    (x = columns, y = rows).  The products of sizes that the code computes in [int] go through [chk]
    (overflow is UB).  Element indices [y * _size.x + x] stay inside the allocated size and need no check.
    Not modelled from this file: images (3043-3098), strings (3100-3160), std::vector adapters
    (3160-3235), random fills (621-670), bindings (3236-), commented-out code.
    Proof-free file. *)
From Verif Require Export Base Vec.

Section mat.
Context {F : Type} `{Scalar F}.
Implicit Types (l : loc) (r : option loc).

(** h:95 [size()]. *)
Definition m_size l : M F (Z * Z) :=
  let! o := get_obj l in
  match o_shape o with SMat x y => ret (x, y) | _ => ub end.

(** h:94 [data_size()]. *)
Definition m_data_size l : M F Z := let! sz := m_size l in let '(x, y) := sz in ret (x * y).

Definition size_eq (a b : Z * Z) : bool := (a.1 =? b.1) && (a.2 =? b.2).

(** [Ref<MLPPMatrix>::instance()]. *)
Definition m_new : M F loc := new_obj (SMat 0 0).

(** 280-295 [resize]. *)
Definition m_resize l (s : Z * Z) : M F unit :=
  let! ds := chk (s.1 * s.2) in
  if ds =? 0 then obj_free l (SMat s.1 s.2) else obj_realloc l (SMat s.1 s.2).

(** The recurring [if (_size != s) resize(s)]. *)
Definition m_resize_if l (s : Z * Z) : M F unit :=
  let! s0 := m_size l in
  if size_eq s0 s then ret tt else m_resize l s.

(** h:84 [clear]. *)
Definition m_clear l : M F unit := m_resize l (0, 0).

(** h:85-91 [reset]: nothing happens (the size stays) when [_data] is NULL. *)
Definition m_reset l : M F unit :=
  let! o := get_obj l in
  match o_data o with Some _ => obj_free l (SMat 0 0) | None => ret tt end.

(** h:122-127 [element_get]; ERR_FAIL_INDEX_V tests x first, then y; both return 0. *)
Definition m_get l (y x : Z) : M F F :=
  let! sz := m_size l in let '(sx, sy) := sz in
  if (x <? 0) || (sx <=? x) then ret s_zero else
  if (y <? 0) || (sy <=? y) then ret s_zero else
  let! p := data_ptr l in load p (y * sx + x).

(** h:129-134 [element_set]. *)
Definition m_set l (y x : Z) (v : F) : M F unit :=
  let! sz := m_size l in let '(sx, sy) := sz in
  if (x <? 0) || (sx <=? x) then ret tt else
  if (y <? 0) || (sy <=? y) then ret tt else
  let! p := data_ptr l in store p (y * sx + x) v.

(** h:112-116, 118-120 [element_get_index], [element_set_index]. *)
Definition m_get_index l (i : Z) : M F F :=
  let! n := m_data_size l in
  if (i <? 0) || (n <=? i) then ret s_zero else
  let! p := data_ptr l in load p i.
Definition m_set_index l (i : Z) (v : F) : M F unit :=
  let! n := m_data_size l in
  if (i <? 0) || (n <=? i) then ret tt else
  let! p := data_ptr l in store p i v.

(** 41-60 [get_data], 410-416 [to_flat_vector], 418-431 [to_flat_pool_vector]. *)
Definition m_get_data l : M F ((Z * Z) * list F) :=
  let! s := m_size l in
  let! n := m_data_size l in
  let! p := data_ptr l in
  let! xs := for_acc 0 n [] (fun i acc => let! x := load p i in ret (acc ++ [x])) in
  ret (s, xs).

(** Loop [for i < len: _data[off + i] = xs[i]]. *)
Definition m_copy_list l (off : Z) (xs : list F) : M F unit :=
  let! p := data_ptr l in
  for_ 0 (Z.of_nat (length xs)) (fun i =>
    match xs !! Z.to_nat i with Some x => store p (off + i) x | None => ub end).

(** 61-85 [set_data]; the array is given as (size, elements); an array with other than two
    entries is [None]. *)
Definition m_set_data l (d : option ((Z * Z) * list F)) : M F unit :=
  match d with
  | None => ret tt
  | Some (s, xs) =>
    let! ds := chk (s.1 * s.2) in
    if negb (ds =? Z.of_nat (length xs)) then ret tt else
    m_resize_if l s ;;;
    m_copy_list l 0 xs
  end.

(** 86-109 [row_add], 111-135 [row_add_pool_vector].  [_size.x = n] and [++_size.y] are performed
    together with the reallocation. *)
Definition m_row_add l (xs : list F) : M F unit :=
  let n := Z.of_nat (length xs) in
  if n =? 0 then ret tt else
  let! sz := m_size l in let '(sx, sy) := sz in
  let sx' := if sx =? 0 then n else sx in
  if negb (sx' =? n) then ret tt else
  let! ci := chk (sx' * sy) in
  let! _ := chk (sx' * (sy + 1)) in
  obj_realloc l (SMat sx' (sy + 1)) ;;;
  m_copy_list l ci xs.

(** 137-163 [row_add_mlpp_vector]. *)
Definition m_row_add_vec l r : M F unit :=
  match r with
  | None => ret tt
  | Some b =>
    let! n := v_size b in
    if n =? 0 then ret tt else
    let! sz := m_size l in let '(sx, sy) := sz in
    let sx' := if sx =? 0 then n else sx in
    if negb (sx' =? n) then ret tt else
    let! ci := chk (sx' * sy) in
    let! _ := chk (sx' * (sy + 1)) in
    obj_realloc l (SMat sx' (sy + 1)) ;;;
    let! q := data_ptr b in
    let! p := data_ptr l in
    for_ 0 n (fun i => let! x := load q i in store p (ci + i) x)
  end.

(** 165-194 [rows_add_mlpp_matrix]; [p_other] may be the receiver; its pointer is read after the
    reallocation. *)
Definition m_rows_add l r : M F unit :=
  match r with
  | None => ret tt
  | Some b =>
    let! ods := m_data_size b in
    if ods =? 0 then ret tt else
    let! sz := m_size b in let '(ox, oy) := sz in
    let! sz := m_size l in let '(sx, sy) := sz in
    let sx' := if sx =? 0 then ox else sx in
    if negb (ox =? sx') then ret tt else
    let! off := chk (sx' * sy) in
    let! _ := chk (sx' * (sy + oy)) in
    obj_realloc l (SMat sx' (sy + oy)) ;;;
    let! q := data_ptr b in
    let! p := data_ptr l in
    for_ 0 ods (fun i => let! x := load q i in store p (off + i) x)
  end.

(** 196-215 [row_remove]. *)
Definition m_row_remove l (idx : Z) : M F unit :=
  let! sz := m_size l in let '(sx, sy) := sz in
  if (idx <? 0) || (sy <=? idx) then ret tt else
  let sy' := sy - 1 in
  let ds := sx * sy' in
  if ds =? 0 then obj_free l (SMat sx sy') else
  let! p := data_ptr l in
  for_ (idx * sx) ds (fun i => let! x := load p (i + sx) in store p i x) ;;;
  obj_realloc l (SMat sx sy').

(** 219-244 [row_remove_unordered]. *)
Definition m_row_remove_unordered l (idx : Z) : M F unit :=
  let! sz := m_size l in let '(sx, sy) := sz in
  if (idx <? 0) || (sy <=? idx) then ret tt else
  let sy' := sy - 1 in
  let ds := sx * sy' in
  if ds =? 0 then obj_free l (SMat sx sy') else
  let! p := data_ptr l in
  (if negb (idx * sx =? sy' * sx) then
     for_ 0 sx (fun i => let! x := load p (sy' * sx + i) in store p (idx * sx + i) x)
   else ret tt) ;;;
  obj_realloc l (SMat sx sy').

(** 246-256 [row_swap]. *)
Definition m_row_swap l (i1 i2 : Z) : M F unit :=
  let! sz := m_size l in let '(sx, sy) := sz in
  if (i1 <? 0) || (sy <=? i1) then ret tt else
  if (i2 <? 0) || (sy <=? i2) then ret tt else
  let! p := data_ptr l in
  for_ 0 sx (fun i =>
    let! a := load p (i1 * sx + i) in
    let! b := load p (i2 * sx + i) in
    store p (i1 * sx + i) b ;;; store p (i2 * sx + i) a).

(** 276-296 [row_get_vector], 298-318 [row_get_pool_vector]. *)
Definition m_row_get l (y : Z) : M F (list F) :=
  let! sz := m_size l in let '(sx, sy) := sz in
  if (y <? 0) || (sy <=? y) then ret [] else
  if sx =? 0 then ret [] else
  let! p := data_ptr l in
  for_acc 0 sx [] (fun i acc => let! x := load p (y * sx + i) in ret (acc ++ [x])).

(** 320-343 [row_get_mlpp_vector]. *)
Definition m_row_get_vec l (y : Z) : M F (option loc) :=
  let! sz := m_size l in let '(sx, sy) := sz in
  if (y <? 0) || (sy <=? y) then ret None else
  let! out := v_new in
  if sx =? 0 then ret (Some out) else
  v_resize out sx ;;;
  let! po := data_ptr out in
  let! p := data_ptr l in
  for_ 0 sx (fun i => let! x := load p (y * sx + i) in store po i x) ;;;
  ret (Some out).

(** 345-360 [row_get_into_mlpp_vector]. *)
Definition m_row_get_into l (y : Z) r : M F unit :=
  match r with
  | None => ret tt
  | Some t =>
    let! sz := m_size l in let '(sx, sy) := sz in
    if (y <? 0) || (sy <=? y) then ret tt else
    let! n := v_size t in
    (if n =? sx then ret tt else v_resize t sx) ;;;
    let! po := data_ptr t in
    let! p := data_ptr l in
    for_ 0 sx (fun i => let! x := load p (y * sx + i) in store po i x)
  end.

(** 362-373 [row_set_vector], 375-387 [row_set_pool_vector]. *)
Definition m_row_set l (y : Z) (xs : list F) : M F unit :=
  let! sz := m_size l in let '(sx, sy) := sz in
  if negb (Z.of_nat (length xs) =? sx) then ret tt else
  if (y <? 0) || (sy <=? y) then ret tt else
  m_copy_list l (y * sx) xs.

(** 389-401 [row_set_mlpp_vector]. *)
Definition m_row_set_vec l (y : Z) r : M F unit :=
  match r with
  | None => ret tt
  | Some b =>
    let! n := v_size b in
    let! sz := m_size l in let '(sx, sy) := sz in
    if negb (n =? sx) then ret tt else
    if (y <? 0) || (sy <=? y) then ret tt else
    let! q := data_ptr b in
    let! p := data_ptr l in
    for_ 0 sx (fun i => let! x := load q i in store p (y * sx + i) x)
  end.

(** 403-412 [fill]: returns at once when [_data] is NULL. *)
Definition m_fill l (v : F) : M F unit :=
  let! p := data_ptr l in
  match p with
  | None => ret tt
  | Some _ => let! n := m_data_size l in for_ 0 n (fun i => store p i v)
  end.

(** 459-464 [set_from_mlpp_matrixr]; data pointers are members, re-read in the loop (unchanged there). *)
Definition m_set_from_mat l b : M F unit :=
  let! s := m_size b in
  m_resize l s ;;;
  let! n := m_data_size b in
  let! p := data_ptr l in
  let! q := data_ptr b in
  for_ 0 n (fun i => let! x := load q i in store p i x).

(** 450-457 [set_from_mlpp_matrix]. *)
Definition m_set_from l r : M F unit :=
  match r with None => ret tt | Some b => m_set_from_mat l b end.

(** 441-448 [duplicate_fast]. *)
Definition m_duplicate l : M F loc :=
  let! d := m_new in
  m_set_from_mat d l ;;;
  ret d.

(** 466-498 [set_from_mlpp_vectors], 500-535 [set_from_mlpp_vectors_array]: rows of a wrong width or
    null rows are skipped (ERR_CONTINUE), their cells stay uninitialised or keep stale values. *)
Definition m_set_from_vecs l (vs : list (option loc)) : M F unit :=
  match vs with
  | [] | None :: _ => m_reset l
  | Some v0 :: _ =>
    let! n0 := v_size v0 in
    m_resize l (n0, Z.of_nat (length vs)) ;;;
    let! n := m_data_size l in
    if n =? 0 then m_reset l else
    for_ 0 (Z.of_nat (length vs)) (fun i =>
      match vs !! Z.to_nat i with
      | Some (Some v) =>
        let! nv := v_size v in
        if negb (nv =? n0) then ret tt else
        let! q := data_ptr v in
        let! p := data_ptr l in
        for_ 0 n0 (fun j => let! x := load q j in store p (i * n0 + j) x)
      | _ => ret tt
      end)
  end.

(** 537-563 [set_from_vectors], 565-592 [set_from_arrays]. *)
Definition m_set_from_lists l (vs : list (list F)) : M F unit :=
  match vs with
  | [] => m_reset l
  | v0 :: _ =>
    let n0 := Z.of_nat (length v0) in
    m_resize l (n0, Z.of_nat (length vs)) ;;;
    let! n := m_data_size l in
    if n =? 0 then m_reset l else
    for_ 0 (Z.of_nat (length vs)) (fun i =>
      match vs !! Z.to_nat i with
      | Some v => if negb (Z.of_nat (length v) =? n0) then ret tt else m_copy_list l (i * n0) v
      | None => ub
      end)
  end.

(** 594-604 [set_from_ptr] with a non-null pointer to [xs]: [_data = NULL] is assigned first, so the
    previous buffer is leaked. *)
Definition m_set_from_ptr l (xs : list F) (sy sx : Z) : M F unit :=
  let! o := get_obj l in
  put_obj l (Obj (o_shape o) None) ;;;
  m_resize l (sx, sy) ;;;
  let! n := m_data_size l in
  let! p := data_ptr l in
  for_ 0 n (fun i => match xs !! Z.to_nat i with Some x => store p i x | None => ub end).

(** ** Binary element-wise templates *)
(** In-place form, e.g. [add] 672-684. *)
Definition m_op2 (f : F -> F -> F) l r : M F unit :=
  match r with
  | None => ret tt
  | Some b =>
    let! s := m_size l in
    let! s2 := m_size b in
    if negb (size_eq s s2) then ret tt else
    let! pb := data_ptr b in
    let! pa := data_ptr l in
    let! n := m_data_size l in
    loop2 f n pa pb pa
  end.

(** Returning-new form, e.g. [addn] 685-704. *)
Definition m_op2n (f : F -> F -> F) l r : M F (option loc) :=
  match r with
  | None => ret None
  | Some b =>
    let! s := m_size l in
    let! s2 := m_size b in
    if negb (size_eq s s2) then ret None else
    let! out := m_new in
    m_resize out s ;;;
    let! pa := data_ptr l in
    let! pb := data_ptr b in
    let! po := data_ptr out in
    let! n := m_data_size l in
    loop2 f n pa pb po ;;;
    ret (Some out)
  end.

(** Into-target form, e.g. [addb] 705-723. *)
Definition m_op2b (f : F -> F -> F) l ra rb : M F unit :=
  match ra, rb with
  | Some a, Some b =>
    let! s := m_size a in
    let! s2 := m_size b in
    if negb (size_eq s s2) then ret tt else
    m_resize_if l s ;;;
    let! pa := data_ptr a in
    let! pb := data_ptr b in
    let! po := data_ptr l in
    let! n := m_data_size a in
    loop2 f n pa pb po
  | _, _ => ret tt
  end.

Definition m_add := m_op2 s_add.         Definition m_addn := m_op2n s_add.       Definition m_addb := m_op2b s_add.       (* 672-723 *)
Definition m_sub := m_op2 s_sub.         Definition m_subn := m_op2n s_sub.       Definition m_subb := m_op2b s_sub.       (* 725-776 *)
Definition m_hadamard := m_op2 s_mul.    Definition m_hadamardn := m_op2n s_mul.  Definition m_hadamardb := m_op2b s_mul.  (* 880-931 *)
Definition m_div := m_op2 s_div.         Definition m_divn := m_op2n s_div.       Definition m_divb := m_op2b s_div.       (* 1066-1117 *)
Definition m_max := m_op2 s_max.         Definition m_maxn := m_op2n s_max.       Definition m_maxb := m_op2b s_max.       (* 1983-2034 *)
Definition m_min := m_op2 s_min.         Definition m_minn := m_op2n s_min.       Definition m_minb := m_op2b s_min.       (* 2036-2087 *)

(** ** Unary element-wise templates *)
Definition m_map (f : F -> F) l : M F unit :=
  let! n := m_data_size l in
  let! p := data_ptr l in
  loop1 f n p p.
Definition m_mapn (f : F -> F) l : M F loc :=
  let! out := m_new in
  let! s := m_size l in
  m_resize out s ;;;
  let! n := m_data_size l in
  let! pa := data_ptr l in
  let! po := data_ptr out in
  loop1 f n pa po ;;;
  ret out.
Definition m_mapb (f : F -> F) l r : M F unit :=
  match r with
  | None => ret tt
  | Some a =>
    let! s := m_size a in
    m_resize_if l s ;;;
    let! n := m_data_size l in
    let! pa := data_ptr a in
    let! po := data_ptr l in
    loop1 f n pa po
  end.

Definition m_log := m_map s_log.       Definition m_logn := m_mapn s_log.       Definition m_logb := m_mapb s_log.       (* 1237-1279 *)
Definition m_log10 := m_map s_log10.   Definition m_log10n := m_mapn s_log10.   Definition m_log10b := m_mapb s_log10.   (* 1281-1323 *)
Definition m_exp := m_map s_exp.       Definition m_expn := m_mapn s_exp.       Definition m_expb := m_mapb s_exp.       (* 1325-1367 *)
Definition m_erf := m_map s_erf.       Definition m_erfn := m_mapn s_erf.       Definition m_erfb := m_mapb s_erf.       (* 1369-1411 *)
Definition m_exponentiate (e : F) := m_map (fun x => s_pow x e).    (* 1413-1421 *)
Definition m_exponentiaten (e : F) := m_mapn (fun x => s_pow x e).  (* 1422-1437 *)
Definition m_exponentiateb (e : F) := m_mapb (fun x => s_pow x e).  (* 1438-1455 *)
Definition m_sqrt := m_map s_sqrt.     Definition m_sqrtn := m_mapn s_sqrt.     Definition m_sqrtb := m_mapb s_sqrt.     (* 1457-1499 *)
Definition m_cbrt := m_exponentiate s_third.    (* 1501-1503 *)
Definition m_cbrtn := m_exponentiaten s_third.  (* 1504-1506 *)
Definition m_cbrtb := m_exponentiateb s_third.  (* 1507-1509 *)
Definition m_abs := m_map s_abs.       Definition m_absn := m_mapn s_abs.       Definition m_absb := m_mapb s_abs.       (* 1547-1589 *)
Definition m_sin := m_map s_sin.       Definition m_sinn := m_mapn s_sin.       Definition m_sinb := m_mapb s_sin.       (* 1819-1859 *)
Definition m_cos := m_map s_cos.       Definition m_cosn := m_mapn s_cos.       Definition m_cosb := m_mapb s_cos.       (* 1861-1901 *)

(** 1171-1188, 1204-1221 [scalar_multiply(n)], [scalar_add(n)]: the n-form duplicates, then maps in place. *)
Definition m_mapn_dup (f : F -> F) l : M F loc :=
  let! d := m_duplicate l in
  m_map f d ;;;
  ret d.
(** 1189-1202, 1222-1235 [scalar_multiplyb], [scalar_addb]: only the argument's size is used; the
    receiver's own cells are read. *)
Definition m_mapb_own (f : F -> F) l r : M F unit :=
  match r with
  | None => ret tt
  | Some a =>
    let! s := m_size a in
    m_resize_if l s ;;;
    m_map f l
  end.
Definition m_scalar_multiply (c : F) := m_map (fun x => s_mul x c).
Definition m_scalar_multiplyn (c : F) := m_mapn_dup (fun x => s_mul x c).
Definition m_scalar_multiplyb (c : F) := m_mapb_own (fun x => s_mul x c).
Definition m_scalar_add (c : F) := m_map (fun x => s_add x c).
Definition m_scalar_addn (c : F) := m_mapn_dup (fun x => s_add x c).
Definition m_scalar_addb (c : F) := m_mapb_own (fun x => s_add x c).

(** ** Products *)
(** The triple loop of 800-811, 832-843, 865-877: [c[i][j] += a[i][k] * b[k][j]], i, k, j nested in this
    order; [ax], [bx], [cx] are the row widths used by calculate_index. *)
Definition mult_loop (ni nk nj ax bx cx : Z) (pa pb pc : option blk) : M F unit :=
  for_ 0 ni (fun i => for_ 0 nk (fun k => for_ 0 nj (fun j =>
    let! c := load pc (i * cx + j) in
    let! a := load pa (i * ax + k) in
    let! b := load pb (k * bx + j) in
    store pc (i * cx + j) (s_add c (s_mul a b))))).

(** 778-812 [mult].  After [resize]/[fill] the receiver's row width is [rs.x]; if [B] is the receiver
    its current width and cells are used. *)
Definition m_mult l r : M F unit :=
  match r with
  | None => ret tt
  | Some b =>
    let! bs := m_size b in
    let! s := m_size l in
    if negb (s.1 =? bs.2) then ret tt else
    let! a := m_duplicate l in
    let! as_ := m_size a in
    m_resize_if l (bs.1, as_.2) ;;;
    m_fill l s_zero ;;;
    let! pa := data_ptr a in
    let! pb := data_ptr b in
    let! pc := data_ptr l in
    let! cs := m_size l in
    let! bs' := m_size b in
    mult_loop as_.2 bs.2 bs.1 as_.1 bs'.1 cs.1 pa pb pc ;;;
    del_obj a
  end.

(** 813-845 [multn]. *)
Definition m_multn l r : M F (option loc) :=
  match r with
  | None => ret None
  | Some b =>
    let! bs := m_size b in
    let! s := m_size l in
    if negb (s.1 =? bs.2) then ret None else
    let! c := m_new in
    m_resize c (bs.1, s.2) ;;;
    m_fill c s_zero ;;;
    let! pa := data_ptr l in
    let! pb := data_ptr b in
    let! pc := data_ptr c in
    mult_loop s.2 bs.2 bs.1 s.1 bs.1 bs.1 pa pb pc ;;;
    ret (Some c)
  end.

(** 846-878 [multb]; row widths are re-read after the resize (the receiver may be an operand). *)
Definition m_multb l ra rb : M F unit :=
  match ra, rb with
  | Some a, Some b =>
    let! as_ := m_size a in
    let! bs := m_size b in
    if negb (as_.1 =? bs.2) then ret tt else
    m_resize_if l (bs.1, as_.2) ;;;
    m_fill l s_zero ;;;
    let! pa := data_ptr a in
    let! pb := data_ptr b in
    let! pc := data_ptr l in
    let! as' := m_size a in
    let! bs' := m_size b in
    let! cs := m_size l in
    mult_loop as_.2 bs.2 bs.1 as'.1 bs'.1 cs.1 pa pb pc
  | _, _ => ret tt
  end.

(** ** Transposition *)
Definition transpose_loop (ni nj ax tx : Z) (pa pt : option blk) : M F unit :=
  for_ 0 ni (fun i => for_ 0 nj (fun j => let! x := load pa (i * ax + j) in store pt (j * tx + i) x)).

(** 1119-1133 [transpose]. *)
Definition m_transpose l : M F unit :=
  let! a := m_duplicate l in
  let! s := m_size a in
  m_resize l (s.2, s.1) ;;;
  let! pa := data_ptr a in
  let! pt := data_ptr l in
  transpose_loop s.2 s.1 s.1 s.2 pa pt ;;;
  del_obj a.

(** 1134-1149 [transposen]. *)
Definition m_transposen l : M F loc :=
  let! t := m_new in
  let! s := m_size l in
  m_resize t (s.2, s.1) ;;;
  let! pa := data_ptr l in
  let! pt := data_ptr t in
  transpose_loop s.2 s.1 s.1 s.2 pa pt ;;;
  ret t.

(** 1150-1169 [transposeb]; if [A] is the receiver its row width is the new one. *)
Definition m_transposeb l r : M F unit :=
  match r with
  | None => ret tt
  | Some a =>
    let! s := m_size a in
    m_resize_if l (s.2, s.1) ;;;
    let! pa := data_ptr a in
    let! pt := data_ptr l in
    let! s' := m_size a in
    let! t := m_size l in
    transpose_loop s.2 s.1 s'.1 t.1 pa pt
  end.

(** ** Kronecker products *)
(** Inner part 961-973, 1006-1017, 1050-1061: one output row, built from the scaled copies of a row of
    [B] (temporaries freed at the end of the iteration). *)
Definition kron_row l b row_tmp (pa : option blk) (ax i j nk b_y : Z) : M F unit :=
  m_row_get_into b j (Some row_tmp) ;;;
  let! row := for_acc 0 nk [] (fun k acc =>
    let! x := load pa (i * ax + k) in
    let! v := v_scalar_multiplyn x row_tmp in
    ret (acc ++ [v])) in
  let! flat := v_flattenn (Some <$> row) in
  m_row_set_vec l (i * b_y + j) (Some flat) ;;;
  del_obj flat ;;;
  for_ 0 (Z.of_nat (length row)) (fun k => match row !! Z.to_nat k with Some v => del_obj v | None => ub end).

(** 933-976 [kronecker_product]: the loops run over the receiver's new size. *)
Definition m_kron l r : M F unit :=
  match r with
  | None => ret tt
  | Some b =>
    let! s := m_size l in
    let! bs := m_size b in
    let! a := m_duplicate l in
    let! x := chk (bs.1 * s.1) in
    let! y := chk (bs.2 * s.2) in
    m_resize l (x, y) ;;;
    let! pa := data_ptr a in
    let! row_tmp := v_new in
    v_resize row_tmp bs.1 ;;;
    for_ 0 y (fun i => for_ 0 bs.2 (fun j => kron_row l b row_tmp pa s.1 i j x bs.2)) ;;;
    del_obj row_tmp ;;;
    del_obj a
  end.

(** 977-1022 [kronecker_productn]. *)
Definition m_kronn l r : M F (option loc) :=
  match r with
  | None => ret None
  | Some b =>
    let! s := m_size l in
    let! bs := m_size b in
    let! c := m_new in
    let! x := chk (bs.1 * s.1) in
    let! y := chk (bs.2 * s.2) in
    m_resize c (x, y) ;;;
    let! pa := data_ptr l in
    let! row_tmp := v_new in
    v_resize row_tmp bs.1 ;;;
    for_ 0 s.2 (fun i => for_ 0 bs.2 (fun j => kron_row c b row_tmp pa s.1 i j s.1 bs.2)) ;;;
    del_obj row_tmp ;;;
    ret (Some c)
  end.

(** 1023-1064 [kronecker_productb]; modelled for a receiver distinct from both operands
    (with an aliased receiver the resize frees or resizes the operand's buffer first). *)
Definition m_kronb l ra rb : M F unit :=
  match ra, rb with
  | Some a, Some b =>
    let! s := m_size a in
    let! bs := m_size b in
    let! x := chk (bs.1 * s.1) in
    let! y := chk (bs.2 * s.2) in
    m_resize l (x, y) ;;;
    let! pa := data_ptr a in
    let! s' := m_size a in
    let! row_tmp := v_new in
    v_resize row_tmp bs.1 ;;;
    for_ 0 s.2 (fun i => for_ 0 bs.2 (fun j => kron_row l b row_tmp pa s'.1 i j s.1 bs.2)) ;;;
    del_obj row_tmp
  | _, _ => ret tt
  end.

(** ** Constructors *)
Definition m_full (n m : Z) (v : F) : M F loc :=
  let! a := m_new in
  m_resize a (m, n) ;;;
  m_fill a v ;;;
  ret a.
Definition m_matn_zero (n m : Z) := m_full n m s_zero.           (* 1791-1799 *)
Definition m_matn_one (n m : Z) := m_full n m s_one.             (* 1800-1808 *)
Definition m_matn_full (n m k : Z) := m_full n m (s_of_Z k).     (* 1809-1817 *)

(** 2125-2135 [identity]. *)
Definition m_identity l : M F unit :=
  m_fill l s_zero ;;;
  let! p := data_ptr l in
  let! s := m_size l in
  for_ 0 (Z.min s.1 s.2) (fun i => store p (i * s.1 + i) s_one).

(** 2136-2143 [identityn]. *)
Definition m_identityn l : M F loc :=
  let! a := m_new in
  let! s := m_size l in
  m_resize a s ;;;
  m_identity a ;;;
  ret a.

(** 2144-2158 [identity_mat], 2159-2172 [create_identity_mat]. *)
Definition m_identity_mat (d : Z) : M F loc :=
  let! a := m_new in
  m_resize a (d, d) ;;;
  m_fill a s_zero ;;;
  let! p := data_ptr a in
  for_ 0 d (fun i => store p (i * d + i) s_one) ;;;
  ret a.

(** ** Determinant, adjugate, inverse *)
(** 1599-1635 [detb(A, d)] with 1591-1597 [det(d)]; recursion on fuel ([d] decreases by one at each
    level and fuel [d+1] is enough).  The counters [sub_i], [sub_j] of the C++ are loop-carried. *)
Fixpoint m_detb (fuel : nat) (a : loc) (d : Z) : M F F :=
  match fuel with
  | O => nofuel
  | S fuel' =>
    if d =? 2 then
      let! a00 := m_get a 0 0 in
      let! a11 := m_get a 1 1 in
      let! a01 := m_get a 0 1 in
      let! a10 := m_get a 1 0 in
      ret (s_sub (s_mul a00 a11) (s_mul a01 a10))
    else
      let! b := m_new in
      m_resize b (d, d) ;;;
      m_fill b s_zero ;;;
      let! deter := for_acc 0 d s_zero (fun i deter =>
        let! _ := for_acc 1 d 0 (fun j sub_i =>
          let! _ := for_acc 0 d 0 (fun k sub_j =>
            if k =? i then ret sub_j else
            let! x := m_get a j k in
            m_set b sub_i sub_j x ;;;
            ret (sub_j + 1)) in
          ret (sub_i + 1)) in
        let! a0i := m_get a 0 i in
        (* B->det(d - 1): the sentinel -1 means "use the row count" *)
        let! bs := m_size b in
        let! sub := m_detb fuel' b (if d - 1 =? -1 then bs.2 else d - 1) in
        ret (s_add deter (s_mul (s_mul (s_pow (s_opp s_one) (s_of_Z i)) a0i) sub))) in
      del_obj b ;;;
      ret deter
  end.

(** 1591-1597 [det(d)], default d = -1. *)
Definition m_det l (d : Z) : M F F :=
  let! s := m_size l in
  let d' := if d =? -1 then s.2 else d in
  m_detb (S (Z.to_nat d')) l d'.

(** 1637-1647 [trace]. *)
Definition m_trace l : M F F :=
  let! s := m_size l in
  for_acc 0 (Z.min s.1 s.2) s_zero (fun i t => let! x := m_get l i i in ret (s_add t x)).

(** The double loop of 1657-1667, 1683-1693 over (sub_i, sub_j). *)
Definition cofactor_loop l out (n i j : Z) : M F unit :=
  let! _ := for_acc 0 n (0, 0) (fun row st =>
    for_acc 0 n st (fun col '(sub_i, sub_j) =>
      if negb (row =? i) && negb (col =? j) then
        let! x := m_get l row col in
        m_set out sub_i sub_j x ;;;
        let sub_j' := sub_j + 1 in
        ret (if sub_j' =? n - 1 then (sub_i + 1, 0) else (sub_i, sub_j'))
      else ret (sub_i, sub_j))) in
  ret tt.

(** 1649-1671 [cofactor]: the result keeps the full size, only its (n-1) x (n-1) corner is written. *)
Definition m_cofactor l (n i j : Z) : M F loc :=
  let! cof := m_new in
  let! s := m_size l in
  m_resize cof s ;;;
  cofactor_loop l cof n i j ;;;
  ret cof.

(** 1672-1694 [cofactoro]. *)
Definition m_cofactoro l (n i j : Z) r : M F unit :=
  match r with
  | None => ret tt
  | Some out =>
    let! s := m_size l in
    m_resize_if out s ;;;
    cofactor_loop l out n i j
  end.

(** Common body of 1707-1733 and 1745-1770. *)
Definition adjoint_body l out (s : Z * Z) : M F unit :=
  if s.2 =? 1 then m_set out 0 0 s_one
  else if s.2 =? 2 then
    let! a11 := m_get l 1 1 in m_set out 0 0 a11 ;;;
    let! a00 := m_get l 0 0 in m_set out 1 1 a00 ;;;
    let! a01 := m_get l 0 1 in m_set out 0 1 (s_opp a01) ;;;
    let! a10 := m_get l 1 0 in m_set out 1 0 (s_opp a10)
  else
    for_ 0 s.2 (fun i => for_ 0 s.1 (fun j =>
      let! cof := m_cofactor l s.2 i j in
      let sign := if Z.rem (i + j) 2 =? 0 then s_one else s_opp s_one in
      let! d := m_det cof (s.2 - 1) in
      m_set out j i (s_mul sign d) ;;;
      del_obj cof)).

(** 1696-1735 [adjoint]. *)
Definition m_adjoint l : M F (option loc) :=
  let! s := m_size l in
  if negb (s.1 =? s.2) then ret None else
  let! adj := m_new in
  m_resize adj s ;;;
  adjoint_body l adj s ;;;
  ret (Some adj).

(** 1736-1771 [adjointo]; modelled for [out] distinct from the receiver. *)
Definition m_adjointo l r : M F unit :=
  match r with
  | None => ret tt
  | Some out =>
    let! s := m_size l in
    if negb (s.1 =? s.2) then ret tt else
    m_resize_if out s ;;;
    adjoint_body l out s
  end.

(** 1773-1775 [inverse]. *)
Definition m_inverse l : M F loc :=
  let! radj := m_adjoint l in
  let! adj := deref radj in
  let! d := m_det l (-1) in
  let! out := m_scalar_multiplyn (s_div s_one d) adj in
  del_obj adj ;;;
  ret out.

(** 1776-1780 [inverseo]. *)
Definition m_inverseo l r : M F unit :=
  match r with
  | None => ret tt
  | Some out =>
    let! t := m_inverse l in
    m_set_from_mat out t ;;;
    del_obj t
  end.

(** 1782-1784 [pinverse] = (A * A)^T^-1 * A^T. *)
Definition m_pinverse l : M F (option loc) :=
  let! raa := m_multn l (Some l) in
  let! aa := deref raa in
  let! aat := m_transposen aa in
  let! inv := m_inverse aat in
  let! at_ := m_transposen l in
  let! out := m_multn inv (Some at_) in
  del_obj aa ;;; del_obj aat ;;; del_obj inv ;;; del_obj at_ ;;;
  ret out.

(** 1511-1531 [matrix_powern]; for n < 0 the inverse is a temporary. *)
Definition m_powern l (n : Z) : M F loc :=
  let! s := m_size l in
  if n =? 0 then m_identity_mat s.2 else
  let! b := m_identity_mat s.2 in
  if n <? 0 then
    let! a := m_inverse l in
    for_ 0 (Z.abs n) (fun _ => m_mult b (Some a)) ;;;
    del_obj a ;;;
    ret b
  else
    for_ 0 (Z.abs n) (fun _ => m_mult b (Some l)) ;;;
    ret b.

(** ** Rotations: 1903-1965 [create_rotation_matrix] *)
Definition m_rotation (theta : F) (axis : Z) : M F loc :=
  let c := s_cos theta in let s := s_sin theta in
  let! a := m_new in
  (if axis =? -1 then
     m_resize a (2, 2) ;;;
     let! p := data_ptr a in
     store p 0 c ;;; store p 1 (s_opp s) ;;;
     store p 2 c ;;; store p 3 c
   else if axis =? 0 then
     m_resize a (3, 3) ;;;
     let! p := data_ptr a in
     store p 0 s_one ;;; store p 1 s_zero ;;; store p 2 s_zero ;;;
     store p 3 s_zero ;;; store p 4 c ;;; store p 5 (s_opp s) ;;;
     store p 6 s_zero ;;; store p 7 s ;;; store p 8 c
   else if axis =? 1 then
     m_resize a (3, 3) ;;;
     let! p := data_ptr a in
     store p 0 c ;;; store p 1 s_zero ;;; store p 2 s ;;;
     store p 3 s_zero ;;; store p 4 s_one ;;; store p 5 s_zero ;;;
     store p 6 (s_opp s) ;;; store p 7 s_zero ;;; store p 8 c
   else if axis =? 2 then
     m_resize a (3, 3) ;;;
     let! p := data_ptr a in
     store p 0 c ;;; store p 1 (s_opp s) ;;; store p 2 s_zero ;;;
     store p 3 s ;;; store p 4 c ;;; store p 5 s_zero ;;;
     store p 6 s_one ;;; store p 7 s_zero ;;; store p 8 s_zero
   else ret tt) ;;;
  ret a.

(** 1967-1981 [rotate], [rotaten], [rotateb]. *)
Definition m_rotate l (theta : F) (axis : Z) : M F unit :=
  let! rm := m_rotation theta axis in m_mult l (Some rm) ;;; del_obj rm.
Definition m_rotaten l (theta : F) (axis : Z) : M F (option loc) :=
  let! rm := m_rotation theta axis in let! out := m_multn l (Some rm) in del_obj rm ;;; ret out.
Definition m_rotateb l r (theta : F) (axis : Z) : M F unit :=
  let! rm := m_rotation theta axis in m_multb l r (Some rm) ;;; del_obj rm.

(** ** Vectors *)
(** 2689-2704 [flatten]. *)
Definition m_flatten l : M F loc :=
  let! n := m_data_size l in
  let! out := v_new in
  v_resize out n ;;;
  let! po := data_ptr out in
  let! p := data_ptr l in
  loop1 (fun x => x) n p po ;;;
  ret out.

(** 2705-2720 [flatteno]. *)
Definition m_flatteno l r : M F unit :=
  match r with
  | None => ret tt
  | Some out =>
    let! n := m_data_size l in
    let! s := v_size out in
    (if s =? n then ret tt else v_resize out n) ;;;
    let! po := data_ptr out in
    let! p := data_ptr l in
    loop1 (fun x => x) n p po
  end.

(** The double loop of 2796-2802, 2823-2829. *)
Definition mult_vec_loop (ni nk ax : Z) (pa pb pc : option blk) : M F unit :=
  for_ 0 ni (fun i => for_ 0 nk (fun k =>
    let! c := load pc i in
    let! a := load pa (i * ax + k) in
    let! b := load pb k in
    store pc i (s_add c (s_mul a b)))).

(** 2779-2804 [mult_vec]: fails only if the vector is longer than a row. *)
Definition m_mult_vec l r : M F (option loc) :=
  match r with
  | None => ret None
  | Some b =>
    let! n := v_size b in
    let! s := m_size l in
    if s.1 <? n then ret None else
    let! c := v_new in
    v_resize c s.2 ;;;
    v_fill c s_zero ;;;
    let! pa := data_ptr l in
    let! pb := data_ptr b in
    let! pc := data_ptr c in
    mult_vec_loop s.2 n s.1 pa pb pc ;;;
    ret (Some c)
  end.

(** 2805-2829 [mult_veco]. *)
Definition m_mult_veco l r ro : M F unit :=
  match ro, r with
  | Some out, Some b =>
    let! n := v_size b in
    let! s := m_size l in
    if s.1 <? n then ret tt else
    let! m := v_size out in
    (if m =? s.2 then ret tt else v_resize out s.2) ;;;
    v_fill out s_zero ;;;
    let! pa := data_ptr l in
    let! pb := data_ptr b in
    let! pc := data_ptr out in
    mult_vec_loop s.2 n s.1 pa pb pc
  | _, _ => ret tt
  end.

(** 2722-2724 [solve]. *)
Definition m_solve l r : M F (option loc) :=
  let! inv := m_inverse l in
  let! out := m_mult_vec inv r in
  del_obj inv ;;;
  ret out.

Definition add_vec_loop (sx sy : Z) (pa pb po : option blk) : M F unit :=
  for_ 0 sy (fun i => for_ 0 sx (fun j =>
    let! a := load pa (i * sx + j) in
    let! b := load pb j in
    store po (i * sx + j) (s_add a b))).

(** 2831-2845 [add_vec]. *)
Definition m_add_vec l r : M F unit :=
  match r with
  | None => ret tt
  | Some b =>
    let! s := m_size l in
    let! n := v_size b in
    if negb (s.1 =? n) then ret tt else
    let! pa := data_ptr l in
    let! pb := data_ptr b in
    add_vec_loop s.1 s.2 pa pb pa
  end.

(** 2847-2867 [add_vecn]. *)
Definition m_add_vecn l r : M F (option loc) :=
  match r with
  | None => ret None
  | Some b =>
    let! s := m_size l in
    let! n := v_size b in
    if negb (s.1 =? n) then ret None else
    let! out := m_new in
    m_resize out s ;;;
    let! pa := data_ptr l in
    let! pb := data_ptr b in
    let! po := data_ptr out in
    add_vec_loop s.1 s.2 pa pb po ;;;
    ret (Some out)
  end.

(** 2869-2889 [add_vecb]. *)
Definition m_add_vecb l ra r : M F unit :=
  match ra, r with
  | Some a, Some b =>
    let! s := m_size a in
    let! n := v_size b in
    if negb (s.1 =? n) then ret tt else
    m_resize_if l s ;;;
    let! pa := data_ptr a in
    let! pb := data_ptr b in
    let! po := data_ptr l in
    add_vec_loop s.1 s.2 pa pb po
  | _, _ => ret tt
  end.

Definition outer_loop l (sx sy : Z) (pa pb : option blk) : M F unit :=
  for_ 0 sy (fun i =>
    let! a := load pa i in
    for_ 0 sx (fun j => let! b := load pb j in m_set l i j (s_mul a b))).

(** 2891-2910 [outer_product]. *)
Definition m_outer l ra rb : M F unit :=
  match ra, rb with
  | Some a, Some b =>
    let! n := v_size b in
    let! m := v_size a in
    m_resize_if l (n, m) ;;;
    let! pa := data_ptr a in
    let! pb := data_ptr b in
    outer_loop l n m pa pb
  | _, _ => ret tt
  end.

(** 2911-2932 [outer_productn]. *)
Definition m_outern ra rb : M F (option loc) :=
  match ra, rb with
  | Some a, Some b =>
    let! c := m_new in
    let! n := v_size b in
    let! m := v_size a in
    m_resize c (n, m) ;;;
    let! pa := data_ptr a in
    let! pb := data_ptr b in
    outer_loop c n m pa pb ;;;
    ret (Some c)
  | _, _ => ret None
  end.

(** Body shared by 2936-2950, 2979-2993 (from the size computations on). *)
Definition diag_body l b : M F unit :=
  let! n := v_size b in
  let! s := m_size l in
  let ms := Z.min (Z.min s.1 s.2) n in
  if ms <=? 0 then ret tt else
  let! q := data_ptr b in
  let! p := data_ptr l in
  for_ 0 ms (fun i => let! x := load q i in store p (i * s.1 + i) x).

(** 2934-2950 [diagonal_set]. *)
Definition m_diagonal_set l r : M F unit :=
  match r with None => ret tt | Some b => diag_body l b end.

(** 2952-2973 [diagonal_setn]. *)
Definition m_diagonal_setn l r : M F (option loc) :=
  match r with
  | None => ret None
  | Some b => let! d := m_duplicate l in diag_body d b ;;; ret (Some d)
  end.

(** 2975-2993 [diagonal_zeroed]: fills with zeros before testing the reference. *)
Definition m_diagonal_zeroed l r : M F unit :=
  m_fill l s_zero ;;;
  match r with None => ret tt | Some b => diag_body l b end.

(** 2995-3019 [diagonal_zeroedn]. *)
Definition m_diagonal_zeroedn l r : M F (option loc) :=
  match r with
  | None => ret None
  | Some b =>
    let! d := m_new in
    let! s := m_size l in
    m_resize d s ;;;
    m_fill d s_zero ;;;
    diag_body d b ;;;
    ret (Some d)
  end.

(** 3021-3041 [is_equal_approx]. *)
Definition m_is_equal_approx l r (tol : F) : M F bool :=
  match r with
  | None => ret false
  | Some b =>
    if Nat.eqb l b then ret true else
    let! s := m_size l in
    let! s2 := m_size b in
    if negb (size_eq s s2) then ret false else
    let! n := m_data_size l in
    let! p := data_ptr l in
    let! q := data_ptr b in
    equal_approx_loop (Z.to_nat n) p q 0 tol
  end.

(** ** MLPPVector methods that take or return a matrix (core/mlpp_vector.cpp) *)
(** The double loop of mlpp_vector.cpp 1366-1370, 1382-1386, 1400-1404. *)
Definition sub_rows_loop (sx sy : Z) (pb pc : option blk) : M F unit :=
  for_ 0 sy (fun i => for_ 0 sx (fun j =>
    let! c := load pc j in
    let! b := load pb (i * sx + j) in
    store pc j (s_sub c b))).

(** mlpp_vector.cpp 1358-1371 [subtract_matrix_rows]; [B] is dereferenced without a null test. *)
Definition v_sub_rows l r : M F unit :=
  let! b := deref r in
  let! s := m_size b in
  let! n := v_size l in
  if negb (s.1 =? n) then ret tt else
  let! pb := data_ptr b in
  let! pc := data_ptr l in
  sub_rows_loop s.1 s.2 pb pc.

(** mlpp_vector.cpp 1372-1389 [subtract_matrix_rowsn]: on a width mismatch the plain copy is returned. *)
Definition v_sub_rowsn l r : M F loc :=
  let! c := v_duplicate l in
  let! b := deref r in
  let! s := m_size b in
  let! n := v_size c in
  if negb (s.1 =? n) then ret c else
  let! pb := data_ptr b in
  let! pc := data_ptr c in
  sub_rows_loop s.1 s.2 pb pc ;;;
  ret c.

(** mlpp_vector.cpp 1390-1405 [subtract_matrix_rowsb]. *)
Definition v_sub_rowsb l ra r : M F unit :=
  let! b := deref r in
  let! s := m_size b in
  let! a := deref ra in
  let! n := v_size a in
  if negb (s.1 =? n) then ret tt else
  v_set_from_vec l a ;;;
  let! pb := data_ptr b in
  let! pc := data_ptr l in
  sub_rows_loop s.1 s.2 pb pc.

(** mlpp_vector.cpp 1407-1425 [outer_product]; [b] is dereferenced without a null test. *)
Definition v_outer l r : M F loc :=
  let! c := m_new in
  let! b := deref r in
  let! n := v_size b in
  let! m := v_size l in
  m_resize c (n, m) ;;;
  let! pa := data_ptr l in
  let! pb := data_ptr b in
  outer_loop c n m pa pb ;;;
  ret c.

(** mlpp_vector.cpp 1427-1442 [diagnm]. *)
Definition v_diagnm l : M F loc :=
  let! b := m_new in
  let! n := v_size l in
  m_resize b (n, n) ;;;
  m_fill b s_zero ;;;
  let! pa := data_ptr l in
  let! pb := data_ptr b in
  for_ 0 n (fun i => let! x := load pa i in store pb (i * n + i) x) ;;;
  ret b.

End mat.
