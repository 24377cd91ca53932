(** * MLPPVector: core/mlpp_vector.h and core/mlpp_vector.cpp, function by function.

    [l] is the receiver ([this]); a [Ref<MLPPVector>] argument is [option loc].
    A PoolRealArray / Vector<real_t> argument or result is an immutable [list F].
    Where the C++ updates [_size] before touching memory, the model performs both updates in one
    step ([obj_realloc]/[obj_free]); nothing reads the field in between.
    Proof-free file. *)
From Verif Require Export Base.

Section vec.
Context {F : Type} `{Scalar F}.
Implicit Types (l : loc) (r : option loc).

(** mlpp_vector.h:94 [size()]. *)
Definition v_size l : M F Z :=
  let! o := get_obj l in
  match o_shape o with SVec n => ret n | _ => ub end.

(** mlpp_vector.cpp:1459-1462, through [Ref::instance()]. *)
Definition v_new : M F loc := new_obj (SVec 0).

(** mlpp_vector.cpp:159-170 [resize]. *)
Definition v_resize l (n : Z) : M F unit :=
  if n =? 0 then obj_free l (SVec 0) else obj_realloc l (SVec n).

(** mlpp_vector.h:84 [clear]. *)
Definition v_clear l : M F unit := v_resize l 0.

(** mlpp_vector.h:85-91 [reset]. *)
Definition v_reset l : M F unit :=
  let! o := get_obj l in
  match o_data o with Some _ => obj_free l (SVec 0) | None => ret tt end.

(** mlpp_vector.h:107-110 [element_get]. *)
Definition v_get l (i : Z) : M F F :=
  let! n := v_size l in
  if (i <? 0) || (n <=? i) then ret s_zero else
  let! p := data_ptr l in load p i.

(** mlpp_vector.h:112-115 [element_set]. *)
Definition v_set l (i : Z) (x : F) : M F unit :=
  let! n := v_size l in
  if (i <? 0) || (n <=? i) then ret tt else
  let! p := data_ptr l in store p i x.

(** mlpp_vector.h:98-105, 117-125 [operator[]], [element_get_ref] (read access): CRASH_BAD_INDEX. *)
Definition v_at l (i : Z) : M F F :=
  let! n := v_size l in
  if (i <? 0) || (n <=? i) then crash else
  let! p := data_ptr l in load p i.

(** mlpp_vector.cpp:35-47 [get_data], 218-230 [to_pool_vector], 210-216 [to_vector]
    (memcpy of initialised cells). *)
Definition v_get_data l : M F (list F) :=
  let! n := v_size l in
  let! p := data_ptr l in
  for_acc 0 n [] (fun i acc => let! x := load p i in ret (acc ++ [x])).

(** Writing an immutable array over the data: loop shared by set_data and the constructors. *)
Definition v_copy_list l (xs : list F) : M F unit :=
  let! p := data_ptr l in
  for_ 0 (Z.of_nat (length xs)) (fun i =>
    match xs !! Z.to_nat i with Some x => store p i x | None => ub end).

(** mlpp_vector.cpp:48-57 [set_data], 282-291 [set_from_pool_vector]. *)
Definition v_set_data l (xs : list F) : M F unit :=
  let! n := v_size l in
  (if n =? Z.of_nat (length xs) then ret tt else v_resize l (Z.of_nat (length xs))) ;;;
  v_copy_list l xs.

(** mlpp_vector.cpp:271-280 [set_from_vector] (resizes unconditionally a second time). *)
Definition v_set_from_vector l (xs : list F) : M F unit :=
  let! n := v_size l in
  (if n =? Z.of_nat (length xs) then ret tt else v_resize l (Z.of_nat (length xs))) ;;;
  v_resize l (Z.of_nat (length xs)) ;;;
  v_copy_list l xs.

(** mlpp_vector.cpp:59-66 [push_back]; [++_size] overflows at INT_MAX. *)
Definition v_push_back l (x : F) : M F unit :=
  let! n := v_size l in
  let! n' := chk (n + 1) in
  obj_realloc l (SVec n') ;;;
  let! p := data_ptr l in
  store p (n' - 1) x.

(** mlpp_vector.cpp:68-89 [append_mlpp_vector]; [other_ptr] is read after the reallocation. *)
Definition v_append l r : M F unit :=
  match r with
  | None => ret tt
  | Some b =>
    let! m := v_size b in
    if m =? 0 then ret tt else
    let! n := v_size l in
    let! n' := chk (n + m) in
    obj_realloc l (SVec n') ;;;
    let! po := data_ptr l in
    let! q := data_ptr b in
    for_ 0 m (fun i => let! x := load q i in store po (n + i) x)
  end.

(** mlpp_vector.cpp:91-108 [remove]. *)
Definition v_remove l (idx : Z) : M F unit :=
  let! n := v_size l in
  if (idx <? 0) || (n <=? idx) then ret tt else
  let n' := n - 1 in
  if n' =? 0 then obj_free l (SVec 0) else
  let! p := data_ptr l in
  for_ idx n' (fun i => let! x := load p (i + 1) in store p i x) ;;;
  obj_realloc l (SVec n').

(** mlpp_vector.cpp:112-128 [remove_unordered]. *)
Definition v_remove_unordered l (idx : Z) : M F unit :=
  let! n := v_size l in
  if (idx <? 0) || (n <=? idx) then ret tt else
  let n' := n - 1 in
  if n' =? 0 then obj_free l (SVec 0) else
  let! p := data_ptr l in
  (if idx <? n' then let! x := load p n' in store p idx x else ret tt) ;;;
  obj_realloc l (SVec n').

(** mlpp_vector.cpp:191-198 [find]: loop with early return.  A negative [from] reads before the
    buffer: UB (through [load]). *)
Fixpoint v_find_loop (k : nat) (p : option blk) (i : Z) (v : F) : M F Z :=
  match k with
  | O => ret (-1)
  | S k' => let! x := load p i in
            if s_eq x v then ret i else v_find_loop k' p (i + 1) v
  end.
Definition v_find l (v : F) (from : Z) : M F Z :=
  let! n := v_size l in
  let! p := data_ptr l in
  v_find_loop (Z.to_nat (n - from)) p from v.

(** mlpp_vector.cpp:130-135 [erase]. *)
Definition v_erase l (v : F) : M F unit :=
  let! i := v_find l v 0 in
  if 0 <=? i then v_remove l i else ret tt.

(** mlpp_vector.cpp:137-151 [erase_multiple_unordered]: [while (true)] on fuel; the fuel given is
    one more than the size and is proved sufficient.  [p_val] is taken by value (the C++ takes a
    const reference; a caller passing a reference into the vector itself is not modelled). *)
Fixpoint v_erase_mult_loop (fuel : nat) l (v : F) (from count : Z) : M F Z :=
  match fuel with
  | O => nofuel
  | S fuel' =>
    let! idx := v_find l v from in
    if idx =? -1 then ret count else
    v_remove_unordered l idx ;;;
    v_erase_mult_loop fuel' l v idx (count + 1)
  end.
Definition v_erase_multiple_unordered l (v : F) : M F Z :=
  let! n := v_size l in
  v_erase_mult_loop (S (Z.to_nat n)) l v 0 0.

(** mlpp_vector.cpp:153-157 [invert] with SWAP (sfw.h:585-591). *)
Definition v_invert l : M F unit :=
  let! n := v_size l in
  let! p := data_ptr l in
  for_ 0 (Z.quot n 2) (fun i =>
    let! a := load p i in
    let! b := load p (n - i - 1) in
    store p i b ;;; store p (n - i - 1) a).

(** mlpp_vector.cpp:172-176 [fill]. *)
Definition v_fill l (x : F) : M F unit :=
  let! n := v_size l in
  let! p := data_ptr l in
  for_ 0 n (fun i => store p i x).

(** mlpp_vector.cpp:178-189 [insert]; the descending loop [for (i = _size-1; i > p_pos; i--)] is
    run as k = 0,1,... with i = _size-1-k. *)
Definition v_insert l (pos : Z) (x : F) : M F unit :=
  let! n := v_size l in
  if (pos <? 0) || (n + 1 <=? pos) then ret tt else
  if pos =? n then v_push_back l x else
  let! n' := chk (n + 1) in
  v_resize l n' ;;;
  let! p := data_ptr l in
  for_ 0 (n' - 1 - pos) (fun k =>
    let i := n' - 1 - k in
    let! y := load p (i - 1) in store p i y) ;;;
  store p pos x.

(** mlpp_vector.cpp:200-208 [ordered_insert]: first index whose element is greater, else size. *)
Fixpoint v_upper_loop (k : nat) (p : option blk) (i : Z) (v : F) : M F Z :=
  match k with
  | O => ret i
  | S k' => let! x := load p i in
            if s_lt v x then ret i else v_upper_loop k' p (i + 1) v
  end.
Definition v_ordered_insert l (v : F) : M F unit :=
  let! n := v_size l in
  let! p := data_ptr l in
  let! i := v_upper_loop (Z.to_nat n) p 0 v in
  v_insert l i v.

(** mlpp_vector.cpp:249-257 [set_from_mlpp_vectorr]. *)
Definition v_set_from_vec l b : M F unit :=
  let! n := v_size l in
  let! m := v_size b in
  (if n =? m then ret tt else v_resize l m) ;;;
  let! m' := v_size b in
  let! po := data_ptr l in
  let! q := data_ptr b in
  for_ 0 m' (fun i => let! x := load q i in store po i x).

(** mlpp_vector.cpp:259-269 [set_from_mlpp_vector]. *)
Definition v_set_from l r : M F unit :=
  match r with None => ret tt | Some b => v_set_from_vec l b end.

(** mlpp_vector.cpp:240-247 [duplicate_fast]. *)
Definition v_duplicate l : M F loc :=
  let! d := v_new in
  v_set_from_vec d l ;;;
  ret d.

(** sfw.h:2652-2659 [Math::is_equal_approx(a, b, tolerance)]. *)
Definition s_equal_approx (tol a b : F) : bool :=
  s_eq a b || s_lt (s_abs (s_sub a b)) tol.

(** mlpp_vector.cpp:293-311 [is_equal_approx]. *)
Fixpoint equal_approx_loop (k : nat) (p q : option blk) (i : Z) (tol : F) : M F bool :=
  match k with
  | O => ret true
  | S k' => let! x := load p i in
            let! y := load q i in
            if s_equal_approx tol x y then equal_approx_loop k' p q (i + 1) tol else ret false
  end.
Definition v_is_equal_approx l r (tol : F) : M F bool :=
  match r with
  | None => ret false
  | Some b =>
    if Nat.eqb l b then ret true else
    let! n := v_size l in
    let! m := v_size b in
    if negb (n =? m) then ret false else
    let! p := data_ptr l in
    let! q := data_ptr b in
    equal_approx_loop (Z.to_nat n) p q 0 tol
  end.

(** mlpp_vector.cpp:313-335 [flatten_vectors], 337-364 [flatten_vectorsn]. *)
Fixpoint v_total_size (A : list (option loc)) (acc : Z) : M F Z :=
  match A with
  | [] => ret acc
  | r :: A' => let! b := deref r in
               let! n := v_size b in
               let! acc' := chk (acc + n) in
               v_total_size A' acc'
  end.
Fixpoint v_flatten_loop (A : list (option loc)) (po : option blk) (idx : Z) : M F unit :=
  match A with
  | [] => ret tt
  | r :: A' =>
    let! b := deref r in
    let! n := v_size b in
    let! q := data_ptr b in
    let! idx' := for_acc 0 n idx (fun j idx => let! x := load q j in store po idx x ;;; ret (idx + 1)) in
    v_flatten_loop A' po idx'
  end.
Definition v_flatten l (A : list (option loc)) : M F unit :=
  let! n := v_total_size A 0 in
  v_resize l n ;;;
  let! po := data_ptr l in
  v_flatten_loop A po 0.
Definition v_flattenn (A : list (option loc)) : M F loc :=
  let! a := v_new in
  let! n := v_total_size A 0 in
  v_resize a n ;;;
  let! po := data_ptr a in
  v_flatten_loop A po 0 ;;;
  ret a.

(** ** Binary element-wise templates.
    The C++ repeats the same three bodies for each operation [f]; the instances below cite them. *)

(** [for (i < n) out[i] = f(a[i], b[i])]. *)
Definition loop2 (f : F -> F -> F) (n : Z) (pa pb po : option blk) : M F unit :=
  for_ 0 n (fun i => let! x := load pa i in let! y := load pb i in store po i (f x y)).
Definition loop1 (f : F -> F) (n : Z) (pa po : option blk) : M F unit :=
  for_ 0 n (fun i => let! x := load pa i in store po i (f x)).

(** In-place form, e.g. [add] 550-560. *)
Definition v_op2 (f : F -> F -> F) l r : M F unit :=
  match r with
  | None => ret tt
  | Some b =>
    let! n := v_size l in
    let! m := v_size b in
    if negb (n =? m) then ret tt else
    let! pa := data_ptr l in
    let! pb := data_ptr b in
    loop2 f n pa pb pa
  end.

(** Returning-new form, e.g. [addn] 561-578. *)
Definition v_op2n (f : F -> F -> F) l r : M F (option loc) :=
  match r with
  | None => ret None
  | Some b =>
    let! n := v_size l in
    let! m := v_size b in
    if negb (n =? m) then ret None else
    let! out := v_new in
    v_resize out n ;;;
    let! pa := data_ptr l in
    let! pb := data_ptr b in
    let! po := data_ptr out in
    loop2 f n pa pb po ;;;
    ret (Some out)
  end.

(** Returning-new form that instantiates the result before the size check (the temporary dies on
    failure): [hadamard_productn] 379-398, [division_element_wisen] 436-455. *)
Definition v_op2n_early (f : F -> F -> F) l r : M F (option loc) :=
  match r with
  | None => ret None
  | Some b =>
    let! out := v_new in
    let! n := v_size l in
    let! m := v_size b in
    if negb (n =? m) then del_obj out ;;; ret None else
    v_resize out n ;;;
    let! pa := data_ptr l in
    let! pb := data_ptr b in
    let! po := data_ptr out in
    loop2 f n pa pb po ;;;
    ret (Some out)
  end.

(** Into-target form with [if (size() != s) resize(s)], e.g. [addb] 579-597. *)
Definition v_op2b (f : F -> F -> F) l ra rb : M F unit :=
  match ra, rb with
  | Some a, Some b =>
    let! s := v_size a in
    let! m := v_size b in
    if negb (s =? m) then ret tt else
    let! n := v_size l in
    (if n =? s then ret tt else v_resize l s) ;;;
    let! pa := data_ptr a in
    let! pb := data_ptr b in
    let! po := data_ptr l in
    loop2 f s pa pb po
  | _, _ => ret tt
  end.

(** Into-target form with unconditional [resize(s)]: [division_element_wiseb] 457-473. *)
Definition v_op2b_resize (f : F -> F -> F) l ra rb : M F unit :=
  match ra, rb with
  | Some a, Some b =>
    let! s := v_size a in
    let! m := v_size b in
    if negb (s =? m) then ret tt else
    v_resize l s ;;;
    let! pa := data_ptr a in
    let! pb := data_ptr b in
    let! po := data_ptr l in
    loop2 f s pa pb po
  | _, _ => ret tt
  end.

(** [if (aa_i > bb_i) aa_i else bb_i] 1073-1079; [if (aa_i < bb_i) aa_i else bb_i] 1144-1150. *)
Definition v_add := v_op2 s_add.                        (* 550-560 *)
Definition v_addn := v_op2n s_add.                      (* 561-578 *)
Definition v_addb := v_op2b s_add.                      (* 579-597 *)
Definition v_sub := v_op2 s_sub.                        (* 599-609 *)
Definition v_subn := v_op2n s_sub.                      (* 610-627 *)
Definition v_subb := v_op2b s_sub.                      (* 628-646 *)
Definition v_hadamard := v_op2 s_mul.                   (* 366-378 *)
Definition v_hadamardn := v_op2n_early s_mul.           (* 379-398 *)
Definition v_hadamardb := v_op2b s_mul.                 (* 399-417 *)
Definition v_max := v_op2 s_max.                        (* 1063-1081 *)
Definition v_maxn := v_op2n s_max.                      (* 1082-1106 *)
Definition v_maxb := v_op2b s_max.                      (* 1107-1132 *)
Definition v_min := v_op2 s_min.                        (* 1134-1152 *)
Definition v_minn := v_op2n s_min.                      (* 1153-1177 *)
Definition v_minb := v_op2b s_min.                      (* 1178-1203 *)
Definition v_divn := v_op2n_early s_div.                (* 436-455 *)
Definition v_divb := v_op2b_resize s_div.               (* 457-473 *)

(** mlpp_vector.cpp:419-434 [division_element_wise]: writes through [out->ptrw()] where [out] is a
    freshly instanced, never resized, temporary. *)
Definition v_div l r : M F unit :=
  match r with
  | None => ret tt
  | Some b =>
    let! out := v_new in
    let! n := v_size l in
    let! m := v_size b in
    if negb (n =? m) then del_obj out else
    let! pa := data_ptr l in
    let! pb := data_ptr b in
    let! po := data_ptr out in
    loop2 s_div n pa pb po ;;;
    del_obj out
  end.

(** ** Unary element-wise templates *)

(** In-place form, e.g. [log] 648-654. *)
Definition v_map (f : F -> F) l : M F unit :=
  let! n := v_size l in
  let! p := data_ptr l in
  loop1 f n p p.

(** Returning-new form, e.g. [logn] 655-668. *)
Definition v_mapn (f : F -> F) l : M F loc :=
  let! n := v_size l in
  let! out := v_new in
  v_resize out n ;;;
  let! pa := data_ptr l in
  let! po := data_ptr out in
  loop1 f n pa po ;;;
  ret out.

(** Into-target form with unconditional [resize(s)], e.g. [logb] 669-681. *)
Definition v_mapb (f : F -> F) l r : M F unit :=
  match r with
  | None => ret tt
  | Some a =>
    let! s := v_size a in
    v_resize l s ;;;
    let! pa := data_ptr a in
    let! po := data_ptr l in
    loop1 f s pa po
  end.

(** Into-target form with [if (size() != s) resize(s)]: [scalar_addb] 533-548. *)
Definition v_mapb_cond (f : F -> F) l r : M F unit :=
  match r with
  | None => ret tt
  | Some a =>
    let! s := v_size a in
    let! n := v_size l in
    (if n =? s then ret tt else v_resize l s) ;;;
    let! pa := data_ptr a in
    let! po := data_ptr l in
    loop1 f s pa po
  end.

Definition v_scalar_multiply (c : F) := v_map (fun x => s_mul x c).   (* 475-481 *)
Definition v_scalar_multiplyn (c : F) := v_mapn (fun x => s_mul x c). (* 482-495 *)
(** mlpp_vector.cpp:496-509: no null check. *)
Definition v_scalar_multiplyb (c : F) l r : M F unit :=
  let! a := deref r in v_mapb_cond (fun x => s_mul x c) l (Some a).
Definition v_scalar_add (c : F) := v_map (fun x => s_add x c).        (* 511-517 *)
Definition v_scalar_addn (c : F) := v_mapn (fun x => s_add x c).      (* 518-532 *)
Definition v_scalar_addb (c : F) := v_mapb_cond (fun x => s_add x c). (* 533-548 *)
Definition v_log := v_map s_log.       Definition v_logn := v_mapn s_log.       Definition v_logb := v_mapb s_log.       (* 648-681 *)
Definition v_log10 := v_map s_log10.   Definition v_log10n := v_mapn s_log10.   Definition v_log10b := v_mapb s_log10.   (* 683-716 *)
Definition v_exp := v_map s_exp.       Definition v_expn := v_mapn s_exp.       Definition v_expb := v_mapb s_exp.       (* 718-751 *)
Definition v_erf := v_map s_erf.       Definition v_erfn := v_mapn s_erf.       Definition v_erfb := v_mapb s_erf.       (* 753-786 *)
Definition v_exponentiate (e : F) := v_map (fun x => s_pow x e).      (* 788-794 *)
Definition v_exponentiaten (e : F) := v_mapn (fun x => s_pow x e).    (* 795-808 *)
Definition v_exponentiateb (e : F) := v_mapb (fun x => s_pow x e).    (* 809-821 *)
Definition v_sqrt := v_map s_sqrt.     Definition v_sqrtn := v_mapn s_sqrt.     Definition v_sqrtb := v_mapb s_sqrt.     (* 823-856 *)
Definition s_third : F := s_div s_one (s_of_Z 3).
Definition v_cbrt := v_exponentiate s_third.     (* 858-860 *)
Definition v_cbrtn := v_exponentiaten s_third.   (* 861-863 *)
Definition v_cbrtb := v_exponentiateb s_third.   (* 864-866 *)
Definition v_abs := v_map s_abs.       Definition v_absn := v_mapn s_abs.       Definition v_absb := v_mapb s_abs.       (* 902-935 *)
Definition v_sin := v_map s_sin.       Definition v_sinn := v_mapn s_sin.       Definition v_sinb := v_mapb s_sin.       (* 993-1026 *)
(** mlpp_vector.cpp:1028-1034: the in-place [cos] calls Math::sqrt. *)
Definition v_cos := v_map s_sqrt.
Definition v_cosn := v_mapn s_cos.     Definition v_cosb := v_mapb s_cos.                                                (* 1035-1061 *)

(** ** Constructors: 937-991 [vecn_*], [create_vec_*]. *)
Definition v_full (n : Z) (x : F) : M F loc :=
  let! v := v_new in
  v_resize v n ;;;
  v_fill v x ;;;
  ret v.
Definition v_vecn_zero (n : Z) := v_full n s_zero.                (* 937-945, 965-973: fill(0) *)
Definition v_vecn_one (n : Z) := v_full n s_one.                  (* 946-954, 974-982: fill(1) *)
Definition v_vecn_full (n k : Z) := v_full n (s_of_Z k).          (* 955-963, 983-991: fill(k), k an int *)

(** ** Reductions *)
(** mlpp_vector.cpp:868-881 [dot]. *)
Definition v_dot l r : M F F :=
  match r with
  | None => ret s_zero
  | Some b =>
    let! n := v_size l in
    let! m := v_size b in
    if negb (n =? m) then ret s_zero else
    let! pa := data_ptr l in
    let! pb := data_ptr b in
    for_acc 0 n s_zero (fun i c => let! x := load pa i in let! y := load pb i in ret (s_add c (s_mul x y)))
  end.

(** mlpp_vector.cpp:1304-1319 [euclidean_distance_squared], 1288-1303 [euclidean_distance]. *)
Definition v_dist_sq l r : M F F :=
  match r with
  | None => ret s_zero
  | Some b =>
    let! n := v_size l in
    let! m := v_size b in
    if negb (n =? m) then ret s_zero else
    let! pa := data_ptr l in
    let! pb := data_ptr b in
    for_acc 0 n s_zero (fun i c => let! x := load pa i in let! y := load pb i in
       ret (s_add c (s_mul (s_sub x y) (s_sub x y))))
  end.
Definition v_dist l r : M F F :=
  match r with
  | None => ret s_zero
  | Some b =>
    let! n := v_size l in
    let! m := v_size b in
    if negb (n =? m) then ret s_zero else
    let! pa := data_ptr l in
    let! pb := data_ptr b in
    let! d := for_acc 0 n s_zero (fun i c => let! x := load pa i in let! y := load pb i in
       ret (s_add c (s_mul (s_sub x y) (s_sub x y)))) in
    ret (s_sqrt d)
  end.

(** mlpp_vector.cpp:1332-1340 [norm_sq], 1321-1330 [norm_2]. *)
Definition v_norm_sq l : M F F :=
  let! n := v_size l in
  let! p := data_ptr l in
  for_acc 0 n s_zero (fun i c => let! x := load p i in ret (s_add c (s_mul x x))).
Definition v_norm_2 l : M F F := let! s := v_norm_sq l in ret (s_sqrt s).

(** mlpp_vector.cpp:1342-1350 [sum_elements]. *)
Definition v_sum l : M F F :=
  let! n := v_size l in
  let! p := data_ptr l in
  for_acc 0 n s_zero (fun i c => let! x := load p i in ret (s_add c x)).

(** mlpp_vector.cpp:1205-1219 [max_element], 1220-1236 [max_element_index],
    1238-1252 [min_element], 1253-1269 [min_element_index].  [> ] is [s_lt] swapped. *)
Definition v_max_scan l : M F (F * Z) :=
  let! n := v_size l in
  let! p := data_ptr l in
  for_acc 0 n (s_opp s_inf, -1) (fun i '(m, k) =>
    let! x := load p i in ret (if s_lt m x then (x, i) else (m, k))).
Definition v_max_element l : M F F := let! mk := v_max_scan l in ret mk.1.
Definition v_max_element_index l : M F Z := let! mk := v_max_scan l in ret mk.2.
Definition v_min_scan l : M F (F * Z) :=
  let! n := v_size l in
  let! p := data_ptr l in
  for_acc 0 n (s_inf, -1) (fun i '(m, k) =>
    let! x := load p i in ret (if s_lt x m then (x, i) else (m, k))).
Definition v_min_element l : M F F := let! mk := v_min_scan l in ret mk.1.
Definition v_min_element_index l : M F Z := let! mk := v_min_scan l in ret mk.2.

(** mlpp_vector.cpp:883-900 [cross]; [b->] on null is UB; out-of-range element_get reads 0. *)
Definition v_cross l r : M F loc :=
  let! b := deref r in
  let! a0 := v_get l 0 in let! a1 := v_get l 1 in let! a2 := v_get l 2 in
  let! b0 := v_get b 0 in let! b1 := v_get b 1 in let! b2 := v_get b 2 in
  let det1 := s_sub (s_mul a1 b2) (s_mul a2 b1) in
  let det2 := s_opp (s_sub (s_mul a0 b2) (s_mul a2 b0)) in
  let det3 := s_sub (s_mul a0 b1) (s_mul a1 b0) in
  let! c := v_new in
  v_resize c 3 ;;;
  v_set c 0 det1 ;;; v_set c 1 det2 ;;; v_set c 2 det3 ;;;
  ret c.

End vec.
