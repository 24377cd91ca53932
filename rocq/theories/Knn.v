(** * MLPPKNN: /repo/modules/knn/knn.cpp (line numbers refer to it).  Proof-free file.

    Simplifications: PoolIntArray is a Coq list of ints; HashMap<int, bool> (only its key set is used) is a [gset Z] and
    HashMap<int, int> a [gmap Z Z]; the object's own fields are a record of the three members. *)
From Verif Require Import Base Vec Mat Act Util.

Section knn.
Context {F : Type} `{Scalar F} `{Libm F}.
Implicit Types (r : option loc).

(** knn.h:80-82: _input_set, _output_set, _k. *)
Record knn := Knn { kn_x : option loc; kn_y : option loc; kn_k : Z }.

(** 116-132: one round of [nearest_neighbors], the scan for the nearest row that is not in [skip_map]. *)
Definition knn_scan (x t1 t2 : loc) r (n : Z) (skip : gset Z) : M F Z :=
  for_acc 0 n 0 (fun j nb =>
    if bool_decide (j ∈ skip) then ret nb else
    m_row_get_into x j (Some t1) ;;;
    m_row_get_into x nb (Some t2) ;;;
    let! p := deref r in
    let! d1 := v_dist p (Some t1) in
    let! d2 := v_dist p (Some t2) in
    ret (if s_lt d1 d2 then j else nb)).

(** 97-141 [nearest_neighbors]. *)
Definition knn_nearest (o : knn) r : M F (list Z) :=
  match kn_x o with
  | None => ret []
  | Some x =>
    let! t1 := v_new in
    let! t2 := v_new in
    let! s := m_size x in
    let! st := for_acc 0 (kn_k o) ([], ∅) (fun _ st =>
      let! nb := knn_scan x t1 t2 r s.2 (snd st) in
      ret (if bool_decide (nb ∈ snd st) then st else (fst st ++ [nb], {[nb]} ∪ snd st))) in
    del_obj t2 ;;;
    del_obj t1 ;;;
    ret (fst st)
  end.

(** [static_cast<int>(os_ptr[i])]: undefined when the truncated value does not fit. *)
Definition label_at (p : option blk) (i : Z) : M F Z :=
  let! v := load p i in
  match m_to_int v with Some z => ret z | None => ub end.
(** [class_nums[k]]: a HashMap inserts a zero for a missing key. *)
Definition count_of (m : gmap Z Z) (c : Z) : Z := default 0 (m !! c).

(** 143-184 [determine_class]. *)
Definition knn_class (o : knn) (nn : list Z) : M F Z :=
  match kn_y o with
  | None => ret 0
  | Some y =>
    let! n := v_size y in
    if n =? 0 then ret 0 else
    let! p := data_ptr y in
    let! m := for_acc 0 n ∅ (fun i m => let! c := label_at p i in ret (<[c := 0]> m)) in
    let! m := for_acc 0 (Z.of_nat (length nn)) m (fun i m =>
      for_acc 0 n m (fun j m =>
        let! c := label_at p j in
        if nth (Z.to_nat i) nn 0 =? c then let! v := chk (count_of m c + 1) in ret (<[c := v]> m) else ret m)) in
    let! c0 := label_at p 0 in
    let! st := for_acc 0 n (c0, count_of m c0) (fun i st =>
      let! c := label_at p i in
      ret (if snd st <? count_of m c then (c, count_of m c) else st)) in
    ret (fst st)
  end.

(** 83-85 [model_test]. *)
Definition knn_model_test (o : knn) r : M F Z := let! nn := knn_nearest o r in knn_class o nn.

(** 63-81 [model_set_test]. *)
Definition knn_model_set_test (o : knn) r : M F (list Z) :=
  match r with
  | None => ret []
  | Some X =>
    let! v := v_new in
    let! s := m_size X in
    let! ys := for_acc 0 s.2 [] (fun i ys =>
      m_row_get_into X i (Some v) ;;;
      let! c := knn_model_test o (Some v) in
      ret (ys ++ [c])) in
    del_obj v ;;;
    ret ys
  end.

(** /repo/core/utilities.cpp:369-379 [performance_pool_int_array_vec]; the counter is a real_t, the prediction is converted
    to real_t for the comparison; [rnd] is Math::round. *)
Definition performance_pool (rnd : F -> F) (yh : list Z) r : M F F :=
  match r with
  | None => ret s_zero
  | Some y =>
    let! c := for_acc 0 (Z.of_nat (length yh)) s_zero (fun i c =>
      let! e := v_get y i in
      ret (if s_eq (s_of_Z (nth (Z.to_nat i) yh 0)) (rnd e) then s_add c s_one else c)) in
    ret (s_div c (s_of_Z (Z.of_nat (length yh))))
  end.

(** 87-90 [score]. *)
Definition knn_score (rnd : F -> F) (o : knn) : M F F :=
  let! yh := knn_model_set_test o (kn_x o) in
  performance_pool rnd yh (kn_y o).
End knn.
