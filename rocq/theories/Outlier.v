(** * MLPPOutlierFinder: /repo/modules/outlier_finder/outlier_finder.cpp (line numbers refer to it).  Proof-free file.

    Simplifications: Vector<Vector<real_t>>, PoolRealArray and PoolVector2iArray results are Coq lists, a Vector2i a pair
    (x, y); model_set_test_bind (75-86) only repacks the result for the script API and is not modelled. *)
From Verif Require Import Base Vec Mat Act Stat.

Section outlier.
Context {F : Type} `{Scalar F}.
Implicit Types (r : option loc).

(** outlier_finder.h: the only member, _threshold; 143-149 the two constructors, 35-40 the accessors. *)
Record outlier := Outlier { of_thr : F }.
Definition of_new (t : F) : outlier := Outlier t.
Definition of_new_default : outlier := Outlier s_zero.
Definition of_get_threshold (o : outlier) : F := of_thr o.
Definition of_set_threshold (t : F) (o : outlier) : outlier := Outlier t.

(** 62-66, 108-112, 131-135: [z = (v - mean) / s_dev; if (ABS(z) > _threshold)]. *)
Definition of_far (o : outlier) (mean sd v : F) : bool := s_lt (of_thr o) (s_abs (s_div (s_sub v mean) sd)).

(** 118-141 [model_test]. *)
Definition of_model_test (o : outlier) r : M F (list F) :=
  match r with
  | None => ret []
  | Some x =>
    let! mean := st_mean (Some x) in
    let! sd := st_sd (Some x) in
    let! n := v_size x in
    let! p := data_ptr x in
    for_acc 0 n [] (fun i acc => let! v := load p i in ret (if of_far o mean sd v then acc ++ [v] else acc))
  end.

(** 47-70, 91-113: the loop both matrix methods share; [put] is what is pushed for an outlier at (row i, column j). *)
Definition of_scan {A} (o : outlier) (m : loc) (put : Z -> Z -> F -> A -> A) (a0 : A) : M F A :=
  let! s := m_size m in
  let! t := v_new in
  v_resize t s.1 ;;;
  let! res := for_acc 0 s.2 a0 (fun i acc =>
    m_row_get_into m i (Some t) ;;;
    let! mean := st_mean (Some t) in
    let! sd := st_sd (Some t) in
    for_acc 0 s.1 acc (fun j acc =>
      let! v := m_get m i j in
      ret (if of_far o mean sd v then put i j v acc else acc))) in
  del_obj t ;;;
  ret res.

(** 42-73 [model_set_test]: [outliers.resize(rows)], then [outliers.write[i].push_back(v)]. *)
Definition of_model_set_test (o : outlier) r : M F (list (list F)) :=
  match r with
  | None => ret []
  | Some m =>
    let! s := m_size m in
    of_scan o m (fun i _ v acc => alter (fun row => row ++ [v]) (Z.to_nat i) acc) (replicate (Z.to_nat s.2) [])
  end.

(** 88-116 [model_set_test_indices]: [outliers.push_back(Vector2i(j, i))]. *)
Definition of_model_set_test_indices (o : outlier) r : M F (list (Z * Z)) :=
  match r with
  | None => ret []
  | Some m => of_scan o m (fun i j _ acc => acc ++ [(j, i)]) []
  end.
End outlier.
Arguments outlier : clear implicits.
