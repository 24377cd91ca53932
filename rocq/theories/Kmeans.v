(** * MLPPKMeans: /repo/modules/kmeans/kmeans.cpp (line numbers refer to it).  Proof-free file.

    Simplifications: the random row numbers drawn by RandomPCG are the parameter [pick] (draw number i gives [pick i]); the
    printing of the cost (UI) is dropped, the cost computed for it is not; silhouette_scores is not modelled. *)
From Verif Require Import Base Vec Mat Act Util.

Section kmeans.
Context {F : Type} `{Scalar F}.
Implicit Types (r : option loc).

(** kmeans.h:95-104. *)
Inductive mean_type := Centroid | KMeansPP.
Record kmeans := KM { km_x : option loc; km_mu : loc; km_r : loc; km_k : Z; km_init : bool; km_type : mean_type }.

(** [Ref<MLPPVector> t; t.instance(); t->resize(n);] *)
Definition v_tmp (n : Z) : M F loc := let! t := v_new in v_resize t n ;;; ret t.

(** 308-318: constructor. *)
Definition km_new : M F kmeans :=
  let! mu := m_new in
  let! ra := m_new in
  ret (KM None mu ra 0 false Centroid).
(** 47-50, 55-58, 63-66: setters. *)
Definition km_set_input (o : kmeans) r : kmeans := KM r (km_mu o) (km_r o) (km_k o) false (km_type o).
Definition km_set_k (o : kmeans) (k : Z) : kmeans := KM (km_x o) (km_mu o) (km_r o) k false (km_type o).
Definition km_set_mean_type (o : kmeans) (t : mean_type) : kmeans := KM (km_x o) (km_mu o) (km_r o) (km_k o) false t.

(** 417-438 [_centroid_initialization]. *)
Definition km_centroid_init (pick : Z -> Z) (o : kmeans) : M F unit :=
  let! x := deref (km_x o) in
  let! s := m_size x in
  m_resize_if (km_mu o) (s.1, km_k o) ;;;
  let! u := m_size (km_mu o) in
  let! t := v_tmp u.1 in
  for_ 0 (km_k o) (fun i =>
    m_row_get_into x (pick i) (Some t) ;;;
    m_row_set_vec (km_mu o) i (Some t)) ;;;
  del_obj t.

(** 440-490 [_kmeanspp_initialization]. *)
Definition km_pp_init (pick : Z -> Z) (o : kmeans) : M F unit :=
  let! x := deref (km_x o) in
  let! s := m_size x in
  m_resize_if (km_mu o) (s.1, km_k o) ;;;
  let! u := m_size (km_mu o) in
  let! t := v_tmp u.1 in
  m_row_get_into x (pick 0) (Some t) ;;;
  m_row_set_vec (km_mu o) 0 (Some t) ;;;
  let! xj := v_tmp s.1 in
  let! far := v_tmp s.1 in
  for_ 1 (km_k o - 1) (fun i =>
    for_ 0 s.2 (fun j =>
      m_row_get_into x j (Some xj) ;;;
      let! sum := for_acc 0 i s_zero (fun k sum =>
        m_row_get_into (km_mu o) k (Some t) ;;;
        let! e := v_dist xj (Some t) in
        ret (s_add sum e)) in
      if s_lt s_zero (s_mul sum sum) then v_set_from_vec far xj else ret tt) ;;;
    m_row_set_vec (km_mu o) i (Some far)) ;;;
  del_obj far ;;;
  del_obj xj ;;;
  del_obj t.

(** 68-78 [initialize]. *)
Definition km_initialize (pick : Z -> Z) (o : kmeans) : M F kmeans :=
  match km_x o with
  | None => ret o
  | Some _ =>
    match km_type o with KMeansPP => km_pp_init pick o | Centroid => km_centroid_init pick o end ;;;
    ret (KM (km_x o) (km_mu o) (km_r o) (km_k o) true (km_type o))
  end.

(** 321-370 [_evaluate]: [closest_centroid_index] is declared outside the loop over the points. *)
Definition km_evaluate (o : kmeans) : M F unit :=
  if negb (km_init o) then ret tt else
  let! x := deref (km_x o) in
  let! s := m_size x in
  m_resize_if (km_r o) (km_k o, s.2) ;;;
  let! rs := m_size (km_r o) in
  let! u := m_size (km_mu o) in
  let! cc := v_tmp u.1 in
  let! xi := v_tmp s.1 in
  let! mj := v_tmp u.1 in
  m_fill (km_r o) s_zero ;;;
  for_acc 0 rs.2 0 (fun i idx =>
    m_row_get_into (km_mu o) 0 (Some cc) ;;;
    m_row_get_into x i (Some xi) ;;;
    let! d0 := v_dist xi (Some cc) in
    let! st := for_acc 0 rs.1 (d0, idx) (fun j st =>
      m_row_get_into (km_mu o) j (Some mj) ;;;
      let! d := v_dist xi (Some mj) in
      if s_lt d (fst st) then
        m_row_get_into (km_mu o) j (Some cc) ;;;
        let! d' := v_dist xi (Some cc) in
        ret (d', j)
      else ret st) in
    m_set (km_r o) i (snd st) s_one ;;;
    ret (snd st)) ;;;
  del_obj mj ;;;
  del_obj xi ;;;
  del_obj cc.

(** 373-415 [_compute_mu]: [num] has the number of clusters as its size, not the dimension. *)
Definition km_compute_mu (o : kmeans) : M F unit :=
  let! u := m_size (km_mu o) in
  let! rs := m_size (km_r o) in
  let! num := v_tmp rs.1 in
  let! x := deref (km_x o) in
  let! s := m_size x in
  let! xj := v_tmp s.1 in
  let! mt := v_tmp s.1 in
  let! mut := v_tmp u.1 in
  for_ 0 u.2 (fun i =>
    v_fill num s_zero ;;;
    let! den := for_acc 0 rs.2 s_zero (fun j den =>
      m_row_get_into x j (Some xj) ;;;
      let! rji := m_get (km_r o) j i in
      let! rji' := m_get (km_r o) j i in
      v_scalar_multiplyb rji' mt (Some xj) ;;;
      v_add num (Some mt) ;;;
      ret (s_add den rji)) in
    v_scalar_multiplyb (s_div s_one den) mut (Some num) ;;;
    m_row_set_vec (km_mu o) i (Some mut)) ;;;
  del_obj mut ;;;
  del_obj mt ;;;
  del_obj xj ;;;
  del_obj num.

(** 491-523 [_cost], 200-202 [score]. *)
Definition km_cost (o : kmeans) : M F F :=
  if negb (km_init o) then ret s_zero else
  let! x := deref (km_x o) in
  let! s := m_size x in
  let! xi := v_tmp s.1 in
  let! u := m_size (km_mu o) in
  let! mj := v_tmp u.1 in
  let! sb := v_tmp s.1 in
  let! rs := m_size (km_r o) in
  let! sum := for_acc 0 rs.2 s_zero (fun i sum =>
    m_row_get_into x i (Some xi) ;;;
    for_acc 0 rs.1 sum (fun j sum =>
      m_row_get_into (km_mu o) j (Some mj) ;;;
      v_subb sb (Some xi) (Some mj) ;;;
      let! rij := m_get (km_r o) i j in
      let! nrm := v_norm_sq sb in
      ret (s_add sum (s_mul rij nrm)))) in
  del_obj sb ;;;
  del_obj mj ;;;
  del_obj xi ;;;
  ret sum.
Definition km_score := km_cost.

(** 156-198 [train]: the body runs max(1, epoch_num) times. *)
Definition km_epoch (ui : bool) (o : kmeans) : M F unit :=
  let! _ := km_cost o in
  km_compute_mu o ;;;
  km_evaluate o ;;;
  if ui then let! _ := km_cost o in ret tt else ret tt.
Definition km_train (pick : Z -> Z) (epoch_num : Z) (ui : bool) (o : kmeans) : M F kmeans :=
  match km_x o with
  | None => ret o
  | Some _ =>
    let! o := (if km_init o then ret o else km_initialize pick o) in
    km_evaluate o ;;;
    for_ 0 (Z.max 1 epoch_num) (fun _ => km_epoch ui o) ;;;
    ret o
  end.

(** 129-155 [model_test]. *)
Definition km_model_test (o : kmeans) r : M F (option loc) :=
  match r with
  | None => ret None
  | Some p =>
    if negb (km_init o) then ret None else
    let! u := m_size (km_mu o) in
    let! cc := v_tmp u.1 in
    m_row_get_into (km_mu o) 0 (Some cc) ;;;
    let! mj := v_tmp u.1 in
    for_ 0 u.2 (fun j =>
      m_row_get_into (km_mu o) j (Some mj) ;;;
      let! d1 := v_dist p (Some mj) in
      let! d2 := v_dist p (Some cc) in
      if s_lt d1 d2 then v_set_from_vec cc mj else ret tt) ;;;
    del_obj mj ;;;
    ret (Some cc)
  end.

(** 80-128 [model_set_test]: the number of rows is that of the training set, the number of centroids tried is the width of
    the assignment matrix. *)
Definition km_model_set_test (o : kmeans) r : M F (option loc) :=
  match r with
  | None => ret None
  | Some X =>
    if negb (km_init o) then ret None else
    let! x := deref (km_x o) in
    let! s := m_size x in
    let! out := m_new in
    let! u := m_size (km_mu o) in
    m_resize out (u.1, s.2) ;;;
    let! cc := v_tmp u.1 in
    let! sX := m_size X in
    let! xi := v_tmp sX.1 in
    let! mj := v_tmp u.1 in
    let! rs := m_size (km_r o) in
    for_ 0 s.2 (fun i =>
      m_row_get_into (km_mu o) 0 (Some cc) ;;;
      m_row_get_into X i (Some xi) ;;;
      for_ 0 rs.1 (fun j =>
        m_row_get_into (km_mu o) j (Some mj) ;;;
        let! d1 := v_dist xi (Some mj) in
        let! d2 := v_dist xi (Some cc) in
        if s_lt d1 d2 then v_set_from_vec cc mj else ret tt) ;;;
      m_row_set_vec out i (Some cc)) ;;;
    del_obj mj ;;;
    del_obj xi ;;;
    del_obj cc ;;;
    ret (Some out)
  end.
End kmeans.
