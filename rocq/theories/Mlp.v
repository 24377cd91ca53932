(** * The two-layer perceptron: /repo/modules/mlp/mlp.cpp.  Proof-free file.

    Simplifications.
    - The members of the object are a record passed in and returned; the vectors and matrices they refer to are in the heap.
      The owned members ([_y_hat], [_weights1], [_weights2], [_bias1], [_z2], [_a2]) are instantiated by both constructors and are never
      null; assigning such a member destroys the old object (nobody else holds a reference to it).
    - [ui] is false (it only prints).  [save] does nothing.
    - std::random_device / uniform_int_distribution: the drawn indices are a parameter, and so are the values drawn by
      weight_initializationm / weight_initializationv / bias_initializationr.
    - Temporaries are destroyed after their last use, left-to-right evaluation (as in [Act]). *)
From Verif Require Import Base Vec Mat Act Cost Util Glm.

Section mlp.
Context {F : Type} `{Scalar F} `{Libm F}.
Implicit Types (l : loc) (r rx ry : option loc).

(** mlp.h:107-130. *)
Record mlp := Mlp {
  p_x : option loc; p_y : option loc; p_yh : loc; p_w1 : loc; p_w2 : loc; p_b1 : loc; p_b2 : F; p_z2 : loc; p_a2 : loc;
  p_n : Z; p_k : Z; p_hid : Z; p_reg : regtype; p_la : F; p_al : F; p_init : bool }.
Definition p_set_b2 (o : mlp) (b : F) := Mlp (p_x o) (p_y o) (p_yh o) (p_w1 o) (p_w2 o) (p_b1 o) b (p_z2 o) (p_a2 o) (p_n o) (p_k o) (p_hid o) (p_reg o) (p_la o) (p_al o) (p_init o).
Definition p_set_yh (o : mlp) l := Mlp (p_x o) (p_y o) l (p_w1 o) (p_w2 o) (p_b1 o) (p_b2 o) (p_z2 o) (p_a2 o) (p_n o) (p_k o) (p_hid o) (p_reg o) (p_la o) (p_al o) (p_init o).

(** mlp.cpp 47-99: the setters; each clears [_initialized]. *)
Definition p_uninit (o : mlp) := Mlp (p_x o) (p_y o) (p_yh o) (p_w1 o) (p_w2 o) (p_b1 o) (p_b2 o) (p_z2 o) (p_a2 o) (p_n o) (p_k o) (p_hid o) (p_reg o) (p_la o) (p_al o) false.
Definition p_set_input_set (o : mlp) r := Mlp r (p_y o) (p_yh o) (p_w1 o) (p_w2 o) (p_b1 o) (p_b2 o) (p_z2 o) (p_a2 o) (p_n o) (p_k o) (p_hid o) (p_reg o) (p_la o) (p_al o) false.
Definition p_set_output_set (o : mlp) r := Mlp (p_x o) r (p_yh o) (p_w1 o) (p_w2 o) (p_b1 o) (p_b2 o) (p_z2 o) (p_a2 o) (p_n o) (p_k o) (p_hid o) (p_reg o) (p_la o) (p_al o) false.
Definition p_set_n_hidden (o : mlp) (n : Z) := Mlp (p_x o) (p_y o) (p_yh o) (p_w1 o) (p_w2 o) (p_b1 o) (p_b2 o) (p_z2 o) (p_a2 o) (p_n o) (p_k o) n (p_reg o) (p_la o) (p_al o) false.
Definition p_set_lambda (o : mlp) (v : F) := Mlp (p_x o) (p_y o) (p_yh o) (p_w1 o) (p_w2 o) (p_b1 o) (p_b2 o) (p_z2 o) (p_a2 o) (p_n o) (p_k o) (p_hid o) (p_reg o) v (p_al o) false.
Definition p_set_alpha (o : mlp) (v : F) := Mlp (p_x o) (p_y o) (p_yh o) (p_w1 o) (p_w2 o) (p_b1 o) (p_b2 o) (p_z2 o) (p_a2 o) (p_n o) (p_k o) (p_hid o) (p_reg o) (p_la o) v false.
Definition p_set_reg (o : mlp) (t : regtype) := Mlp (p_x o) (p_y o) (p_yh o) (p_w1 o) (p_w2 o) (p_b1 o) (p_b2 o) (p_z2 o) (p_a2 o) (p_n o) (p_k o) (p_hid o) t (p_la o) (p_al o) false.

(** [X->multn(_weights1)->add_vecn(_bias1)]. *)
Definition hidden_z rx w1 b1 : M F (option loc) :=
  let! x := deref rx in
  let! t := m_multn x (Some w1) in
  let! t' := deref t in
  let! z := m_add_vecn t' (Some b1) in
  del_obj t' ;;; ret z.
(** [avn.sigmoid_normv(A->mult_vec(_weights2)->scalar_addn(_bias2))]. *)
Definition output_y ra w2 (b2 : F) : M F (option loc) :=
  let! t := propagate (Some w2) b2 ra in
  let! y := run_exp (sigmoid_norm_e KV) t in
  drop_ref true t ;;; ret y.
(** [_weights1->transposen()->mult_vec(x)->addn(_bias1)]. *)
Definition hidden_zv rx w1 b1 : M F (option loc) :=
  let! t := xt_vec (Some w1) rx in
  let! t' := deref t in
  let! z := v_addn t' (Some b1) in
  del_obj t' ;;; ret z.

(** mlp.cpp 382-389 [evaluatem]. *)
Definition p_evaluatem (o : mlp) rx : M F (option loc) :=
  let! z := hidden_z rx (p_w1 o) (p_b1 o) in
  let! a := run_exp (sigmoid_norm_e KM) z in
  let! y := output_y a (p_w2 o) (p_b2 o) in
  drop_ref true a ;;; drop_ref true z ;;; ret y.
(** [T->set_from_mlpp_matrix(src)], [T->set_from_mlpp_vector(src)], src a temporary. *)
Definition assign_m l r : M F unit := let! s := deref r in m_set_from_mat l s ;;; del_obj s.
Definition assign_v l r : M F unit := let! s := deref r in v_set_from_vec l s ;;; del_obj s.
(** mlp.cpp 391-396 [propagatem]. *)
Definition propagatem (o : mlp) rx (z2 a2 : loc) : M F unit :=
  let! z := hidden_z rx (p_w1 o) (p_b1 o) in
  assign_m z2 z ;;;
  let! a := run_exp (sigmoid_norm_e KM) (Some z2) in
  assign_m a2 a.
(** mlp.cpp 398-405 [evaluatev]. *)
Definition p_evaluatev (o : mlp) rx : M F F :=
  let! z := hidden_zv rx (p_w1 o) (p_b1 o) in
  let! a := run_exp (sigmoid_norm_e KV) z in
  let! d := v_dot (p_w2 o) a in
  drop_ref true a ;;; drop_ref true z ;;;
  ret (sigmoid_normr (s_add d (p_b2 o))).
(** mlp.cpp 407-412 [propagatev]. *)
Definition propagatev (o : mlp) rx (z2 a2 : loc) : M F unit :=
  let! z := hidden_zv rx (p_w1 o) (p_b1 o) in
  assign_v z2 z ;;;
  let! a := run_exp (sigmoid_norm_e KV) (Some z2) in
  assign_v a2 a.
(** mlp.cpp 414-421 [forward_pass]. *)
Definition p_forward_pass (o : mlp) : M F unit :=
  propagatem o (p_x o) (p_z2 o) (p_a2 o) ;;;
  let! y := output_y (Some (p_a2 o)) (p_w2 o) (p_b2 o) in
  assign_v (p_yh o) y.
(** mlp.cpp 101-107 [model_set_test], [model_test]: no test of [_initialized]. *)
Definition p_model_set_test := p_evaluatem.
Definition p_model_test := p_evaluatev.
(** mlp.cpp 375-380 [cost]. *)
Definition p_cost (o : mlp) (a b : loc) : M F F :=
  let! v := c_log_loss KV (Some a) (Some b) in
  let! t2 := reg_term KV (Some (p_w2 o)) (p_la o) (p_al o) (p_reg o) in
  let! t1 := reg_term KM (Some (p_w1 o)) (p_la o) (p_al o) (p_reg o) in
  ret (s_add (s_add v t2) t1).

(** [_weights2->sub(D->scalar_multiplyn(s)); _weights2->set_from_mlpp_vector(regularization.reg_weightsv(_weights2, ...))], [D] a temporary. *)
Definition upd_w2 (o : mlp) (s : F) rd : M F unit :=
  let! d := deref rd in
  let! q := v_scalar_multiplyn s d in
  v_sub (p_w2 o) (Some q) ;;;
  del_obj q ;;; del_obj d ;;;
  let! w := reg_weights KV (Some (p_w2 o)) (p_la o) (p_al o) (p_reg o) in
  assign_v (p_w2 o) w.
(** [_weights1->sub(D->scalar_multiplyn(s)); _weights1->set_from_mlpp_matrix(regularization.reg_weightsm(_weights1, ...))], [D] a temporary. *)
Definition upd_w1 (o : mlp) (s : F) rd : M F unit :=
  let! d := deref rd in
  let! q := m_scalar_multiplyn s d in
  m_sub (p_w1 o) (Some q) ;;;
  del_obj q ;;; del_obj d ;;;
  let! w := reg_weights KM (Some (p_w1 o)) (p_la o) (p_al o) (p_reg o) in
  assign_m (p_w1 o) w.
(** The back-propagation for a batch: data [x], targets [y], predictions [yh], pre-activations [z2] and activations [a2] of the hidden layer;
    [m] is the number of rows.  mlp.cpp 124-148 and 275-303. *)
Definition backprop (lr : F) (rx : option loc) (ry : option loc) (yh z2 a2 : loc) (m : Z) (o : mlp) : M F mlp :=
  let! e := v_subn yh ry in
  let! d2 := xt_vec (Some a2) e in
  upd_w2 o (s_div lr (s_of_Z m)) d2 ;;;
  let! e' := deref e in
  let! t := v_sum e' in
  let o := p_set_b2 o (s_sub (p_b2 o) (s_div (s_mul lr t) (s_of_Z m))) in
  let! d11 := v_outer e' (Some (p_w2 o)) in
  let! sd := run_exp (sigmoid_deriv_e KM) (Some z2) in
  let! d12 := m_hadamardn d11 sd in
  drop_ref true sd ;;;
  let! x := deref rx in
  let! xt := m_transposen x in
  let! d13 := m_multn xt d12 in
  del_obj xt ;;;
  upd_w1 o (s_div lr (s_of_Z m)) d13 ;;;
  let! d12' := deref d12 in
  let! q := m_scalar_multiplyn (s_div lr (s_of_Z m)) d12' in
  v_sub_rows (p_b1 o) (Some q) ;;;
  del_obj q ;;; del_obj d12' ;;; del_obj d11 ;;; del_obj e' ;;;
  ret o.

(** mlp.cpp 109-166 [gradient_descent]. *)
Definition p_gd_epoch (lr : F) (o : mlp) : M F mlp :=
  let! y := deref (p_y o) in
  let! _ := p_cost o (p_yh o) y in
  let! o := backprop lr (p_x o) (p_y o) (p_yh o) (p_z2 o) (p_a2 o) (p_n o) o in
  p_forward_pass o ;;;
  ret o.
Definition p_gradient_descent (lr : F) (max : Z) (o : mlp) : M F mlp :=
  if negb (p_init o) then ret o else
  v_fill (p_yh o) s_zero ;;;
  p_forward_pass o ;;;
  train (fun _ => p_gd_epoch lr) max o.

(** mlp.cpp 168-248 [sgd]; [idx epoch] is the index drawn in that epoch. *)
Definition p_sgd_epoch (lr : F) (idx : Z -> Z) (row ot yt lz la : loc) (epoch : Z) (o : mlp) : M F mlp :=
  let i := idx epoch in
  let! x := deref (p_x o) in
  m_row_get_into x i (Some row) ;;;
  let! y := deref (p_y o) in
  let! oe := v_get y i in
  v_set ot 0 oe ;;;
  let! yh := p_evaluatev o (Some row) in
  v_set yt 0 yh ;;;
  propagatev o (Some row) lz la ;;;
  let! _ := p_cost o yt ot in
  let e := s_sub yh oe in
  let! d2 := v_scalar_multiplyn e la in
  upd_w2 o lr (Some d2) ;;;
  let o := p_set_b2 o (s_sub (p_b2 o) (s_mul lr e)) in
  let! d11 := v_scalar_multiplyn e (p_w2 o) in
  let! sd := run_exp (sigmoid_deriv_e KV) (Some lz) in
  let! d12 := v_hadamardn d11 sd in
  drop_ref true sd ;;;
  let! d13 := v_outer row d12 in
  upd_w1 o lr (Some d13) ;;;
  let! d12' := deref d12 in
  let! q := v_scalar_multiplyn lr d12' in
  v_sub (p_b1 o) (Some q) ;;;
  del_obj q ;;; del_obj d12' ;;; del_obj d11 ;;;
  let! _ := p_evaluatev o (Some row) in
  ret o.
Definition p_sgd (lr : F) (max : Z) (idx : Z -> Z) (o : mlp) : M F mlp :=
  if negb (p_init o) then ret o else
  let! row := v_new in
  let! x := deref (p_x o) in
  let! s := m_size x in
  v_resize row s.1 ;;;
  let! ot := v_new in v_resize ot 1 ;;;
  let! yt := v_new in v_resize yt 1 ;;;
  let! lz := v_new in
  let! la := v_new in
  let! o := train (p_sgd_epoch lr idx row ot yt lz la) max o in
  p_forward_pass o ;;;
  del_obj la ;;; del_obj lz ;;; del_obj yt ;;; del_obj ot ;;; del_obj row ;;;
  ret o.

(** mlp.cpp 250-325 [mbgd]. *)
Definition p_mb_step (lr : F) (lz la : loc) (b : loc * loc) (o : mlp) : M F mlp :=
  let '(bi, bo) := b in
  let! y := p_evaluatem o (Some bi) in
  propagatem o (Some bi) lz la ;;;
  let! y' := deref y in
  let! _ := p_cost o y' bo in
  let! m := v_size bo in
  let! o := backprop lr (Some bi) (Some bo) y' lz la m o in
  let! y2 := p_evaluatem o (Some bi) in
  let! y2' := deref y2 in
  del_obj (p_yh o) ;;; del_obj y' ;;;
  ret (p_set_yh o y2').
Definition p_mbgd (lr : F) (max size : Z) (o : mlp) : M F mlp :=
  if negb (p_init o) then ret o else
  let! lz := m_new in
  let! la := m_new in
  let! nb := idiv (p_n o) size in
  let! bs := mini_batches_mv (p_x o) (p_y o) nb in
  let! o := train (fun _ => over_batches (p_mb_step lr lz la) bs) max o in
  p_forward_pass o ;;;
  del_batches bs ;;; del_obj la ;;; del_obj lz ;;;
  ret o.

(** mlp.cpp 327-330 [score]. *)
Definition p_score (rnd : F -> F) (o : mlp) : M F F := performance_vec rnd (Some (p_yh o)) (p_y o).

(** utilities.cpp 140-159, 213-235: weight_initializationv / weight_initializationm with the default distribution; [draw i] is the i-th value drawn. *)
Definition weight_init_v (draw : Z -> F) l : M F unit :=
  let! n := v_size l in
  let! p := data_ptr l in
  for_ 0 n (fun i => store p i (draw i)).
Definition weight_init_m (draw : Z -> F) l : M F unit :=
  let! n := m_data_size l in
  let! p := data_ptr l in
  for_ 0 n (fun i => store p i (draw i)).
(** utilities.cpp 295-308 [bias_initializationv]: the drawn values go to a local std::vector, the argument is not written.
    [stale = None] is the C++ abstract machine: the elements stay uninitialised.  [stale = Some f] stands for a machine on which the
    (wholly fresh) memory of [l] happens to hold the values [f] and reading it is harmless. *)
Definition bias_init_v (stale : option (Z -> F)) l : M F unit :=
  match stale with
  | None => ret tt
  | Some f => let! n := v_size l in let! p := data_ptr l in for_ 0 n (fun i => store p i (f i))
  end.
(** mlp.cpp 344-373 [initialize]; [iw1], [iw2], [ib2] are the drawn values. *)
Definition p_initialize (iw1 iw2 : Z -> F) (stale : option (Z -> F)) (ib2 : F) (o : mlp) : M F mlp :=
  if p_init o then ret o else
  match p_x o, p_y o with
  | Some x, Some y =>
    if p_hid o =? 0 then ret o else
    let! s := m_size x in
    v_resize (p_yh o) s.2 ;;;
    m_resize (p_w1 o) (p_hid o, s.1) ;;;
    v_resize (p_w2 o) (p_hid o) ;;;
    v_resize (p_b1 o) (p_hid o) ;;;
    weight_init_m iw1 (p_w1 o) ;;;
    weight_init_v iw2 (p_w2 o) ;;;
    bias_init_v stale (p_b1 o) ;;;
    let! z2 := m_new in
    del_obj (p_z2 o) ;;;
    let! a2 := m_new in
    del_obj (p_a2 o) ;;;
    ret (Mlp (p_x o) (p_y o) (p_yh o) (p_w1 o) (p_w2 o) (p_b1 o) ib2 z2 a2 s.2 s.1 (p_hid o) (p_reg o) (p_la o) (p_al o) true)
  | _, _ => ret o
  end.
(** mlp.cpp 423-442: the constructor with arguments. *)
Definition p_new rx ry (hid : Z) (reg : regtype) (la al : F) (iw1 iw2 : Z -> F) (stale : option (Z -> F)) (ib2 : F) : M F mlp :=
  let! yh := v_new in
  let! w1 := m_new in
  let! w2 := v_new in
  let! z2 := m_new in
  let! a2 := m_new in
  let! b1 := v_new in
  p_initialize iw1 iw2 stale ib2 (Mlp rx ry yh w1 w2 b1 s_zero z2 a2 0 0 hid reg la al false).
End mlp.
