(** * The support vector classifier: /repo/modules/svc/svc.cpp (all line numbers below).  Proof-free file.

    The class has the members of [Lnk.lnk] (_input_set, _output_set, _z, _y_hat, _weights, _bias) and _c; propagatem (351-353),
    propagatev (361-364), needs_init (278-299), initialize (300-314) and set_output_set (51-53: a Ref<MLPPMatrix> assigned to a
    Ref<MLPPVector>) are the same code as in MLPPTanhReg, and [Lnk]'s definitions are used for them.  Simplifications: those of [Lnk]. *)
From Verif Require Import Base Vec Mat Act Cost Stat Util Glm Lnk.

Section svc.
Context {F : Type} `{Scalar F} `{Libm F}.
Implicit Types (l : loc) (r rx ry : option loc).

Record svc := Svc { v_o : lnk F; v_c : F }.
Definition v_seto (o : svc) p := Svc p (v_c o).

(** 316-328 constructor; [iw], [ib]: the drawn weights and bias. *)
Definition v_make rx ry (c : F) (iw : Z -> F) (ib : F) : M F svc :=
  let! o := l_new Tanh rx ry RNone s_zero s_zero iw ib in ret (Svc o c).
(** 44-46, 51-53, 58-60: setters. *)
Definition v_set_input rx (o : svc) : svc := v_seto o (l_set_input_set rx (v_o o)).
Definition v_set_output r (o : svc) : svc := v_seto o (l_set_output_set Tanh r (v_o o)).
Definition v_set_c (c : F) (o : svc) : svc := Svc (v_o o) c.

(** 345-349, 355-359 [evaluatem], [evaluatev]. *)
Definition v_evaluatem (o : svc) rx : M F (option loc) :=
  let! z := propagatem (v_o o) rx in
  let! a := act_loop KV sign_normr z in
  drop_ref true z ;;; ret a.
Definition v_evaluatev (o : svc) rx : M F F := let! z := propagatev (v_o o) rx in ret (sign_normr z).
(** 90-100 [model_set_test], [model_test]. *)
Definition v_model_set_test (o : svc) rx : M F (option loc) :=
  let! b := needs_init Tanh (v_o o) in if b then ret None else v_evaluatem o rx.
Definition v_model_test (o : svc) rx : M F F :=
  let! b := needs_init Tanh (v_o o) in if b then ret s_zero else v_evaluatev o rx.
(** 340-343 [cost]. *)
Definition v_cost (o : svc) rz ry : M F F := c_hingewv rz ry (g_w (l_g (v_o o))) (v_c o).
(** 367-372 [forward_pass]. *)
Definition v_forward (o : svc) : M F svc :=
  let! z := propagatem (v_o o) (g_x (l_g (v_o o))) in
  drop_ref true (l_z (v_o o)) ;;;
  let! a := act_loop KV sign_normr z in
  drop_ref true (g_yh (l_g (v_o o))) ;;;
  ret (v_seto o (Lnk (set_yh (l_g (v_o o)) a) z)).

(** [_weights = regularization.reg_weightsv(_weights, la, 0, RIDGE)]. *)
Definition v_shrink (la : F) (o : svc) : M F svc :=
  let! w := deref (g_w (l_g (v_o o))) in
  let! w' := reg_weights KV (Some w) la s_zero RRidge in
  del_obj w ;;;
  ret (v_seto o (l_setg (v_o o) (set_w (l_g (v_o o)) w'))).
(** [hinge_loss_derivwv(r, y, _c)->sum_elements()]. *)
Definition v_bias_sum (o : svc) r ry : M F F :=
  let! p := d_hingew KV r ry (v_c o) in
  let! p' := deref p in
  let! s := v_sum p' in
  free p ;;; ret s.
Definition v_add_bias (op : F -> F -> F) (t : F) (o : svc) : svc :=
  v_seto o (l_setg (v_o o) (set_b (l_g (v_o o)) (op (g_b (l_g (v_o o))) t))).

(** 102-140 [train_gradient_descent]. *)
Definition v_gd_epoch (lr : F) (n : Z) (o : svc) : M F svc :=
  let g := l_g (v_o o) in
  let! _ := v_cost o (g_yh g) (g_y g) in
  let! p := d_hingew KV (l_z (v_o o)) (g_y g) (v_c o) in
  let! t := xt_vec (g_x g) p in
  free p ;;;
  let! t' := deref t in
  let! d := v_scalar_multiplyn (s_div lr (s_of_Z n)) t' in
  let! w := deref (g_w g) in
  v_sub w (Some d) ;;;
  del_obj d ;;; del_obj t' ;;;
  let! o := v_shrink (s_div lr (s_of_Z n)) o in
  let! s := v_bias_sum o (g_yh (l_g (v_o o))) (g_y (l_g (v_o o))) in
  v_forward (v_add_bias s_add (s_div (s_mul lr s) (s_of_Z n)) o).
Definition v_gd (lr : F) (max : Z) (o : svc) : M F svc :=
  let! b := needs_init Tanh (v_o o) in
  if b then ret o else
  let! n := l_rows Tanh (v_o o) in
  let! o := v_forward o in
  train (fun _ => v_gd_epoch lr n) max o.

(** 142-214 [train_sgd]; [idx epoch] is the index drawn. *)
Definition v_sgd_epoch (lr : F) (idx : Z -> Z) (row ot zt : loc) (epoch : Z) (o : svc) : M F svc :=
  let i := idx epoch in
  let g := l_g (v_o o) in
  let! x := deref (g_x g) in
  m_row_get_into x i (Some row) ;;;
  let! y := deref (g_y g) in
  let! oe := v_get y i in
  v_set ot 0 oe ;;;
  let! z := propagatev (v_o o) (Some row) in
  v_set zt 0 z ;;;
  let! _ := v_cost o (Some zt) (Some ot) in
  let! cd := d_hingew KV (Some zt) (Some ot) (v_c o) in
  let! cd' := deref cd in
  let! t := v_get cd' 0 in
  let! d := v_scalar_multiplyn (s_mul lr t) row in
  let! w := deref (g_w g) in
  v_sub w (Some d) ;;;
  del_obj d ;;;
  let! o := v_shrink lr o in
  del_obj cd' ;;;
  ret (v_add_bias s_sub (s_mul lr t) o).
Definition v_sgd (lr : F) (max : Z) (idx : Z -> Z) (o : svc) : M F svc :=
  let! b := needs_init Tanh (v_o o) in
  if b then ret o else
  let! row := v_new in
  let! x := deref (g_x (l_g (v_o o))) in
  let! s := m_size x in
  v_resize row s.1 ;;;
  let! ot := v_new in v_resize ot 1 ;;;
  let! zt := v_new in v_resize zt 1 ;;;
  let! o := v_forward o in
  let! o := train (v_sgd_epoch lr idx row ot zt) max o in
  let! o := v_forward o in
  del_obj zt ;;; del_obj ot ;;; del_obj row ;;;
  ret o.

(** 216-269 [train_mbgd]: the result of [_weights->subn(..)] is discarded. *)
Definition v_mb_step (lr : F) (n : Z) (b : loc * loc) (o : svc) : M F svc :=
  let '(bi, bo) := b in
  let! y := v_evaluatem o (Some bi) in
  let! z := propagatem (v_o o) (Some bi) in
  let! _ := v_cost o z (Some bo) in
  let! p := d_hingew KV z (Some bo) (v_c o) in
  let! t := xt_vec (Some bi) p in
  free p ;;;
  let! t' := deref t in
  let! d := v_scalar_multiplyn (s_div lr (s_of_Z n)) t' in
  let! w := deref (g_w (l_g (v_o o))) in
  let! u := v_subn w (Some d) in
  drop_ref true u ;;; del_obj d ;;; del_obj t' ;;;
  let! o := v_shrink (s_div lr (s_of_Z n)) o in
  let! s := v_bias_sum o y (Some bo) in
  let! o := v_forward (v_add_bias s_sub (s_div (s_mul lr s) (s_of_Z n)) o) in
  let! y2 := v_evaluatem o (Some bi) in
  free y ;;; free y2 ;;; free z ;;;
  ret o.
Definition v_mbgd (lr : F) (max size : Z) (o : svc) : M F svc :=
  let! b := needs_init Tanh (v_o o) in
  if b then ret o else
  let! n := l_rows Tanh (v_o o) in
  let! nb := idiv n size in
  let! bs := mini_batches_mv (g_x (l_g (v_o o))) (g_y (l_g (v_o o))) nb in
  let! o := v_forward o in
  let! o := train (fun _ => over_batches (v_mb_step lr n) bs) max o in
  let! o := v_forward o in
  del_batches bs ;;;
  ret o.

(** 271-276 [score]. *)
Definition v_score (rnd : F -> F) (o : svc) : M F F :=
  let! b := needs_init Tanh (v_o o) in if b then ret s_zero else performance_vec rnd (g_yh (l_g (v_o o))) (g_y (l_g (v_o o))).
End svc.
Arguments svc : clear implicits.
