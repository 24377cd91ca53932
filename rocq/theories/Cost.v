(** * Cost functions and regularisation: /repo/core/cost.cpp, /repo/core/reg.cpp (and the MLPPLinAlg calls they are
    built from, /repo/core/lin_alg.cpp).  Proof-free file.  Line numbers without a file name refer to cost.cpp.

    Simplifications: as in [Act] (one scalar type instead of float/double mixtures, left-to-right evaluation,
    temporaries destroyed after their last use). *)
From Verif Require Import Base Vec Mat Act.

Section cost.
Context {F : Type} `{Scalar F} `{Libm F}.
Implicit Types (l z : loc) (r ra rb : option loc) (k : kind).

(** [size()] of a vector (mlpp_vector.h), [data_size()] of a matrix (mlpp_matrix.h:94). *)
Definition k_data_size k l : M F Z := match k with KV => v_size l | KM => m_data_size l end.
(** a <= b. *)
Definition s_le (a b : F) : bool := s_lt a b || s_eq a b.

(** The common loop of the costs, e.g. 37-50 [msev], 51-65 [msem]: sizes compared (mismatch: 0 is returned), then
    [for i: sum += f(y_hat[i], y[i])].  No null tests: the references are dereferenced. *)
Definition cost_fold k (f : F -> F -> F) ra rb (fin : loc -> F -> Z -> M F F) : M F F :=
  let! a := deref ra in
  let! n := k_data_size k a in
  let! b := deref rb in
  let! nb := k_data_size k b in
  if negb (n =? nb) then ret s_zero else
  let! pa := data_ptr a in
  let! pb := data_ptr b in
  let! s := for_acc 0 n s_zero (fun i s => let! x := load pa i in let! y := load pb i in ret (s_add s (f x y))) in
  fin a s n.
Definition sq_err (x y : F) : F := s_mul (s_sub x y) (s_sub x y).
(** 37-65 [msev], [msem]: [sum / 2 * n]. *)
Definition c_mse k ra rb : M F F := cost_fold k sq_err ra rb (fun _ s n => ret (s_mul (s_div s s_two) (s_of_Z n))).
(** 77-91 [rmsev]; 92-106 [rmsem]: the matrix form divides by the number of rows. *)
Definition c_rmsev ra rb : M F F := cost_fold KV sq_err ra rb (fun _ s n => ret (s_sqrt (s_div s (s_of_Z n)))).
Definition c_rmsem ra rb : M F F :=
  cost_fold KM sq_err ra rb (fun a s _ => let! sz := m_size a in ret (s_sqrt (s_div s (s_of_Z sz.2)))).
(** 119-147 [maev], [maem]. *)
Definition c_mae k ra rb : M F F := cost_fold k (fun x y => s_abs (s_sub x y)) ra rb (fun _ s n => ret (s_div s (s_of_Z n))).
(** 198-227 [mbev], [mbem]. *)
Definition c_mbe k ra rb : M F F := cost_fold k s_sub ra rb (fun _ s n => ret (s_div s (s_of_Z n))).
(** 240-272 [log_lossv], [log_lossm]; [eps = 1e-8]. *)
Definition c_eps : F := lit 1 100000000.
Definition log_loss1 (x y : F) : F :=
  s_opp (s_add (s_mul y (s_log (s_add x c_eps))) (s_mul (s_sub s_one y) (s_log (s_add (s_sub s_one x) c_eps)))).
Definition c_log_loss k ra rb : M F F := cost_fold k log_loss1 ra rb (fun _ s n => ret (s_div s (s_of_Z n))).
(** 288-317 [cross_entropyv], [cross_entropym]. *)
Definition c_cross_entropy k ra rb : M F F :=
  cost_fold k (fun x y => s_mul y (s_log x)) ra rb (fun _ s _ => ret (s_mul s_m1 s)).
(** 328-367 [huber_lossv], [huber_lossm]. *)
Definition huber1 (d x y : F) : F :=
  if s_le (s_abs (s_sub y x)) d then s_mul (s_sub y x) (s_sub y x)
  else s_sub (s_mul (s_mul s_two d) (s_abs (s_sub y x))) (s_mul d d).
Definition c_huber k ra rb (d : F) : M F F := cost_fold k (huber1 d) ra rb (fun _ s _ => ret s).
(** 430-459 [hinge_lossv], [hinge_lossm]; [MAX(0, e)] is [0 > e ? 0 : e] (platform/sfw.h:575). *)
Definition c_hinge k ra rb : M F F :=
  cost_fold k (fun x y => s_max s_zero (s_sub s_one (s_mul y x))) ra rb (fun _ s n => ret (s_div s (s_of_Z n))).
(** 536-565 [wasserstein_lossv], [wasserstein_lossm]. *)
Definition c_wasserstein k ra rb : M F F :=
  cost_fold k s_mul ra rb (fun _ s n => ret (s_div (s_opp s) (s_of_Z n))).

(** ** Derivatives *)
Definition k_new k : M F loc := match k with KV => v_new | KM => m_new end.
(** [out->resize(a->size())]. *)
Definition k_resize_like k l a : M F unit :=
  match k with KV => let! n := v_size a in v_resize l n | KM => let! s := m_size a in m_resize l s end.
(** scalar_multiplynv / scalar_multiplynm (lin_alg.cpp:1171-1188, 262-274). *)
Definition la_scale k (c : F) r : M F (option loc) := la1 k (match k with KV => true | KM => false end) (fun x => s_mul x c) r.
(** scalar_addnv / scalar_addnm (lin_alg.cpp:1207-1224, 276-288). *)
Definition la_sadd k (c : F) r : M F (option loc) := la1 k (match k with KV => true | KM => false end) (fun x => s_add x c) r.

(** 67-75 [mse_derivv], [mse_derivm]. *)
Definition d_mse k ra rb : M F (option loc) := la2 k s_sub ra rb.
(** 108-112 [rmse_derivv]; 113-117 [rmse_derivm] divides where the vector form multiplies. *)
Definition d_rmse k ra rb : M F (option loc) :=
  let! m := c_mse k ra rb in
  let! t := d_mse k ra rb in
  let! o := la_scale k (match k with KV => s_div s_one (s_mul s_two (s_sqrt m)) | KM => s_div s_one (s_div s_two (s_sqrt m)) end) t in
  drop_ref true t ;;; ret o.
(** 149-196 [mae_derivv], [mae_derivm]: the prediction is converted to [int]; [y] is not used. *)
Definition int_sign (x : F) : M F F :=
  match m_to_int x with
  | None => ub
  | Some i => ret (if i <? 0 then s_m1 else if i =? 0 then s_zero else s_one)
  end.
Definition d_mae k ra rb : M F (option loc) :=
  let! a := deref ra in
  let! n := k_data_size k a in
  let! pa := data_ptr a in
  let! o := k_new k in
  k_resize_like k o a ;;;
  let! po := data_ptr o in
  for_ 0 n (fun i => let! x := load pa i in let! v := int_sign x in store po i v) ;;;
  ret (Some o).
(** 229-232 [mbe_derivv]; 233-236 [mbe_derivm]: onematnm(n = size().x, m = size().y) makes a matrix of size (m, n). *)
Definition d_mbe k ra rb : M F (option loc) :=
  let! a := deref ra in
  match k with
  | KV => let! n := v_size a in let! o := v_full n s_one in ret (Some o)
  | KM => let! s := m_size a in let '(x, y) := s in let! o := m_full x y s_one in ret (Some o)
  end.
(** 274-286 [log_loss_derivv], [log_loss_derivm]. *)
Definition d_log_loss k ra rb : M F (option loc) :=
  let! q1 := la2 k s_div rb ra in
  let! t1 := la_scale k s_m1 q1 in drop_ref true q1 ;;;
  let! u1 := la_sadd k s_m1 rb in
  let! u2 := la_scale k s_m1 u1 in drop_ref true u1 ;;;
  let! w1 := la_sadd k s_m1 ra in
  let! w2 := la_scale k s_m1 w1 in drop_ref true w1 ;;;
  let! q2 := la2 k s_div u2 w2 in drop_ref true u2 ;;; drop_ref true w2 ;;;
  let! o := la2 k s_add t1 q2 in drop_ref true t1 ;;; drop_ref true q2 ;;;
  ret o.
(** 319-326 [cross_entropy_derivv], [cross_entropy_derivm]. *)
Definition d_cross_entropy k ra rb : M F (option loc) :=
  let! q := la2 k s_div rb ra in
  let! o := la_scale k s_m1 q in drop_ref true q ;;; ret o.
(** The common loop of 369-428 [huber_loss_derivv/m] and 461-508 [hinge_loss_derivv/m]: on a size mismatch a null
    reference is returned. *)
Definition d_loop k (g : F -> F -> F) ra rb : M F (option loc) :=
  let! a := deref ra in
  let! n := k_data_size k a in
  let! b := deref rb in
  let! nb := k_data_size k b in
  if negb (n =? nb) then ret None else
  let! pa := data_ptr a in
  let! pb := data_ptr b in
  let! o := k_new k in
  k_resize_like k o a ;;;
  let! po := data_ptr o in
  for_ 0 n (fun i => let! x := load pa i in let! y := load pb i in store po i (g x y)) ;;;
  ret (Some o).
Definition huber_d1 (d x y : F) : F :=
  if s_le (s_abs (s_sub y x)) d then s_opp (s_sub y x)
  else if s_lt s_zero x || s_lt x s_zero then s_mul (s_mul s_two d) (s_div x (s_abs x)) else s_zero.
Definition d_huber k ra rb (d : F) : M F (option loc) := d_loop k (huber_d1 d) ra rb.
Definition hinge_d1 (x y : F) : F := if s_lt s_zero (s_sub s_one (s_mul y x)) then s_opp y else s_zero.
Definition d_hinge k ra rb : M F (option loc) := d_loop k hinge_d1 ra rb.
(** 523-534 [hinge_loss_derivwv], [hinge_loss_derivwm]. *)
Definition d_hingew k ra rb (c : F) : M F (option loc) :=
  let! t := d_hinge k ra rb in
  let! o := la_scale k c t in drop_ref true t ;;; ret o.
(** 567-576 [wasserstein_loss_derivv], [wasserstein_loss_derivm]. *)
Definition d_wasserstein k ra rb : M F (option loc) := la_scale k s_m1 rb.

(** ** reg.cpp *)
Inductive regtype := RNone | RRidge | RLasso | RElastic | RClip.
(** The loop of the reg_term functions: [for i: reg = f(reg, w[i])]. *)
Definition reg_fold k (f : F -> F -> F) r : M F F :=
  let! w := deref r in
  let! n := k_data_size k w in
  let! p := data_ptr w in
  for_acc 0 n s_zero (fun i s => let! x := load p i in ret (f s x)).
(** reg.cpp 45-73 [reg_termv], 74-102 [reg_termm] (the size and the pointer are read in every case). *)
Definition reg_term k r (lambda alpha : F) (t : regtype) : M F F :=
  let! w := deref r in
  let! _ := k_data_size k w in
  match t with
  | RRidge => let! s := reg_fold k (fun s x => s_add s (s_mul x x)) r in ret (s_div (s_mul s lambda) s_two)
  | RLasso => let! s := reg_fold k (fun s x => s_add s (s_abs x)) r in ret (s_mul s lambda)
  | RElastic =>
      let! s := reg_fold k (fun s x => s_add (s_add s (s_mul alpha (s_abs x))) (s_mul (s_mul (s_div (s_sub s_one alpha) s_two) x) x)) r in
      ret (s_mul s lambda)
  | RNone | RClip => ret s_zero
  end.
(** reg.cpp 188-214 [reg_deriv_termvr], 215-241 [reg_deriv_termmr]. *)
Definition reg_d1 (lambda alpha : F) (t : regtype) (w : F) : F :=
  match t with
  | RRidge => s_mul lambda w
  | RLasso => s_mul lambda (sign_normr w)
  | RElastic => s_add (s_mul (s_mul alpha lambda) (sign_normr w)) (s_mul (s_mul (s_sub s_one alpha) lambda) w)
  | RClip => if s_lt alpha w then alpha else if s_lt w lambda then lambda else w
  | RNone => s_zero
  end.
(** reg.cpp 135-150 [reg_deriv_termv], 151-168 [reg_deriv_termm]. *)
Definition reg_deriv_term k r (lambda alpha : F) (t : regtype) : M F (option loc) :=
  let! o := k_new k in
  let! w := deref r in
  match k with
  | KV =>
    let! n := v_size w in
    v_resize o n ;;;
    let! po := data_ptr o in
    for_ 0 n (fun i => let! x := v_get w i in store po i (reg_d1 lambda alpha t x)) ;;;
    ret (Some o)
  | KM =>
    let! s := m_size w in
    m_resize o s ;;;
    let! po := data_ptr o in
    for_ 0 s.2 (fun i => for_ 0 s.1 (fun j => let! x := m_get w i j in store po (i * s.1 + j) (reg_d1 lambda alpha t x))) ;;;
    ret (Some o)
  end.
(** reg.cpp 104-117 [reg_weightsv], 118-133 [reg_weightsm]. *)
Definition reg_weights k r (lambda alpha : F) (t : regtype) : M F (option loc) :=
  match t with
  | RClip => reg_deriv_term k r lambda alpha t
  | _ =>
    let! d := reg_deriv_term k r lambda alpha t in
    let! o := la2 k s_sub r d in drop_ref true d ;;; ret o
  end.
(** 510-515 [hinge_losswv]; 516-521 [hinge_losswm] passes the weight matrix to [reg_termv]: the conversion
    Ref<MLPPMatrix> -> Ref<MLPPVector> yields a null reference, which reg_termv dereferences. *)
Definition c_hingewv ra rb (rw : option loc) (c : F) : M F F :=
  let! h := c_hinge KV ra rb in
  let! t := reg_term KV rw s_one s_zero RRidge in ret (s_add (s_mul c h) t).
Definition c_hingewm ra rb (rw : option loc) (c : F) : M F F :=
  let! h := c_hinge KM ra rb in
  let! t := reg_term KV None s_one s_zero RRidge in ret (s_add (s_mul c h) t).

(** ** Dispatch by enum: 700-790 [run_cost_norm_vector], [run_cost_norm_matrix], [run_cost_deriv_vector],
    [run_cost_deriv_matrix] (and the function-pointer tables 610-698, which list the same functions). *)
Inductive costfn := MSE | RMSE | MAE | MBE | LOGISTIC_LOSS | CROSS_ENTROPY | HINGE_LOSS | WASSERSTEIN_LOSS.
Definition run_cost_norm k (c : costfn) ra rb : M F F :=
  match c with
  | MSE => c_mse k ra rb
  | RMSE => match k with KV => c_rmsev ra rb | KM => c_rmsem ra rb end
  | MAE => c_mae k ra rb
  | MBE => c_mbe k ra rb
  | LOGISTIC_LOSS => c_log_loss k ra rb
  | CROSS_ENTROPY => c_cross_entropy k ra rb
  | HINGE_LOSS => c_hinge k ra rb
  | WASSERSTEIN_LOSS => c_wasserstein k ra rb
  end.
Definition run_cost_deriv k (c : costfn) ra rb : M F (option loc) :=
  match c with
  | MSE => d_mse k ra rb
  | RMSE => d_rmse k ra rb
  | MAE => d_mae k ra rb
  | MBE => d_mbe k ra rb
  | LOGISTIC_LOSS => d_log_loss k ra rb
  | CROSS_ENTROPY => d_cross_entropy k ra rb
  | HINGE_LOSS => d_hinge k ra rb
  | WASSERSTEIN_LOSS => d_wasserstein k ra rb
  end.

(** ** dual_form_svm *)
(** lin_alg.cpp 118-151 [matmultnm]: null tests, then the body of MLPPMatrix::multn. *)
Definition la_matmult ra rb : M F (option loc) :=
  match ra, rb with Some a, Some b => m_multn a (Some b) | _, _ => ret None end.
(** lin_alg.cpp 244-261 [transposenm]: MLPPMatrix::transposen on a dereferenced argument. *)
Definition la_transpose ra : M F (option loc) := let! a := deref ra in let! o := m_transposen a in ret (Some o).
(** lin_alg.cpp 1442-1457 [dotnv]. *)
Definition la_dot ra rb : M F F := let! a := deref ra in let! b := deref rb in v_dot a (Some b).
(** lin_alg.cpp 1698-1724 [mat_vec_multnv]: null tests, then MLPPMatrix::mult_vec. *)
Definition la_mat_vec ra rb : M F (option loc) :=
  match ra, rb with Some a, Some b => m_mult_vec a (Some b) | _, _ => ret None end.
(** 578-583, 598-603: Q = Y^T (X X^T) Y with Y = diag(y).  The locals Y and K live until the function returns. *)
Definition dual_q rx ry : M F (loc * option loc * option loc) :=
  let! y := deref ry in
  let! dy := v_diagnm y in
  let! xt := la_transpose rx in
  let! kk := la_matmult rx xt in drop_ref true xt ;;;
  let! yt := la_transpose (Some dy) in
  let! t := la_matmult yt kk in drop_ref true yt ;;;
  let! q := la_matmult t (Some dy) in drop_ref true t ;;;
  ret (dy, kk, q).
(** 578-596 [dual_form_svm]. *)
Definition c_dual_form_svm ralpha rx ry : M F F :=
  let! s := dual_q rx ry in let '(dy, kk, q) := s in
  let! am := m_new in
  let! al := deref ralpha in
  let! n := v_size al in
  m_resize am (n, 1) ;;;
  m_row_set_vec am 0 (Some al) ;;;
  let! t1 := la_matmult (Some am) q in
  let! t2 := la_transpose (Some am) in
  let! res := la_matmult t1 t2 in drop_ref true t1 ;;; drop_ref true t2 ;;;
  let! rl := deref res in
  let! aq := m_get rl 0 0 in
  let! one := v_full n s_one in
  let! d := la_dot (Some one) (Some al) in
  del_obj one ;;; del_obj rl ;;; del_obj am ;;; drop_ref true q ;;; drop_ref true kk ;;; del_obj dy ;;;
  ret (s_add (s_opp d) (s_mul s_half aq)).
(** 598-608 [dual_form_svm_deriv]. *)
Definition d_dual_form_svm ralpha rx ry : M F (option loc) :=
  let! s := dual_q rx ry in let '(dy, kk, q) := s in
  let! aq := la_mat_vec q ralpha in
  let! al := deref ralpha in
  let! n := v_size al in
  let! one := v_full n s_one in
  let! o := la2 KV s_sub aq (Some one) in
  del_obj one ;;; drop_ref true aq ;;; drop_ref true q ;;; drop_ref true kk ;;; del_obj dy ;;;
  ret o.
End cost.
