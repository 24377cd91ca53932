(** * Regression with a link function and squared error: /repo/modules/c_log_log_reg/c_log_log_reg.cpp ("cll"),
    /repo/modules/tanh_reg/tanh_reg.cpp ("tanh"), /repo/modules/probit_reg/probit_reg.cpp ("probit").  Proof-free file.

    The three classes have the same members as [Glm.glm] and one more, [_z]; a method is modelled once, with the class as a
    parameter, and its comment cites the files.

    Simplifications: those of [Glm] (members in a record, ui = false, draws are parameters, the object holds the only reference
    to _weights, _z and _y_hat: data_weights_get etc. are not called during training).  MLPPCLogLogReg has members _n and _k set
    by the constructor; the other two read the size of _input_set ([l_rows]).  All arithmetic is done in real_t (the C++
    compiler evaluates the expressions with Math_PI in double).  MLPPProbitReg::train_mbgd is not modelled: it assigns a real_t
    to a Ref<MLPPVector>. *)
From Verif Require Import Base Vec Mat Act Cost Stat Util Glm.

Section lnk.
Context {F : Type} `{Scalar F} `{Libm F}.
Implicit Types (l : loc) (r rx ry : option loc).

Inductive lcls := CLogLog | Tanh | Probit.
Record lnk := Lnk { l_g : glm (F := F); l_z : option loc }.
Definition l_setg (o : lnk) g := Lnk g (l_z o).

(** The activation functions used: avn.cloglog_normr / normv / derivv, avn.tanh_*, avn.gaussian_cdf_*. *)
Definition norm_r (c : lcls) : F -> F := match c with CLogLog => cloglog_normr | Tanh => tanh_normr | Probit => gaussian_cdf_normr end.
Definition norm_v (c : lcls) : aexp := match c with CLogLog => cloglog_norm_e KV | Tanh => tanh_norm_e KV | Probit => gaussian_cdf_norm_e KV end.
Definition deriv_v (c : lcls) : aexp := match c with CLogLog => cloglog_deriv_e KV | Tanh => tanh_deriv_e KV | Probit => gaussian_cdf_deriv_e KV end.

(** [_n] (cll) or [_input_set->size().y]. *)
Definition l_rows (c : lcls) (o : lnk) : M F Z :=
  match c with
  | CLogLog => ret (g_n (l_g o))
  | _ => let! x := deref (g_x (l_g o)) in let! s := m_size x in ret s.2
  end.

(** tanh 115-136, probit 334-355 [needs_init]; cll has no such check. *)
Definition needs_init (c : lcls) (o : lnk) : M F bool :=
  match c with
  | CLogLog => ret false
  | _ =>
    match g_x (l_g o), g_y (l_g o) with
    | Some x, Some _ =>
      let! s := m_size x in
      let! yh := deref (g_yh (l_g o)) in
      let! a := v_size yh in
      if negb (a =? s.2) then ret true else
      let! w := deref (g_w (l_g o)) in
      let! b := v_size w in
      ret (negb (b =? s.1))
    | _, _ => ret true
    end
  end.

(** cll 278-280, 288-290, tanh 377-379, 387-389, probit 415-417, 425-427 [propagatev], [propagatem]. *)
Definition propagatev (o : lnk) rx : M F F :=
  let! w := deref (g_w (l_g o)) in
  let! d := v_dot w rx in
  ret (s_add d (g_b (l_g o))).
Definition propagatem (o : lnk) rx : M F (option loc) := propagate (g_w (l_g o)) (g_b (l_g o)) rx.
(** cll 272-276, 282-286, tanh 371-375, 381-385, probit 409-413, 419-423 [evaluatev], [evaluatem]. *)
Definition l_evaluatev (c : lcls) (o : lnk) rx : M F F := let! z := propagatev o rx in ret (norm_r c z).
Definition l_evaluatem (c : lcls) (o : lnk) rx : M F (option loc) :=
  let! z := propagatem o rx in
  let! a := run_exp (norm_v c) z in
  drop_ref true z ;;; ret a.
(** cll 39-45, tanh 153-163, probit 115-125 [model_set_test], [model_test]. *)
Definition l_model_set_test (c : lcls) (o : lnk) rx : M F (option loc) :=
  let! b := needs_init c o in if b then ret None else l_evaluatem c o rx.
Definition l_model_test (c : lcls) (o : lnk) rx : M F F :=
  let! b := needs_init c o in if b then ret s_zero else l_evaluatev c o rx.
(** cll 265-270, tanh 364-369, probit 402-407 [cost]: msev + reg_termv, as for linear regression. *)
Definition l_cost (o : lnk) ra rb : M F F := g_cost Lin (l_g o) ra rb.
(** cll 293-298, tanh 392-397, probit 430-435 [forward_pass]. *)
Definition l_forward (c : lcls) (o : lnk) : M F lnk :=
  let! z := propagatem o (g_x (l_g o)) in
  drop_ref true (l_z o) ;;;
  let! a := run_exp (norm_v c) z in
  drop_ref true (g_yh (l_g o)) ;;;
  ret (Lnk (set_yh (l_g o) a) z).

(** [error->hadamard_productn(avn.deriv(z))]. *)
Definition slope (c : lcls) re rz : M F (option loc) :=
  let! d := run_exp (deriv_v c) rz in
  let! p := vope s_mul re d in
  free d ;;; ret p.
(** The update from the error vector [re], the data [rx], and the inputs [rz1], [rz2] of the two derivative vectors:
    [_weights->op(X->transposen()->mult_vec(error->hadamard_productn(deriv(z1)))->scalar_multiplyn(lr / n)); reg; bias op= lr *
    error->hadamard_productn(deriv(z2))->sum_elements() / n]. *)
Definition l_update (c : lcls) (op : F -> F -> F) (lr : F) rx re rz1 rz2 (o : lnk) : M F lnk :=
  let! p := slope c re rz1 in
  let! g := xt_vec rx p in
  free p ;;;
  let! n := l_rows c o in
  let! g' := upd_weights op (s_div lr (s_of_Z n)) g (l_g o) in
  let! p := slope c re rz2 in
  let! p' := deref p in
  let! s := v_sum p' in
  free p ;;;
  ret (l_setg o (set_b g' (op (g_b g') (s_div (s_mul lr s) (s_of_Z n))))).

(** cll 47-82, tanh 165-204, probit 127-163 [gradient_descent] ([mle] false), and [mle]: cll 84-117 (error = y_hat - y, added),
    probit 165-201 (error = y - y_hat, added).  MLPPTanhReg has no mle. *)
Definition l_gd_epoch (c : lcls) (mle : bool) (lr : F) (o : lnk) : M F lnk :=
  let! _ := l_cost o (g_yh (l_g o)) (g_y (l_g o)) in
  let! e := match c, mle with
    | Probit, true => vop s_sub (g_y (l_g o)) (g_yh (l_g o))
    | _, _ => vop s_sub (g_yh (l_g o)) (g_y (l_g o))
    end in
  let! o := l_update c (if mle then s_add else s_sub) lr (g_x (l_g o)) e (l_z o) (l_z o) o in
  let! o := l_forward c o in
  free e ;;; ret o.
Definition l_gradient_descent (c : lcls) (mle : bool) (lr : F) (max : Z) (o : lnk) : M F lnk :=
  let! b := needs_init c o in
  if b then ret o else
  let! o := l_forward c o in
  train (fun _ => l_gd_epoch c mle lr) max o.

(** The factor of the error in [sgd]: cll 160-164 [exp(z - exp(z))], tanh 247-251 [1 - y_hat * y_hat], probit 246-250. *)
Definition sgd_slope (c : lcls) (z yh : F) : F :=
  match c with
  | CLogLog => s_exp (s_sub z (s_exp z))
  | Tanh => s_sub s_one (s_mul yh yh)
  | Probit => s_mul (s_div s_one (s_sqrt (s_mul s_two m_pi))) (s_exp (s_div (s_mul (s_opp z) z) s_two))
  end.
(** cll 119-182, tanh 206-269, probit 203-267 [sgd]; [idx epoch] is the index drawn.  MLPPTanhReg calls [_weights->subn(..)],
    whose result is discarded: the weights are only regularised. *)
Definition l_sgd_epoch (c : lcls) (lr : F) (idx : Z -> Z) (row yt ot : loc) (epoch : Z) (o : lnk) : M F lnk :=
  let i := idx epoch in
  let! x := deref (g_x (l_g o)) in
  m_row_get_into x i (Some row) ;;;
  let! y := deref (g_y (l_g o)) in
  let! oe := v_get y i in
  v_set ot 0 oe ;;;
  let! yh := l_evaluatev c o (Some row) in
  v_set yt 0 yh ;;;
  let! z := propagatev o (Some row) in
  let! _ := l_cost o (Some yt) (Some ot) in
  let t := s_mul (s_mul lr (s_sub yh oe)) (sgd_slope c z yh) in
  let! d := v_scalar_multiplyn t row in
  let! w := deref (g_w (l_g o)) in
  (match c with
   | Tanh => let! u := v_subn w (Some d) in drop_ref true u
   | _ => v_sub w (Some d)
   end) ;;;
  del_obj d ;;;
  let! w' := reg_weights KV (Some w) (g_la (l_g o)) (g_al (l_g o)) (g_reg (l_g o)) in
  del_obj w ;;;
  let o := l_setg o (set_b (set_w (l_g o) w') (s_sub (g_b (l_g o)) t)) in
  let! _ := l_evaluatev c o (Some row) in
  ret o.
Definition l_sgd (c : lcls) (lr : F) (max : Z) (idx : Z -> Z) (o : lnk) : M F lnk :=
  let! b := needs_init c o in
  if b then ret o else
  let! o := (match c with CLogLog => l_forward c o | _ => ret o end) in
  let! row := v_new in
  let! x := deref (g_x (l_g o)) in
  let! s := m_size x in
  v_resize row s.1 ;;;
  let! yt := v_new in v_resize yt 1 ;;;
  let! ot := v_new in v_resize ot 1 ;;;
  let! o := train (l_sgd_epoch c lr idx row yt ot) max o in
  let! o := l_forward c o in
  del_obj ot ;;; del_obj yt ;;; del_obj row ;;;
  ret o.

(** cll 184-231, tanh 271-324 [mbgd].  The bias gradient uses the z of the batch (cll) or the member _z (tanh). *)
Definition l_mb_step (c : lcls) (lr : F) (b : loc * loc) (o : lnk) : M F lnk :=
  let '(bi, bo) := b in
  let! y := l_evaluatem c o (Some bi) in
  let! z := propagatem o (Some bi) in
  let! _ := l_cost o y (Some bo) in
  let! e := vop s_sub y (Some bo) in
  let! o := l_update c s_sub lr (Some bi) e z (match c with Tanh => l_z o | _ => z end) o in
  let! o := l_forward c o in
  let! y2 := l_evaluatem c o (Some bi) in
  free y ;;; free y2 ;;; free e ;;; free z ;;;
  ret o.
Definition l_mbgd (c : lcls) (lr : F) (max size : Z) (o : lnk) : M F lnk :=
  let! b := needs_init c o in
  if b then ret o else
  let! n := l_rows c o in
  let! nb := idiv n size in
  let! bs := mini_batches_mv (g_x (l_g o)) (g_y (l_g o)) nb in
  let! o := train (fun _ => over_batches (l_mb_step c lr) bs) max o in
  let! o := l_forward c o in
  del_batches bs ;;;
  ret o.

(** cll 233-237, tanh 326-333, probit 326-332 [score]. *)
Definition l_score (c : lcls) (rnd : F -> F) (o : lnk) : M F F :=
  let! b := needs_init c o in if b then ret s_zero else performance_vec rnd (g_yh (l_g o)) (g_y (l_g o)).

(** tanh 138-151, probit 357-370 [initialize]; [iw], [ib] are the drawn initial weights and bias. *)
Definition l_initialize (iw : Z -> F) (ib : F) (o : lnk) : M F lnk :=
  match g_x (l_g o), g_y (l_g o) with
  | Some x, Some _ =>
    let! s := m_size x in
    let! yh := deref (g_yh (l_g o)) in
    v_resize yh s.2 ;;;
    let! w := deref (g_w (l_g o)) in
    v_resize w s.1 ;;;
    let! n := v_size w in
    for_ 0 n (fun i => v_set w i (iw i)) ;;;
    ret (l_setg o (set_b (l_g o) ib))
  | _, _ => ret o
  end.
(** Constructors: cll 239-258 (no _z: the reference is null), tanh 335-349, probit 372-386. *)
Definition l_new (c : lcls) rx ry (reg : regtype) (lambda alpha : F) (iw : Z -> F) (ib : F) : M F lnk :=
  match c with
  | CLogLog => let! g := g_new Log rx ry reg lambda alpha iw ib in ret (Lnk g None)
  | _ =>
    let! z := v_new in
    let! yh := v_new in
    let! w := v_new in
    l_initialize iw ib (Lnk (Glm rx ry (Some yh) (Some w) s_zero 0 0 reg lambda alpha true) (Some z))
  end.
(** tanh 50-52, probit 50-52 [set_output_set].  In MLPPTanhReg the argument is a Ref<MLPPMatrix> and the member a
    Ref<MLPPVector>: the assignment casts the object, which gives null for every matrix (sfw.h, Ref::operator=). *)
Definition l_set_output_set (c : lcls) r (o : lnk) : lnk :=
  let r := match c with Tanh => None | _ => r end in
  let g := l_g o in
  l_setg o (Glm (g_x g) r (g_yh g) (g_w g) (g_b g) (g_n g) (g_k g) (g_reg g) (g_la g) (g_al g) (g_init g)).
(** tanh 43-45, probit 43-45 [set_input_set]. *)
Definition l_set_input_set rx (o : lnk) : lnk :=
  let g := l_g o in
  l_setg o (Glm rx (g_y g) (g_yh g) (g_w g) (g_b g) (g_n g) (g_k g) (g_reg g) (g_la g) (g_al g) (g_init g)).
End lnk.
Arguments lnk : clear implicits.
