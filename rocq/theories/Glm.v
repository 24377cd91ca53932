(** * Linear and logistic regression: /repo/modules/lin_reg/lin_reg.cpp ("lin") and /repo/modules/log_reg/log_reg.cpp ("log").
    Proof-free file.

    The two classes have the same members and, up to the link function and the cost, the same methods; a method is modelled
    once, with the class as a parameter, and its comment cites both files.

    Simplifications.
    - The members of the object are a record passed in and returned; the vectors and matrices they refer to are in the heap.
      [_y_hat] and [_weights] are never handed out, so the object holds the only reference to them and assigning the member
      destroys the old vector.
    - [ui] is false (it only prints).  [save] does nothing in either class.
    - std::random_device / uniform_int_distribution: the drawn indices are a parameter (a sequence of integers), and so are the
      values drawn by weight_initializationv / bias_initializationr.
    - Temporaries are destroyed after their last use, left-to-right evaluation (as in [Act]). *)
From Verif Require Import Base Vec Mat Act Cost Stat Util.

Section glm.
Context {F : Type} `{Scalar F} `{Libm F}.
Implicit Types (l : loc) (r rx ry rw : option loc).

Inductive cls := Lin | Log.

(** lin_reg.h:104-122, log_reg.h:96-114. *)
Record glm := Glm {
  g_x : option loc; g_y : option loc; g_yh : option loc; g_w : option loc; g_b : F;
  g_n : Z; g_k : Z; g_reg : regtype; g_la : F; g_al : F; g_init : bool }.
Definition set_yh (o : glm) r := Glm (g_x o) (g_y o) r (g_w o) (g_b o) (g_n o) (g_k o) (g_reg o) (g_la o) (g_al o) (g_init o).
Definition set_w (o : glm) r := Glm (g_x o) (g_y o) (g_yh o) r (g_b o) (g_n o) (g_k o) (g_reg o) (g_la o) (g_al o) (g_init o).
Definition set_b (o : glm) (b : F) := Glm (g_x o) (g_y o) (g_yh o) (g_w o) b (g_n o) (g_k o) (g_reg o) (g_la o) (g_al o) (g_init o).

(** [X->mult_vec(w)->scalar_addn(b)]. *)
Definition propagate rw (b : F) rx : M F (option loc) :=
  let! x := deref rx in
  let! t := m_mult_vec x rw in
  let! t' := deref t in
  let! z := v_scalar_addn b t' in
  del_obj t' ;;;
  ret (Some z).
(** lin 777-779, log 349-353 [evaluatem]. *)
Definition evaluatem (c : cls) (o : glm) rx : M F (option loc) :=
  let! z := propagate (g_w o) (g_b o) rx in
  match c with
  | Lin => ret z
  | Log => let! a := run_exp (sigmoid_norm_e KV) z in drop_ref true z ;;; ret a
  end.
(** lin 773-775, log 343-347 [evaluatev]. *)
Definition evaluatev (c : cls) (o : glm) rx : M F F :=
  let! w := deref (g_w o) in
  let! d := v_dot w rx in
  ret (match c with Lin => s_add d (g_b o) | Log => sigmoid_normr (s_add d (g_b o)) end).
(** lin 87-97, log 86-98 [model_set_test], [model_test]. *)
Definition model_set_test (c : cls) (o : glm) rx : M F (option loc) := if g_init o then evaluatem c o rx else ret None.
Definition model_test (c : cls) (o : glm) rx : M F F := if g_init o then evaluatev c o rx else ret s_zero.
(** lin 766-771, log 336-341 [cost]. *)
Definition g_cost (c : cls) (o : glm) ra rb : M F F :=
  let! v := match c with Lin => c_mse KV ra rb | Log => c_log_loss KV ra rb end in
  let! t := reg_term KV (g_w o) (g_la o) (g_al o) (g_reg o) in
  ret (s_add v t).
(** lin 782-784, log 356-358 [forward_pass]. *)
Definition forward_pass (c : cls) (o : glm) : M F glm :=
  let! y := evaluatem c o (g_x o) in
  drop_ref true (g_yh o) ;;;
  ret (set_yh o y).

(** [while (true) { body; epoch++; if (epoch > max_epoch) break; }]; the increment overflows at INT_MAX. *)
Fixpoint epochs {A} (fuel : nat) (body : Z -> A -> M F A) (epoch max : Z) (s : A) : M F A :=
  match fuel with
  | O => nofuel
  | S fuel => let! s := body epoch s in
    let! e := chk (epoch + 1) in
    if max <? e then ret s else epochs fuel body e max s
  end.
Definition train {A} (body : Z -> A -> M F A) (max : Z) (s : A) : M F A := epochs (S (Z.to_nat max)) body 1 max s.

(** [X->transposen()->mult_vec(e)]. *)
Definition xt_vec rx re : M F (option loc) :=
  let! x := deref rx in
  let! t := m_transposen x in
  let! g := m_mult_vec t re in
  del_obj t ;;; ret g.
(** [_weights->sub(g->scalar_multiplyn(s)); _weights = regularization.reg_weightsv(_weights, ...)]
    ([op] is [s_sub] for sub, [s_add] for add); [g] is a temporary. *)
Definition upd_weights (op : F -> F -> F) (s : F) (g : option loc) (o : glm) : M F glm :=
  let! g' := deref g in
  let! d := v_scalar_multiplyn s g' in
  let! w := deref (g_w o) in
  v_op2 op w (Some d) ;;;
  del_obj d ;;; del_obj g' ;;;
  let! w' := reg_weights KV (Some w) (g_la o) (g_al o) (g_reg o) in
  del_obj w ;;;
  ret (set_w o w').

(** lin 145-184, log 100-137 [gradient_descent]. *)
Definition gd_epoch (c : cls) (lr : F) (o : glm) : M F glm :=
  let! _ := g_cost c o (g_yh o) (g_y o) in
  let! yh := deref (g_yh o) in
  let! e := v_subn yh (g_y o) in
  let! g := xt_vec (g_x o) e in
  let! o := upd_weights s_sub (s_div lr (s_of_Z (g_n o))) g o in
  let! e' := deref e in
  let! s := v_sum e' in
  let! o := forward_pass c (set_b o (s_sub (g_b o) (s_div (s_mul lr s) (s_of_Z (g_n o))))) in
  del_obj e' ;;; ret o.
Definition gradient_descent (c : cls) (lr : F) (max : Z) (o : glm) : M F glm :=
  if negb (g_init o) then ret o else
  let! o := forward_pass c o in
  train (fun _ => gd_epoch c lr) max o.

(** log 139-176 [mle]. *)
Definition mle_epoch (lr : F) (o : glm) : M F glm :=
  let! _ := g_cost Log o (g_yh o) (g_y o) in
  let! y := deref (g_y o) in
  let! e := v_subn y (g_yh o) in
  let! g := xt_vec (g_x o) e in
  let! o := upd_weights s_add (s_div lr (s_of_Z (g_n o))) g o in
  let! e' := deref e in
  let! s := v_sum e' in
  let! o := forward_pass Log (set_b o (s_add (g_b o) (s_div (s_mul lr s) (s_of_Z (g_n o))))) in
  del_obj e' ;;; ret o.
Definition mle (lr : F) (max : Z) (o : glm) : M F glm :=
  if negb (g_init o) then ret o else
  let! o := forward_pass Log o in
  train (fun _ => mle_epoch lr) max o.

(** lin 99-143 [newton_raphson]. *)
Definition newton_epoch (lr : F) (o : glm) : M F glm :=
  let! _ := g_cost Lin o (g_yh o) (g_y o) in
  let! yh := deref (g_yh o) in
  let! e := v_subn yh (g_y o) in
  let! g1 := xt_vec (g_x o) e in
  let! x := deref (g_x o) in
  let! xt := m_transposen x in
  let! sd := m_multn xt (g_x o) in
  del_obj xt ;;;
  let! sd' := deref sd in
  let! iv := m_inverse sd' in
  let! it := m_transposen iv in
  let! t := m_mult_vec it g1 in
  del_obj it ;;; del_obj iv ;;;
  let! o := upd_weights s_sub (s_div lr (s_of_Z (g_n o))) t o in
  let! e' := deref e in
  let! s := v_sum e' in
  let! o := forward_pass Lin (set_b o (s_sub (g_b o) (s_div (s_mul lr s) (s_of_Z (g_n o))))) in
  drop_ref true g1 ;;; del_obj sd' ;;; del_obj e' ;;; ret o.
Definition newton_raphson (lr : F) (max : Z) (o : glm) : M F glm :=
  if negb (g_init o) then ret o else
  let! o := forward_pass Lin o in
  train (fun _ => newton_epoch lr) max o.

(** lin 186-250, log 178-240 [sgd]; [idx epoch] is the index drawn in that epoch.  (Lin stores the target, not the prediction,
    in the one-element vector passed to [cost]; the cost is not used.) *)
Definition sgd_epoch (c : cls) (lr : F) (idx : Z -> Z) (row yt ot : loc) (epoch : Z) (o : glm) : M F glm :=
  let i := idx epoch in
  let! x := deref (g_x o) in
  m_row_get_into x i (Some row) ;;;
  let! y := deref (g_y o) in
  let! oe := v_get y i in
  v_set ot 0 oe ;;;
  let! yh := evaluatev c o (Some row) in
  v_set yt 0 (match c with Lin => oe | Log => yh end) ;;;
  let! _ := g_cost c o (Some yt) (Some ot) in
  let e := s_sub yh oe in
  let! d := v_scalar_multiplyn (s_mul lr e) row in
  let! w := deref (g_w o) in
  v_sub w (Some d) ;;;
  del_obj d ;;;
  let! w' := reg_weights KV (Some w) (g_la o) (g_al o) (g_reg o) in
  del_obj w ;;;
  let o := set_b (set_w o w') (s_sub (g_b o) (s_mul lr e)) in
  let! _ := evaluatev c o (Some row) in
  ret o.
Definition sgd (c : cls) (lr : F) (max : Z) (idx : Z -> Z) (o : glm) : M F glm :=
  if negb (g_init o) then ret o else
  let! row := v_new in
  let! x := deref (g_x o) in
  let! s := m_size x in
  v_resize row s.1 ;;;
  let! yt := v_new in v_resize yt 1 ;;;
  let! ot := v_new in v_resize ot 1 ;;;
  let! o := train (sgd_epoch c lr idx row yt ot) max o in
  let! o := forward_pass c o in
  del_obj ot ;;; del_obj yt ;;; del_obj row ;;;
  ret o.

(** lin 252-296, log 242-285 [mbgd]. *)
Definition mb_step (c : cls) (lr : F) (b : loc * loc) (o : glm) : M F glm :=
  let '(bi, bo) := b in
  let! y := evaluatem c o (Some bi) in
  let! _ := g_cost c o y (Some bo) in
  let! y' := deref y in
  let! e := v_subn y' (Some bo) in
  let! g := xt_vec (Some bi) e in
  let! m := v_size bo in
  let! o := upd_weights s_sub (s_div lr (s_of_Z m)) g o in
  let! e' := deref e in
  let! s := v_sum e' in
  let o := set_b o (s_sub (g_b o) (s_div (s_mul lr s) (s_of_Z m))) in
  let! y2 := evaluatem c o (Some bi) in
  del_obj y' ;;; drop_ref true y2 ;;; del_obj e' ;;;
  ret o.
Fixpoint over_batches {A} (step : loc * loc -> A -> M F A) (bs : list (loc * loc)) (s : A) : M F A :=
  match bs with [] => ret s | b :: bs => let! s := step b s in over_batches step bs s end.
Fixpoint del_batches (bs : list (loc * loc)) : M F unit :=
  match bs with [] => ret tt | b :: bs => del_obj b.1 ;;; del_obj b.2 ;;; del_batches bs end.
(** [int n_mini_batch = _n / mini_batch_size; create_mini_batchesmv(_input_set, _output_set, n_mini_batch)], the epoch loop
    over all batches, the final forward pass. *)
Definition with_batches {A} (c : cls) (size max : Z) (o : glm) (s0 : A) (step : Z -> loc * loc -> glm * A -> M F (glm * A)) : M F (glm * A) :=
  let! nb := idiv (g_n o) size in
  let! bs := mini_batches_mv (g_x o) (g_y o) nb in
  let! p := train (fun epoch => over_batches (step epoch) bs) max (o, s0) in
  let! o := forward_pass c p.1 in
  del_batches bs ;;;
  ret (o, p.2).
Definition mbgd (c : cls) (lr : F) (max size : Z) (o : glm) : M F glm :=
  if negb (g_init o) then ret o else
  let! p := with_batches c size max o tt (fun _ b p => let! o := mb_step c lr b p.1 in ret (o, tt)) in
  ret p.1.

(** *** The adaptive optimisers of linear regression.
    Elementwise operations on (possibly null) references: [X->op(..)], the operands are kept. *)
Definition vmap (f : F -> F) r : M F (option loc) := let! l := deref r in let! z := v_mapn f l in ret (Some z).
Definition vop (f : F -> F -> F) ra rb : M F (option loc) := let! a := deref ra in v_op2n f a rb.
Definition vope (f : F -> F -> F) ra rb : M F (option loc) := let! a := deref ra in v_op2n_early f a rb.
(** The value of [x] is no longer needed: a temporary dies, or a Ref variable is overwritten. *)
Definition free r : M F unit := drop_ref true r.

(** [v->scalar_multiplyn(a)->addn(g->scalar_multiplyn(b))]. *)
Definition v_axpy (a : F) rv (b : F) rg : M F (option loc) :=
  let! p := vmap (fun x => s_mul x a) rv in
  let! q := vmap (fun x => s_mul x b) rg in
  let! z := vop s_add p q in
  free p ;;; free q ;;; ret z.
(** [_weights->sub(d->scalar_multiplyn(lr))], [d] a temporary. *)
Definition w_descend (lr : F) rw rd : M F unit :=
  let! q := vmap (fun x => s_mul x lr) rd in
  let! w := deref rw in
  v_sub w q ;;;
  free rd ;;; free q.

Inductive opt :=
  | Momentum (gamma : F)          (* lin 298-345 *)
  | Nag (gamma : F)               (* lin 347-395 *)
  | Adagrad (e : F)               (* lin 397-442 *)
  | Adadelta (b1 e : F)           (* lin 444-490 *)
  | Adam (b1 b2 e : F)            (* lin 492-543 *)
  | Adamax (b1 b2 : F)            (* lin 545-594; the argument e is not used *)
  | Nadam (b1 b2 e : F).          (* lin 596-650 *)

(** [1 / (1 - Math::pow(b, epoch))]. *)
Definition corr (b : F) (epoch : Z) : F := s_div s_one (s_sub s_one (s_pow b (s_of_Z epoch))).

(** The update of the moment vectors [m], [v] and of the weights from the gradient [g]; the result is the new [(m, v)].
    [Momentum], [Nag], [Adagrad], [Adadelta] have no [m]; [Adamax] keeps its [u] in [v]. *)
Definition opt_update (k : opt) (lr : F) (epoch : Z) rw rg (s : option loc * option loc) : M F (option loc * option loc) :=
  let '(m, v) := s in
  match k with
  | Momentum gamma | Nag gamma =>
    let! v' := v_axpy gamma v lr rg in
    free v ;;;
    let! w := deref rw in
    v_sub w v' ;;;
    ret (m, v')
  | Adagrad e =>
    let! v' := vope s_mul rg rg in
    free v ;;;
    let! a := vmap (fun x => s_add x e) v' in
    let! b := vmap s_sqrt a in
    let! d := vope s_div rg b in
    free a ;;; free b ;;;
    w_descend lr rw d ;;;
    ret (m, v')
  | Adadelta b1 e =>
    let! q := vope s_mul rg rg in
    let! v' := v_axpy b1 v (s_sub s_one b1) q in
    free q ;;; free v ;;;
    let! a := vmap (fun x => s_add x e) v' in
    let! b := vmap s_sqrt a in
    let! d := vope s_div rg b in
    free a ;;; free b ;;;
    w_descend lr rw d ;;;
    ret (m, v')
  | Adam b1 b2 e =>
    let! m' := v_axpy b1 m (s_sub s_one b1) rg in
    free m ;;;
    let! q := vmap (fun x => s_pow x s_two) rg in
    let! v' := v_axpy b2 v (s_sub s_one b2) q in
    free q ;;; free v ;;;
    let! mh := vmap (fun x => s_mul x (corr b1 epoch)) m' in
    let! vh := vmap (fun x => s_mul x (corr b2 epoch)) v' in
    let! a := vmap s_sqrt vh in
    let! b := vmap (fun x => s_add x e) a in
    let! d := vope s_div mh b in
    free a ;;; free b ;;;
    w_descend lr rw d ;;;
    free mh ;;; free vh ;;;
    ret (m', v')
  | Adamax b1 b2 =>
    let! m' := v_axpy b1 m (s_sub s_one b1) rg in
    free m ;;;
    let! p := vmap (fun x => s_mul x b2) v in
    let! q := vmap s_abs rg in
    let! v' := vop s_max p q in
    free p ;;; free q ;;; free v ;;;
    let! mh := vmap (fun x => s_mul x (corr b1 epoch)) m' in
    let! d := vope s_div mh v' in
    w_descend lr rw d ;;;
    free mh ;;;
    ret (m', v')
  | Nadam b1 b2 e =>
    let! m' := v_axpy b1 m (s_sub s_one b1) rg in
    free m ;;;
    let! q := vmap (fun x => s_pow x s_two) rg in
    let! v' := v_axpy b2 v (s_sub s_one b2) q in
    free q ;;; free v ;;;
    let! mf := v_axpy b1 m' (s_div (s_sub s_one b1) (s_sub s_one (s_pow b1 (s_of_Z epoch)))) rg in
    let! mh := vmap (fun x => s_mul x (corr b1 epoch)) m' in
    let! vh := vmap (fun x => s_mul x (corr b2 epoch)) v' in
    let! a := vmap s_sqrt vh in
    let! b := vmap (fun x => s_add x e) a in
    let! d := vope s_div mf b in
    free a ;;; free b ;;;
    w_descend lr rw d ;;;
    free mh ;;; free vh ;;; free mf ;;;
    ret (m', v')
  end.

(** One mini-batch of an adaptive optimiser, lin 312-336 and the same lines of the others.
    [1 / current_output_mini_batch->size()] is an integer division. *)
Definition opt_batch (k : opt) (lr : F) (epoch : Z) (b : loc * loc) (p : glm * (option loc * option loc)) : M F (glm * (option loc * option loc)) :=
  let '(bi, bo) := b in
  let '(o, s) := p in
  (match k with
   | Nag gamma => let! q := vmap (fun x => s_mul x gamma) s.2 in let! w := deref (g_w o) in v_sub w q ;;; free q
   | _ => ret tt
   end) ;;;
  let! y := evaluatem Lin o (Some bi) in
  let! _ := g_cost Lin o y (Some bo) in
  let! y' := deref y in
  let! e := v_subn y' (Some bo) in
  let! m := v_size bo in
  let! inv := idiv 1 m in
  let! g0 := xt_vec (Some bi) e in
  let! g1 := vmap (fun x => s_mul x (s_of_Z inv)) g0 in
  free g0 ;;;
  let! rd := reg_deriv_term KV (g_w o) (g_la o) (g_al o) (g_reg o) in
  let! g := vop s_add g1 rd in
  let! s' := opt_update k lr epoch (g_w o) g s in
  let! e' := deref e in
  let! t := v_sum e' in
  let o' := set_b o (s_sub (g_b o) (s_div (s_mul lr t) (s_of_Z m))) in
  let! y2 := evaluatem Lin o' (Some bi) in
  free y ;;; free y2 ;;; free e ;;; free g1 ;;; free rd ;;; free g ;;;
  ret (o', s').
(** lin 298-650: [momentum], [nag], [adagrad], [adadelta], [adam], [adamax], [nadam].  (nadam's third vector m_final is local to
    one mini-batch and is modelled in [opt_update]; the optimisers without [m] get an unused zero vector here.) *)
Definition adaptive (k : opt) (lr : F) (max size : Z) (o : glm) : M F glm :=
  if negb (g_init o) then ret o else
  let! nb := idiv (g_n o) size in
  let! bs := mini_batches_mv (g_x o) (g_y o) nb in
  let! w := deref (g_w o) in
  let! n := v_size w in
  let! m := v_vecn_zero n in
  let! v := v_vecn_zero n in
  let! p := train (fun epoch => over_batches (opt_batch k lr epoch) bs) max (o, (Some m, Some v)) in
  let! o := forward_pass Lin p.1 in
  free p.2.1 ;;; free p.2.2 ;;;
  del_batches bs ;;;
  ret o.

(** *** The normal equation *)
(** [(X^T X (+ lambda I))^-1 (X^T y)]. *)
Definition normal_w rx ry (ridge : option (Z * F)) : M F (option loc) :=
  let! x := deref rx in
  let! xt := m_transposen x in
  let! g := m_multn xt rx in
  let! g' := deref g in
  let! iv := match ridge with
    | None => m_inverse g'
    | Some (k, lambda) =>
      let! i := m_identity_mat k in
      let! li := m_scalar_multiplyn lambda i in
      let! a := m_addn g' (Some li) in
      let! a' := deref a in
      let! iv := m_inverse a' in
      del_obj a' ;;; del_obj li ;;; del_obj i ;;; ret iv
    end in
  let! t := xt_vec rx ry in
  let! w := m_mult_vec iv t in
  free t ;;; del_obj iv ;;; del_obj g' ;;; del_obj xt ;;;
  ret w.
(** Means of the columns of X: lin 686-696, [stat.meanv] of the rows of the transpose. *)
Definition column_means rx : M F loc :=
  let! x := deref rx in
  let! t := m_transposen x in
  let! s := m_size t in
  let! row := v_new in
  v_resize row s.1 ;;;
  let! mu := v_new in
  v_resize mu s.2 ;;;
  for_ 0 s.2 (fun i =>
    m_row_get_into t i (Some row) ;;;
    let! v := st_mean (Some row) in
    v_set mu i v) ;;;
  del_obj row ;;; del_obj t ;;;
  ret mu.
(** lin 676-718 [normal_equation]; Math::is_nan(x) is [x != x]. *)
Definition normal_equation (o : glm) : M F glm :=
  if negb (g_init o) then ret o else
  let! mu := column_means (g_x o) in
  let! t := normal_w (g_x o) (g_y o) None in
  let! t' := deref t in
  let! t0 := v_get t' 0 in
  if negb (s_eq t0 t0) then del_obj t' ;;; del_obj mu ;;; ret o else
  let! w := normal_w (g_x o) (g_y o) (match g_reg o with RRidge => Some (g_k o, g_la o) | _ => None end) in
  drop_ref true (g_w o) ;;;
  let! ym := st_mean (g_y o) in
  let! w' := deref w in
  let! d := v_dot w' (Some mu) in
  let! o := forward_pass Lin (set_b (set_w o w) (s_sub ym d)) in
  del_obj t' ;;; del_obj mu ;;;
  ret o.

(** lin 740-763, log 312-334, constructor; [iw], [ib] are the drawn initial weights and bias.  MLPPLinReg stores lambda and
    alpha in [int] members (lin_reg.h:118-119): the conversion truncates towards zero, and is undefined when out of range. *)
Definition to_member (c : cls) (x : F) : M F F :=
  match c with
  | Log => ret x
  | Lin => match m_to_int x with Some z => ret (s_of_Z z) | None => ub end
  end.
Definition g_new (c : cls) rx ry (reg : regtype) (lambda alpha : F) (iw : Z -> F) (ib : F) : M F glm :=
  let! x := deref rx in
  let! s := m_size x in
  let! la := to_member c lambda in
  let! al := to_member c alpha in
  let! yh := v_new in
  v_resize yh s.2 ;;;
  let! w := v_new in
  v_resize w s.1 ;;;
  let! n := v_size w in
  for_ 0 n (fun i => v_set w i (iw i)) ;;;
  ret (Glm rx ry (Some yh) (Some w) ib s.2 s.1 reg la al true).
(** lin 720-726, log 293-299 [score]. *)
Definition g_score (rnd : F -> F) (o : glm) : M F F := if g_init o then performance_vec rnd (g_yh o) (g_y o) else ret s_zero.
End glm.
