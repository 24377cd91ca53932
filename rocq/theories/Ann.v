(** * The feed-forward network: /repo/modules/ann/ann.cpp.  Proof-free file.

    Simplifications: as in [Layer].  The layers are owned by the network (no accessor hands them out), so they are records inside it.
    Prediction, score, cost and construction are modelled for any number of hidden layers; the training functions
    gradient_descent, sgd, mbgd (and compute_gradients, update_parameters) for a network without hidden layers, with [ui] false.
    momentum, adagrad, adadelta, adam, adamax, nadam, amsgrad, save and print_ui are not modelled. *)
From Verif Require Import Base Vec Mat Act Cost Util Glm Mlp Layer.

(** ann.h 60-66. *)
Inductive sched := SchedNone | SchedTime | SchedEpoch | SchedStep | SchedExp.

Section ann.
Context {F : Type} `{Scalar F} `{Libm F}.
Implicit Types (r rx ry : option loc).

(** ann.h 119-132. *)
Record ann := Ann {
  an_x : option loc; an_y : option loc; an_yh : option loc; an_net : list (hlayer F); an_out : option (olayer F);
  an_n : Z; an_k : Z; an_sched : sched; an_decay : F; an_drop : F }.
Definition an_put (o : ann) (net : list (hlayer F)) (out : olayer F) := Ann (an_x o) (an_y o) (an_yh o) net (Some out) (an_n o) (an_k o) (an_sched o) (an_decay o) (an_drop o).
Definition an_put_yh (o : ann) r := Ann (an_x o) (an_y o) r (an_net o) (an_out o) (an_n o) (an_k o) (an_sched o) (an_decay o) (an_drop o).
(** The raw draws available to one pass: per hidden layer, for the output weights, for the output bias. *)
Record draws := Draws { dr_h : nat -> Z -> F; dr_o : Z -> F; dr_b : F }.

(** The loop over the layers in ann.cpp 47-70 [model_set_test] and 853-876 [forward_pass]. *)
Fixpoint net_forward (raw : nat -> Z -> F) rx (ls : list (hlayer F)) : M F (list (hlayer F) * option loc) :=
  match ls with
  | [] => ret ([], rx)
  | l :: ls =>
    let! l' := hl_forward (raw 0%nat) (hl_set (SInput rx) l) in
    let! p := net_forward (fun i => raw (S i)) (hl_a l') ls in
    ret (l' :: p.1, p.2)
  end.
(** ann.cpp 47-70 [model_set_test]. *)
Definition an_model_set_test (d : draws) rx (o : ann) : M F (ann * option loc) :=
  let! p := net_forward (dr_h d) rx (an_net o) in
  match an_out o with
  | None => ub
  | Some out =>
    let! out' := ol_forward (dr_o d) (dr_b d) (ol_set (OInput p.2) out) in
    ret (an_put o p.1 out', ol_a out')
  end.
(** ann.cpp 853-876 [forward_pass]. *)
Definition an_forward (d : draws) (o : ann) : M F ann :=
  let! p := an_model_set_test d (an_x o) o in
  ret (an_put_yh p.1 p.2).
(** ann.cpp 72-91 [model_test]. *)
Fixpoint net_test (raw : nat -> Z -> F) rx (ls : list (hlayer F)) : M F (list (hlayer F) * option loc) :=
  match ls with
  | [] => ret ([], rx)
  | l :: ls =>
    let! l' := hl_test (raw 0%nat) rx l in
    let! p := net_test (fun i => raw (S i)) (hl_at l') ls in
    ret (l' :: p.1, p.2)
  end.
Definition an_model_test (d : draws) rx (o : ann) : M F (ann * F) :=
  let! p := net_test (dr_h d) rx (an_net o) in
  match an_out o with
  | None => ub
  | Some out =>
    let! out' := ol_test (dr_o d) (dr_b d) p.2 out in
    ret (an_put o p.1 out', ol_at out')
  end.
(** ann.cpp 750-756 [score]. *)
Definition an_score (rnd : F -> F) (d : draws) (o : ann) : M F (ann * F) :=
  let! o := an_forward d o in
  let! s := performance_vec rnd (an_yh o) (an_y o) in
  ret (o, s).
(** ann.cpp 836-851 [cost]: the regularization terms of the hidden layers but the last one. *)
Fixpoint reg_terms (ls : list (hlayer F)) (acc : F) : M F F :=
  match ls with
  | [] => ret acc
  | l :: ls => let! t := reg_term KM (hl_w l) (hl_la l) (hl_al l) (hl_reg l) in reg_terms ls (s_add acc t)
  end.
Definition an_cost (o : ann) ra rb : M F F :=
  match an_out o with
  | None => ub
  | Some out =>
    let! t := reg_terms (take (length (an_net o) - 1) (an_net o)) s_zero in
    let! c := run_cost_norm KV (ol_cost out) ra rb in
    let! t' := reg_term KV (ol_w out) (ol_la out) (ol_al out) (ol_reg out) in
    ret (s_add (s_add c t) t')
  end.
(** ann.cpp 822-834 [apply_learning_rate_scheduler]. *)
Definition an_rate (o : ann) (lr : F) (epoch : Z) : M F F :=
  let e := s_of_Z epoch in
  match an_sched o with
  | SchedNone => ret lr
  | SchedTime => ret (s_div lr (s_add s_one (s_mul (an_decay o) e)))
  | SchedEpoch => ret (s_mul lr (s_div (an_decay o) (s_sqrt e)))
  | SchedStep =>
    match m_to_int (s_div (s_add s_one e) (an_drop o)) with
    | None => ub
    | Some k => ret (s_mul lr (s_pow (an_decay o) (s_of_Z k)))
    end
  | SchedExp => ret (s_mul lr (s_exp (s_mul (s_opp (an_decay o)) e)))
  end.

(** ann.cpp 785-793 [add_layer]: [forward_pass] of the new layer only. *)
Definition an_add_layer (n : Z) (f : actfn) (t : winit) (reg : regtype) (la al : F) (raw raw' : Z -> F) (o : ann) : M F ann :=
  let rx := match List.rev (an_net o) with [] => an_x o | l :: _ => hl_a l end in
  let! l := hl_new n f rx t reg la al raw in
  let! l := hl_forward raw' l in
  ret (Ann (an_x o) (an_y o) (an_yh o) (an_net o ++ [l]) (an_out o) (an_n o) (an_k o) (an_sched o) (an_decay o) (an_drop o)).
(** ann.cpp 795-801 [add_output_layer]. *)
Definition an_add_output_layer (f : actfn) (c : costfn) (t : winit) (reg : regtype) (la al : F) (raw : Z -> F) (rb : F) (o : ann) : M F ann :=
  let! out := match List.rev (an_net o) with
    | [] => ol_new (an_k o) f c (an_x o) t reg la al raw rb
    | l :: _ => ol_new (hl_n l) f c (hl_a l) t reg la al raw rb end in
  ret (an_put o (an_net o) out).
(** ann.cpp 803-812: the constructor with arguments. *)
Definition an_new rx ry : M F ann :=
  let! x := deref rx in
  let! s := m_size x in
  ret (Ann rx ry None [] None s.2 s.1 SchedNone s_zero s_zero).
(** ann.cpp 774-783. *)
Definition an_set_scheduler (t : sched) (decay : F) (o : ann) := Ann (an_x o) (an_y o) (an_yh o) (an_net o) (an_out o) (an_n o) (an_k o) t decay (an_drop o).
Definition an_set_scheduler_drop (t : sched) (decay drop : F) (o : ann) := Ann (an_x o) (an_y o) (an_yh o) (an_net o) (an_out o) (an_n o) (an_k o) t decay drop.

(** ann.cpp 903-916 [compute_gradients], no hidden layers. *)
Definition an_gradients ra rb (out : olayer F) : M F (olayer F * loc) :=
  let! g := run_cost_deriv KV (ol_cost out) ra rb in
  let! g' := deref g in
  let! s := run_deriv_vector (ol_act out) (ol_z out) in
  let! d := v_hadamardn g' s in
  drop_ref true s ;;; del_obj g' ;;;
  let out := ol_set (ODelta d) out in
  let! wg := xt_vec (ol_in out) (ol_delta out) in
  let! wg' := deref wg in
  let! t := reg_deriv_term KV (ol_w out) (ol_la out) (ol_al out) (ol_reg out) in
  v_add wg' t ;;;
  drop_ref true t ;;;
  ret (out, wg').
(** ann.cpp 878-880 [update_parameters], no hidden layers. *)
Definition an_update (n : Z) (u : option loc) (lr : F) (out : olayer F) : M F (olayer F) :=
  let! w := deref (ol_w out) in
  let! w' := v_subn w u in
  let out := ol_set (OWeights w') out in
  let! d := deref (ol_delta out) in
  let! s := v_sum d in
  ret (ol_set (OBias (s_sub (ol_b out) (s_div (s_mul lr s) (s_of_Z n)))) out).
(** The part of an epoch between prediction and the next prediction: cost, gradients, scaling, update. *)
Definition an_step (lr : F) ra rb (o : ann) : M F ann :=
  let! _ := an_cost o ra rb in
  match an_out o with
  | None => ub
  | Some out =>
    let! p := an_gradients ra rb out in
    v_scalar_multiply (s_div lr (s_of_Z (an_n o))) p.2 ;;;
    let! out := an_update (an_n o) (Some p.2) lr p.1 in
    del_obj p.2 ;;;
    ret (an_put o (an_net o) out)
  end.
(** ann.cpp 93-127 [gradient_descent]; [d e] are the draws of the forward pass that ends epoch [e] ([d 0]: the first one). *)
Definition an_gd_epoch (lr : F) (d : Z -> draws) (epoch : Z) (o : ann) : M F ann :=
  let! q := an_rate o lr epoch in
  let! o := an_step q (an_yh o) (an_y o) o in
  an_forward (d epoch) o.
Definition an_gradient_descent (lr : F) (max : Z) (d : Z -> draws) (o : ann) : M F ann :=
  let! o := an_forward (d 0) o in
  train (an_gd_epoch lr d) max o.
(** ann.cpp 129-187 [sgd]; [idx e] is the index drawn in epoch [e], [d e], [d' e] the draws of the two model_test calls, [dl] of the last pass. *)
Definition an_sgd_epoch (lr : F) (idx : Z -> Z) (d d' : Z -> draws) (row yt ot : loc) (epoch : Z) (o : ann) : M F ann :=
  let! q := an_rate o lr epoch in
  let! x := deref (an_x o) in
  m_row_get_into x (idx epoch) (Some row) ;;;
  let! y := deref (an_y o) in
  let! oe := v_get y (idx epoch) in
  v_set ot 0 oe ;;;
  let! p := an_model_test (d epoch) (Some row) o in
  v_set yt 0 p.2 ;;;
  let! o := an_step q (Some yt) (Some ot) p.1 in
  let! p := an_model_test (d' epoch) (Some row) o in
  ret p.1.
Definition an_sgd (lr : F) (max : Z) (idx : Z -> Z) (d d' : Z -> draws) (dl : draws) (o : ann) : M F ann :=
  let! row := v_new in
  let! x := deref (an_x o) in
  let! s := m_size x in
  v_resize row s.1 ;;;
  let! yt := v_new in v_resize yt 1 ;;;
  let! ot := v_new in v_resize ot 1 ;;;
  let! o := train (an_sgd_epoch lr idx d d' row yt ot) max o in
  let! o := an_forward dl o in
  del_obj ot ;;; del_obj yt ;;; del_obj row ;;;
  ret o.
(** ann.cpp 189-235 [mbgd]; [d e i], [d' e i]: draws of the two predictions for batch [i] in epoch [e]. *)
Fixpoint an_batches (lr : F) (d d' : nat -> draws) (bs : list (loc * loc)) (o : ann) : M F ann :=
  match bs with
  | [] => ret o
  | (bi, bo) :: bs =>
    let! p := an_model_set_test (d 0%nat) (Some bi) o in
    let! o := an_step lr p.2 (Some bo) p.1 in
    let! p := an_model_set_test (d' 0%nat) (Some bi) o in
    an_batches lr (fun i => d (S i)) (fun i => d' (S i)) bs p.1
  end.
Definition an_mbgd (lr : F) (max size : Z) (d d' : Z -> nat -> draws) (dl : draws) (o : ann) : M F ann :=
  let! nb := idiv (an_n o) size in
  let! bs := mini_batches_mv (an_x o) (an_y o) nb in
  let! o := train (fun e o => let! q := an_rate o lr e in an_batches q (d e) (d' e) bs o) max o in
  let! o := an_forward dl o in
  del_batches bs ;;;
  ret o.
End ann.
Arguments ann F : clear implicits. Arguments draws F : clear implicits.
