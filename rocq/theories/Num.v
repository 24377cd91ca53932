(** * Numerical analysis: /repo/core/numerical_analysis.cpp (all line numbers below).  Proof-free file.

    A callback [real_t ( *function)(real_t)] is a function [F -> F] (it terminates and has no side effects); a callback on vectors
    [real_t ( *function)(const Ref<MLPPVector> &)] is a computation on a reference.  All arithmetic is done in real_t (the compiler
    evaluates the expressions with the literal 0.5 in double).  Not modelled: third_order_tensorvt (the same numbers as
    third_order_tensor, in a Vector of matrices); the branch of second_partial_derivative_test that asks MLPPLinAlg about eigenvalues
    is a parameter. *)
From Verif Require Import Base Vec Mat Ten Act Glm.
From Coq Require Import String.
Close Scope string_scope.

Section num.
Context {F : Type} `{Scalar F} `{Libm F}.
Implicit Types (l : loc) (r rx ry : option loc) (f : F -> F) (fv : option loc -> M F F).

(** The steps: [eps = 1e-10] (40, 76), [eps = 1e-5] (45, 50, 85, 104). *)
Definition e10 : F := lit 1 10000000000.
Definition e5 : F := lit 1 100000.
Definition s_three : F := s_of_Z 3.

(** ** Functions of one variable *)
(** 39-42 [num_diffr]. *)
Definition num_diff f (x : F) : F := s_div (s_sub (f (s_add x e10)) (f x)) e10.
(** 44-47 [num_diff_2r]. *)
Definition num_diff2 f (x : F) : F :=
  s_div (s_add (s_sub (f (s_add x (s_mul s_two e5))) (s_mul s_two (f (s_add x e5)))) (f x)) (s_mul e5 e5).
(** 49-54 [num_diff_3r]. *)
Definition num_diff3 f (x : F) : F :=
  let t1 := s_add (s_sub (f (s_add x (s_mul s_three e5))) (s_mul s_two (f (s_add x (s_mul s_two e5))))) (f (s_add x e5)) in
  let t2 := s_add (s_sub (f (s_add x (s_mul s_two e5))) (s_mul s_two (f (s_add x e5)))) (f x) in
  s_div (s_sub t1 t2) (s_mul (s_mul e5 e5) e5).
(** 56-58 [constant_approximationr], 60-62 [linear_approximationr], 64-66 [quadratic_approximationr]. *)
Definition const_approx f (c : F) : F := f c.
Definition lin_approx f (c x : F) : F := s_add (const_approx f c) (s_mul (num_diff f c) (s_sub x c)).
Definition quad_approx f (c x : F) : F :=
  s_add (lin_approx f c x) (s_mul (s_mul (s_mul s_half (num_diff2 f c)) (s_sub x c)) (s_sub x c)).
(** 68-70 [cubic_approximationr]; [1 / 6] is an integer division. *)
Definition cubic_approx f (c x : F) : F :=
  s_add (quad_approx f c x) (s_mul (s_mul (s_mul (s_mul (s_of_Z (1 / 6)) (num_diff3 f c)) (s_sub x c)) (s_sub x c)) (s_sub x c)).

(** [for (int i = 0; i < bound; i++) x = step(x)] with a real [bound]; [i++] overflows at INT_MAX.  [fuel]: at most INT_MAX rounds. *)
Fixpoint real_loop (fuel : nat) (i : Z) (bound : F) (step : F -> F) (x : F) : M F F :=
  match fuel with
  | O => nofuel
  | S k => if s_lt (s_of_Z i) bound then let! j := chk (i + 1) in real_loop k j bound step (step x) else ret x
  end.
Definition run_real (bound : F) (step : F -> F) (x : F) : M F F := real_loop (S (Z.to_nat int_max)) 0 bound step x.
(** 137-143 [newton_raphson_method]. *)
Definition newton_step f (x : F) : F := s_sub x (s_div (f x) (num_diff f x)).
Definition newton f (x0 epochs : F) : M F F := run_real epochs (newton_step f) x0.
(** 145-151 [halley_method]. *)
Definition halley_step f (x : F) : F :=
  s_sub x (s_div (s_mul (s_mul s_two (f x)) (num_diff f x))
    (s_sub (s_mul (s_mul s_two (num_diff f x)) (num_diff f x)) (s_mul (f x) (num_diff2 f x)))).
Definition halley f (x0 epochs : F) : M F F := run_real epochs (halley_step f) x0.

(** 153-168 [inv_quadratic_interpolation]: the new estimate from the first three entries. *)
Definition iq_term (fa fb fc a : F) : F := s_mul (s_div (s_mul fb fc) (s_mul (s_sub fa fb) (s_sub fa fc))) a.
Definition iq f (a b c : F) : F :=
  s_add (s_add (iq_term (f a) (f b) (f c) a)
    (s_mul (s_div (s_mul (f a) (f c)) (s_mul (s_sub (f b) (f a)) (s_sub (f b) (f c)))) b))
    (s_mul (s_div (s_mul (f a) (f b)) (s_mul (s_sub (f c) (f a)) (s_sub (f c) (f b)))) c).
Definition iq_epoch f (t : loc) : M F F :=
  let! b := v_at t 1 in
  let! c := v_at t 2 in
  let! a := v_at t 0 in
  let x := iq f a b c in
  v_remove t 0 ;;;
  v_push_back t x ;;;
  ret x.
Definition inv_quad f rx (epochs : Z) : M F F :=
  let! x0 := deref rx in
  let! t := v_duplicate x0 in
  let! x := for_acc 0 epochs s_zero (fun _ _ => iq_epoch f t) in
  del_obj t ;;; ret x.

(** 170-179 [eulerian_methodr]; the conversion to int is undefined when the quotient does not fit. *)
Definition to_int (x : F) : M F Z := match m_to_int x with Some k => ret k | None => ub end.
Definition euler f (q0 q1 p hh : F) : M F F :=
  let! n := to_int (s_div (s_sub p q0) hh) in
  let! xy := for_acc 0 n (q0, q1) (fun _ s => ret (s_add s.1 hh, s_add s.2 (s_mul hh (f s.1)))) in
  ret xy.2.
(** 181-197 [eulerian_methodv]. *)
Definition eulerv fv (q0 q1 p hh : F) : M F F :=
  let! n := to_int (s_div (s_sub p q0) hh) in
  let! v := v_new in
  v_resize v 2 ;;;
  let! xy := for_acc 0 n (q0, q1) (fun _ s =>
    v_set v 0 s.1 ;;;
    v_set v 1 s.2 ;;;
    let! d := fv (Some v) in
    ret (s_add s.1 hh, s_add s.2 (s_mul hh d))) in
  del_obj v ;;; ret xy.2.
(** 199-211 [growth_method]. *)
Definition growth (C k t : F) : F := s_mul C (s_exp (s_mul k t)).

(** ** Functions of several variables *)
(** [x_eps->element_get_ref(axis) += eps]: CRASH_BAD_INDEX outside the vector. *)
Definition bump (e : F) l (axis : Z) : M F unit :=
  let! v := v_at l axis in
  let! p := data_ptr l in
  store p axis (s_add v e).
(** [Ref<MLPPVector> x_.. = x->duplicate_fast(); x_..->element_get_ref(axis) += eps; ..]. *)
Fixpoint bumps (e : F) l (axes : list Z) : M F unit :=
  match axes with [] => ret tt | a :: axes' => bump e l a ;;; bumps e l axes' end.
Definition shifted (e : F) rx (axes : list Z) : M F loc :=
  let! x := deref rx in
  let! d := v_duplicate x in
  bumps e d axes ;;; ret d.
(** 72-81 [num_diffv]. *)
Definition num_diffv fv rx (axis : Z) : M F F :=
  let! xe := shifted e10 rx [axis] in
  let! a := fv (Some xe) in
  let! b := fv rx in
  del_obj xe ;;;
  ret (s_div (s_sub a b) e10).
(** 83-98 [num_diff_2v]. *)
Definition num_diff2v fv rx (a1 a2 : Z) : M F F :=
  let! pp := shifted e5 rx [a1; a2] in
  let! np := shifted e5 rx [a2] in
  let! pn := shifted e5 rx [a1] in
  let! vpp := fv (Some pp) in
  let! vnp := fv (Some np) in
  let! vpn := fv (Some pn) in
  let! v := fv rx in
  del_obj pn ;;; del_obj np ;;; del_obj pp ;;;
  ret (s_div (s_add (s_sub (s_sub vpp vnp) vpn) v) (s_mul e5 e5)).
(** 100-135 [num_diff_3v]. *)
Definition num_diff3v fv rx (a1 a2 a3 : Z) : M F F :=
  let! ppp := shifted e5 rx [a1; a2; a3] in
  let! npp := shifted e5 rx [a2; a3] in
  let! pnp := shifted e5 rx [a1; a3] in
  let! nnp := shifted e5 rx [a3] in
  let! ppn := shifted e5 rx [a1; a2] in
  let! npn := shifted e5 rx [a2] in
  let! pnn := shifted e5 rx [a1] in
  let! vppp := fv (Some ppp) in
  let! vnpp := fv (Some npp) in
  let! vpnp := fv (Some pnp) in
  let! vnnp := fv (Some nnp) in
  let third := s_add (s_sub (s_sub vppp vnpp) vpnp) vnnp in
  let! vppn := fv (Some ppn) in
  let! vnpn := fv (Some npn) in
  let! vpnn := fv (Some pnn) in
  let! v := fv rx in
  let nothird := s_add (s_sub (s_sub vppn vnpn) vpnn) v in
  del_obj pnn ;;; del_obj npn ;;; del_obj ppn ;;; del_obj nnp ;;; del_obj pnp ;;; del_obj npp ;;; del_obj ppp ;;;
  ret (s_div (s_sub third nothird) (s_mul (s_mul e5 e5) e5)).

(** 213-225 [jacobian]. *)
Definition jacobian fv rx : M F loc :=
  let! j := v_new in
  let! x := deref rx in
  let! n := v_size x in
  v_resize j n ;;;
  let! m := v_size j in
  for_ 0 m (fun i => let! d := num_diffv fv rx i in v_set j i d) ;;;
  ret j.
(** 227-241 [hessian]. *)
Definition hessian fv rx : M F loc :=
  let! o := m_new in
  let! x := deref rx in
  let! n := v_size x in
  m_resize o (n, n) ;;;
  let! s := m_size o in
  for_ 0 s.2 (fun i => for_ 0 s.1 (fun j => let! d := num_diff2v fv rx i j in m_set o i j d)) ;;;
  ret o.
(** 243-259 [third_order_tensor]. *)
Definition third_order fv rx : M F loc :=
  let! o := t_new in
  let! x := deref rx in
  let! n := v_size x in
  t_resize o (n, n, n) ;;;
  let! sz := t_size o in let '(sx, sy, sz) := sz in
  for_ 0 sz (fun i => for_ 0 sy (fun j => for_ 0 sx (fun k => let! d := num_diff3v fv rx i j k in t_set o i j k d))) ;;;
  ret o.

(** 288-290 [constant_approximationv], 292-308 [linear_approximationv].  [mj->transposen()->multn(mxsc)] is an n x n matrix. *)
Definition row_of r : M F loc := let! m := m_new in m_row_add_vec m r ;;; ret m.
Definition lin_approxv fv rc rx : M F F :=
  let! j := jacobian fv rc in
  let! mj := row_of (Some j) in
  let! x := deref rx in
  let! d := v_subn x rc in
  let! md := row_of d in
  let! t := m_transposen mj in
  let! p := m_multn t (Some md) in
  let! v := fv rc in
  let! m := deref p in
  let! g := m_get m 0 0 in
  del_obj m ;;; del_obj t ;;; del_obj md ;;; free d ;;; del_obj mj ;;; del_obj j ;;;
  ret (s_add v g).
(** [mxsc->multn(m->multn(mxsc->transposen()))->element_get(0, 0)]. *)
Definition quad_form (m md : loc) : M F F :=
  let! t := m_transposen md in
  let! u := m_multn m (Some t) in
  let! q := m_multn md u in
  let! q' := deref q in
  let! v := m_get q' 0 0 in
  del_obj q' ;;; free u ;;; del_obj t ;;; ret v.
(** 310-323 [quadratic_approximationv]. *)
Definition quad_approxv fv rc rx : M F F :=
  let! o := hessian fv rc in
  let! x := deref rx in
  let! d := v_subn x rc in
  let! md := row_of d in
  let! q := quad_form o md in
  let! a := lin_approxv fv rc rx in
  del_obj md ;;; free d ;;; del_obj o ;;;
  ret (s_add a (s_mul s_half q)).
(** 325-345 [cubic_approximationv]; [1 / 6] is an integer division. *)
Definition cubic_approxv fv rc rx : M F F :=
  let! x := deref rx in
  let! d := v_subn x rc in
  let! md := row_of d in
  let! t := third_order fv rc in
  let! rm := t_vec_mult t d in
  let! q := quad_form rm md in
  del_obj t ;;;
  let! a := quad_approxv fv rc rx in
  del_obj rm ;;; del_obj md ;;; free d ;;;
  ret (s_add a (s_mul (s_of_Z (1 / 6)) q)).

(** 347-358 [laplacian]. *)
Definition laplacian fv rx : M F F :=
  let! o := hessian fv rx in
  let! s := m_size o in
  let! v := for_acc 0 s.2 s_zero (fun i acc => let! d := m_get o i i in ret (s_add acc d)) in
  del_obj o ;;; ret v.
(** 360-392 [second_partial_derivative_test]; [other] is the answer of the branch for a size other than 2. *)
Definition derivative_test (other : loc -> M F string) fv rx : M F string :=
  let! o := hessian fv rx in
  let! s := m_size o in
  let! a := (if s.2 =? 2 then
    let! d := m_det o (-1) in
    let! v := num_diff2v fv rx 0 0 in
    ret (if s_lt s_zero v && s_lt s_zero d then "min"%string
         else if s_lt v s_zero && s_lt s_zero d then "max"%string
         else if s_lt d s_zero then "saddle"%string else "test was inconclusive"%string)
    else other o) in
  del_obj o ;;; ret a.
End num.
