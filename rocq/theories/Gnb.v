(** * MLPPGaussianNB: /repo/modules/gaussian_nb/gaussian_nb.cpp (line numbers refer to it).  Proof-free file.

    Simplifications: the local LocalVector<real_t> [score] (written for every class before it is read) and the local
    PoolRealArray [set] are Coq lists; all arithmetic is done in real_t (with real_t = float the C++ compiler evaluates the
    expressions containing Math_PI in double and rounds at the end).  Only the constructor with arguments is modelled: the
    default one (148-150) leaves _class_num unset and all references null. *)
From Verif Require Import Base Vec Mat Act Stat Util.

Section gnb.
Context {F : Type} `{Scalar F} `{Libm F}.
Implicit Types (r : option loc).

(** gaussian_nb.h: the members. *)
Record gnb := Gnb { gn_k : Z; gn_pr : loc; gn_mu : loc; gn_sg : loc; gn_x : option loc; gn_y : option loc; gn_yh : loc; gn_init : bool }.

(** 94, 200: [log(prior * (1 / sqrt(2 * Math_PI * sigma * sigma)) * exp(-(v * mu) * (v * mu) / (2 * sigma * sigma)))]. *)
Definition gn_norm (sg : F) : F := s_div s_one (s_sqrt (s_mul (s_mul (s_mul s_two m_pi) sg) sg)).
Definition gn_bell (mu sg v : F) : F := s_exp (s_div (s_mul (s_opp (s_mul v mu)) (s_mul v mu)) (s_mul (s_mul s_two sg) sg)).
Definition gn_term (pr mu sg v : F) : F := s_log (s_mul (s_mul pr (gn_norm sg)) (gn_bell mu sg v)).

(** 98-110, 206-216: the index of the first largest score, -Math_INF and 0 to start with. *)
Definition gn_argmax (ss : list F) : Z :=
  (foldl (fun '(i, best, at_) s => if s_lt best s then (i + 1, s, i) else (i + 1, best, at_)) (0, s_opp s_inf, 0) ss).2.

(** 83-111 [model_test]: class i is scored with the element i of the point; the sum is not reset between classes. *)
Definition gn_model_test (o : gnb) r : M F F :=
  if gn_k o <? 0 then crash else
  let! st := for_acc 0 (gn_k o) (s_one, []) (fun t st =>
    let i := gn_k o - 1 - t in
    let! sg := v_get (gn_sg o) i in
    let! x := deref r in
    let! v := v_get x i in
    let! mu := v_get (gn_mu o) i in
    let! pr := v_get (gn_pr o) i in
    let y := s_add (st.1) (gn_term pr mu sg v) in
    ret (y, s_exp y :: st.2)) in
  ret (s_of_Z (gn_argmax st.2)).

(** 65-81 [model_set_test]. *)
Definition gn_model_set_test (o : gnb) r : M F (option loc) :=
  let! X := deref r in
  let! yh := v_new in
  let! s := m_size X in
  v_resize yh s.2 ;;;
  let! t := v_new in
  v_resize t s.1 ;;;
  for_ 0 s.2 (fun i =>
    m_row_get_into X i (Some t) ;;;
    let! c := gn_model_test o (Some t) in
    v_set yh i c) ;;;
  del_obj t ;;;
  ret (Some yh).

(** 113-116 [score]; [rnd] is Math::round. *)
Definition gn_score (rnd : F -> F) (o : gnb) : M F F := performance_vec rnd (Some (gn_yh o)) (gn_y o).

(** 167-175: the elements of all rows labelled i. *)
Definition gn_members (x y : loc) (i : Z) : M F (list F) :=
  let! s := m_size x in
  for_acc 0 s.2 [] (fun j acc =>
    for_acc 0 s.1 acc (fun k acc =>
      let! l := v_get y j in
      if s_eq l (s_of_Z i) then let! v := m_get x j k in ret (acc ++ [v]) else ret acc)).

(** 154-183: means and standard deviations. *)
Definition gn_moments (o : gnb) (x y : loc) : M F unit :=
  v_resize (gn_mu o) (gn_k o) ;;;
  v_resize (gn_sg o) (gn_k o) ;;;
  let! set := v_new in
  for_ 0 (gn_k o) (fun t =>
    let i := gn_k o - 1 - t in
    let! vs := gn_members x y i in
    v_set_data set vs ;;;
    let! m := st_mean (Some set) in
    v_set (gn_mu o) i m ;;;
    let! d := st_sd (Some set) in
    v_set (gn_sg o) i d) ;;;
  del_obj set.

(** 185-193: the priors; [element_set(indx, element_get(indx))] stores back what it read. *)
Definition gn_priors (o : gnb) (y : loc) : M F unit :=
  v_resize (gn_pr o) (gn_k o) ;;;
  v_fill (gn_pr o) s_zero ;;;
  let! n := v_size y in
  for_ 0 n (fun i =>
    let! l := v_get y i in
    match m_to_int l with
    | None => ub
    | Some c => let! p := v_get (gn_pr o) c in v_set (gn_pr o) c p
    end) ;;;
  v_scalar_multiply (s_div s_one (s_of_Z n)) (gn_pr o).

(** 195-221: the class of every training row. *)
Definition gn_fit (o : gnb) (x y : loc) : M F unit :=
  let! n := v_size y in
  for_ 0 n (fun i =>
    let! st := for_acc 0 (gn_k o) (s_one, []) (fun t st =>
      let j := gn_k o - 1 - t in
      let! s := m_size x in
      let! yv := for_acc 0 s.1 st.1 (fun k yv =>
        let! sg := v_get (gn_sg o) j in
        let! mu := v_get (gn_mu o) j in
        let! v := m_get x i k in
        let! pr := v_get (gn_pr o) j in
        ret (s_add yv (gn_term pr mu sg v))) in
      ret (yv, s_exp yv :: st.2)) in
    v_set (gn_yh o) i (s_of_Z (gn_argmax st.2))).

(** 153-222 [evaluate]. *)
Definition gn_evaluate (o : gnb) : M F unit :=
  let! x := deref (gn_x o) in
  let! y := deref (gn_y o) in
  gn_moments o x y ;;;
  gn_priors o y ;;;
  (if gn_k o <? 0 then crash else ret tt) ;;;
  gn_fit o x y.

(** 131-146 [MLPPGaussianNB(input_set, output_set, class_num)]. *)
Definition gn_new rx ry (k : Z) : M F gnb :=
  let! mu := v_new in
  let! sg := v_new in
  let! pr := v_new in
  let! yh := v_new in
  let! y := deref ry in
  let! n := v_size y in
  v_resize yh n ;;;
  let o := Gnb k pr mu sg rx ry yh true in
  gn_evaluate o ;;;
  ret o.
End gnb.
Arguments gnb : clear implicits.
