(** * Convolutions: /repo/core/convolutions.cpp (line numbers below unless another file is named).  Proof-free file.

    Not modelled: grad_orientation (atan2) and the constant filters (Harris corners: Harris.v; tensors: Conv3.v).
     Loop counters and the sums of counters are Z; the sizes computed are checked
    for overflow.  One scalar type (in a float build expressions with Math_PI are evaluated in double). *)
From Verif Require Import Base Vec Mat Act Stat Util.

Section conv.
Context {F : Type} `{Scalar F} `{Libm F}.
Implicit Types (l : loc) (rx rf : option loc).

(** 54-72: the zero-padded copy, square of side N + 2P. *)
Definition conv_pad x (s : Z * Z) (pd : Z) : M F loc :=
  let! w := chk (s.2 + 2 * pd) in
  let! p := m_new in
  m_resize p (w, w) ;;;
  for_ 0 w (fun i => for_ 0 w (fun j =>
    let! v :=
      if (i - pd <? 0) || (j - pd <? 0) || (s.2 - 1 <? i - pd) || (s.1 - 1 <? j - pd) then ret s_zero
      else m_get x (i - pd) (j - pd) in
    m_set p i j v)) ;;;
  ret p.

(** 93-101, 224-232: the four cases agree with this offset along each axis. *)
Definition conv_off (st i : Z) : Z := if i =? 0 then i else i + (st - 1).
(** 87-106, 218-237: the window at output (i, j); [current_index] is k * F + p. *)
Definition conv_window (inp ci : loc) (fs st i j : Z) : M F unit :=
  for_ 0 fs (fun k => for_ 0 fs (fun p =>
    let! v := m_get inp (conv_off st i + k) (conv_off st j + p) in
    v_set ci (k * fs + p) v)).
(** 85-110, 216-248: every output cell. *)
Definition conv_cells (cell : Z -> Z -> M F F) (out : loc) (ms : Z) : M F unit :=
  for_ 0 ms (fun i => for_ 0 ms (fun j => let! v := cell i j in m_set out i j v)).
Definition conv_size (n fs pd st : Z) : M F Z :=
  let! a := chk (n - fs) in
  let! b := chk (2 * pd) in
  let! d := chk (a + b) in
  let! q := idiv d st in
  chk (q + 1).

(** 43-113 [convolve_2d]. *)
Definition convolve_2d rx rf (st pd : Z) : M F loc :=
  let! x := deref rx in
  let! s := m_size x in
  let! f := deref rf in
  let! sf := m_size f in
  let fs := sf.2 in
  let! ms := conv_size s.2 fs pd st in
  let! inp := (if pd =? 0 then ret x else conv_pad x s pd) in
  let! out := m_new in
  m_resize out (ms, ms) ;;;
  let! ff := m_flatten f in
  let! ci := v_new in
  let! ff2 := chk (fs * fs) in
  v_resize ci ff2 ;;;
  conv_cells (fun i j => conv_window inp ci fs st i j ;;; v_dot ci (Some ff)) out ms ;;;
  del_obj ci ;;; del_obj ff ;;; (if pd =? 0 then ret tt else del_obj inp) ;;;
  ret out.

(** convolutions.h:55-59. *)
Inductive pool_type := PAverage | PMin | PMax.
Definition pool_value (ty : pool_type) v : M F F := match ty with PAverage => st_mean (Some v) | PMin => la_minvr (Some v) | PMax => la_maxvr (Some v) end.
(** 200-251 [pool_2d]. *)
Definition pool_2d rx (fs st : Z) (ty : pool_type) : M F loc :=
  let! x := deref rx in
  let! s := m_size x in
  let! ms := conv_size s.2 fs 0 st in
  let! out := m_new in
  m_resize out (ms, ms) ;;;
  let! ci := v_new in
  let! ff2 := chk (fs * fs) in
  v_resize ci ff2 ;;;
  conv_cells (fun i j => conv_window x ci fs st i j ;;; pool_value ty ci) out ms ;;;
  del_obj ci ;;; ret out.
(** 278-291 [global_pool_2d]. *)
Definition global_pool_2d rx (ty : pool_type) : M F F :=
  let! x := deref rx in
  let! f := m_flatten x in
  let! v := pool_value ty f in
  del_obj f ;;; ret v.

(** 313-316 [gaussian_2d]. *)
Definition gaussian_2d (x y sd : F) : F :=
  let q := s_mul sd sd in
  s_mul (s_div s_one (s_mul (s_mul s_two m_pi) q)) (s_exp (s_mul (s_div (s_opp (s_add (s_mul x x) (s_mul y y))) s_two) q)).
(** 318-332 [gaussian_filter_2d]. *)
Definition gaussian_filter_2d (size : Z) (sd : F) : M F loc :=
  let! f := m_new in
  m_resize f (size, size) ;;;
  let half := Z.quot (size - 1) 2 in
  conv_cells (fun i j => ret (gaussian_2d (s_of_Z (i - half)) (s_of_Z (half - j)) sd)) f size ;;;
  ret f.

(** 339-359 [dx]: the comparison is with size.y - 1. *)
Definition conv_dx rx : M F loc :=
  let! x := deref rx in
  let! s := m_size x in
  let! o := m_new in
  m_resize o s ;;;
  for_ 0 s.2 (fun i => for_ 0 s.1 (fun j =>
    let! v :=
      if negb (j =? 0) && negb (j =? s.2 - 1) then
        let! a := m_get x i (j + 1) in let! b := m_get x i (j - 1) in ret (s_sub a b)
      else if j =? 0 then m_get x i (j + 1)
      else let! b := m_get x i (j - 1) in ret (s_opp b) in
    m_set o i j v)) ;;;
  ret o.
(** 361-381 [dy]. *)
Definition conv_dy rx : M F loc :=
  let! x := deref rx in
  let! s := m_size x in
  let! o := m_new in
  m_resize o s ;;;
  for_ 0 s.2 (fun i => for_ 0 s.1 (fun j =>
    let! v :=
      if negb (i =? 0) && negb (i =? s.2 - 1) then
        let! a := m_get x (i - 1) j in let! b := m_get x (i + 1) j in ret (s_sub a b)
      else if i =? 0 then let! b := m_get x (i + 1) j in ret (s_opp b)
      else m_get x (i - 1) j in
    m_set o i j v)) ;;;
  ret o.
(** 383-390 [grad_magnitude]. *)
Definition conv_grad rx : M F loc :=
  let! a1 := conv_dx rx in
  let! a2 := conv_dx rx in
  let! x2 := m_hadamardn a1 (Some a2) in
  let! b1 := conv_dy rx in
  let! b2 := conv_dy rx in
  let! y2 := m_hadamardn b1 (Some b2) in
  let! x2 := deref x2 in
  let! t := m_addn x2 y2 in
  let! t := deref t in
  let! r := m_sqrtn t in
  let! y2 := deref y2 in
  del_obj a1 ;;; del_obj a2 ;;; del_obj b1 ;;; del_obj b2 ;;; del_obj x2 ;;; del_obj y2 ;;; del_obj t ;;;
  ret r.
End conv.
