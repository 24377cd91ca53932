(** * Convolution and pooling of tensors: /repo/core/convolutions.cpp (line numbers below).  Proof-free file.

    A temporary object is deleted where its last reference goes out of scope. *)
From Verif Require Import Base Vec Mat Ten Act Stat Util Conv Harris.

Section conv3.
Context {F : Type} `{Scalar F} `{Libm F}.
Implicit Types (l : loc) (rx : option loc).

(** 253-276 [pool_3d]. *)
Definition pool_3d rx (fs st : Z) (ty : pool_type) : M F loc :=
  let! x := deref rx in
  let! s := t_size x in
  let '(sx, sy, sz) := s in
  let! zs := m_new in
  m_resize zs (sx, sy) ;;;
  let! ms := conv_size sy fs 0 st in
  let! out := t_new in
  t_resize out (ms, ms, sz) ;;;
  for_ 0 sz (fun i =>
    t_slice_get_into_mat x i (Some zs) ;;;
    let! p := pool_2d (Some zs) fs st ty in
    t_slice_set_mat out i (Some p) ;;;
    del_obj p) ;;;
  del_obj zs ;;; ret out.
(** 293-311 [global_pool_3d]. *)
Definition global_pool_3d rx (ty : pool_type) : M F loc :=
  let! x := deref rx in
  let! s := t_size x in
  let '(sx, sy, sz) := s in
  let! out := v_new in
  v_resize out sz ;;;
  let! zs := m_new in
  m_resize zs (sx, sy) ;;;
  for_ 0 sz (fun i =>
    t_slice_get_into_mat x i (Some zs) ;;;
    let! v := global_pool_2d (Some zs) ty in
    v_set out i v) ;;;
  del_obj zs ;;; ret out.
(** 411-438 [compute_m]: the three matrices of [compute_mv] (440-464, computed by the same statements), copied into a tensor. *)
Definition compute_m rx : M F loc :=
  let! ms := compute_mv rx in
  let '(xx, yy, xy) := ms in
  let! s := m_size xx in
  let! out := t_new in
  t_resize out (s.1, s.2, 3) ;;;
  t_slice_set_mat out 0 (Some xx) ;;;
  t_slice_set_mat out 1 (Some yy) ;;;
  t_slice_set_mat out 2 (Some xy) ;;;
  del_obj xy ;;; del_obj yy ;;; del_obj xx ;;;
  ret out.

(** 128-154: the zero-padded copy; [element_get] takes slice, row, column, and is given i - P, j - P, c. *)
Definition conv3_pad x (s : Z * Z * Z) (pd : Z) : M F loc :=
  let '(sx, sy, sz) := s in
  let! pin := t_new in
  let! sl := m_new in
  let! w := chk (sy + 2 * pd) in
  m_resize sl (w, w) ;;;
  t_resize pin (w, w, sz) ;;;
  for_ 0 sz (fun c =>
    for_ 0 w (fun i => for_ 0 w (fun j =>
      let! v :=
        if (i - pd <? 0) || (j - pd <? 0) || (sy - 1 <? i - pd) || (sx - 1 <? j - pd) then ret s_zero
        else t_get x (i - pd) (j - pd) c in
      m_set sl i j v)) ;;;
    t_slice_set_mat pin c (Some sl)) ;;;
  del_obj sl ;;; ret pin.
(** 169-192: the window at output (i, j); the slice argument of [element_get] is the row of the window, the row argument its column and
    the column argument the channel t; [current_index] is (t * F + k) * F + p. *)
Definition conv3_window (inp ci : loc) (tz fs st i j : Z) : M F unit :=
  for_ 0 tz (fun t => for_ 0 fs (fun k => for_ 0 fs (fun p =>
    let! v := t_get inp (conv_off st i + k) (conv_off st j + p) t in
    v_set ci ((t * fs + k) * fs + p) v))).
(** 115-198 [convolve_3d]. *)
Definition convolve_3d rx rf (st pd : Z) : M F loc :=
  let! x := deref rx in
  let! s := t_size x in
  let! f := deref rf in
  let! sf := t_size f in
  let fs := sf.1.2 in
  let! ch := idiv sf.2 s.2 in
  let! ms := conv_size s.1.2 fs pd st in
  let! inp := (if pd =? 0 then ret x else conv3_pad x s pd) in
  let! out := t_new in
  t_resize out (ms, ms, ch) ;;;
  let! ff := t_flatten f in
  let! ci := v_new in
  let! a := chk (s.2 * fs) in
  let! n := chk (a * fs) in
  v_resize ci n ;;;
  for_ 0 ch (fun c => for_ 0 ms (fun i => for_ 0 ms (fun j =>
    conv3_window inp ci s.2 fs st i j ;;;
    let! v := v_dot ci (Some ff) in
    t_set out c i j v))) ;;;
  del_obj ci ;;; del_obj ff ;;; (if pd =? 0 then ret tt else del_obj inp) ;;;
  ret out.
End conv3.
