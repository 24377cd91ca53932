(** * Harris corners: /repo/core/convolutions.cpp (line numbers below).  Proof-free file.

    compute_m (411-438), which stores the same three matrices in a tensor, is in Conv3.v.  The printed characters 'C', 'E', 'N' are the
    constructors of [hclass]; [Vector<Vector<CharType>>] is a list of lists.  The literal 0.05 is the quotient 1 / 20. *)
From Verif Require Import Base Vec Mat Act Stat Util Data Conv.

Section harris.
Context {F : Type} `{Scalar F} `{Libm F}.
Implicit Types (l : loc) (rx : option loc).

(** 446: the padding, computed in [real_t] from the number of rows and converted to int where it is passed. *)
Definition harris_pad (n : Z) : F := s_div (s_sub (s_add (s_of_Z (n - 1)) (s_of_Z 3)) (s_of_Z n)) s_two.
(** 452-454: a smoothed product of two derivatives; the product is a temporary. *)
Definition harris_smooth (a b g : loc) (p : F) : M F loc :=
  let! t := m_hadamardn a (Some b) in
  let! pd := cast_int p in
  let! o := convolve_2d t (Some g) 1 pd in
  let! t := deref t in
  del_obj t ;;; ret o.
(** 440-464 [compute_mv]. *)
Definition compute_mv rx : M F (loc * loc * loc) :=
  let! x := deref rx in
  let! s := m_size x in
  let p := harris_pad s.2 in
  let! a := conv_dx rx in
  let! b := conv_dy rx in
  let! g := gaussian_filter_2d 3 s_one in
  let! xx := harris_smooth a a g p in
  let! yy := harris_smooth b b g p in
  let! xy := harris_smooth a b g p in
  del_obj g ;;; del_obj b ;;; del_obj a ;;;
  ret (xx, yy, xy).

Inductive hclass := Corner | Edge | Neither.
Definition harris_class (e : F) : hclass := if s_lt s_zero e then Corner else if s_lt e s_zero then Edge else Neither.
(** 466-503 [harris_corner_detection]. *)
Definition harris_corner_detection rx : M F (list (list hclass)) :=
  let! ms := compute_mv rx in
  let '(m0, m1, m2) := ms in
  let! t1 := m_hadamardn m0 (Some m1) in
  let! t2 := m_hadamardn m2 (Some m2) in
  let! t1 := deref t1 in
  let! det := m_subn t1 t2 in
  let! t2 := deref t2 in
  del_obj t2 ;;; del_obj t1 ;;;
  let! trace := m_addn m0 (Some m1) in
  let! trace := deref trace in
  let! t3 := m_hadamardn trace (Some trace) in
  let! t3 := deref t3 in
  let! t4 := m_scalar_multiplyn (s_div s_one (s_of_Z 20)) t3 in
  let! det := deref det in
  let! r := m_subn det (Some t4) in
  del_obj t4 ;;; del_obj t3 ;;;
  let! r := deref r in
  let! s := m_size r in
  let! out := for_acc 0 s.2 [] (fun i acc =>
    let! row := for_acc 0 s.1 [] (fun j row => let! e := m_get r i j in ret (row ++ [harris_class e])) in
    ret (acc ++ [row])) in
  del_obj r ;;; del_obj trace ;;; del_obj det ;;; del_obj m2 ;;; del_obj m1 ;;; del_obj m0 ;;;
  ret out.
End harris.
