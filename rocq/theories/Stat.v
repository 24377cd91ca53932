(** * MLPPStat (core/stat.cpp) and MLPPUniLinReg (modules/uni_lin_reg/uni_lin_reg.cpp).

    A [Ref<MLPPVector>] argument is [option loc].  Integer counts used in arithmetic are converted with
    [s_of_Z]; the literals 2.0, 2, 3, 1 are conversions too.  With real_t = float the C++ promotes some of
    these expressions to double; the model computes in real_t throughout.
    Proof-free file. *)
From Verif Require Export Base Vec Sort.

Section stat.
Context {F : Type} `{Scalar F}.
Implicit Types (l x y : loc) (r rx ry : option loc).

(** A read-only accumulation over the elements of one vector:
    [for (int i = 0; i < x_size; ++i) acc = f(acc, x_ptr[i]);] *)
Definition acc1 {A} x (a : A) (f : A -> F -> A) : M F A :=
  let! n := v_size x in
  let! p := data_ptr x in
  for_acc 0 n a (fun i c => let! v := load p i in ret (f c v)).
(** The same over two vectors, bounded by the size of the first. *)
Definition acc2 {A} x y (a : A) (f : A -> F -> F -> A) : M F A :=
  let! n := v_size x in
  let! p := data_ptr x in
  let! q := data_ptr y in
  for_acc 0 n a (fun i c => let! v := load p i in let! w := load q i in ret (f c v w)).

(** stat.cpp:161-173 [meanv]. *)
Definition st_mean rx : M F F :=
  match rx with
  | None => ret s_zero
  | Some x =>
    let! n := v_size x in
    let! s := acc1 x s_zero s_add in
    ret (s_div s (s_of_Z n))
  end.

(** stat.cpp:181-196 [variancev]; [x_size - 1] is an int. *)
Definition st_variance rx : M F F :=
  match rx with
  | None => ret s_zero
  | Some x =>
    let! m := st_mean (Some x) in
    let! n := v_size x in
    let! s := acc1 x s_zero (fun s xi => s_add s (s_mul (s_sub xi m) (s_sub xi m))) in
    ret (s_div s (s_of_Z (n - 1)))
  end.

(** stat.cpp:175-179 [standard_deviationv]. *)
Definition st_sd rx : M F F :=
  match rx with
  | None => ret s_zero
  | Some x => let! v := st_variance (Some x) in ret (s_sqrt v)
  end.

(** stat.cpp:198-216 [covariancev]. *)
Definition st_covariance rx ry : M F F :=
  match rx, ry with
  | Some x, Some y =>
    let! n := v_size x in
    let! n' := v_size y in
    if negb (n =? n') then ret s_zero else
    let! mx := st_mean (Some x) in
    let! my := st_mean (Some y) in
    let! s := acc2 x y s_zero (fun s a b => s_add s (s_mul (s_sub a mx) (s_sub b my))) in
    ret (s_div s (s_of_Z (n - 1)))
  | _, _ => ret s_zero
  end.

(** stat.cpp:54-58 [b1_estimation]. *)
Definition st_b1 rx ry : M F F :=
  match rx, ry with
  | Some x, Some y =>
    let! c := st_covariance (Some x) (Some y) in
    let! v := st_variance (Some x) in
    ret (s_div c v)
  | _, _ => ret s_zero
  end.
(** stat.cpp:49-53 [b0_estimation]. *)
Definition st_b0 rx ry : M F F :=
  match rx, ry with
  | Some x, Some y =>
    let! my := st_mean (Some y) in
    let! b1 := st_b1 (Some x) (Some y) in
    let! mx := st_mean (Some x) in
    ret (s_sub my (s_mul b1 mx))
  | _, _ => ret s_zero
  end.

(** stat.cpp:60-73 [median]: works on a copy, which dies on return.  [sort] is [v_sort] with the
    validation flag [vd] (SortArray's Validate template parameter, see Sort.v). *)
Definition st_median vd rx : M F F :=
  match rx with
  | None => ret s_zero
  | Some px =>
    let! x := v_duplicate px in
    let! n := v_size x in
    let center := Z.quot n 2 in
    v_sort vd x ;;;
    let! n' := v_size x in
    let! v := (if Z.rem n' 2 =? 0 then
        let! a := v_get x (center - 1) in
        let! b := v_get x center in
        ret (s_div (s_add a b) (s_of_Z 2))
      else v_get x (center - 1)) in
    del_obj x ;;;
    ret v
  end.

(** core/data.h:225-247 [vec_to_setnv]: the inner loop has no break; [Vector<real_t>] is a list. *)
Definition set_insert (s : list F) (v : F) : list F :=
  if foldl (fun is_new w => if s_eq w v then false else is_new) true s then s ++ [v] else s.
Definition d_vec_to_set rx : M F loc :=
  let! x := deref rx in
  let! n := v_size x in
  let! s := for_acc 0 n [] (fun i s => let! v := v_get x i in ret (set_insert s v)) in
  let! o := v_new in
  v_set_from_vector o s ;;;
  ret o.

(** The HashMap<real_t, int> of [mode], as an association list looked up with the key comparator
    (platform/sfw.h HashMapComparatorDefault<float>: [==], or both NaN, i.e. both different from
    themselves).  The hash table itself is not modelled here. *)
Definition hkey_eq (a b : F) : bool := s_eq a b || (negb (s_eq a a) && negb (s_eq b b)).
Fixpoint cnt_get (m : list (F * Z)) (k : F) : Z :=
  match m with [] => 0 | (k', c) :: m' => if hkey_eq k' k then c else cnt_get m' k end.
Fixpoint cnt_set (m : list (F * Z)) (k : F) (c : Z) : list (F * Z) :=
  match m with
  | [] => [(k, c)]
  | (k', c') :: m' => if hkey_eq k' k then (k', c) :: m' else (k', c') :: cnt_set m' k c
  end.

(** stat.cpp:75-113 [mode].  [x[i]] is the bounds-checked operator[].  [max_num] is a real_t holding an
    int; the comparisons int > real_t convert the int. *)
Definition st_mode rx : M F (option loc) :=
  match rx with
  | None => ret None
  | Some x =>
    let! xs := d_vec_to_set (Some x) in
    let! ps := data_ptr xs in
    let! ns := v_size xs in
    let! nx := v_size x in
    let! m := for_acc 0 ns [] (fun i m => let! v := v_at x i in ret (cnt_set m v 0)) in
    let! m := for_acc 0 nx m (fun i m => let! v := v_at x i in ret (cnt_set m v (cnt_get m v + 1))) in
    let! modes := v_new in
    let! k0 := load ps 0 in
    let! _ := for_acc 0 ns (s_of_Z (cnt_get m k0)) (fun i mx =>
      let! k := load ps i in
      if s_lt mx (s_of_Z (cnt_get m k)) then
        v_clear modes ;;; v_push_back modes k ;;; ret (s_of_Z (cnt_get m k))
      else if s_eq (s_of_Z (cnt_get m k)) mx then v_push_back modes k ;;; ret mx
      else ret mx) in
    del_obj xs ;;;
    ret (Some modes)
  end.

(** core/lin_alg.cpp:1572-1590 [maxvr], 1591-1609 [minvr]. *)
Definition la_maxvr rx : M F F :=
  match rx with
  | None => ret (s_opp s_inf)
  | Some x => acc1 x (s_opp s_inf) (fun m v => if s_lt m v then v else m)
  end.
Definition la_minvr rx : M F F :=
  match rx with
  | None => ret s_inf
  | Some x => acc1 x s_inf (fun m v => if s_lt v m then v else m)
  end.

(** stat.cpp:115-120 [range]. *)
Definition st_range rx : M F F :=
  match rx with
  | None => ret s_zero
  | Some x => let! a := la_maxvr (Some x) in let! b := la_minvr (Some x) in ret (s_sub a b)
  end.
(** stat.cpp:122-126 [midrange]. *)
Definition st_midrange rx : M F F :=
  match rx with
  | None => ret s_zero
  | Some x => let! a := st_range (Some x) in ret (s_div a (s_of_Z 2))
  end.

(** stat.cpp:128-142 [abs_avg_deviation]. *)
Definition st_abs_avg_deviation rx : M F F :=
  match rx with
  | None => ret s_zero
  | Some x =>
    let! m := st_mean (Some x) in
    let! n := v_size x in
    let! s := acc1 x s_zero (fun s xi => s_add s (s_abs (s_sub xi m))) in
    ret (s_div s (s_of_Z n))
  end.

(** stat.cpp:144-148 [correlation]. *)
Definition st_correlation rx ry : M F F :=
  match rx, ry with
  | Some x, Some y =>
    let! c := st_covariance (Some x) (Some y) in
    let! sx := st_sd (Some x) in
    let! sy := st_sd (Some y) in
    ret (s_div c (s_mul sx sy))
  | _, _ => ret s_zero
  end.
(** stat.cpp:150-154 [r2]. *)
Definition st_r2 rx ry : M F F :=
  match rx, ry with
  | Some x, Some y =>
    let! a := st_correlation (Some x) (Some y) in
    let! b := st_correlation (Some x) (Some y) in
    ret (s_mul a b)
  | _, _ => ret s_zero
  end.

(** stat.cpp:156-159 [chebyshev_ineq]. *)
Definition st_chebyshev (k : F) : F := s_sub s_one (s_div s_one (s_mul k k)).

(** stat.cpp:218-233 [weighted_mean]. *)
Definition st_weighted_mean rx rw : M F F :=
  match rx, rw with
  | Some x, Some w =>
    let! n := v_size x in
    let! n' := v_size w in
    if negb (n =? n') then ret s_zero else
    let! s := acc2 x w (s_zero, s_zero) (fun s a b => (s_add (fst s) (s_mul a b), s_add (snd s) b)) in
    ret (s_div (fst s) (snd s))
  | _, _ => ret s_zero
  end.

(** stat.cpp:235-247 [geometric_mean]. *)
Definition st_geometric_mean rx : M F F :=
  match rx with
  | None => ret s_zero
  | Some x =>
    let! n := v_size x in
    let! p := acc1 x s_one s_mul in
    ret (s_pow p (s_div s_one (s_of_Z n)))
  end.

(** stat.cpp:249-260 [harmonic_mean]. *)
Definition st_harmonic_mean rx : M F F :=
  match rx with
  | None => ret s_zero
  | Some x =>
    let! n := v_size x in
    let! s := acc1 x s_zero (fun s xi => s_add s (s_div s_one xi)) in
    ret (s_div (s_of_Z n) s)
  end.

(** stat.cpp:262-276 [rms]. *)
Definition st_rms rx : M F F :=
  match rx with
  | None => ret s_zero
  | Some x =>
    let! n := v_size x in
    let! s := acc1 x s_zero (fun s xi => s_add s (s_mul xi xi)) in
    ret (s_sqrt (s_div s (s_of_Z n)))
  end.

(** stat.cpp:278-289 [power_mean]. *)
Definition st_power_mean rx (p : F) : M F F :=
  match rx with
  | None => ret s_zero
  | Some x =>
    let! n := v_size x in
    let! s := acc1 x s_zero (fun s xi => s_add s (s_pow xi p)) in
    ret (s_pow (s_div s (s_of_Z n)) (s_div s_one p))
  end.

(** stat.cpp:291-304 [lehmer_mean]. *)
Definition st_lehmer_mean rx (p : F) : M F F :=
  match rx with
  | None => ret s_zero
  | Some x =>
    let! s := acc1 x (s_zero, s_zero) (fun s xi =>
      (s_add (fst s) (s_pow xi p), s_add (snd s) (s_pow xi (s_sub p s_one)))) in
    ret (s_div (fst s) (snd s))
  end.

(** stat.cpp:306-321 [weighted_lehmer_mean]. *)
Definition st_weighted_lehmer_mean rx rw (p : F) : M F F :=
  match rx, rw with
  | Some x, Some w =>
    let! n := v_size x in
    let! n' := v_size w in
    if negb (n =? n') then ret s_zero else
    let! s := acc2 x w (s_zero, s_zero) (fun s a b =>
      (s_add (fst s) (s_mul b (s_pow a p)), s_add (snd s) (s_mul b (s_pow a (s_sub p s_one))))) in
    ret (s_div (fst s) (snd s))
  | _, _ => ret s_zero
  end.

(** stat.cpp:327-331 [contra_harmonic_mean]. *)
Definition st_contra_harmonic_mean rx : M F F :=
  match rx with None => ret s_zero | Some x => st_lehmer_mean (Some x) (s_of_Z 2) end.

(** stat.cpp:323-325 [heronian_mean], 333-335 [heinz_mean], 337-340 [neuman_sandor_mean] (with
    activation.cpp:2201-2203 [arsinh_normr]), 342-347 [stolarsky_mean], 349-354 [identric_mean],
    356-361 [log_mean]: scalar functions.  [1 / M_E] is computed as [1 / exp 1]. *)
Definition st_heronian_mean (a b : F) : F :=
  s_div (s_add (s_add a (s_sqrt (s_mul a b))) b) (s_of_Z 3).
Definition st_heinz_mean (a b x : F) : F :=
  s_div (s_add (s_mul (s_pow a x) (s_pow b (s_sub s_one x))) (s_mul (s_pow a (s_sub s_one x)) (s_pow b x))) (s_of_Z 2).
Definition st_neuman_sandor_mean (a b : F) : F :=
  let z := s_div (s_sub a b) (s_add a b) in
  s_mul (s_div (s_sub a b) (s_of_Z 2)) (s_log (s_add z (s_sqrt (s_add (s_mul z z) s_one)))).
Definition st_stolarsky_mean (x y p : F) : F :=
  if s_eq x y then x else
  s_pow (s_div (s_sub (s_pow x p) (s_pow y p)) (s_mul p (s_sub x y))) (s_div s_one (s_sub p s_one)).
Definition st_identric_mean (x y : F) : F :=
  if s_eq x y then x else
  s_mul (s_div s_one (s_exp s_one)) (s_pow (s_div (s_pow x x) (s_pow y y)) (s_div s_one (s_sub x y))).
Definition st_log_mean (x y : F) : F :=
  if s_eq x y then x else s_div (s_sub y x) (s_sub (s_log y) (s_log x)).

(** ** MLPPUniLinReg.  The object: its two data references and its two coefficients. *)
Record ulr := ULR { u_in : option loc; u_out : option loc; u_b0 : F; u_b1 : F }.
(** uni_lin_reg.cpp:68-75 [train]. *)
Definition ulr_train (u : ulr) : M F ulr :=
  match u_in u, u_out u with
  | Some x, Some y =>
    let! b1 := st_b1 (Some x) (Some y) in
    let! b0 := st_b0 (Some x) (Some y) in
    ret (ULR (u_in u) (u_out u) b0 b1)
  | _, _ => ret u
  end.
(** uni_lin_reg.cpp:85-90: constructor.  Members start uninitialised if training fails; the model starts
    from zeros. *)
Definition ulr_new rx ry : M F ulr := ulr_train (ULR rx ry s_zero s_zero).
(** uni_lin_reg.cpp:77-79 [model_set_test]: the intermediate vector dies. *)
Definition ulr_model_set_test (u : ulr) rx : M F loc :=
  let! x := deref rx in
  let! t := v_scalar_multiplyn (u_b1 u) x in
  let! o := v_scalar_addn (u_b0 u) t in
  del_obj t ;;;
  ret o.
(** uni_lin_reg.cpp:81-83 [model_test]. *)
Definition ulr_model_test (u : ulr) (x : F) : F := s_add (u_b0 u) (s_mul (u_b1 u) x).
End stat.
Global Arguments ulr F : clear implicits.
