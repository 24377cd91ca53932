(** * Activation functions: /repo/core/activation.cpp (and the MLPPLinAlg calls it is built from,
    /repo/core/lin_alg.cpp).  Proof-free file.

    Simplifications.
    - The C++ mixes [float] [real_t] with [double] literals and libm calls; the model computes in one scalar
      type.  Decimal literals are the quotient of two exactly represented integers ([lit n d] = n/d).
    - The order in which C++ evaluates function arguments is unspecified; the model evaluates left to right
      (the arguments only create fresh temporaries).
    - A temporary is destroyed as soon as its last use is over (C++: at the end of the full expression). *)
From Verif Require Import Base Vec Mat.

(** libm / language facilities used here in addition to [Scalar]: tanh, sinh, cosh, fmax (math.h),
    Math_PI (platform/sfw.h:2181), and the conversion of a [real_t] to [int] (line 1023: undefined when the
    truncated value does not fit). *)
Class Libm (F : Type) := {
  m_tanh : F -> F; m_sinh : F -> F; m_cosh : F -> F; m_fmax : F -> F -> F; m_pi : F;
  m_to_int : F -> option Z }.

Section act.
Context {F : Type} `{Scalar F} `{Libm F}.
Implicit Types (l z : loc) (r : option loc).

Definition lit (n d : Z) : F := s_div (s_of_Z n) (s_of_Z d).
Definition s_two : F := s_of_Z 2.
Definition s_half : F := lit 1 2.   (* the literal 0.5 *)
Definition s_m1 : F := s_of_Z (-1). (* the literal -1 *)

(** ** Scalar functions *)
Definition linear_normr (z : F) : F := z.                                                   (* 851-853 *)
Definition linear_derivr (z : F) : F := s_one.                                              (* 861-863 *)
Definition sigmoid_normr (z : F) : F := s_div s_one (s_add s_one (s_exp (s_opp z))).        (* 874-876 *)
Definition sigmoid_derivr (z : F) : F :=                                                    (* 886-890 *)
  let s := sigmoid_normr z in s_mul s (s_sub s_one s).
Definition softmax_normr (z : F) : F := z.                                                  (* 909-911 *)
Definition softmax_derivr (z : F) : F := z.                                                 (* 959-961 *)
Definition adj_softmax_normr (z : F) : F := s_zero.                                         (* 1011-1013 *)
Definition adj_softmax_derivr (z : F) : F := s_zero.                                        (* 1056-1058 *)
Definition softplus_normr (z : F) : F := s_log (s_add s_one (s_exp z)).                     (* 1241-1243 *)
Definition softplus_derivr (z : F) : F := sigmoid_normr z.                                  (* 1255-1257 *)
Definition softsign_normr (z : F) : F := s_div z (s_add s_one (s_abs z)).                   (* 1267-1269 *)
Definition softsign_derivr (z : F) : F :=                                                   (* 1281-1283 *)
  s_div s_one (s_mul (s_add s_one (s_abs z)) (s_add s_one (s_abs z))).
Definition gaussian_cdf_normr (z : F) : F :=                                                (* 1297-1299 *)
  s_mul s_half (s_add s_one (s_erf (s_div z (s_sqrt s_two)))).
Definition gaussian_cdf_derivr (z : F) : F :=                                               (* 1312-1314 *)
  s_mul (s_div s_one (s_sqrt (s_mul s_two m_pi))) (s_exp (s_div (s_mul (s_opp z) z) s_two)).
Definition cloglog_normr (z : F) : F := s_sub s_one (s_exp (s_opp (s_exp z))).              (* 1329-1331 *)
Definition cloglog_derivr (z : F) : F := s_exp (s_sub z (s_exp z)).                         (* 1344-1346 *)
Definition logit_normr (z : F) : F := s_log (s_div z (s_sub s_one z)).                      (* 1361-1363 *)
Definition logit_derivr (z : F) : F := s_sub (s_div s_one z) (s_div s_one (s_sub z s_one)). (* 1375-1377 *)
Definition unit_step_normr (z : F) : F := if s_lt z s_zero then s_zero else s_one.          (* 1397-1399 *)
Definition unit_step_derivr (z : F) : F := s_zero.                                          (* 1433-1435 *)
Definition swish_normr (z : F) : F := s_mul z (sigmoid_normr z).                            (* 1455-1457 *)
Definition swish_derivr (z : F) : F :=                                                      (* 1469-1471 *)
  s_add (swish_normr z) (s_mul (sigmoid_normr z) (s_sub s_one (swish_normr z))).
Definition sinh_normr (z : F) : F := s_mul s_half (s_sub (s_exp z) (s_exp (s_opp z))).      (* 2025-2027 *)
Definition cosh_normr (z : F) : F := s_mul s_half (s_add (s_exp z) (s_exp (s_opp z))).      (* 2049-2051 *)
Definition sinh_derivr (z : F) : F := cosh_normr z.                                         (* 2037-2039 *)
Definition cosh_derivr (z : F) : F := sinh_normr z.                                         (* 2061-2063 *)
Definition tanh_normr (z : F) : F :=                                                        (* 2073-2075 *)
  s_div (s_sub (s_exp z) (s_exp (s_opp z))) (s_add (s_exp z) (s_exp (s_opp z))).
Definition tanh_derivr (z : F) : F := s_sub s_one (s_mul (m_tanh z) (m_tanh z)).            (* 2087-2089 *)
Definition csch_normr (z : F) : F := s_div s_one (m_sinh z).                                (* 2103-2105 *)
Definition sech_normr (z : F) : F := s_div s_one (m_cosh z).                                (* 2135-2137 *)
Definition coth_normr (z : F) : F := s_div s_one (m_tanh z).                                (* 2171-2173 *)
Definition csch_derivr (z : F) : F := s_mul (s_opp (csch_normr z)) (coth_normr z).          (* 2118-2120 *)
Definition sech_derivr (z : F) : F := s_mul (s_opp (sech_normr z)) (tanh_normr z).          (* 2154-2156 *)
Definition coth_derivr (z : F) : F := s_mul (s_opp (csch_normr z)) (csch_normr z).          (* 2185-2187 *)
Definition mish_normr (z : F) : F := s_mul z (m_tanh (softplus_normr z)).                   (* 1485-1487 *)
Definition mish_derivr (z : F) : F :=                                                       (* 1499-1501 *)
  s_add (s_mul (s_mul (s_mul (sech_normr (softplus_normr z)) (sech_normr (softplus_normr z))) z) (sigmoid_normr z))
        (s_div (mish_normr z) z).
Definition sinc_normr (z : F) : F := s_div (s_sin z) z.                                     (* 1529-1531 *)
Definition sinc_derivr (z : F) : F := s_div (s_sub (s_mul z (s_cos z)) (s_sin z)) (s_mul z z). (* 1543-1545 *)
Definition relu_normr (z : F) : F := m_fmax s_zero z.                                       (* 1559-1561 *)
(** [z <= 0] is [z < 0 || z == 0]; [z >= 0] is [0 < z || z == 0]. *)
Definition s_lez (z : F) : bool := s_lt z s_zero || s_eq z s_zero.
Definition s_gez (z : F) : bool := s_lt s_zero z || s_eq z s_zero.
Definition relu_derivr (z : F) : F := if s_lez z then s_zero else s_one.                    (* 1595-1601 *)
Definition leaky_relu_normr (z c : F) : F := m_fmax (s_mul c z) z.                          (* 1637-1639 *)
Definition leaky_relu_derivr (z c : F) : F := if s_lez z then c else s_one.                 (* 1673-1679 *)
Definition elu_normr (z c : F) : F := if s_gez z then z else s_mul c (s_sub (s_exp z) s_one). (* 1715-1721 *)
Definition elu_derivr (z c : F) : F := if s_lez z then s_mul c (s_exp z) else s_one.        (* 1755-1761 *)
Definition selu_normr (z lambda c : F) : F := s_mul lambda (elu_normr z c).                 (* 1797-1799 *)
Definition selu_derivr (z lambda c : F) : F := elu_derivr z c.                              (* 1833-1835 *)
Definition cube (z : F) : F := s_pow z (s_of_Z 3).
Definition gelu_normr (z : F) : F :=                                                        (* 1871-1873 *)
  s_mul (s_mul s_half z) (s_add s_one (m_tanh (s_mul (s_sqrt (s_div s_two m_pi))
      (s_add z (s_mul (lit 44715 1000000) (cube z)))))).
Definition gelu_derivr (z : F) : F :=                                                       (* 1907-1909 *)
  let a := s_add (s_mul (lit 356774 10000000) (cube z)) (s_mul (lit 797885 1000000) z) in
  s_add (s_add (s_mul s_half (tanh_normr a))
    (s_mul (s_add (s_mul (lit 535161 10000000) (cube z)) (s_mul (lit 398942 1000000) z)) (s_pow (sech_normr a) s_two))) s_half.
Definition sign_normr (z : F) : F :=                                                        (* 1945-1953 *)
  if s_lt z s_zero then s_m1 else if s_eq z s_zero then s_zero else s_one.
Definition sign_derivr (z : F) : F := s_zero.                                               (* 1987-1989 *)
Definition arsinh_normr (z : F) : F := s_log (s_add z (s_sqrt (s_add (s_mul z z) s_one))).  (* 2201-2203 *)
Definition arsinh_derivr (z : F) : F := s_div s_one (s_sqrt (s_add (s_mul z z) s_one)).     (* 2217-2219 *)
Definition arcosh_normr (z : F) : F := s_log (s_add z (s_sqrt (s_sub (s_mul z z) s_one))).  (* 2235-2237 *)
Definition arcosh_derivr (z : F) : F := s_div s_one (s_sqrt (s_sub (s_mul z z) s_one)).     (* 2250-2252 *)
Definition artanh_normr (z : F) : F := s_mul s_half (s_log (s_div (s_add s_one z) (s_sub s_one z))). (* 2267-2269 *)
Definition artanh_derivr (z : F) : F := s_div s_one (s_sub s_one (s_mul z z)).              (* 2282-2284 *)
Definition arcsch_normr (z : F) : F :=                                                      (* 2299-2301 *)
  s_log (s_add (s_sqrt (s_add s_one (s_div s_one (s_mul z z)))) (s_div s_one z)).
Definition arcsch_derivr (z : F) : F :=                                                     (* 2324-2326 *)
  s_div s_m1 (s_mul (s_mul z z) (s_sqrt (s_add s_one (s_div s_one (s_mul z z))))).
Definition arsech_normr (z : F) : F :=                                                      (* 2348-2350 *)
  s_log (s_add (s_div s_one z) (s_mul (s_add (s_div s_one z) s_one) (s_sub (s_div s_one z) s_one))).
Definition arsech_derivr (z : F) : F := s_div s_m1 (s_mul z (s_sqrt (s_sub s_one (s_mul z z)))). (* 2382-2384 *)
Definition arcoth_normr (z : F) : F := s_mul s_half (s_log (s_div (s_add s_one z) (s_sub z s_one))). (* 2409-2411 *)
Definition arcoth_derivr (z : F) : F := s_div s_one (s_sub s_one (s_mul z z)).              (* 2428-2430 *)

(** ** MLPPLinAlg building blocks (lin_alg.cpp) *)

Inductive kind := KV | KM.   (* Ref<MLPPVector> / Ref<MLPPMatrix> *)

(** Unary maps.  [nullok = true]: ERR_FAIL_COND_V on a null argument
    (lognv 1330, expnv 1366, erfnv 1384, exponentiatenv 1402, sqrtnv 1420, absv 1470, sinnv 1516, cosnv,
     scalar_multiplynv 1171-1188, scalar_addnv 1207-1224; lognm 288, expnm 326, erfnm 344, exponentiatenm 362,
     sqrtnm 380, absnm 417, sinnm 579, cosnm 597).
    [nullok = false]: the argument is dereferenced (scalar_multiplynm 262-274, scalar_addnm 276-288: duplicate,
    then multiply / add in place). *)
Definition la1 (k : kind) (nullok : bool) (f : F -> F) r : M F (option loc) :=
  match k, nullok, r with
  | _, true, None => ret None
  | _, false, None => ub
  | KV, _, Some a => let! o := v_mapn f a in ret (Some o)
  | KM, true, Some a => let! o := m_mapn f a in ret (Some o)
  | KM, false, Some a => let! o := m_mapn_dup f a in ret (Some o)
  end.

(** Binary maps: additionnv 1243-1262, subtractionnv 1284-1308 (its extra early return for size 0 gives the same
    empty vector), hadamard_productnv 1106-1126 and division_element_wisenv 1148-1169 (result instantiated before
    the size test: same effect); additionnm 76-95, subtractionnm 96-115, hadamard_productnm 149-170,
    division_element_wisenvnm 219-240 (the nm loops run row by row over the same cells in the same order). *)
Definition la2 (k : kind) (f : F -> F -> F) ra rb : M F (option loc) :=
  match ra with
  | None => ret None
  | Some a => match k with KV => v_op2n f a rb | KM => m_op2n f a rb end
  end.

(** onevecnv(z->size()) 1498-1506, fullnv(z->size(), k) 1507-1515, onematnm(z->size().y, z->size().x) 561-569,
    fullnm 570-578. *)
Definition la_full (k : kind) (c : F) r : M F (option loc) :=
  let! a := deref r in
  match k with
  | KV => let! n := v_size a in let! o := v_full n c in ret (Some o)
  | KM => let! s := m_size a in let '(x, y) := s in let! o := m_full y x c in ret (Some o)
  end.

(** ** Expressions over the argument [z], as the vector and matrix forms are written.
    [ACast e]: the implicit conversion between Ref<MLPPVector> and Ref<MLPPMatrix> (platform/sfw.h:19308-19320);
    the classes are unrelated, so Object::cast_to gives nullptr and the new Ref is null.
    [ACall e2 e1]: [e2] with [e1] as its argument (call of another function, or a local variable). *)
Inductive aexp :=
| AZ
| AConst (k : kind) (c : F)
| AUn (k : kind) (nullok : bool) (f : F -> F) (e : aexp)
| ABin (k : kind) (f : F -> F -> F) (e1 e2 : aexp)
| ACast (e : aexp)
| ACall (e2 e1 : aexp).

(** Destructor of a Ref temporary holding the last reference. *)
Definition drop_ref (own : bool) r : M F unit :=
  match own, r with true, Some l => del_obj l | _, _ => ret tt end.

(** Evaluation; the flag tells whether the result is a temporary (owned) or the caller's [z]. *)
Fixpoint aeval (e : aexp) r : M F (option loc * bool) :=
  match e with
  | AZ => ret (r, false)
  | AConst k c => let! o := la_full k c r in ret (o, true)
  | AUn k n f e1 =>
      let! a := aeval e1 r in
      let! o := la1 k n f (fst a) in
      drop_ref (snd a) (fst a) ;;; ret (o, true)
  | ABin k f e1 e2 =>
      let! a := aeval e1 r in
      let! b := aeval e2 r in
      let! o := la2 k f (fst a) (fst b) in
      drop_ref (snd a) (fst a) ;;; drop_ref (snd b) (fst b) ;;; ret (o, true)
  | ACast e1 =>
      let! a := aeval e1 r in
      drop_ref (snd a) (fst a) ;;; ret (None, true)
  | ACall e2 e1 =>
      let! a := aeval e1 r in
      let! o := aeval e2 (fst a) in
      if snd o : bool then drop_ref (snd a) (fst a) ;;; ret o else ret (fst o, snd a)
  end.
(** A C++ function whose body is [return e;]. *)
Definition run_exp (e : aexp) r : M F (option loc) := let! o := aeval e r in ret (fst o).

(** Abbreviations for the calls, by the class suffix used in the C++ (nv / nm). *)
Definition e_one k := AConst k s_one.
Definition e_add k := ABin k s_add.  Definition e_sub k := ABin k s_sub.
Definition e_mul k := ABin k s_mul.  Definition e_div k := ABin k s_div.
Definition e_scale k (c : F) := AUn k (match k with KV => true | KM => false end) (fun x => s_mul x c).
Definition e_sadd k (c : F) := AUn k (match k with KV => true | KM => false end) (fun x => s_add x c).
Definition e_exp k := AUn k true s_exp.    Definition e_log k := AUn k true s_log.
Definition e_erf k := AUn k true s_erf.    Definition e_sqrt k := AUn k true s_sqrt.
Definition e_abs k := AUn k true s_abs.    Definition e_sin k := AUn k true s_sin.
Definition e_cos k := AUn k true s_cos.    Definition e_pow k (p : F) := AUn k true (fun x => s_pow x p).

(** *** Forms written identically for vectors and matrices ([k] selects the nv / nm calls). *)
Definition linear_deriv_e k := e_one k.                                                     (* 864-871 *)
Definition sigmoid_norm_e k :=                                                              (* 877-884 *)
  e_div k (e_one k) (e_add k (e_one k) (e_exp k (e_scale k s_m1 AZ))).
Definition sigmoid_deriv_e k := ACall (e_sub k AZ (e_mul k AZ AZ)) (sigmoid_norm_e k).      (* 892-905 *)
Definition gaussian_cdf_norm_e k :=                                                         (* 1300-1310 *)
  e_scale k s_half (e_add k (e_one k) (e_erf k (e_scale k (s_div s_one (s_sqrt s_two)) AZ))).
Definition gaussian_cdf_deriv_e k :=                                                        (* 1315-1325 *)
  e_scale k (s_div s_one (s_sqrt (s_mul s_two m_pi))) (e_exp k (e_scale k (s_div s_m1 s_two) (e_mul k AZ AZ))).
Definition cloglog_norm_e k :=                                                              (* 1332-1342 *)
  e_scale k s_m1 (e_sadd k s_m1 (e_exp k (e_scale k s_m1 (e_exp k AZ)))).
Definition cloglog_deriv_e k := e_exp k (e_scale k s_m1 (e_exp k AZ)).                      (* 1347-1357 *)
Definition logit_norm_e k := e_log k (e_div k AZ (e_sub k (e_one k) AZ)).                   (* 1364-1373 *)
Definition logit_deriv_e k :=                                                               (* 1378-1393 *)
  e_sub k (e_div k (e_one k) AZ) (e_div k (e_one k) (e_sub k AZ (e_one k))).
Definition sinc_norm_e k := e_div k (e_sin k AZ) AZ.                                        (* 1532-1541 *)
Definition sinc_deriv_e k := e_div k (e_sub k (e_mul k AZ (e_cos k AZ)) (e_sin k AZ)) (e_mul k AZ AZ). (* 1546-1555 *)
Definition sinh_norm_e k := e_scale k s_half (e_sub k (e_exp k AZ) (e_exp k (e_scale k s_m1 AZ))). (* 2028-2035 *)
Definition cosh_norm_e k := e_scale k s_half (e_add k (e_exp k AZ) (e_exp k (e_scale k s_m1 AZ))). (* 2052-2059 *)
Definition sinh_deriv_e := cosh_norm_e.                                                     (* 2040-2045 *)
Definition cosh_deriv_e := sinh_norm_e.                                                     (* 2064-2069 *)
Definition tanh_norm_e k :=                                                                 (* 2076-2085 *)
  e_div k (e_sub k (e_exp k AZ) (e_exp k (e_scale k s_m1 AZ))) (e_add k (e_exp k AZ) (e_exp k (e_scale k s_m1 AZ))).
Definition tanh_deriv_e k := e_scale k s_m1 (e_sadd k s_m1 (e_mul k (tanh_norm_e k) (tanh_norm_e k))). (* 2090-2099 *)
Definition csch_norm_e k := e_div k (e_one k) (sinh_norm_e k).                              (* 2106-2116 *)
Definition sech_norm_e k := e_div k (e_one k) (cosh_norm_e k).                              (* 2139-2152 *)
Definition coth_norm_e k := e_div k (e_one k) (tanh_norm_e k).                              (* 2174-2183 *)
Definition csch_deriv_e k := e_mul k (e_scale k s_m1 (csch_norm_e k)) (coth_norm_e k).      (* 2121-2131 *)
Definition sech_deriv_e k := e_mul k (e_scale k s_m1 (sech_norm_e k)) (tanh_norm_e k).      (* 2158-2167 *)
Definition coth_deriv_e k := e_mul k (e_scale k s_m1 (csch_norm_e k)) (csch_norm_e k).      (* 2188-2197 *)
Definition arsinh_norm_e k := e_log k (e_add k AZ (e_sqrt k (e_add k (e_mul k AZ AZ) (e_one k)))). (* 2205-2215 *)
Definition arsinh_deriv_e k := e_div k (e_one k) (e_sqrt k (e_add k (e_mul k AZ AZ) (e_one k))).   (* 2221-2231 *)
Definition arcosh_norm_e k := e_log k (e_add k AZ (e_sqrt k (e_sub k (e_mul k AZ AZ) (e_one k)))). (* 2238-2248 *)
Definition arcosh_deriv_e k := e_div k (e_one k) (e_sqrt k (e_sub k (e_mul k AZ AZ) (e_one k))).   (* 2253-2263 *)
Definition artanh_norm_e k :=                                                               (* 2270-2280 *)
  e_scale k s_half (e_log k (e_div k (e_add k (e_one k) AZ) (e_sub k (e_one k) AZ))).
Definition arcsch_norm_e k :=                                                               (* 2302-2322 *)
  e_log k (e_add k (e_sqrt k (e_add k (e_one k) (e_div k (e_one k) (e_mul k AZ AZ)))) (e_div k (e_one k) AZ)).
Definition arsech_norm_e k :=                                                               (* 2352-2380 *)
  e_log k (e_add k (e_div k (e_one k) AZ)
    (e_mul k (e_add k (e_div k (e_one k) AZ) (e_one k)) (e_sub k (e_div k (e_one k) AZ) (e_one k)))).
Definition arsech_deriv_e k :=                                                              (* 2386-2405 *)
  e_div k (AConst k s_m1) (e_mul k AZ (e_sqrt k (e_sub k (e_one k) (e_mul k AZ AZ)))).
Definition arcoth_norm_e k :=                                                               (* 2412-2426 *)
  e_scale k s_half (e_log k (e_div k (e_add k (e_one k) AZ) (e_sub k AZ (e_one k)))).
Definition arcoth_deriv_e k := e_div k (e_one k) (e_sub k (e_one k) (e_mul k AZ AZ)).       (* 2431-2441 *)

(** *** Forms that differ (wrong-suffix calls in the C++ go through a null conversion). *)
Definition softplus_normv_e := e_log KV (e_add KV (e_one KV) (e_exp KV AZ)).                (* 1244-1248 *)
Definition softplus_normm_e :=                                                              (* 1249-1253 *)
  ACast (e_log KV (e_add KV (ACast (e_one KM)) (e_exp KV (ACast AZ)))).
Definition softplus_deriv_e := sigmoid_norm_e.                                              (* 1258-1263 *)
Definition softsign_normv_e := e_div KV AZ (e_add KV (e_one KV) (e_abs KV AZ)).             (* 1270-1274 *)
Definition softsign_normm_e :=                                                              (* 1275-1279 *)
  e_div KM AZ (ACast (e_add KV (ACast (e_one KM)) (ACast (e_abs KM AZ)))).
Definition softsign_derivv_e :=                                                             (* 1284-1288 *)
  e_div KV (e_one KV) (e_pow KV s_two (e_add KV (e_one KV) (e_abs KV AZ))).
Definition softsign_derivm_e :=                                                             (* 1289-1293 *)
  e_div KM (e_one KM) (ACast (e_pow KV s_two (ACast (e_add KM (e_one KM) (e_abs KM AZ))))).
Definition swish_normv_e := e_mul KV AZ (sigmoid_norm_e KV).                                (* 1458-1462 *)
Definition swish_normm_e := ACast (e_mul KV (ACast AZ) (ACast (sigmoid_norm_e KM))).        (* 1463-1467 *)
Definition swish_derivv_e :=                                                                (* 1472-1476 *)
  e_add KV swish_normv_e (e_sub KV (sigmoid_norm_e KV) (e_mul KV (sigmoid_norm_e KV) swish_normv_e)).
Definition swish_derivm_e :=                                                                (* 1477-1481 *)
  ACast (e_add KV (ACast swish_normm_e)
    (e_sub KV (ACast (sigmoid_norm_e KM)) (ACast (e_mul KM (sigmoid_norm_e KM) swish_normm_e)))).
Definition mish_normv_e := e_mul KV AZ (ACall (tanh_norm_e KV) softplus_normv_e).           (* 1488-1492 *)
Definition mish_normm_e := e_mul KM AZ (ACall (tanh_norm_e KM) softplus_normm_e).           (* 1493-1497 *)
Definition mish_derivv_e :=                                                                 (* 1502-1513 *)
  e_add KV
    (e_mul KV (e_mul KV (e_mul KV (ACall (sech_norm_e KV) softplus_normv_e) (ACall (sech_norm_e KV) softplus_normv_e)) AZ)
       (sigmoid_norm_e KV))
    (e_div KV mish_normv_e AZ).
Definition mish_derivm_e :=                                                                 (* 1514-1525 *)
  ACast (e_add KV
    (ACast (e_mul KM (e_mul KM (e_mul KM (ACall (sech_norm_e KM) softplus_normm_e) (ACall (sech_norm_e KM) softplus_normm_e)) AZ)
       (sigmoid_norm_e KM)))
    (ACast (e_div KM mish_normm_e AZ))).
Definition artanh_derivv_e := e_div KV (e_one KV) (e_sub KV (e_one KV) (e_mul KV AZ AZ)).   (* 2285-2289 *)
Definition artanh_derivm_e :=                                                               (* 2291-2295 *)
  e_div KM (e_one KM) (ACast (e_sub KV (ACast (e_one KM)) (ACast (e_mul KM AZ AZ)))).
Definition arcsch_derivv_e :=                                                               (* 2327-2335 *)
  e_div KV (AConst KV s_m1)
    (ACast (e_mul KM (ACast (e_mul KV AZ AZ))
       (ACast (e_sqrt KV (e_add KV (e_one KV) (e_div KV (e_one KV) (e_mul KV AZ AZ))))))).
Definition arcsch_derivm_e :=                                                               (* 2336-2344 *)
  e_div KM (AConst KM s_m1)
    (e_mul KM (e_mul KM AZ AZ) (e_sqrt KM (e_add KM (e_one KM) (e_div KM (e_one KM) (e_mul KM AZ AZ))))).

(** ** Forms that loop over the scalar function: unit_step, relu, leaky_relu, elu, selu, gelu, sign (norm and
    deriv, e.g. relu_normv 1562-1577, relu_normm 1578-1593), activationr 829-846; unit_step_deriv* (1436-1451) resize
    and fill with 0: same cells. *)
Definition act_loop (k : kind) (f : F -> F) r : M F (option loc) :=
  let! a := deref r in
  match k with
  | KV => let! o := v_mapn f a in ret (Some o)
  | KM => let! o := m_mapn f a in ret (Some o)
  end.
(** 854-859 linear_normv / linear_normm: duplicate_fast. *)
Definition linear_normv r : M F (option loc) := let! a := deref r in let! o := v_duplicate a in ret (Some o).
Definition linear_normm r : M F (option loc) := let! a := deref r in let! o := m_duplicate a in ret (Some o).

(** ** Softmax *)
(** 912-936 softmax_normv; softmax_derivv (962-986) has the same body. *)
Definition softmax_normv r : M F (option loc) :=
  let! z := deref r in
  let! n := v_size z in
  let! a := v_new in
  v_resize a n ;;;
  let! re := la1 KV true s_exp (Some z) in
  let! e := deref re in
  let! pe := data_ptr e in
  let! pa := data_ptr a in
  let! sum := for_acc 0 n s_zero (fun i s => let! x := load pe i in ret (s_add s x)) in
  for_ 0 n (fun i => let! x := load pe i in store pa i (s_div x sum)) ;;;
  del_obj e ;;;
  ret (Some a).
Definition softmax_derivv := softmax_normv.

(** One row at a time: 937-957 softmax_normm. *)
Definition softmax_normm r : M F (option loc) :=
  let! z := deref r in
  let! s := m_size z in
  let '(sx, sy) := s in
  let! a := m_new in
  m_resize a s ;;;
  let! row := v_new in
  v_resize row sx ;;;
  for_ 0 sy (fun i =>
    m_row_get_into z i (Some row) ;;;
    let! sfn := softmax_normv (Some row) in
    m_row_set_vec a i sfn ;;;
    drop_ref true sfn) ;;;
  del_obj row ;;;
  ret (Some a).

(** 987-1007 softmax_derivm: the loop body calls softmax_derivm(z) itself (line 1002). [fuel] bounds the call depth. *)
Fixpoint softmax_derivm (fuel : nat) r : M F (option loc) :=
  match fuel with
  | O => nofuel
  | S fuel' =>
    let! z := deref r in
    let! s := m_size z in
    let '(sx, sy) := s in
    let! a := m_new in
    m_resize a s ;;;
    let! row := v_new in
    v_resize row sx ;;;
    for_ 0 sy (fun i =>
      m_row_get_into z i (Some row) ;;;
      let! sfn := softmax_derivm fuel' r in
      drop_ref true sfn ;;;
      m_row_set_vec a i None) ;;;
    del_obj row ;;;
    ret (Some a)
  end.

(** 1015-1034 adj_softmax_normv: the maximum is taken over the elements converted to int. *)
Definition adj_shift z : M F F :=
  let! n := v_size z in
  let! p := data_ptr z in
  let! c := for_acc 0 n (s_opp s_inf) (fun i c =>
    let! x := load p i in
    match m_to_int x with
    | None => ub
    | Some k => ret (if s_lt c (s_of_Z k) then s_of_Z k else c)
    end) in
  ret (s_opp c).
Definition adj_softmax_normv r : M F (option loc) :=
  let! z := deref r in
  let! c := adj_shift z in
  let! n := la1 KV true (fun x => s_add x c) (Some z) in
  let! o := softmax_normv n in
  drop_ref true n ;;;
  ret o.
(** 1060-1080 adj_softmax_derivv: same shift, then adj_softmax_normv. *)
Definition adj_softmax_derivv r : M F (option loc) :=
  let! z := deref r in
  let! c := adj_shift z in
  let! n := la1 KV true (fun x => s_add x c) (Some z) in
  let! o := adj_softmax_normv n in
  drop_ref true n ;;;
  ret o.
(** 1036-1054 adj_softmax_normm, 1081-1099 adj_softmax_derivm. *)
Definition adj_softmax_rows (f : option loc -> M F (option loc)) r : M F (option loc) :=
  let! z := deref r in
  let! n := m_duplicate z in
  let! s := m_size z in
  let '(sx, sy) := s in
  let! row := v_new in
  v_resize row sx ;;;
  for_ 0 sy (fun i =>
    m_row_get_into z i (Some row) ;;;
    let! nv := f (Some row) in
    m_row_set_vec n i nv ;;;
    drop_ref true nv) ;;;
  del_obj row ;;;
  ret (Some n).
Definition adj_softmax_normm := adj_softmax_rows adj_softmax_normv.
Definition adj_softmax_derivm := adj_softmax_rows adj_softmax_derivv.

(** 1103-1126 softmax_deriv_normv; softmax_deriv_derivv (1171-1194) has the same body. *)
Definition softmax_deriv_normv r : M F (option loc) :=
  let! ra := softmax_normv r in
  let! z := deref r in
  let! a := deref ra in
  let! n := v_size z in
  let! m := v_size a in
  let! d := m_new in
  m_resize d (m, m) ;;;
  let! pa := data_ptr a in
  for_ 0 n (fun i => for_ 0 n (fun j =>
    let! x := load pa i in
    if i =? j then m_set d i j (s_mul x (s_sub s_one x))
    else let! y := load pa j in m_set d i j (s_mul (s_opp x) y))) ;;;
  del_obj a ;;;
  ret (Some d).
Definition softmax_deriv_derivv := softmax_deriv_normv.

(** 1127-1169 softmax_deriv_normm: one matrix per row of [z]; softmax_deriv_derivm (1195-1237) has the same body.
    The result vector is a list of refs. *)
Definition softmax_deriv_normm r : M F (list (option loc)) :=
  let! z := deref r in
  let! sz := m_size z in
  let! ra := softmax_normm r in
  let! a := deref ra in
  let! s := m_size a in
  let '(ax, ay) := s in
  let! ai := v_new in v_resize ai ax ;;;
  let! aj := v_new in v_resize aj ax ;;;
  let! ds := for_acc 0 ay [] (fun i ds =>
    let! d := m_new in
    m_resize d (ax, snd sz) ;;;
    for_ 0 (snd sz) (fun j =>
      m_row_get_into a i (Some ai) ;;;
      if i =? j then
        let! t := la2 KV s_mul (Some ai) (Some ai) in
        let! dj := la2 KV s_sub (Some ai) t in
        m_row_set_vec d j dj ;;; drop_ref true dj ;;; drop_ref true t
      else
        m_row_get_into a j (Some aj) ;;;
        let! t := la2 KV s_mul (Some ai) (Some aj) in
        let! dj := la1 KV true (fun x => s_mul x s_m1) t in
        m_row_set_vec d j dj ;;; drop_ref true dj ;;; drop_ref true t) ;;;
    ret (ds ++ [Some d])) in
  del_obj aj ;;; del_obj ai ;;; del_obj a ;;;
  ret ds.

(** ** Dispatch (activation.h:57-86 enum; the switch statements map each name to the functions of that name). *)
Inductive actfn :=
| LINEAR | SIGMOID | SWISH | MISH | SIN_C | SOFTMAX | SOFTPLUS | SOFTSIGN | ADJ_SOFTMAX | C_LOG_LOG | LOGIT
| GAUSSIAN_CDF | RELU | GELU | SIGN | UNIT_STEP | SINH | COSH | TANH | CSCH | SECH | COTH
| ARSINH | ARCOSH | ARTANH | ARCSCH | ARSECH | ARCOTH.

(** 456-517 run_activation_norm_real. *)
Definition run_norm_real (f : actfn) : F -> F :=
  match f with
  | LINEAR => linear_normr | SIGMOID => sigmoid_normr | SWISH => swish_normr | MISH => mish_normr | SIN_C => sinc_normr
  | SOFTMAX => softmax_normr | SOFTPLUS => softplus_normr | SOFTSIGN => softsign_normr | ADJ_SOFTMAX => adj_softmax_normr
  | C_LOG_LOG => cloglog_normr | LOGIT => logit_normr | GAUSSIAN_CDF => gaussian_cdf_normr | RELU => relu_normr
  | GELU => gelu_normr | SIGN => sign_normr | UNIT_STEP => unit_step_normr | SINH => sinh_normr | COSH => cosh_normr
  | TANH => tanh_normr | CSCH => csch_normr | SECH => sech_normr | COTH => coth_normr | ARSINH => arsinh_normr
  | ARCOSH => arcosh_normr | ARTANH => artanh_normr | ARCSCH => arcsch_normr | ARSECH => arsech_normr | ARCOTH => arcoth_normr
  end.
(** 643-704 run_activation_deriv_real: every case calls the *_normr function. *)
Definition run_deriv_real (f : actfn) : F -> F :=
  match f with
  | LINEAR => linear_normr | SIGMOID => sigmoid_normr | SWISH => swish_normr | MISH => mish_normr | SIN_C => sinc_normr
  | SOFTMAX => softmax_normr | SOFTPLUS => softplus_normr | SOFTSIGN => softsign_normr | ADJ_SOFTMAX => adj_softmax_normr
  | C_LOG_LOG => cloglog_normr | LOGIT => logit_normr | GAUSSIAN_CDF => gaussian_cdf_normr | RELU => relu_normr
  | GELU => gelu_normr | SIGN => sign_normr | UNIT_STEP => unit_step_normr | SINH => sinh_normr | COSH => cosh_normr
  | TANH => tanh_normr | CSCH => csch_normr | SECH => sech_normr | COTH => coth_normr | ARSINH => arsinh_normr
  | ARCOSH => arcosh_normr | ARTANH => artanh_normr | ARCSCH => arcsch_normr | ARSECH => arsech_normr | ARCOTH => arcoth_normr
  end.
(** 434-440 run_activation_real: [deriv] true selects the plain function. *)
Definition run_real (f : actfn) (z : F) (deriv : bool) : F := if deriv then run_norm_real f z else run_deriv_real f z.

(** The *_derivr functions by name (not reachable through the dispatch above). *)
Definition derivr (f : actfn) : F -> F :=
  match f with
  | LINEAR => linear_derivr | SIGMOID => sigmoid_derivr | SWISH => swish_derivr | MISH => mish_derivr | SIN_C => sinc_derivr
  | SOFTMAX => softmax_derivr | SOFTPLUS => softplus_derivr | SOFTSIGN => softsign_derivr | ADJ_SOFTMAX => adj_softmax_derivr
  | C_LOG_LOG => cloglog_derivr | LOGIT => logit_derivr | GAUSSIAN_CDF => gaussian_cdf_derivr | RELU => relu_derivr
  | GELU => gelu_derivr | SIGN => sign_derivr | UNIT_STEP => unit_step_derivr | SINH => sinh_derivr | COSH => cosh_derivr
  | TANH => tanh_derivr | CSCH => csch_derivr | SECH => sech_derivr | COTH => coth_derivr | ARSINH => arsinh_derivr
  | ARCOSH => arcosh_derivr | ARTANH => artanh_derivr | ARCSCH => arcsch_derivr | ARSECH => arsech_derivr | ARCOTH => arcoth_derivr
  end.

(** 518-579 run_activation_norm_vector. *)
Definition run_norm_vector (f : actfn) : option loc -> M F (option loc) :=
  match f with
  | LINEAR => linear_normv | SIGMOID => run_exp (sigmoid_norm_e KV) | SWISH => run_exp swish_normv_e
  | MISH => run_exp mish_normv_e | SIN_C => run_exp (sinc_norm_e KV) | SOFTMAX => softmax_normv
  | SOFTPLUS => run_exp softplus_normv_e | SOFTSIGN => run_exp softsign_normv_e | ADJ_SOFTMAX => adj_softmax_normv
  | C_LOG_LOG => run_exp (cloglog_norm_e KV) | LOGIT => run_exp (logit_norm_e KV)
  | GAUSSIAN_CDF => run_exp (gaussian_cdf_norm_e KV) | RELU => act_loop KV relu_normr
  | GELU => act_loop KV gelu_normr | SIGN => act_loop KV sign_normr | UNIT_STEP => act_loop KV unit_step_normr
  | SINH => run_exp (sinh_norm_e KV) | COSH => run_exp (cosh_norm_e KV) | TANH => run_exp (tanh_norm_e KV)
  | CSCH => run_exp (csch_norm_e KV) | SECH => run_exp (sech_norm_e KV) | COTH => run_exp (coth_norm_e KV)
  | ARSINH => run_exp (arsinh_norm_e KV) | ARCOSH => run_exp (arcosh_norm_e KV) | ARTANH => run_exp (artanh_norm_e KV)
  | ARCSCH => run_exp (arcsch_norm_e KV) | ARSECH => run_exp (arsech_norm_e KV) | ARCOTH => run_exp (arcoth_norm_e KV)
  end.
(** 705-766 run_activation_deriv_vector. *)
Definition run_deriv_vector (f : actfn) : option loc -> M F (option loc) :=
  match f with
  | LINEAR => run_exp (linear_deriv_e KV) | SIGMOID => run_exp (sigmoid_deriv_e KV) | SWISH => run_exp swish_derivv_e
  | MISH => run_exp mish_derivv_e | SIN_C => run_exp (sinc_deriv_e KV) | SOFTMAX => softmax_derivv
  | SOFTPLUS => run_exp (softplus_deriv_e KV) | SOFTSIGN => run_exp softsign_derivv_e | ADJ_SOFTMAX => adj_softmax_derivv
  | C_LOG_LOG => run_exp (cloglog_deriv_e KV) | LOGIT => run_exp (logit_deriv_e KV)
  | GAUSSIAN_CDF => run_exp (gaussian_cdf_deriv_e KV) | RELU => act_loop KV relu_derivr
  | GELU => act_loop KV gelu_derivr | SIGN => act_loop KV sign_derivr | UNIT_STEP => act_loop KV unit_step_derivr
  | SINH => run_exp (sinh_deriv_e KV) | COSH => run_exp (cosh_deriv_e KV) | TANH => run_exp (tanh_deriv_e KV)
  | CSCH => run_exp (csch_deriv_e KV) | SECH => run_exp (sech_deriv_e KV) | COTH => run_exp (coth_deriv_e KV)
  | ARSINH => run_exp (arsinh_deriv_e KV) | ARCOSH => run_exp (arcosh_deriv_e KV) | ARTANH => run_exp artanh_derivv_e
  | ARCSCH => run_exp arcsch_derivv_e | ARSECH => run_exp (arsech_deriv_e KV) | ARCOTH => run_exp (arcoth_deriv_e KV)
  end.
(** 441-447 run_activation_vector. *)
Definition run_vector (f : actfn) r (deriv : bool) : M F (option loc) :=
  if deriv then run_norm_vector f r else run_deriv_vector f r.

(** 580-641 run_activation_norm_matrix. *)
Definition run_norm_matrix (f : actfn) : option loc -> M F (option loc) :=
  match f with
  | LINEAR => linear_normm | SIGMOID => run_exp (sigmoid_norm_e KM) | SWISH => run_exp swish_normm_e
  | MISH => run_exp mish_normm_e | SIN_C => run_exp (sinc_norm_e KM) | SOFTMAX => softmax_normm
  | SOFTPLUS => run_exp softplus_normm_e | SOFTSIGN => run_exp softsign_normm_e | ADJ_SOFTMAX => adj_softmax_normm
  | C_LOG_LOG => run_exp (cloglog_norm_e KM) | LOGIT => run_exp (logit_norm_e KM)
  | GAUSSIAN_CDF => run_exp (gaussian_cdf_norm_e KM) | RELU => act_loop KM relu_normr
  | GELU => act_loop KM gelu_normr | SIGN => act_loop KM sign_normr | UNIT_STEP => act_loop KM unit_step_normr
  | SINH => run_exp (sinh_norm_e KM) | COSH => run_exp (cosh_norm_e KM) | TANH => run_exp (tanh_norm_e KM)
  | CSCH => run_exp (csch_norm_e KM) | SECH => run_exp (sech_norm_e KM) | COTH => run_exp (coth_norm_e KM)
  | ARSINH => run_exp (arsinh_norm_e KM) | ARCOSH => run_exp (arcosh_norm_e KM) | ARTANH => run_exp (artanh_norm_e KM)
  | ARCSCH => run_exp (arcsch_norm_e KM) | ARSECH => run_exp (arsech_norm_e KM) | ARCOTH => run_exp (arcoth_norm_e KM)
  end.
(** 767-828 run_activation_deriv_matrix ([fuel]: only for softmax_derivm). *)
Definition run_deriv_matrix (fuel : nat) (f : actfn) : option loc -> M F (option loc) :=
  match f with
  | LINEAR => run_exp (linear_deriv_e KM) | SIGMOID => run_exp (sigmoid_deriv_e KM) | SWISH => run_exp swish_derivm_e
  | MISH => run_exp mish_derivm_e | SIN_C => run_exp (sinc_deriv_e KM) | SOFTMAX => softmax_derivm fuel
  | SOFTPLUS => run_exp (softplus_deriv_e KM) | SOFTSIGN => run_exp softsign_derivm_e | ADJ_SOFTMAX => adj_softmax_derivm
  | C_LOG_LOG => run_exp (cloglog_deriv_e KM) | LOGIT => run_exp (logit_deriv_e KM)
  | GAUSSIAN_CDF => run_exp (gaussian_cdf_deriv_e KM) | RELU => act_loop KM relu_derivr
  | GELU => act_loop KM gelu_derivr | SIGN => act_loop KM sign_derivr | UNIT_STEP => act_loop KM unit_step_derivr
  | SINH => run_exp (sinh_deriv_e KM) | COSH => run_exp (cosh_deriv_e KM) | TANH => run_exp (tanh_deriv_e KM)
  | CSCH => run_exp (csch_deriv_e KM) | SECH => run_exp (sech_deriv_e KM) | COTH => run_exp (coth_deriv_e KM)
  | ARSINH => run_exp (arsinh_deriv_e KM) | ARCOSH => run_exp (arcosh_deriv_e KM) | ARTANH => run_exp artanh_derivm_e
  | ARCSCH => run_exp arcsch_derivm_e | ARSECH => run_exp (arsech_deriv_e KM) | ARCOTH => run_exp (arcoth_deriv_e KM)
  end.
(** 448-454 run_activation_matrix. *)
Definition run_matrix (fuel : nat) (f : actfn) r (deriv : bool) : M F (option loc) :=
  if deriv then run_norm_matrix f r else run_deriv_matrix fuel f r.

End act.
