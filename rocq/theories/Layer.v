(** * Weight initialisation and the layers of the networks: /repo/core/utilities.cpp, /repo/modules/hidden_layer/hidden_layer.cpp,
    /repo/modules/output_layer/output_layer.cpp.  Proof-free file.

    Simplifications.
    - The members of a layer are a record passed in and returned; the vectors and matrices they refer to are in the heap.
    - A member that is reassigned does not destroy the object it referred to before (whether another Ref holds that object is not
      tracked), so the heap keeps it.  Temporaries are destroyed after their last use.
    - std::uniform_real_distribution(a, b) is [u * (b - a) + a] for a raw draw [u] in [0, 1) and std::normal_distribution(0, s) is
      [g * s + 0] for a raw draw [g] (libstdc++); the raw draws are a parameter. *)
From Verif Require Import Base Vec Mat Act Cost Util Glm Mlp.

(** utilities.h WeightDistributionType. *)
Inductive winit := WDefault | WXavierNormal | WXavierUniform | WHeNormal | WHeUniform | WLeCunNormal | WLeCunUniform | WUniform.

Section layer.
Context {F : Type} `{Scalar F} `{Libm F}.
Implicit Types (l : loc) (r rx : option loc).

Definition uniform (a b u : F) : F := s_add (s_mul u (s_sub b a)) a.
Definition normal (s g : F) : F := s_add (s_mul g s) s_zero.

(** utilities.cpp 140-211 [weight_initializationv]. *)
Definition weight_dist_v (t : winit) (n : Z) : F -> F :=
  let nf := s_of_Z n in
  let n1 := s_add nf s_one in
  let sym s := uniform (s_opp s) s in
  match t with
  | WDefault => uniform s_zero s_one
  | WXavierNormal => normal (s_sqrt (s_div s_two n1))
  | WXavierUniform => sym (s_sqrt (s_div (s_of_Z 6) n1))
  | WHeNormal => normal (s_sqrt (s_div s_two nf))
  | WHeUniform => sym (s_sqrt (s_div (s_of_Z 6) nf))
  | WLeCunNormal => normal (s_sqrt (s_div s_one nf))
  | WLeCunUniform => sym (s_sqrt (s_div (s_of_Z 3) nf))
  | WUniform => uniform (s_div (s_opp s_one) (s_sqrt nf)) (s_div s_one (s_sqrt nf))
  end.
Definition weight_initialization_v (t : winit) (raw : Z -> F) l : M F unit :=
  let! n := v_size l in
  weight_init_v (fun i => weight_dist_v t n (raw i)) l.

(** utilities.cpp 212-285 [weight_initializationm]: [2 / (n + m)], [2 / n], ... are integer divisions. *)
Definition weight_dist_m (t : winit) (n m : Z) : M F (F -> F) :=
  let sym q := ret (uniform (s_opp (s_sqrt (s_of_Z q))) (s_sqrt (s_of_Z q))) in
  let nrm q := ret (normal (s_sqrt (s_of_Z q))) in
  match t with
  | WDefault => ret (uniform s_zero s_one)
  | WXavierNormal => let! s := chk (n + m) in let! q := idiv 2 s in nrm q
  | WXavierUniform => let! s := chk (n + m) in let! q := idiv 6 s in sym q
  | WHeNormal => let! q := idiv 2 n in nrm q
  | WHeUniform => let! q := idiv 6 n in sym q
  | WLeCunNormal => let! q := idiv 1 n in nrm q
  | WLeCunUniform => let! q := idiv 3 n in sym q
  | WUniform => ret (uniform (s_div (s_opp s_one) (s_sqrt (s_of_Z n))) (s_div s_one (s_sqrt (s_of_Z n))))
  end.
Definition weight_initialization_m (t : winit) (raw : Z -> F) l : M F unit :=
  let! s := m_size l in
  let! d := weight_dist_m t s.1 s.2 in
  weight_init_m (fun i => d (raw i)) l.

(** ** hidden_layer.h 117-143 *)
Record hlayer := HL {
  hl_n : Z; hl_act : actfn; hl_in : option loc; hl_w : option loc; hl_b : option loc; hl_z : option loc; hl_a : option loc;
  hl_zt : option loc; hl_at : option loc; hl_delta : option loc; hl_reg : regtype; hl_la : F; hl_al : F; hl_wi : winit; hl_init : bool }.
Definition hl_done (o : hlayer) (b : bool) := HL (hl_n o) (hl_act o) (hl_in o) (hl_w o) (hl_b o) (hl_z o) (hl_a o) (hl_zt o) (hl_at o) (hl_delta o) (hl_reg o) (hl_la o) (hl_al o) (hl_wi o) b.
Definition hl_put_a (o : hlayer) r := HL (hl_n o) (hl_act o) (hl_in o) (hl_w o) (hl_b o) (hl_z o) r (hl_zt o) (hl_at o) (hl_delta o) (hl_reg o) (hl_la o) (hl_al o) (hl_wi o) (hl_init o).
Definition hl_put_zt (o : hlayer) r r' := HL (hl_n o) (hl_act o) (hl_in o) (hl_w o) (hl_b o) (hl_z o) (hl_a o) r r' (hl_delta o) (hl_reg o) (hl_la o) (hl_al o) (hl_wi o) (hl_init o).
(** hidden_layer.cpp 37-146: the setters; every one clears [_initialized]. *)
Inductive hset := SN (n : Z) | SAct (f : actfn) | SInput r | SWeights r | SBias r | SZ r | SA r | SZTest r | SATest r | SDelta r
  | SReg (t : regtype) | SLambda (v : F) | SAlpha (v : F) | SWInit (t : winit).
Definition hl_set (s : hset) (o : hlayer) : hlayer :=
  match s with
  | SN n => HL n (hl_act o) (hl_in o) (hl_w o) (hl_b o) (hl_z o) (hl_a o) (hl_zt o) (hl_at o) (hl_delta o) (hl_reg o) (hl_la o) (hl_al o) (hl_wi o) false
  | SAct f => HL (hl_n o) f (hl_in o) (hl_w o) (hl_b o) (hl_z o) (hl_a o) (hl_zt o) (hl_at o) (hl_delta o) (hl_reg o) (hl_la o) (hl_al o) (hl_wi o) false
  | SInput r => HL (hl_n o) (hl_act o) r (hl_w o) (hl_b o) (hl_z o) (hl_a o) (hl_zt o) (hl_at o) (hl_delta o) (hl_reg o) (hl_la o) (hl_al o) (hl_wi o) false
  | SWeights r => HL (hl_n o) (hl_act o) (hl_in o) r (hl_b o) (hl_z o) (hl_a o) (hl_zt o) (hl_at o) (hl_delta o) (hl_reg o) (hl_la o) (hl_al o) (hl_wi o) false
  | SBias r => HL (hl_n o) (hl_act o) (hl_in o) (hl_w o) r (hl_z o) (hl_a o) (hl_zt o) (hl_at o) (hl_delta o) (hl_reg o) (hl_la o) (hl_al o) (hl_wi o) false
  | SZ r => HL (hl_n o) (hl_act o) (hl_in o) (hl_w o) (hl_b o) r (hl_a o) (hl_zt o) (hl_at o) (hl_delta o) (hl_reg o) (hl_la o) (hl_al o) (hl_wi o) false
  | SA r => HL (hl_n o) (hl_act o) (hl_in o) (hl_w o) (hl_b o) (hl_z o) r (hl_zt o) (hl_at o) (hl_delta o) (hl_reg o) (hl_la o) (hl_al o) (hl_wi o) false
  | SZTest r => HL (hl_n o) (hl_act o) (hl_in o) (hl_w o) (hl_b o) (hl_z o) (hl_a o) r (hl_at o) (hl_delta o) (hl_reg o) (hl_la o) (hl_al o) (hl_wi o) false
  | SATest r => HL (hl_n o) (hl_act o) (hl_in o) (hl_w o) (hl_b o) (hl_z o) (hl_a o) (hl_zt o) r (hl_delta o) (hl_reg o) (hl_la o) (hl_al o) (hl_wi o) false
  | SDelta r => HL (hl_n o) (hl_act o) (hl_in o) (hl_w o) (hl_b o) (hl_z o) (hl_a o) (hl_zt o) (hl_at o) r (hl_reg o) (hl_la o) (hl_al o) (hl_wi o) false
  | SReg t => HL (hl_n o) (hl_act o) (hl_in o) (hl_w o) (hl_b o) (hl_z o) (hl_a o) (hl_zt o) (hl_at o) (hl_delta o) t (hl_la o) (hl_al o) (hl_wi o) false
  | SLambda v => HL (hl_n o) (hl_act o) (hl_in o) (hl_w o) (hl_b o) (hl_z o) (hl_a o) (hl_zt o) (hl_at o) (hl_delta o) (hl_reg o) v (hl_al o) (hl_wi o) false
  | SAlpha v => HL (hl_n o) (hl_act o) (hl_in o) (hl_w o) (hl_b o) (hl_z o) (hl_a o) (hl_zt o) (hl_at o) (hl_delta o) (hl_reg o) (hl_la o) v (hl_wi o) false
  | SWInit t => HL (hl_n o) (hl_act o) (hl_in o) (hl_w o) (hl_b o) (hl_z o) (hl_a o) (hl_zt o) (hl_at o) (hl_delta o) (hl_reg o) (hl_la o) (hl_al o) t false
  end.

(** hidden_layer.cpp 37-146: the getters, named after the setter of the same member, and the value stored. *)
Inductive val := VZ (n : Z) | VF (x : F) | VAct (f : actfn) | VRef r | VReg (t : regtype) | VWInit (t : winit) | VCost (c : costfn).
Inductive hkey := KN | KAct | KInput | KWeights | KBias | KZ | KA | KZTest | KATest | KDelta | KReg | KLambda | KAlpha | KWInit | KCost.
Definition hl_get (k : hkey) (o : hlayer) : option val :=
  match k with
  | KN => Some (VZ (hl_n o)) | KAct => Some (VAct (hl_act o)) | KInput => Some (VRef (hl_in o)) | KWeights => Some (VRef (hl_w o)) | KBias => Some (VRef (hl_b o))
  | KZ => Some (VRef (hl_z o)) | KA => Some (VRef (hl_a o)) | KZTest => Some (VRef (hl_zt o)) | KATest => Some (VRef (hl_at o)) | KDelta => Some (VRef (hl_delta o))
  | KReg => Some (VReg (hl_reg o)) | KLambda => Some (VF (hl_la o)) | KAlpha => Some (VF (hl_al o)) | KWInit => Some (VWInit (hl_wi o)) | KCost => None
  end.
(** hidden_layer.cpp 151-165 [initialize]; bias_initializationv does not write its argument (utilities.cpp 295-308). *)
Definition hl_initialize (raw : Z -> F) (o : hlayer) : M F hlayer :=
  if hl_init o then ret o else
  let! w := deref (hl_w o) in
  let! x := deref (hl_in o) in
  let! s := m_size x in
  m_resize w (hl_n o, s.1) ;;;
  let! b := deref (hl_b o) in
  v_resize b (hl_n o) ;;;
  weight_initialization_m (hl_wi o) raw w ;;;
  bias_init_v None b ;;;
  ret (hl_done o true).
(** hidden_layer.cpp 167-178 [forward_pass]. *)
Definition hl_forward (raw : Z -> F) (o : hlayer) : M F hlayer :=
  let! o := hl_initialize raw o in
  let! z := deref (hl_z o) in
  m_multb z (hl_in o) (hl_w o) ;;;
  m_add_vec z (hl_b o) ;;;
  let! a := run_norm_matrix (hl_act o) (Some z) in
  ret (hl_put_a o a).
(** hidden_layer.cpp 180-191 [test]. *)
Definition hl_test (raw : Z -> F) (rx : option loc) (o : hlayer) : M F hlayer :=
  let! o := hl_initialize raw o in
  let! zt := xt_vec (hl_w o) rx in
  let! z := deref zt in
  v_add z (hl_b o) ;;;
  let! a := run_norm_vector (hl_act o) zt in
  ret (hl_put_zt o zt a).
(** hidden_layer.cpp 193-222: the constructor with arguments. *)
Definition hl_new (n : Z) (f : actfn) rx (t : winit) (reg : regtype) (la al : F) (raw : Z -> F) : M F hlayer :=
  let! z := m_new in let! a := m_new in let! zt := v_new in let! at_ := v_new in let! d := m_new in let! w := m_new in let! b := v_new in
  hl_initialize raw (HL n f rx (Some w) (Some b) (Some z) (Some a) (Some zt) (Some at_) (Some d) reg la al t false).

(** ** output_layer.h 112-139 *)
Record olayer := OL {
  ol_n : Z; ol_act : actfn; ol_cost : costfn; ol_in : option loc; ol_w : option loc; ol_b : F; ol_z : option loc; ol_a : option loc;
  ol_zt : F; ol_at : F; ol_delta : option loc; ol_reg : regtype; ol_la : F; ol_al : F; ol_wi : winit; ol_init : bool }.
Definition ol_ready (o : olayer) (b : F) := OL (ol_n o) (ol_act o) (ol_cost o) (ol_in o) (ol_w o) b (ol_z o) (ol_a o) (ol_zt o) (ol_at o) (ol_delta o) (ol_reg o) (ol_la o) (ol_al o) (ol_wi o) true.
Definition ol_put_za (o : olayer) r r' := OL (ol_n o) (ol_act o) (ol_cost o) (ol_in o) (ol_w o) (ol_b o) r r' (ol_zt o) (ol_at o) (ol_delta o) (ol_reg o) (ol_la o) (ol_al o) (ol_wi o) (ol_init o).
Definition ol_put_t (o : olayer) (z a : F) := OL (ol_n o) (ol_act o) (ol_cost o) (ol_in o) (ol_w o) (ol_b o) (ol_z o) (ol_a o) z a (ol_delta o) (ol_reg o) (ol_la o) (ol_al o) (ol_wi o) (ol_init o).
(** output_layer.cpp 36-149: the setters; all but set_reg clear [_initialized]. *)
Inductive oset := ON (n : Z) | OAct (f : actfn) | OCost (c : costfn) | OInput r | OWeights r | OBias (b : F) | OZ r | OA r | OZTest (v : F) | OATest (v : F)
  | ODelta r | OReg (t : regtype) | OLambda (v : F) | OAlpha (v : F) | OWInit (t : winit).
Definition ol_set (s : oset) (o : olayer) : olayer :=
  match s with
  | ON n => OL n (ol_act o) (ol_cost o) (ol_in o) (ol_w o) (ol_b o) (ol_z o) (ol_a o) (ol_zt o) (ol_at o) (ol_delta o) (ol_reg o) (ol_la o) (ol_al o) (ol_wi o) false
  | OAct f => OL (ol_n o) f (ol_cost o) (ol_in o) (ol_w o) (ol_b o) (ol_z o) (ol_a o) (ol_zt o) (ol_at o) (ol_delta o) (ol_reg o) (ol_la o) (ol_al o) (ol_wi o) false
  | OCost c => OL (ol_n o) (ol_act o) c (ol_in o) (ol_w o) (ol_b o) (ol_z o) (ol_a o) (ol_zt o) (ol_at o) (ol_delta o) (ol_reg o) (ol_la o) (ol_al o) (ol_wi o) false
  | OInput r => OL (ol_n o) (ol_act o) (ol_cost o) r (ol_w o) (ol_b o) (ol_z o) (ol_a o) (ol_zt o) (ol_at o) (ol_delta o) (ol_reg o) (ol_la o) (ol_al o) (ol_wi o) false
  | OWeights r => OL (ol_n o) (ol_act o) (ol_cost o) (ol_in o) r (ol_b o) (ol_z o) (ol_a o) (ol_zt o) (ol_at o) (ol_delta o) (ol_reg o) (ol_la o) (ol_al o) (ol_wi o) false
  | OBias b => OL (ol_n o) (ol_act o) (ol_cost o) (ol_in o) (ol_w o) b (ol_z o) (ol_a o) (ol_zt o) (ol_at o) (ol_delta o) (ol_reg o) (ol_la o) (ol_al o) (ol_wi o) false
  | OZ r => OL (ol_n o) (ol_act o) (ol_cost o) (ol_in o) (ol_w o) (ol_b o) r (ol_a o) (ol_zt o) (ol_at o) (ol_delta o) (ol_reg o) (ol_la o) (ol_al o) (ol_wi o) false
  | OA r => OL (ol_n o) (ol_act o) (ol_cost o) (ol_in o) (ol_w o) (ol_b o) (ol_z o) r (ol_zt o) (ol_at o) (ol_delta o) (ol_reg o) (ol_la o) (ol_al o) (ol_wi o) false
  | OZTest v => OL (ol_n o) (ol_act o) (ol_cost o) (ol_in o) (ol_w o) (ol_b o) (ol_z o) (ol_a o) v (ol_at o) (ol_delta o) (ol_reg o) (ol_la o) (ol_al o) (ol_wi o) false
  | OATest v => OL (ol_n o) (ol_act o) (ol_cost o) (ol_in o) (ol_w o) (ol_b o) (ol_z o) (ol_a o) (ol_zt o) v (ol_delta o) (ol_reg o) (ol_la o) (ol_al o) (ol_wi o) false
  | ODelta r => OL (ol_n o) (ol_act o) (ol_cost o) (ol_in o) (ol_w o) (ol_b o) (ol_z o) (ol_a o) (ol_zt o) (ol_at o) r (ol_reg o) (ol_la o) (ol_al o) (ol_wi o) false
  | OReg t => OL (ol_n o) (ol_act o) (ol_cost o) (ol_in o) (ol_w o) (ol_b o) (ol_z o) (ol_a o) (ol_zt o) (ol_at o) (ol_delta o) t (ol_la o) (ol_al o) (ol_wi o) (ol_init o)
  | OLambda v => OL (ol_n o) (ol_act o) (ol_cost o) (ol_in o) (ol_w o) (ol_b o) (ol_z o) (ol_a o) (ol_zt o) (ol_at o) (ol_delta o) (ol_reg o) v (ol_al o) (ol_wi o) false
  | OAlpha v => OL (ol_n o) (ol_act o) (ol_cost o) (ol_in o) (ol_w o) (ol_b o) (ol_z o) (ol_a o) (ol_zt o) (ol_at o) (ol_delta o) (ol_reg o) (ol_la o) v (ol_wi o) false
  | OWInit t => OL (ol_n o) (ol_act o) (ol_cost o) (ol_in o) (ol_w o) (ol_b o) (ol_z o) (ol_a o) (ol_zt o) (ol_at o) (ol_delta o) (ol_reg o) (ol_la o) (ol_al o) t false
  end.

(** output_layer.cpp 36-149: the getters. *)
Definition ol_get (k : hkey) (o : olayer) : option val :=
  match k with
  | KN => Some (VZ (ol_n o)) | KAct => Some (VAct (ol_act o)) | KInput => Some (VRef (ol_in o)) | KWeights => Some (VRef (ol_w o)) | KBias => Some (VF (ol_b o))
  | KZ => Some (VRef (ol_z o)) | KA => Some (VRef (ol_a o)) | KZTest => Some (VF (ol_zt o)) | KATest => Some (VF (ol_at o)) | KDelta => Some (VRef (ol_delta o))
  | KReg => Some (VReg (ol_reg o)) | KLambda => Some (VF (ol_la o)) | KAlpha => Some (VF (ol_al o)) | KWInit => Some (VWInit (ol_wi o)) | KCost => Some (VCost (ol_cost o))
  end.
(** output_layer.cpp 154-167 [initialize]; [rb] is the raw draw of bias_initializationr (uniform on [0, 1)). *)
Definition ol_initialize (raw : Z -> F) (rb : F) (o : olayer) : M F olayer :=
  if ol_init o then ret o else
  let! w := deref (ol_w o) in
  v_resize w (ol_n o) ;;;
  weight_initialization_v (ol_wi o) raw w ;;;
  ret (ol_ready o rb).
(** output_layer.cpp 169-178 [forward_pass]. *)
Definition ol_forward (raw : Z -> F) (rb : F) (o : olayer) : M F olayer :=
  let! o := ol_initialize raw rb o in
  let! z := propagate (ol_w o) (ol_b o) (ol_in o) in
  let! a := run_norm_vector (ol_act o) z in
  ret (ol_put_za o z a).
(** output_layer.cpp 180-189 [test]. *)
Definition ol_test (raw : Z -> F) (rb : F) (rx : option loc) (o : olayer) : M F olayer :=
  let! o := ol_initialize raw rb o in
  let! w := deref (ol_w o) in
  let! d := v_dot w rx in
  let z := s_add d (ol_b o) in
  ret (ol_put_t o z (run_norm_real (ol_act o) z)).
(** output_layer.cpp 191-225: the constructor with arguments. *)
Definition ol_new (n : Z) (f : actfn) (c : costfn) rx (t : winit) (reg : regtype) (la al : F) (raw : Z -> F) (rb : F) : M F olayer :=
  let! z := v_new in let! a := v_new in let! d := v_new in let! w := v_new in
  ol_initialize raw rb (OL n f c rx (Some w) s_zero (Some z) (Some a) s_zero s_zero (Some d) reg la al t false).
End layer.
Arguments val F : clear implicits. Arguments hset F : clear implicits. Arguments oset F : clear implicits. Arguments hlayer F : clear implicits. Arguments olayer F : clear implicits.
