(** * Base: scalars, heap, monad and memory primitives of the pmlpp model.

    Models the run-time facilities the container classes of /repo/core use:
    - [real_t]            platform/sfw.h:292-296 (float or double)        -> class [Scalar]
    - [Memory::*_static]  platform/sfw.cpp:1938-2040                      -> [mem_realloc], [mem_free]
    - [ERR_FAIL_*]        platform/sfw.h:1515-1570 (log, then return)     -> ordinary return
    - [CRASH_*]           platform/sfw.h:1608-1640 (log, then trap)       -> outcome [Crash]
    - [Ref<T>]            platform/sfw.h:19217-19430                      -> [option loc] (null = None)
    Proof-free file. *)
From stdpp Require Export base list gmap numbers option.
From Coq Require Export ZArith Lia.
Global Open Scope Z_scope.

(** [real_t] with all the operations the modelled code applies to it.  No law is
    assumed: IEEE-754 floats (rounding, NaN, signed zeros, infinities) are an instance.
    [s_lt]/[s_eq] are C++ [<] and [==] on [real_t]; [s_of_Z] is int -> real_t conversion;
    the transcendental fields are Math::log, Math::exp ... (platform/sfw.h:2212-2700,
    thin wrappers around libm). *)
Class Scalar (F : Type) := {
  s_zero : F; s_one : F; s_inf : F;
  s_add : F -> F -> F; s_sub : F -> F -> F; s_mul : F -> F -> F; s_div : F -> F -> F;
  s_opp : F -> F;
  s_lt : F -> F -> bool; s_eq : F -> F -> bool;
  s_of_Z : Z -> F;
  s_log : F -> F; s_log10 : F -> F; s_exp : F -> F; s_erf : F -> F; s_sqrt : F -> F;
  s_sin : F -> F; s_cos : F -> F; s_pow : F -> F -> F
}.

Declare Scope scalar_scope.
Delimit Scope scalar_scope with F.
Infix "+" := s_add : scalar_scope.
Infix "-" := s_sub : scalar_scope.
Infix "*" := s_mul : scalar_scope.
Infix "/" := s_div : scalar_scope.
Notation "- x" := (s_opp x) : scalar_scope.

(** ABS, MAX, MIN macros: platform/sfw.h:561, 575, 571. *)
Definition s_abs `{Scalar F} (x : F) : F := if s_lt x s_zero then s_opp x else x.
Definition s_max `{Scalar F} (a b : F) : F := if s_lt b a then a else b.
Definition s_min `{Scalar F} (a b : F) : F := if s_lt a b then a else b.

Notation loc := nat (only parsing).   (* identity of a heap object (MLPPVector, MLPPMatrix, MLPPTensor3) *)
Notation blk := nat (only parsing).   (* identity of a malloc'ed block *)

(** Size fields: MLPPVector::_size (int), MLPPMatrix::_size (Size2i, x = columns, y = rows),
    MLPPTensor3::_size (Size3i). *)
Inductive shape := SVec (n : Z) | SMat (x y : Z) | STen (x y z : Z).

(** MLPPVector::size / MLPPMatrix::data_size (mlpp_matrix.h:94) / MLPPTensor3::data_size. *)
Definition shape_size (s : shape) : Z :=
  match s with SVec n => n | SMat x y => x * y | STen x y z => x * y * z end.

Record obj := Obj { o_shape : shape; o_data : option blk }.

(** A memory cell; [None]: allocated but never written. *)
Notation cell F := (option F) (only parsing).

Section heap.
Context {F : Type}.

Record heap := Heap {
  h_blk : gmap blk (list (cell F));  (* live malloc blocks *)
  h_nblk : nat;                  (* next block id; ids are never reused *)
  h_obj : gmap loc obj;          (* live objects *)
  h_nobj : nat                   (* next object id *)
}.

Definition empty_heap : heap := Heap ∅ 0 ∅ 0.

Inductive res (A : Type) :=
| Ok (a : A) (h : heap)
| UB         (* undefined behaviour *)
| Crash      (* CRASH_* macro: the process aborts *)
| NoFuel.    (* model artefact: fuel of an unbounded loop exhausted *)
Global Arguments Ok {A}. Global Arguments UB {A}.
Global Arguments Crash {A}. Global Arguments NoFuel {A}.

Definition M (A : Type) := heap -> res A.
Definition ret {A} (a : A) : M A := fun h => Ok a h.
Definition bind {A B} (m : M A) (k : A -> M B) : M B := fun h =>
  match m h with Ok a h' => k a h' | UB => UB | Crash => Crash | NoFuel => NoFuel end.
Definition ub {A} : M A := fun _ => UB.
Definition crash {A} : M A := fun _ => Crash.
Definition nofuel {A} : M A := fun _ => NoFuel.

(** C++ [for (int i = lo; i < hi; ++i) body] with loop-carried local state [a].
    [hi] is evaluated once; where the code re-evaluates a bound that the body can change,
    the model says so explicitly. *)
Fixpoint for_nat {A} (n : nat) (i : Z) (a : A) (body : Z -> A -> M A) : M A :=
  match n with
  | O => ret a
  | S n' => bind (body i a) (fun a' => for_nat n' (i + 1) a' body)
  end.
Definition for_acc {A} (lo hi : Z) (a : A) (body : Z -> A -> M A) : M A :=
  for_nat (Z.to_nat (hi - lo)) lo a body.
Definition for_ (lo hi : Z) (body : Z -> M unit) : M unit :=
  for_acc lo hi tt (fun i _ => body i).

(** ** Objects *)

(** Dereferencing an object; a dead object is UB. *)
Definition get_obj (l : loc) : M obj := fun h =>
  match h_obj h !! l with Some o => Ok o h | None => UB end.
Definition put_obj (l : loc) (o : obj) : M unit := fun h =>
  Ok tt (Heap (h_blk h) (h_nblk h) (<[l := o]> (h_obj h)) (h_nobj h)).
(** [ptr()], [ptrw()]: mlpp_vector.h:59-65, mlpp_matrix.h:58-60. *)
Definition data_ptr (l : loc) : M (option blk) := bind (get_obj l) (fun o => ret (o_data o)).

(** [operator->] on a null Ref is UB. *)
Definition deref (r : option loc) : M loc := match r with Some l => ret l | None => ub end.

(** [Ref::instance()]: default-constructed object (sizes 0, _data = NULL). *)
Definition new_obj (s : shape) : M loc := fun h =>
  Ok (h_nobj h) (Heap (h_blk h) (h_nblk h) (<[h_nobj h := Obj s None]> (h_obj h)) (S (h_nobj h))).

(** ** Raw memory *)

Definition load (p : option blk) (i : Z) : M F := fun h =>
  match p with
  | None => UB
  | Some b => match h_blk h !! b with
    | None => UB
    | Some cs => if i <? 0 then UB else
        match cs !! Z.to_nat i with Some (Some v) => Ok v h | _ => UB end
    end
  end.

Definition store (p : option blk) (i : Z) (v : F) : M unit := fun h =>
  match p with
  | None => UB
  | Some b => match h_blk h !! b with
    | None => UB
    | Some cs => if (i <? 0) || (Z.of_nat (length cs) <=? i) then UB else
        Ok tt (Heap (<[b := <[Z.to_nat i := Some v]> cs]> (h_blk h)) (h_nblk h) (h_obj h) (h_nobj h))
    end
  end.

(** Memory::free_static (sfw.cpp:2017): a null pointer is only logged. *)
Definition mem_free (p : option blk) : M unit := fun h =>
  match p with
  | None => Ok tt h
  | Some b => match h_blk h !! b with
    | None => UB
    | Some _ => Ok tt (Heap (delete b (h_blk h)) (h_nblk h) (h_obj h) (h_nobj h))
    end
  end.

(** Memory::realloc_static (sfw.cpp:1967) followed by the callers' CRASH_COND(!_data).
    [n] counts real_t elements.  A negative count becomes a huge size_t: allocation fails and the
    caller crashes.  Otherwise allocation is assumed to succeed (out-of-memory is not modelled).
    The surviving prefix is kept, new cells are uninitialised.  The block always moves. *)
Definition mem_realloc (p : option blk) (n : Z) : M (option blk) := fun h =>
  if n <? 0 then Crash else
  match p with
  | None => Ok (Some (h_nblk h))
      (Heap (<[h_nblk h := replicate (Z.to_nat n) None]> (h_blk h)) (S (h_nblk h)) (h_obj h) (h_nobj h))
  | Some b => match h_blk h !! b with
    | None => UB
    | Some cs => Ok (Some (h_nblk h))
        (Heap (<[h_nblk h := list.resize (Z.to_nat n) None cs]> (delete b (h_blk h)))
              (S (h_nblk h)) (h_obj h) (h_nobj h))
    end
  end.

(** Signed 32-bit int arithmetic for size computations: overflow is UB. *)
Definition int_max : Z := 2147483647.
Definition chk (z : Z) : M Z :=
  if (- int_max - 1 <=? z) && (z <=? int_max) then ret z else ub.

(** Destructor at the end of a temporary's life:
    mlpp_vector.cpp ~MLPPVector, mlpp_matrix.cpp ~MLPPMatrix ([if (_data) reset();]). *)
Definition del_obj (l : loc) : M unit :=
  bind (get_obj l) (fun o =>
  bind (mem_free (o_data o)) (fun _ => fun h =>
    Ok tt (Heap (h_blk h) (h_nblk h) (delete l (h_obj h)) (h_nobj h)))).

End heap.

Global Arguments heap : clear implicits.
Global Arguments res : clear implicits.
Global Arguments M : clear implicits.

Notation "'let!' x := m 'in' k" := (bind m (fun x => k))
  (at level 200, x pattern, m at level 100, k at level 200,
   format "'[v' 'let!'  x  :=  m  'in' '/' k ']'").
Notation "m ;;; k" := (bind m (fun _ => k))
  (at level 100, k at level 200, right associativity, format "'[v' m ;;; '/' k ']'").

(** [obj_realloc l s]: set the size fields of [l] to [s] and memrealloc its data to match
    (the C++ updates [_size] just before the call; nothing in between reads it).
    [obj_free l s]: memfree and set [_data = NULL]. *)
Definition obj_realloc {F} (l : loc) (s : shape) : M F unit :=
  let! o := get_obj l in
  let! p := mem_realloc (o_data o) (shape_size s) in
  put_obj l (Obj s p).
Definition obj_free {F} (l : loc) (s : shape) : M F unit :=
  let! o := get_obj l in
  mem_free (o_data o) ;;;
  put_obj l (Obj s None).

(** ** Abstract view: contents of every live object, pointers forgotten. *)
Notation aobj F := (prod shape (list (option F))) (only parsing).

Definition abs_obj {F} (bs : gmap blk (list (cell F))) (o : obj) : aobj F :=
  (o_shape o, match o_data o with None => [] | Some b => default [] (bs !! b) end).
Definition abs {F} (h : heap F) : gmap loc (aobj F) := abs_obj (h_blk h) <$> h_obj h.

(** Fully initialised vector / matrix / tensor values. *)
Definition AVec {F} (xs : list F) : aobj F := (SVec (Z.of_nat (length xs)), Some <$> xs).
Definition AMat {F} (c r : nat) (xs : list F) : aobj F := (SMat (Z.of_nat c) (Z.of_nat r), Some <$> xs).

(** ** Storage coherence *)
Record wf {F} (h : heap F) : Prop := {
  wf_some : forall l o b, h_obj h !! l = Some o -> o_data o = Some b ->
      exists cs, h_blk h !! b = Some cs /\ Z.of_nat (length cs) = shape_size (o_shape o) /\
                 0 < shape_size (o_shape o) <= int_max;
  wf_none : forall l o, h_obj h !! l = Some o -> o_data o = None -> shape_size (o_shape o) = 0;
  wf_inj : forall l1 l2 o1 o2 b, h_obj h !! l1 = Some o1 -> h_obj h !! l2 = Some o2 ->
      o_data o1 = Some b -> o_data o2 = Some b -> l1 = l2;
  wf_noleak : forall b cs, h_blk h !! b = Some cs -> exists l o, h_obj h !! l = Some o /\ o_data o = Some b;
  wf_fresh_blk : forall b cs, h_blk h !! b = Some cs -> (b < h_nblk h)%nat;
  wf_fresh_obj : forall l o, h_obj h !! l = Some o -> (l < h_nobj h)%nat
}.
