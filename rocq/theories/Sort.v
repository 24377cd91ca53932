(** * SortArray<real_t, _DefaultComparator> (platform/sfw.h:3226-3491) and MLPPVector::sort.

    [p] is the buffer pointer, all indices are absolute; every access goes through the checked
    [load]/[store], so an out-of-range index is [UB].  [vd] is the Validate template argument
    (true with DEBUG_ENABLED).  [while] loops run on fuel, which the proofs show sufficient.
    [compare(a,b)] is [a < b] (_DefaultComparator, sfw.h:3215-3218).
    introselect / partial_select / nth_element (unused by MLPPVector) are not modelled.
    Proof-free file. *)
From Verif Require Export Vec.

Section sort.
Context {F : Type} `{Scalar F}.
Context (vd : bool).
Implicit Types (p : option blk).

(** sfw.h:3235-3251. *)
Definition median_of_3 (a b c : F) : F :=
  if s_lt a b then
    if s_lt b c then b else if s_lt a c then c else a
  else if s_lt a c then a
  else if s_lt b c then c
  else b.

(** sfw.h:3253-3259: [for (k = 0; n != 1; n >>= 1) ++k]. Fuel: number of halvings. *)
Fixpoint bitlog_loop (fuel : nat) (n k : Z) : M F Z :=
  match fuel with
  | O => nofuel
  | S fuel' => if n =? 1 then ret k else bitlog_loop fuel' (Z.shiftr n 1) (k + 1)
  end.
Definition bitlog (n : Z) : M F Z := bitlog_loop (S (Z.to_nat n)) n 0.

(** sfw.h:3263-3271. *)
Fixpoint push_heap_loop (fuel : nat) p (first hole top : Z) (v : F) : M F unit :=
  match fuel with
  | O => nofuel
  | S fuel' =>
    let parent := Z.quot (hole - 1) 2 in
    if top <? hole then
      let! x := load p (first + parent) in
      if s_lt x v then
        store p (first + hole) x ;;;
        push_heap_loop fuel' p first parent top v
      else store p (first + hole) v
    else store p (first + hole) v
  end.
Definition push_heap p (first hole top : Z) (v : F) : M F unit :=
  push_heap_loop (S (Z.to_nat hole)) p first hole top v.

(** sfw.h:3281-3300: the descending loop; returns the final hole and second_child. *)
Fixpoint adjust_loop (fuel : nat) p (first hole sc len : Z) : M F (Z * Z) :=
  match fuel with
  | O => nofuel
  | S fuel' =>
    if sc <? len then
      let! x := load p (first + sc) in
      let! y := load p (first + (sc - 1)) in
      let sc' := if s_lt x y then sc - 1 else sc in
      let! z := load p (first + sc') in
      store p (first + hole) z ;;;
      adjust_loop fuel' p first sc' (2 * (sc' + 1)) len
    else ret (hole, sc)
  end.
Definition adjust_heap p (first hole len : Z) (v : F) : M F unit :=
  let! hs := adjust_loop (S (Z.to_nat len)) p first hole (2 * hole + 2) len in
  let '(h, sc) := hs in
  if sc =? len then
    let! z := load p (first + (sc - 1)) in
    store p (first + h) z ;;;
    push_heap p first (sc - 1) hole v
  else push_heap p first h hole v.

(** sfw.h:3273-3276 and 3277-3279. *)
Definition pop_heap4 p (first last result : Z) (v : F) : M F unit :=
  let! x := load p first in
  store p result x ;;;
  adjust_heap p first 0 (last - first) v.
Definition pop_heap p (first last : Z) : M F unit :=
  let! v := load p (last - 1) in
  pop_heap4 p first (last - 1) (last - 1) v.

(** sfw.h:3302-3306. *)
Fixpoint sort_heap_loop (fuel : nat) p (first last : Z) : M F unit :=
  match fuel with
  | O => nofuel
  | S fuel' => if 1 <? last - first then
      pop_heap p first last ;;; sort_heap_loop fuel' p first (last - 1)
    else ret tt
  end.
Definition sort_heap p (first last : Z) : M F unit := sort_heap_loop (S (Z.to_nat (last - first))) p first last.

(** sfw.h:3308-3323. *)
Fixpoint make_heap_loop (fuel : nat) p (first parent len : Z) : M F unit :=
  match fuel with
  | O => nofuel
  | S fuel' =>
    let! v := load p (first + parent) in
    adjust_heap p first parent len v ;;;
    if parent =? 0 then ret tt else make_heap_loop fuel' p first (parent - 1) len
  end.
Definition make_heap p (first last : Z) : M F unit :=
  if last - first <? 2 then ret tt else
  let len := last - first in
  make_heap_loop (S (Z.to_nat len)) p first (Z.quot (len - 2) 2) len.

(** sfw.h:3325-3333. *)
Definition partial_sort p (first last middle : Z) : M F unit :=
  make_heap p first middle ;;;
  for_ middle last (fun i =>
    let! x := load p i in
    let! y := load p first in
    if s_lt x y then pop_heap4 p first middle i x else ret tt) ;;;
  sort_heap p first middle.

(** sfw.h:3344-3371. [up_loop]/[down_loop] are the two inner scans. *)
Fixpoint up_loop (fuel : nat) p (first last0 : Z) (pivot : F) : M F Z :=
  match fuel with
  | O => nofuel
  | S fuel' =>
    let! x := load p first in
    if s_lt x pivot then
      if vd && (first =? last0 - 1) then ret first else up_loop fuel' p (first + 1) last0 pivot
    else ret first
  end.
Fixpoint down_loop (fuel : nat) p (last first0 : Z) (pivot : F) : M F Z :=
  match fuel with
  | O => nofuel
  | S fuel' =>
    let! x := load p last in
    if s_lt pivot x then
      if vd && (last =? first0) then ret last else down_loop fuel' p (last - 1) first0 pivot
    else ret last
  end.
Fixpoint partition_loop (fuel : nat) p (first last first0 last0 : Z) (pivot : F) : M F Z :=
  match fuel with
  | O => nofuel
  | S fuel' =>
    let! f := up_loop (S (Z.to_nat (last0 - first))) p first last0 pivot in
    let! l := down_loop (S (Z.to_nat (last - first0))) p (last - 1) first0 pivot in
    if negb (f <? l) then ret f else
    let! x := load p f in
    let! y := load p l in
    store p f y ;;; store p l x ;;;
    partition_loop fuel' p (f + 1) l first0 last0 pivot
  end.
Definition partitioner p (first last : Z) (pivot : F) : M F Z :=
  partition_loop (S (Z.to_nat (last - first))) p first last first last pivot.

(** sfw.h:3373-3395; INTROSORT_THRESHOLD = 16 (3228-3231).  The loop and the recursion both
    decrease [p_max_depth], so the depth (as a nat) drives the recursion.  The recursive call
    [introsort(cut, last)] precedes the next iteration on [first, cut). *)
Fixpoint introsort (depth : nat) p (first last : Z) : M F unit :=
  if 16 <? last - first then
    match depth with
    | O => partial_sort p first last last
    | S d =>
      let! a := load p first in
      let! b := load p (first + Z.quot (last - first) 2) in
      let! c := load p (last - 1) in
      let! cut := partitioner p first last (median_of_3 a b c) in
      introsort d p cut last ;;;
      introsort d p first cut
    end
  else ret tt.

(** sfw.h:3424-3435. *)
Fixpoint ul_insert_loop (fuel : nat) p (last : Z) (v : F) : M F unit :=
  match fuel with
  | O => nofuel
  | S fuel' =>
    let next := last - 1 in
    let! x := load p next in
    if s_lt v x then
      if vd && (next =? 0) then store p last v
      else store p last x ;;; ul_insert_loop fuel' p next v
    else store p last v
  end.
Definition unguarded_linear_insert p (last : Z) (v : F) : M F unit :=
  ul_insert_loop (S (Z.to_nat last)) p last v.

(** sfw.h:3437-3448; the descending shift runs as k = 0,1,... with i = last - k. *)
Definition linear_insert p (first last : Z) : M F unit :=
  let! v := load p last in
  let! x := load p first in
  if s_lt v x then
    for_ 0 (last - first) (fun k =>
      let i := last - k in
      let! y := load p (i - 1) in store p i y) ;;;
    store p first v
  else unguarded_linear_insert p last v.

(** sfw.h:3450-3457. *)
Definition insertion_sort p (first last : Z) : M F unit :=
  if first =? last then ret tt else
  for_ (first + 1) last (fun i => linear_insert p first i).

(** sfw.h:3459-3463. *)
Definition unguarded_insertion_sort p (first last : Z) : M F unit :=
  for_ first last (fun i => let! v := load p i in unguarded_linear_insert p i v).

(** sfw.h:3465-3472. *)
Definition final_insertion_sort p (first last : Z) : M F unit :=
  if 16 <? last - first then
    insertion_sort p first (first + 16) ;;;
    unguarded_insertion_sort p (first + 16) last
  else insertion_sort p first last.

(** sfw.h:3474-3483. *)
Definition sort_range p (first last : Z) : M F unit :=
  if negb (first =? last) then
    let! k := bitlog (last - first) in
    introsort (Z.to_nat (k * 2)) p first last ;;;
    final_insertion_sort p first last
  else ret tt.

(** mlpp_vector.h:132-145 [sort_custom<_DefaultComparator>], [sort]. *)
Definition v_sort (l : loc) : M F unit :=
  let! n := v_size l in
  if n =? 0 then ret tt else
  let! p := data_ptr l in
  sort_range p 0 n.

End sort.
