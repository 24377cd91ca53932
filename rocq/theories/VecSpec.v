(** * Specification of the vector API on mathematical lists.

    Independent of the model: no heap, no pointers, no loops.  A vector's value is the list of its
    elements; the state of a program is a finite map from vector identities to lists. *)
From Verif Require Import Base.

(** The state of a program: finite map from vector identities to lists of elements. *)
Notation state F := (gmap nat (list F)) (only parsing).

Section spec.
Context {F : Type} `{Scalar F}.
Implicit Types (xs ys : list F).

(** r is the least index >= from of an element comparing equal to v, or -1 if there is none. *)
Definition find_spec xs (from : nat) (v : F) (r : Z) : Prop :=
  (exists i x, r = Z.of_nat i /\ (from <= i)%nat /\ xs !! i = Some x /\ s_eq x v = true /\
     forall j y, (from <= j < i)%nat -> xs !! j = Some y -> s_eq y v = false) \/
  (r = -1 /\ forall j y, (from <= j)%nat -> xs !! j = Some y -> s_eq y v = false).

(** i is the position of the first element greater than v (the length if there is none). *)
Definition upper_spec xs (v : F) (i : nat) : Prop :=
  (i <= length xs)%nat /\ (forall j y, (j < i)%nat -> xs !! j = Some y -> s_lt v y = false) /\
  (forall y, xs !! i = Some y -> s_lt v y = true).

Definition non_decreasing xs : Prop :=
  forall i j x y, (i <= j)%nat -> xs !! i = Some x -> xs !! j = Some y -> s_lt y x = false.

(** [<] is a strict weak order on the values satisfying [P] (e.g. the non-NaN floats). *)
Record swo_on (P : F -> Prop) : Prop := {
  swo_irrefl : forall x, P x -> s_lt x x = false;
  swo_trans : forall x y z, P x -> P y -> P z -> s_lt x y = true -> s_lt y z = true -> s_lt x z = true;
  swo_cotrans : forall x y z, P x -> P y -> P z -> s_lt x z = true -> s_lt x y = true \/ s_lt y z = true
}.

(** Remove position [i], filling the gap with the last element. *)
Definition remove_unord (i : nat) xs : list F :=
  match list.last xs with
  | Some z => if decide (S i = length xs) then take i xs else <[i := z]> (take (length xs - 1) xs)
  | None => xs
  end.

(** ** Calls *)
Inductive bop := BAdd | BSub | BMul | BMax | BMin.
Definition bop_fun (o : bop) : F -> F -> F :=
  match o with BAdd => s_add | BSub => s_sub | BMul => s_mul
  | BMax => fun a b => if s_lt b a then a else b | BMin => fun a b => if s_lt a b then a else b end.

Inductive vop :=
| HNew
| HDel (l : loc)
| HSize (l : loc)
| HGet (l : loc) (i : Z)
| HSet (l : loc) (i : Z) (x : F)
| HPush (l : loc) (x : F)
| HAppend (l : loc) (r : option loc)
| HInsert (l : loc) (i : Z) (x : F)
| HOrderedInsert (l : loc) (x : F)
| HRemove (l : loc) (i : Z)
| HRemoveUnordered (l : loc) (i : Z)
| HFind (l : loc) (x : F) (from : Z)
| HErase (l : loc) (x : F)
| HEraseMultiple (l : loc) (x : F)
| HInvert (l : loc)
| HSort (l : loc)
| HResize (l : loc) (n : Z)
| HClear (l : loc)
| HReset (l : loc)
| HFill (l : loc) (x : F)
| HSetFrom (l : loc) (r : option loc)
| HDuplicate (l : loc)
| HOp2 (o : bop) (l : loc) (r : option loc)
| HOp2n (o : bop) (l : loc) (r : option loc)
| HOp2b (o : bop) (l : loc) (ra rb : option loc)
| HDot (l : loc) (r : option loc)
| HSum (l : loc).

Inductive out := OUnit | OZ (z : Z) | OF (x : F) | ORef (r : option loc).

Implicit Types (s : state F).

(** Reference argument: null, or a live vector. *)
Definition ref_ok s (r : option loc) : Prop := match r with None => True | Some b => is_Some (s !! b) end.

(** What a caller must respect: receivers and references are live, sizes fit in an int, a [resize]
    does not grow (it would leave uninitialised elements), [find] does not start below 0, and
    [sort] is used on comparable values. *)
Definition valid s (op : vop) : Prop :=
  match op with
  | HNew => True
  | HDel l | HSize l | HGet l _ | HSet l _ _ | HRemove l _ | HRemoveUnordered l _ | HErase l _
  | HEraseMultiple l _ | HInvert l | HClear l | HReset l | HFill l _ | HDuplicate l | HSum l => is_Some (s !! l)
  | HPush l _ | HInsert l _ _ | HOrderedInsert l _ =>
      exists xs, s !! l = Some xs /\ Z.of_nat (length xs) < int_max
  | HFind l _ from => is_Some (s !! l) /\ 0 <= from
  | HSort l => exists xs P, s !! l = Some xs /\ swo_on P /\ Forall P xs
  | HResize l n => exists xs, s !! l = Some xs /\ 0 <= n <= Z.of_nat (length xs)
  | HAppend l r => exists xs, s !! l = Some xs /\
      match r with None => True | Some b => exists ys, s !! b = Some ys /\ Z.of_nat (length xs + length ys) <= int_max end
  | HSetFrom l r | HOp2 _ l r | HOp2n _ l r | HDot l r => is_Some (s !! l) /\ ref_ok s r
  | HOp2b _ l ra rb => is_Some (s !! l) /\ ref_ok s ra /\ ref_ok s rb
  end.

(** The effect of a call: result and next state. *)
Inductive vspec s : vop -> out -> state F -> Prop :=
| sp_new r : s !! r = None -> vspec s HNew (ORef (Some r)) (<[r := []]> s)
| sp_del l : vspec s (HDel l) OUnit (delete l s)
| sp_size l xs : s !! l = Some xs -> vspec s (HSize l) (OZ (Z.of_nat (length xs))) s
| sp_get l i xs x : s !! l = Some xs -> 0 <= i -> xs !! Z.to_nat i = Some x -> vspec s (HGet l i) (OF x) s
| sp_get_oob l i xs : s !! l = Some xs -> ~ 0 <= i < Z.of_nat (length xs) -> vspec s (HGet l i) (OF s_zero) s
| sp_set l i x xs : s !! l = Some xs -> 0 <= i < Z.of_nat (length xs) ->
    vspec s (HSet l i x) OUnit (<[l := <[Z.to_nat i := x]> xs]> s)
| sp_set_oob l i x xs : s !! l = Some xs -> ~ 0 <= i < Z.of_nat (length xs) -> vspec s (HSet l i x) OUnit s
| sp_push l x xs : s !! l = Some xs -> vspec s (HPush l x) OUnit (<[l := xs ++ [x]]> s)
| sp_append l b xs ys : s !! l = Some xs -> s !! b = Some ys -> vspec s (HAppend l (Some b)) OUnit (<[l := xs ++ ys]> s)
| sp_append_null l : vspec s (HAppend l None) OUnit s
| sp_insert l i x xs : s !! l = Some xs -> 0 <= i <= Z.of_nat (length xs) ->
    vspec s (HInsert l i x) OUnit (<[l := take (Z.to_nat i) xs ++ x :: drop (Z.to_nat i) xs]> s)
| sp_insert_oob l i x xs : s !! l = Some xs -> ~ 0 <= i <= Z.of_nat (length xs) -> vspec s (HInsert l i x) OUnit s
| sp_ordered_insert l x xs i : s !! l = Some xs -> upper_spec xs x i ->
    vspec s (HOrderedInsert l x) OUnit (<[l := take i xs ++ x :: drop i xs]> s)
| sp_remove l i xs : s !! l = Some xs -> 0 <= i < Z.of_nat (length xs) ->
    vspec s (HRemove l i) OUnit (<[l := take (Z.to_nat i) xs ++ drop (S (Z.to_nat i)) xs]> s)
| sp_remove_oob l i xs : s !! l = Some xs -> ~ 0 <= i < Z.of_nat (length xs) -> vspec s (HRemove l i) OUnit s
| sp_remove_un l i xs : s !! l = Some xs -> 0 <= i < Z.of_nat (length xs) ->
    vspec s (HRemoveUnordered l i) OUnit (<[l := remove_unord (Z.to_nat i) xs]> s)
| sp_remove_un_oob l i xs : s !! l = Some xs -> ~ 0 <= i < Z.of_nat (length xs) -> vspec s (HRemoveUnordered l i) OUnit s
| sp_find l x from xs r : s !! l = Some xs -> find_spec xs (Z.to_nat from) x r -> vspec s (HFind l x from) (OZ r) s
| sp_erase l x xs i : s !! l = Some xs -> find_spec xs 0 x (Z.of_nat i) ->
    vspec s (HErase l x) OUnit (<[l := take i xs ++ drop (S i) xs]> s)
| sp_erase_none l x xs : s !! l = Some xs -> find_spec xs 0 x (-1) -> vspec s (HErase l x) OUnit s
| sp_erase_mult l x xs ys : s !! l = Some xs -> ys ≡ₚ List.filter (fun y => negb (s_eq y x)) xs ->
    vspec s (HEraseMultiple l x) (OZ (Z.of_nat (length (List.filter (fun y => s_eq y x) xs)))) (<[l := ys]> s)
| sp_invert l xs : s !! l = Some xs -> vspec s (HInvert l) OUnit (<[l := reverse xs]> s)
| sp_sort l xs ys : s !! l = Some xs -> ys ≡ₚ xs -> non_decreasing ys -> vspec s (HSort l) OUnit (<[l := ys]> s)
| sp_resize l n xs : s !! l = Some xs -> vspec s (HResize l n) OUnit (<[l := take (Z.to_nat n) xs]> s)
| sp_clear l : vspec s (HClear l) OUnit (<[l := []]> s)
| sp_reset l : vspec s (HReset l) OUnit (<[l := []]> s)
| sp_fill l x xs : s !! l = Some xs -> vspec s (HFill l x) OUnit (<[l := replicate (length xs) x]> s)
| sp_set_from l b ys : s !! b = Some ys -> vspec s (HSetFrom l (Some b)) OUnit (<[l := ys]> s)
| sp_set_from_null l : vspec s (HSetFrom l None) OUnit s
| sp_dup l xs r : s !! l = Some xs -> s !! r = None -> vspec s (HDuplicate l) (ORef (Some r)) (<[r := xs]> s)
| sp_op2 o l b xs ys : s !! l = Some xs -> s !! b = Some ys -> length xs = length ys ->
    vspec s (HOp2 o l (Some b)) OUnit (<[l := zip_with (bop_fun o) xs ys]> s)
| sp_op2_mismatch o l b xs ys : s !! l = Some xs -> s !! b = Some ys -> length xs <> length ys ->
    vspec s (HOp2 o l (Some b)) OUnit s
| sp_op2_null o l : vspec s (HOp2 o l None) OUnit s
| sp_op2n o l b xs ys r : s !! l = Some xs -> s !! b = Some ys -> length xs = length ys -> s !! r = None ->
    vspec s (HOp2n o l (Some b)) (ORef (Some r)) (<[r := zip_with (bop_fun o) xs ys]> s)
| sp_op2n_mismatch o l b xs ys : s !! l = Some xs -> s !! b = Some ys -> length xs <> length ys ->
    vspec s (HOp2n o l (Some b)) (ORef None) s
| sp_op2n_null o l : vspec s (HOp2n o l None) (ORef None) s
| sp_op2b o l a b xs ys : s !! a = Some xs -> s !! b = Some ys -> length xs = length ys ->
    vspec s (HOp2b o l (Some a) (Some b)) OUnit (<[l := zip_with (bop_fun o) xs ys]> s)
| sp_op2b_mismatch o l a b xs ys : s !! a = Some xs -> s !! b = Some ys -> length xs <> length ys ->
    vspec s (HOp2b o l (Some a) (Some b)) OUnit s
| sp_op2b_null o l ra rb : ra = None \/ rb = None -> vspec s (HOp2b o l ra rb) OUnit s
| sp_dot l b xs ys : s !! l = Some xs -> s !! b = Some ys -> length xs = length ys ->
    vspec s (HDot l (Some b)) (OF (foldl (fun c '(x, y) => s_add c (s_mul x y)) s_zero (zip xs ys))) s
| sp_dot_mismatch l b xs ys : s !! l = Some xs -> s !! b = Some ys -> length xs <> length ys ->
    vspec s (HDot l (Some b)) (OF s_zero) s
| sp_dot_null l : vspec s (HDot l None) (OF s_zero) s
| sp_sum l xs : s !! l = Some xs -> vspec s (HSum l) (OF (foldl s_add s_zero xs)) s.

(** A client program: a finite but otherwise arbitrary tree of calls.  The next call may depend on
    the results of the previous ones (for instance on the reference returned by a constructor). *)
Inductive prog := PStop | PCall (op : vop) (k : out -> prog).

(** [vspecs s p os s']: from state [s] the program [p] may return the results [os] and end in [s']. *)
Inductive vspecs : state F -> prog -> list out -> state F -> Prop :=
| sps_nil s : vspecs s PStop [] s
| sps_cons s op k o s1 os s2 : vspec s op o s1 -> vspecs s1 (k o) os s2 -> vspecs s (PCall op k) (o :: os) s2.

(** Every call the program can make is valid when it makes it. *)
Fixpoint all_valid s (p : prog) : Prop :=
  match p with
  | PStop => True
  | PCall op k => valid s op /\ forall o s', vspec s op o s' -> all_valid s' (k o)
  end.

End spec.
Global Arguments vop F : clear implicits.
Global Arguments out F : clear implicits.
Global Arguments prog F : clear implicits.
