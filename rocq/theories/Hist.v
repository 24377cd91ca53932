(** * Histories of MLPPVector calls, executed on the model.  Proof-free file.
    One constructor of [vop] per public method; [exec] dispatches to the model of that method
    (a script or C++ client performing the calls one after the other). *)
From Verif Require Export VecSpec Vec Sort.

Section hist.
Context {F : Type} `{Scalar F}.

Definition v_op2_of (o : bop) : loc -> option loc -> M F unit :=
  match o with BAdd => v_add | BSub => v_sub | BMul => v_hadamard | BMax => v_max | BMin => v_min end.
Definition v_op2n_of (o : bop) : loc -> option loc -> M F (option loc) :=
  match o with BAdd => v_addn | BSub => v_subn | BMul => v_hadamardn | BMax => v_maxn | BMin => v_minn end.
Definition v_op2b_of (o : bop) : loc -> option loc -> option loc -> M F unit :=
  match o with BAdd => v_addb | BSub => v_subb | BMul => v_hadamardb | BMax => v_maxb | BMin => v_minb end.

Definition unit_ (m : M F unit) : M F (out F) := m ;;; ret OUnit.

Definition exec (vd : bool) (op : vop F) : M F (out F) :=
  match op with
  | HNew => let! r := v_new in ret (ORef (Some r))
  | HDel l => unit_ (del_obj l)
  | HSize l => let! n := v_size l in ret (OZ n)
  | HGet l i => let! x := v_get l i in ret (OF x)
  | HSet l i x => unit_ (v_set l i x)
  | HPush l x => unit_ (v_push_back l x)
  | HAppend l r => unit_ (v_append l r)
  | HInsert l i x => unit_ (v_insert l i x)
  | HOrderedInsert l x => unit_ (v_ordered_insert l x)
  | HRemove l i => unit_ (v_remove l i)
  | HRemoveUnordered l i => unit_ (v_remove_unordered l i)
  | HFind l x from => let! r := v_find l x from in ret (OZ r)
  | HErase l x => unit_ (v_erase l x)
  | HEraseMultiple l x => let! n := v_erase_multiple_unordered l x in ret (OZ n)
  | HInvert l => unit_ (v_invert l)
  | HSort l => unit_ (v_sort vd l)
  | HResize l n => unit_ (v_resize l n)
  | HClear l => unit_ (v_clear l)
  | HReset l => unit_ (v_reset l)
  | HFill l x => unit_ (v_fill l x)
  | HSetFrom l r => unit_ (v_set_from l r)
  | HDuplicate l => let! r := v_duplicate l in ret (ORef (Some r))
  | HOp2 o l r => unit_ (v_op2_of o l r)
  | HOp2n o l r => let! q := v_op2n_of o l r in ret (ORef q)
  | HOp2b o l ra rb => unit_ (v_op2b_of o l ra rb)
  | HDot l r => let! x := v_dot l r in ret (OF x)
  | HSum l => let! x := v_sum l in ret (OF x)
  end.

Fixpoint run (vd : bool) (p : prog F) : M F (list (out F)) :=
  match p with
  | PStop => ret []
  | PCall op k => let! o := exec vd op in let! os := run vd (k o) in ret (o :: os)
  end.

(** Integer arguments are C++ ints. *)
Definition int_args (op : vop F) : Prop :=
  match op with HResize _ n => n <= int_max | _ => True end.

Fixpoint int_prog (p : prog F) : Prop :=
  match p with PStop => True | PCall op k => int_args op /\ forall o, int_prog (k o) end.

End hist.
