(** * Symbolic execution tactics: the current heap is kept as finitely many fresh objects on top of the entry heap. *)
From Verif Require Import Base BaseProofs Vec VecSpec VecProofs VecProofs2 Mat MatSpec MatProofs MatProofs2 MatProofs3 MatProofs4 MatProofs5 Act.

(** Solve [abs h' !! x = Some _] from the equations for [h']. *)
Ltac look1 :=
  match goal with
  | |- abs ?h !! _ = _ => match goal with A : abs h = _ |- _ => rewrite A end
  | |- <[?d := _]> _ !! ?d = _ => apply lookup_insert
  | |- <[_ := _]> _ !! _ = _ => rewrite lookup_insert_ne by congruence
  end.
Ltac look := cbn [fst snd]; repeat look1; try eassumption; try reflexivity.
(** The disequality facts in [N : (<[..]> .. m) !! d = None]. *)
Ltac split_none N := repeat (let N' := fresh "Nq" in let P := fresh "Dq" in apply lookup_insert_None in N as [N' P]; rename N' into N).
(** A fresh object [d] was added. *)
Tactic Notation "new_as" ident(d) ident(h') ident(W) ident(N) ident(A) :=
  intros d h' W N A;
  try (match type of A with abs _ = <[_ := _]> (abs ?h0) =>
    match goal with A0 : abs h0 = _ |- _ => rewrite A0 in N, A; split_none N; clear A0 end end).
(** Object [d] was released. *)
Tactic Notation "del_as" ident(h') ident(W) ident(A) :=
  intros h' W A _;
  match type of A with abs _ = delete ?d (abs ?h0) =>
    match goal with A0 : abs h0 = _ |- _ => rewrite A0 in A; clear A0 end end;
  rewrite ?delete_insert_ne in A by congruence;
  rewrite delete_insert in A by (rewrite ?lookup_insert_ne by congruence; first [assumption|congruence]).
(** Object [d] was overwritten. *)
Tactic Notation "upd_as" ident(h') ident(W) ident(A) ident(A') :=
  match type of A' with abs _ = <[?d := _]> (abs ?h0) =>
    match goal with A0 : abs h0 = _ |- _ => rewrite A0 in A'; clear A0 end end;
  try (rewrite insert_insert in A').
Ltac dele h' W A := first [eapply wp_del|idtac]; [eassumption|look|del_as h' W A].
(** [lia] without the (many) disequalities between locations. *)
Ltac sclear := repeat match goal with H : _ <> _ |- _ => clear H | H : _ <> _ /\ _ |- _ => clear H end.
Ltac slia := sclear; lia.
Ltac snia := sclear; nia.
