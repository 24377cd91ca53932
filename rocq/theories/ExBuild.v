(** * Building concrete objects through the API, for the example files: starting from the empty heap, allocate and fill
      vectors and matrices with given contents. *)
From Verif Require Import Base BaseProofs Vec VecSpec VecProofs VecProofs2 Mat MatSpec MatProofs MatProofs2 MatProofs3 MatProofs4 HistProofs.

Section build.
Context {F : Type} `{Scalar F}.
Implicit Types (h : heap F).
(** A vector or a matrix, written down. *)
Inductive lit := LV (xs : list F) | LM (c : nat) (rows : list (list F)).
Definition lit_obj (l : lit) : aobj F := match l with LV xs => AVec xs | LM c rows => Rows c rows end.
Definition lit_ok (l : lit) : Prop :=
  match l with
  | LV xs => Z.of_nat (length xs) <= int_max
  | LM c rows => width c rows /\ (0 < c)%nat /\ rows <> [] /\ Z.of_nat (length rows * c) <= int_max
  end.
Definition mk1 (l : lit) : M F loc :=
  match l with
  | LV xs => let! v := v_new in v_set_from_vector v xs ;;; ret v
  | LM c rows => let! m := m_new in m_set_from_lists m rows ;;; ret m
  end.
Fixpoint mks (ls : list lit) : M F (list loc) :=
  match ls with
  | [] => ret []
  | l :: ls => let! d := mk1 l in let! ds := mks ls in ret (d :: ds)
  end.
Lemma wp_mk1 l h (Q : loc -> heap F -> Prop) : wf h -> lit_ok l ->
  (forall d h', wf h' -> abs h !! d = None -> abs h' = <[d := lit_obj l]> (abs h) -> Q d h') -> wp (mk1 l) h Q.
Proof.
  intros W V HQ. destruct l as [xs|c rows]; cbn [mk1 lit_ok lit_obj] in *.
  - wbind. apply wp_v_new; [exact W|]. intros d h1 W1 N1 A1 _. wbind. eapply wp_v_set_from_vector; [exact W1|rewrite A1; apply lookup_insert|exact V|].
    intros h2 W2 A2. apply wp_ret. apply HQ; [exact W2|exact N1|]. rewrite A2, A1, insert_insert. reflexivity.
  - destruct V as (V1 & V2 & V3 & V4). wbind. apply wp_m_new; [exact W|]. intros d h1 W1 N1 A1 _. wbind. eapply wp_m_set_from_lists with (c := c); [exact W1|rewrite A1; apply lookup_insert|exact V1|exact V2|exact V3|exact V4|].
    intros h2 W2 A2. apply wp_ret. apply HQ; [exact W2|exact N1|]. rewrite A2, A1, insert_insert. reflexivity.
Qed.
Lemma wp_mks ls : forall h (Q : list loc -> heap F -> Prop), wf h -> Forall lit_ok ls ->
  (forall ds h', wf h' -> (forall l o, abs h !! l = Some o -> abs h' !! l = Some o) -> Forall2 (fun d l => abs h' !! d = Some (lit_obj l)) ds ls -> Q ds h') -> wp (mks ls) h Q.
Proof.
  induction ls as [|l ls IH]; intros h Q W V HQ; cbn [mks].
  - apply wp_ret. apply HQ; [exact W|auto|constructor].
  - inversion V as [|? ? V1 V2]; subst. wbind. apply wp_mk1; [exact W|exact V1|]. intros d h1 W1 N1 A1. wbind. apply IH; [exact W1|exact V2|]. intros ds h2 W2 K2 B2. apply wp_ret. apply HQ; [exact W2| |].
    + intros i o Hi. apply K2. rewrite A1, lookup_insert_ne by congruence. exact Hi.
    + constructor; [|exact B2]. apply K2. rewrite A1. apply lookup_insert.
Qed.
(** Every list of literals can be built, and the heap reached is well formed. *)
Theorem built ls : Forall lit_ok ls -> exists ds h, mks ls (empty_heap (F := F)) = Ok ds h /\ wf h /\ Forall2 (fun d l => abs h !! d = Some (lit_obj l)) ds ls.
Proof.
  intros V. assert (G : wp (mks ls) empty_heap (fun ds h => wf h /\ Forall2 (fun d l => abs h !! d = Some (lit_obj l)) ds ls)) by (apply wp_mks; [apply wf_empty|exact V|auto]).
  unfold wp in G. destruct (mks ls empty_heap) as [ds h| | |]; try contradiction. exists ds, h. split; [reflexivity|exact G].
Qed.
End build.
(** [get2 ls a b] etc.: introduce the heap and locations of the literals. *)
Ltac lits_ok := repeat constructor; try (vm_compute; discriminate); try (cbn; lia); try discriminate.
Ltac reach ls := let ds := fresh "ds" in let h := fresh "h" in let E := fresh "Reached" in let W := fresh "W" in let B := fresh "B" in
  destruct (built ls) as (ds & h & E & W & B); [lits_ok|]; repeat match goal with H : Forall2 _ _ (_ :: _) |- _ => let d := fresh "d" in let Hd := fresh "Hd" in inversion H as [|d ? ? ? Hd ?]; clear H; subst; cbn [lit_obj] in Hd | H : Forall2 _ _ [] |- _ => inversion H; clear H; subst end.
