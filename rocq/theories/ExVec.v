(** * Concrete cases: the hypotheses of the theorems of PropVec.v are met, and the executable model
    agrees with them, on non-trivial data (exact integers). *)
From Verif Require Import PropVec Inst.

(** Two vectors built through the API; the second call of each uses the reference the first returned. *)
Definition build : prog Z :=
  PCall HNew (fun o => match o with ORef (Some a) =>
    PCall (HPush a 3) (fun _ => PCall (HPush a 1) (fun _ => PCall (HPush a 2) (fun _ =>
    PCall HNew (fun o2 => match o2 with ORef (Some b) =>
      PCall (HPush b 1) (fun _ => PCall (HPush b 4) (fun _ => PCall (HSort a) (fun _ =>
      PCall (HAppend a (Some a)) (fun _ => PCall (HOp2 BAdd a (Some b)) (fun _ =>
      PCall (HEraseMultiple a 2) (fun _ => PStop))))))
      | _ => PStop end))))
    | _ => PStop end).

Lemma Z_swo : swo_on (fun _ : Z => True).
Proof. constructor; cbn; intros; rewrite ?Z.ltb_lt, ?Z.ltb_ge, ?Z.ltb_irrefl in *; auto; lia. Qed.

Ltac inv H := inversion H; subst; clear H.
Ltac lk := repeat first [rewrite lookup_insert in * | rewrite lookup_insert_ne in * by congruence].

(** The hypothesis of C02_vector_history_refines holds of this program. *)
Example build_valid : all_valid ∅ build.
Proof.
  unfold build. cbn [all_valid]. split; [exact I|]. intros o s Hs. inv Hs. cbn [all_valid].
  split. { eexists. lk. split; [reflexivity|reflexivity]. } intros o s Hs. inv Hs. lk. simplify_eq.
  split. { eexists. lk. split; [reflexivity|reflexivity]. } intros o s Hs. inv Hs. lk. simplify_eq.
  split. { eexists. lk. split; [reflexivity|reflexivity]. } intros o s Hs. inv Hs. lk. simplify_eq.
  split; [exact I|]. intros o s Hs. inv Hs. cbn [all_valid].
  assert (r <> r0). { intros ->. rewrite lookup_insert in *. discriminate. }
  split. { eexists. lk. split; [reflexivity|reflexivity]. } intros o s Hs. inv Hs. lk. simplify_eq.
  split. { eexists. lk. split; [reflexivity|reflexivity]. } intros o s Hs. inv Hs. lk. simplify_eq.
  split. { eexists _, _. lk. split; [reflexivity|]. split; [apply Z_swo|]. repeat constructor. } intros o s Hs. inv Hs. lk. simplify_eq.
  assert (length ys = 3%nat) as Hlen by (match goal with Hp : ys ≡ₚ _ |- _ => apply Permutation_length in Hp; exact Hp end).
  split. { eexists. lk. split; [reflexivity|]. eexists. lk. split; [reflexivity|]. rewrite Hlen. vm_compute. discriminate. }
  intros o s Hs. inv Hs. lk. simplify_eq.
  split. { split; [eexists; lk; reflexivity|]. eexists. cbn. lk. reflexivity. }
  intros o s Hs. inv Hs.
  - lk. simplify_eq. split; [eexists; lk; reflexivity|auto].
  - lk. simplify_eq. split; [eexists; lk; reflexivity|auto].
Qed.

(** ... and the run of the model on it. *)
Example build_run : exists h', run true build empty_heap
   = Ok [ORef (Some 0%nat); OUnit; OUnit; OUnit; ORef (Some 1%nat); OUnit; OUnit; OUnit; OUnit; OUnit; OZ 2] h' /\
   abs h' !! 0%nat = Some (AVec [1; 3; 3; 1]) /\ abs h' !! 1%nat = Some (AVec [1; 4]) /\ abs h' !! 2%nat = None.
Proof. eexists. split; [vm_compute; reflexivity|]. repeat split; vm_compute; reflexivity. Qed.

(** A heap with two vectors on which the single-call theorems apply. *)
Definition h0 : heap Z := match run true (PCall HNew (fun _ => PCall (HPush 0%nat 3) (fun _ => PCall (HPush 0%nat 1) (fun _ =>
   PCall (HPush 0%nat 3) (fun _ => PCall HNew (fun _ => PCall (HPush 1%nat 5) (fun _ => PCall (HPush 1%nat 7) (fun _ =>
   PCall (HPush 1%nat 9) (fun _ => PStop))))))))) empty_heap with Ok _ h => h | _ => empty_heap end.
Example h0_wf : wf h0.
Proof.
  eapply (C01_vector_history_coherent true (PCall HNew (fun _ => PCall (HPush 0%nat 3) (fun _ => PCall (HPush 0%nat 1) (fun _ =>
   PCall (HPush 0%nat 3) (fun _ => PCall HNew (fun _ => PCall (HPush 1%nat 5) (fun _ => PCall (HPush 1%nat 7) (fun _ =>
   PCall (HPush 1%nat 9) (fun _ => PStop)))))))))); [cbn; tauto|vm_compute; reflexivity].
Qed.
Example h0_a : abs h0 !! 0%nat = Some (AVec [3; 1; 3]). Proof. vm_compute. reflexivity. Qed.
Example h0_b : abs h0 !! 1%nat = Some (AVec [5; 7; 9]). Proof. vm_compute. reflexivity. Qed.

Example ex_C02_append_self : runs (v_append 0%nat (Some 0%nat)) h0 (fun _ h' => abs h' = <[0%nat := AVec [3; 1; 3; 3; 1; 3]]> (abs h0)).
Proof. apply (C02_append h0 0%nat 0%nat [3;1;3] [3;1;3] h0_wf h0_a h0_a). vm_compute. discriminate. Qed.
Example ex_C02_insert : runs (v_insert 0%nat 1 8) h0 (fun _ h' => abs h' = <[0%nat := AVec [3; 8; 1; 3]]> (abs h0)).
Proof. apply (C02_insert h0 0%nat [3;1;3] 1 8 h0_wf h0_a); cbn; [reflexivity|lia]. Qed.
Example ex_C04 : runs (v_erase_multiple_unordered 0%nat 3) h0 (fun n h' => n = 2 /\ exists ys, ys ≡ₚ [1] /\ abs h' = <[0%nat := AVec ys]> (abs h0)).
Proof. exact (C04_erase_multiple h0 0%nat [3;1;3] 3 h0_wf h0_a). Qed.
Example ex_C05 : runs (v_sort true 0%nat) h0 (fun _ h' => exists ys, ys ≡ₚ [3;1;3] /\ non_decreasing ys /\ abs h' = <[0%nat := AVec ys]> (abs h0)).
Proof. apply (C05_sort (fun _ => True) true h0 0%nat [3;1;3] Z_swo h0_wf h0_a). repeat constructor. Qed.
Example ex_C06 : runs (v_ordered_insert 1%nat 7) h0 (fun _ h' => exists pre post, [5;7;9] = pre ++ post /\
    abs h' = <[1%nat := AVec (pre ++ 7 :: post)]> (abs h0) /\ non_decreasing (pre ++ 7 :: post) /\
    Forall (fun y => (7 <? y) = false) pre /\ Forall (fun y => (7 <? y) = true) post).
Proof.
  apply (C06_ordered_insert (fun _ => True) h0 1%nat [5;7;9] 7 Z_swo h0_wf h0_b); try (repeat constructor; fail); auto.
  intros [|[|[|i]]] [|[|[|j]]] x y Hij; cbn; intros Hx Hy; simplify_eq; try lia; try reflexivity; try discriminate.
Qed.
Example ex_C07 : runs (v_add 0%nat (Some 1%nat)) h0 (fun _ h' => abs h' = <[0%nat := AVec [8; 8; 12]]> (abs h0)).
Proof. destruct (proj1 C07_add h0 0%nat h0_wf) as (_ & H1 & _). exact (H1 1%nat [3;1;3] [5;7;9] h0_a h0_b eq_refl). Qed.
Example ex_C09 : v_div 0%nat (Some 1%nat) h0 = UB.
Proof. apply (C09_division_inplace_undefined h0 0%nat 1%nat [3;1;3] [5;7;9] h0_wf h0_a h0_b); [reflexivity|discriminate]. Qed.
Example ex_C13 : v_max_element_index 0%nat h0 = Ok 0 h0 /\ v_min_element_index 0%nat h0 = Ok 1 h0.
Proof. split; vm_compute; reflexivity. Qed.
Example ex_C14 : runs (v_flatten 0%nat [Some 1%nat; Some 1%nat]) h0 (fun _ h' => abs h' = <[0%nat := AVec [5;7;9;5;7;9]]> (abs h0)).
Proof.
  apply (C14_flatten h0 0%nat 3 (Some <$> [3;1;3]) [Some 1%nat; Some 1%nat] [[5;7;9];[5;7;9]] h0_wf h0_a); [|vm_compute; discriminate].
  repeat constructor; exists 1%nat; (split; [reflexivity|]); (split; [discriminate|exact h0_b]).
Qed.
