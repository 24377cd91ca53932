(** * C75, C76: numerical derivatives and approximations of functions of several real variables. *)
From Verif Require Import Base BaseProofs RErf RInst Vec VecSpec VecProofs VecProofs2 Mat MatSpec MatProofs MatProofs2 Ten TenSpec TenProofs PropMode StatProofs PropSvm RSum Act LibmR Sym Glm Num NumSpec NumProofs PropNum PropNum2 Svm MatProofs5.
From Coq Require Import String.
From Coq Require Import Reals Lra Lia List.
Open Scope R_scope.
Local Notation S := Datatypes.S.
Local Notation shift := NumSpec.shift.
Local Notation length := Datatypes.length.
Local Notation d1 := NumProofs.d1.
Local Notation d2 := NumProofs.d2.
Local Notation d3 := NumProofs.d3.
Implicit Types (xs cs : list R) (g : list R -> R) (fv : option loc -> M R R) (h : heap R).

(** ** Shifts *)
Lemma shift_length i e xs : length (shift i e xs) = length xs. Proof. apply alter_length. Qed.
Lemma shift_comm i j e f xs : shift i e (shift j f xs) = shift j f (shift i e xs).
Proof.
  unfold shift. destruct (decide (i = j)) as [->|Hne].
  - rewrite <- !list_alter_compose. apply list_alter_ext; [|reflexivity]. intros v _. cbn. lra.
  - apply list_alter_commute. exact Hne.
Qed.
Lemma shift_0 i xs : shift i 0 xs = xs.
Proof. unfold shift. apply list_alter_id. intros v. lra. Qed.
Lemma co_shift i e xs p : (i < length xs)%nat -> co (shift i e xs) p = co xs p + e * (if decide (p = i) then 1 else 0).
Proof.
  intros Hi. unfold co, shift. rewrite !nth_lookup. destruct (decide (p = i)) as [->|Hne].
  - rewrite list_lookup_alter. destruct (lookup_lt_is_Some_2 xs i Hi) as [v Hv]. rewrite Hv. cbn. lra.
  - rewrite list_lookup_alter_ne by congruence. lra.
Qed.
Lemma moved_R e axes xs : moved e axes xs = foldl (fun ys i => shift i e ys) xs axes.
Proof. reflexivity. Qed.

Definition D1 g xs i : R := (g (shift i step1 xs) - g xs) / step1.
Definition D2 g xs i j : R := (g (shift i step2 (shift j step2 xs)) - g (shift j step2 xs) - g (shift i step2 xs) + g xs) / (step2 * step2).
Definition D3 g xs i j k : R :=
  (g (shift i step2 (shift j step2 (shift k step2 xs))) - g (shift j step2 (shift k step2 xs)) - g (shift i step2 (shift k step2 xs)) - g (shift i step2 (shift j step2 xs))
   + g (shift i step2 xs) + g (shift j step2 xs) + g (shift k step2 xs) - g xs) / (step2 * step2 * step2).
Lemma d1_R g xs i : d1 g xs i = D1 g xs i.
Proof. unfold d1, D1. rewrite !moved_R. cbn [foldl]. unr. reflexivity. Qed.
Lemma d2_R g xs i j : d2 g xs i j = D2 g xs i j.
Proof. unfold d2, D2. rewrite !moved_R. cbn [foldl]. unr. rewrite (shift_comm j i). reflexivity. Qed.
Lemma d3_R g xs i j k : d3 g xs i j k = D3 g xs i j k.
Proof. unfold d3, D3. rewrite !moved_R. cbn [foldl]. unr. rewrite (shift_comm k j step2 step2 xs), (shift_comm k i step2 step2 xs), (shift_comm j i step2 step2 xs). rewrite (shift_comm k i step2 step2 (shift j step2 xs)), (shift_comm k j step2 step2 xs). unfold Rdiv. f_equal. lra. Qed.

(** ** Linear and quadratic functions of [n] variables. *)
Definition affine n k (a : nat -> R) xs : R := k + Rsum n (fun p => a p * co xs p).
Definition quadratic n k (b : nat -> R) (q : nat -> nat -> R) xs : R := k + Rsum n (fun p => b p * co xs p) + Rsum n (fun p => Rsum n (fun s => q p s * co xs p * co xs s)).
Lemma lin_shift n (b : nat -> R) xs i e : (i < n)%nat -> (i < length xs)%nat -> Rsum n (fun p => b p * co (shift i e xs) p) = Rsum n (fun p => b p * co xs p) + e * b i.
Proof.
  intros Hi Hl. rewrite <- (Rsum_delta n i b Hi), <- Rsum_scal, <- Rsum_plus. apply Rsum_ext. intros p _. rewrite co_shift by exact Hl. ring.
Qed.
Lemma affine_shift n k a xs i e : (i < n)%nat -> (i < length xs)%nat -> affine n k a (shift i e xs) = affine n k a xs + e * a i.
Proof. intros Hi Hl. unfold affine. rewrite lin_shift by assumption. ring. Qed.
Lemma quadratic_shift n k b q xs i e : (i < n)%nat -> (i < length xs)%nat ->
  quadratic n k b q (shift i e xs) = quadratic n k b q xs + e * b i + e * Rsum n (fun p => (q i p + q p i) * co xs p) + e * e * q i i.
Proof.
  intros Hi Hl. unfold quadratic. rewrite lin_shift by assumption.
  assert (E : Rsum n (fun p => Rsum n (fun s => q p s * co (shift i e xs) p * co (shift i e xs) s)) =
    Rsum n (fun p => Rsum n (fun s => q p s * co xs p * co xs s)) + e * Rsum n (fun p => (q i p + q p i) * co xs p) + e * e * q i i).
  { rewrite (Rsum_ext n _ (fun p => Rsum n (fun s => q p s * co xs p * co xs s) + e * (q p i * co xs p) + e * ((if decide (p = i) then 1 else 0) * (Rsum n (fun s => q p s * co xs s) + e * q p i)))).
    2:{ intros p Hp. rewrite (lin_shift n (fun s => q p s * co (shift i e xs) p)) by assumption. cbv beta. rewrite co_shift by exact Hl.
        rewrite (Rsum_ext n (fun p0 => q p p0 * (co xs p + e * (if decide (p = i) then 1 else 0)) * co xs p0) (fun s => q p s * co xs p * co xs s + (e * (if decide (p = i) then 1 else 0)) * (q p s * co xs s))) by (intros; ring).
        rewrite Rsum_plus, Rsum_scal. destruct (decide (p = i)); ring. }
    rewrite !Rsum_plus, !Rsum_scal, (Rsum_delta n i (fun p => Rsum n (fun s => q p s * co xs s) + e * q p i) Hi).
    rewrite (Rsum_ext n (fun p => (q i p + q p i) * co xs p) (fun p => q i p * co xs p + q p i * co xs p)) by (intros; ring). rewrite Rsum_plus. ring. }
  rewrite E. ring.
Qed.
Lemma D2_quadratic n k b q xs i j : length xs = n -> (i < n)%nat -> (j < n)%nat -> D2 (quadratic n k b q) xs i j = q i j + q j i.
Proof.
  intros El Hi Hj. unfold D2. pose proof step2_pos as P.
  rewrite (quadratic_shift n k b q (shift j step2 xs) i) by (rewrite ?shift_length; lia). rewrite (quadratic_shift n k b q xs i) by lia.
  rewrite (lin_shift n (fun p => q i p + q p i) xs j step2) by lia. field. lra.
Qed.

(** ** C75 *)
(** A partial derivative: the quotient of differences along the axis; the argument is not modified and nothing leaks. *)
Theorem C75_partial fv g h x xs i : computes fv g -> wf h -> abs h !! x = Some (AVec xs) -> (i < length xs)%nat ->
  runs (num_diffv fv (Some x) (Z.of_nat i)) h (fun v h' => v = (g (shift i step1 xs) - g xs) / step1 /\ abs h' = abs h).
Proof. intros C W A Hi. apply runs_wp. eapply wp_num_diffv; [exact C|exact W|exact A|exact Hi|]. intros h' W' A'. rewrite d1_R. auto. Qed.
(** It is the exact partial derivative at a point less than one step away. *)
Theorem C75_partial_mean fv g (g' : R -> R) h x xs i : computes fv g -> wf h -> abs h !! x = Some (AVec xs) -> (i < length xs)%nat ->
  has_derivative (fun t => g (shift i t xs)) g' 0 step1 ->
  runs (num_diffv fv (Some x) (Z.of_nat i)) h (fun v h' => exists t, 0 < t < step1 /\ v = g' t).
Proof.
  intros C W A Hi D. destruct (C75_partial fv g h x xs i C W A Hi) as (v & h' & E & W' & -> & A'). eexists _, _. split; [exact E|]. split; [exact W'|].
  pose proof step1_pos. destruct (mvt (fun t => g (shift i t xs)) g' 0 step1 H) as (t & Ht & Et). { rewrite Rplus_0_l. exact D. }
  exists t. split; [lra|]. rewrite Rplus_0_l, shift_0 in Et. rewrite Et. field. lra.
Qed.
(** The mixed second difference, and the exact mixed derivative it equals. *)
Theorem C75_second fv g h x xs i j : computes fv g -> wf h -> abs h !! x = Some (AVec xs) -> (i < length xs)%nat -> (j < length xs)%nat ->
  runs (num_diff2v fv (Some x) (Z.of_nat i) (Z.of_nat j)) h (fun v h' => v = D2 g xs i j /\ abs h' = abs h).
Proof. intros C W A Hi Hj. apply runs_wp. eapply wp_num_diff2v; [exact C|exact W|exact A|exact Hi|exact Hj|]. intros h' W' A'. rewrite d2_R. auto. Qed.
Theorem C75_second_mean g (g1 g12 : R -> R -> R) xs i j :
  (forall t, 0 <= t <= step2 -> has_derivative (fun s => g (shift i s (shift j t xs))) (fun s => g1 s t) 0 step2) ->
  (forall s, 0 <= s <= step2 -> has_derivative (fun t => g1 s t) (fun t => g12 s t) 0 step2) ->
  exists s t, 0 < s < step2 /\ 0 < t < step2 /\ D2 g xs i j = g12 s t.
Proof.
  intros Ha Hb. pose proof step2_pos as P. set (e := step2) in *.
  destruct (mvt (fun s => g (shift i s (shift j e xs)) - g (shift i s (shift j 0 xs))) (fun s => g1 s e - g1 s 0) 0 e P) as (s & Hs & Es).
  { rewrite Rplus_0_l. intros s Hs. apply (derivable_pt_lim_minus (fun s => g (shift i s (shift j e xs))) (fun s => g (shift i s (shift j 0 xs)))); apply Ha; lra. }
  destruct (mvt (fun t => g1 s t) (fun t => g12 s t) 0 e P) as (t & Ht & Et). { rewrite Rplus_0_l. apply Hb. lra. }
  exists s, t. split; [lra|]. split; [lra|]. rewrite !Rplus_0_l, !shift_0 in *. rewrite Et in Es. unfold D2. fold e.
  replace (g (shift i e (shift j e xs)) - g (shift j e xs) - g (shift i e xs) + g xs) with (e * (e * g12 s t)) by (rewrite <- Es; ring). field. lra.
Qed.
Theorem C75_third fv g h x xs i j k : computes fv g -> wf h -> abs h !! x = Some (AVec xs) -> (i < length xs)%nat -> (j < length xs)%nat -> (k < length xs)%nat ->
  runs (num_diff3v fv (Some x) (Z.of_nat i) (Z.of_nat j) (Z.of_nat k)) h (fun v h' => v = D3 g xs i j k /\ abs h' = abs h).
Proof. intros C W A Hi Hj Hk. apply runs_wp. eapply wp_num_diff3v; [exact C|exact W|exact A|exact Hi|exact Hj|exact Hk|]. intros h' W' A'. rewrite d3_R. auto. Qed.

(** The Jacobian vector, Hessian matrix and third-order tensor: every entry; the result is a new object. *)
Theorem C75_jacobian fv g h x xs : computes fv g -> wf h -> abs h !! x = Some (AVec xs) ->
  runs (jacobian fv (Some x)) h (fun d h' => exists js, abs h !! d = None /\ abs h' = <[d := AVec js]> (abs h) /\ length js = length xs /\
    forall i, (i < length xs)%nat -> co js i = (g (shift i step1 xs) - g xs) / step1).
Proof.
  intros C W A. apply runs_wp. eapply wp_jacobian; [exact C|exact W|exact A|]. intros d h' W' N A'. split; [exact W'|]. eexists. split; [exact N|]. split; [exact A'|]. split; [apply vlist_length|].
  intros i Hi. unfold co. rewrite nth_lookup, vlist_lookup by exact Hi. cbn. apply d1_R.
Qed.
Theorem C75_hessian fv g h x xs : computes fv g -> wf h -> abs h !! x = Some (AVec xs) -> (Z.of_nat (length xs * length xs) <= int_max)%Z ->
  runs (hessian fv (Some x)) h (fun d h' => abs h !! d = None /\ abs h' = <[d := Mat (length xs) (length xs) (D2 g xs)]> (abs h)).
Proof.
  intros C W A Hn. apply runs_wp. eapply wp_hessian; [exact C|exact W|exact A|exact Hn|]. intros d h' W' N A'. split; [exact W'|]. split; [exact N|]. rewrite A'. f_equal. apply Mat_ext. intros. apply d2_R.
Qed.
Theorem C75_tensor fv g h x xs : computes fv g -> wf h -> abs h !! x = Some (AVec xs) -> (Z.of_nat (length xs * (length xs * length xs)) <= int_max)%Z ->
  runs (third_order fv (Some x)) h (fun d h' => abs h !! d = None /\ abs h' = <[d := Ten (length xs) (length xs) (length xs) (D3 g xs)]> (abs h)).
Proof.
  intros C W A Hn. apply runs_wp. eapply wp_third_order; [exact C|exact W|exact A|exact Hn|]. intros d h' W' N A'. split; [exact W'|]. split; [exact N|]. rewrite A'. f_equal. apply Ten_ext. intros. apply d3_R.
Qed.
(** They are symmetric, whatever the function. *)
Theorem C75_symmetric g xs i j k : D2 g xs i j = D2 g xs j i /\ D3 g xs i j k = D3 g xs j i k /\ D3 g xs i j k = D3 g xs i k j /\ D3 g xs i j k = D3 g xs k j i.
Proof.
  assert (S12 : forall i j k, D3 g xs i j k = D3 g xs j i k). { intros a b c. unfold D3. rewrite (shift_comm b a step2 step2 (shift c step2 xs)), (shift_comm b a step2 step2 xs). unfold Rdiv. f_equal. ring. }
  assert (S23 : forall i j k, D3 g xs i j k = D3 g xs i k j). { intros a b c. unfold D3. rewrite (shift_comm c b step2 step2 xs). unfold Rdiv. f_equal. ring. }
  split; [|split; [|split]].
  - unfold D2. rewrite (shift_comm j i). unfold Rdiv. f_equal. ring.
  - apply S12.
  - apply S23.
  - rewrite (S12 k j i), (S23 j k i). apply S12.
Qed.
(** Exact on affine functions (Jacobian) and on quadratic functions (Hessian, third-order tensor, Laplacian). *)
Theorem C75_jacobian_affine fv h x xs k a : computes fv (affine (length xs) k a) -> wf h -> abs h !! x = Some (AVec xs) ->
  runs (jacobian fv (Some x)) h (fun d h' => exists js, abs h' = <[d := AVec js]> (abs h) /\ length js = length xs /\ forall i, (i < length xs)%nat -> co js i = a i).
Proof.
  intros C W A. destruct (C75_jacobian fv _ h x xs C W A) as (d & h' & E & W' & js & N & A' & El & Hj). eexists _, _. split; [exact E|]. split; [exact W'|]. exists js. split; [exact A'|]. split; [exact El|].
  intros i Hi. rewrite Hj by exact Hi. rewrite affine_shift by exact Hi. pose proof step1_pos. field. lra.
Qed.
Theorem C75_hessian_quadratic fv h x xs k b q : computes fv (quadratic (length xs) k b q) -> wf h -> abs h !! x = Some (AVec xs) -> (Z.of_nat (length xs * length xs) <= int_max)%Z ->
  runs (hessian fv (Some x)) h (fun d h' => abs h' = <[d := Mat (length xs) (length xs) (fun i j => q i j + q j i)]> (abs h)).
Proof.
  intros C W A Hn. destruct (C75_hessian fv _ h x xs C W A Hn) as (d & h' & E & W' & N & A'). eexists _, _. split; [exact E|]. split; [exact W'|]. rewrite A'. f_equal. apply Mat_ext. intros i j Hi Hj. apply D2_quadratic; auto.
Qed.
Theorem C75_tensor_quadratic n k b q xs i j l : length xs = n -> (i < n)%nat -> (j < n)%nat -> (l < n)%nat -> D3 (quadratic n k b q) xs i j l = 0.
Proof.
  intros El Hi Hj Hl. pose proof step2_pos as P.
  assert (E : forall g, D3 g xs i j l = (D2 g (shift l step2 xs) i j - D2 g xs i j) / step2) by (intros g; unfold D3, D2; field; lra).
  rewrite E, !D2_quadratic by (rewrite ?shift_length; auto). unfold Rdiv. ring.
Qed.
Theorem C75_laplacian fv g h x xs : computes fv g -> wf h -> abs h !! x = Some (AVec xs) -> (Z.of_nat (length xs * length xs) <= int_max)%Z ->
  runs (laplacian fv (Some x)) h (fun v h' => v = Rsum (length xs) (fun i => D2 g xs i i) /\ abs h' = abs h).
Proof.
  intros C W A Hn. apply runs_wp. eapply wp_laplacian; [exact C|exact W|exact A|exact Hn|]. intros h' W' A'. split; [exact W'|]. split; [|exact A']. rewrite lsum_Rsum. apply Rsum_ext. intros. apply d2_R.
Qed.
Theorem C75_laplacian_quadratic fv h x xs k b q : computes fv (quadratic (length xs) k b q) -> wf h -> abs h !! x = Some (AVec xs) -> (Z.of_nat (length xs * length xs) <= int_max)%Z ->
  runs (laplacian fv (Some x)) h (fun v h' => v = 2 * Rsum (length xs) (fun i => q i i)).
Proof.
  intros C W A Hn. destruct (C75_laplacian fv _ h x xs C W A Hn) as (v & h' & E & W' & -> & A'). eexists _, _. split; [exact E|]. split; [exact W'|]. rewrite <- Rsum_scal. apply Rsum_ext. intros i Hi. rewrite D2_quadratic by auto. ring.
Qed.
(** An axis outside the vector aborts the process. *)
Theorem C75_bad_axis fv h x xs axis : wf h -> abs h !! x = Some (AVec xs) -> ~ (0 <= axis < Z.of_nat (length xs))%Z -> num_diffv fv (Some x) axis h = Crash.
Proof.
  intros W A Hb. unfold num_diffv, shifted, deref. unfold bind at 1. unfold bind at 1. unfold ret at 1. cbv beta iota. unfold bind at 1.
  assert (exists t h1, v_duplicate x h = Ok t h1 /\ wf h1 /\ abs h1 !! t = Some (AVec xs)) as (t & h1 & -> & W1 & A1).
  { assert (G : wp (v_duplicate x) h (fun t h1 => wf h1 /\ abs h1 !! t = Some (AVec xs))). { eapply wp_v_duplicate; [exact W|exact A|]. intros t h1 W1 N1 A1. split; [exact W1|]. rewrite A1. apply lookup_insert. }
    apply wp_ok in G as (t & h1 & E & G). exists t, h1. tauto. }
  cbn [bumps]. unfold bind at 1, bind at 1, bump, bind at 1, v_at, bind at 1. rewrite (v_size_eq h1 t xs A1).
  replace ((axis <? 0)%Z || (Z.of_nat (length xs) <=? axis)%Z) with true by lia. reflexivity.
Qed.

(** ** C76 *)
(** DEFECT: the product taken is (column) x (row), of which only the entry (0, 0) is used: only the FIRST coordinate of x - c enters the
    linear approximation, whatever the number of variables. *)
Theorem C76_linear fv g h c x cs xs : computes fv g -> wf h -> abs h !! c = Some (AVec cs) -> abs h !! x = Some (AVec xs) -> length xs = length cs -> cs <> [] ->
  (Z.of_nat (length cs * length cs) <= int_max)%Z ->
  runs (lin_approxv fv (Some c) (Some x)) h (fun v h' => v = g cs + D1 g cs 0 * (co xs 0 - co cs 0) /\ abs h' = abs h).
Proof.
  intros C W Ac Ax El Hne Hn. apply runs_wp. eapply wp_lin_approxv; [exact C|exact W|exact Ac|exact Ax|exact El|exact Hne|exact Hn|]. intros h' W' A'. split; [exact W'|]. split; [|exact A'].
  rewrite d1_R. unr. unfold co. ring.
Qed.
(** Consequence for an affine function: exact with one variable; the contributions of the other coordinates are lost otherwise. *)
Theorem C76_linear_affine fv h c x cs xs k a : computes fv (affine (length cs) k a) -> wf h -> abs h !! c = Some (AVec cs) -> abs h !! x = Some (AVec xs) -> length xs = length cs -> cs <> [] ->
  (Z.of_nat (length cs * length cs) <= int_max)%Z ->
  runs (lin_approxv fv (Some c) (Some x)) h (fun v h' => v = affine (length cs) k a xs - Rsum (length cs - 1) (fun i => a (S i) * (co xs (S i) - co cs (S i)))).
Proof.
  intros C W Ac Ax El Hne Hn. destruct (C76_linear fv _ h c x cs xs C W Ac Ax El Hne Hn) as (v & h' & E & W' & -> & A'). eexists _, _. split; [exact E|]. split; [exact W'|].
  assert (0 < length cs)%nat as Hp by (destruct cs; [congruence|cbn; lia]). unfold D1. rewrite affine_shift by exact Hp. pose proof step1_pos.
  replace ((affine (length cs) k a cs + step1 * a 0%nat - affine (length cs) k a cs) / step1) with (a 0%nat) by (field; lra).
  unfold affine. rewrite (Rsum_split (length cs) 1 (fun p => a p * co cs p)), (Rsum_split (length cs) 1 (fun p => a p * co xs p)) by lia. rewrite !Rsum_S. change (Rsum 0 ?u) with 0.
  rewrite (Rsum_ext (length cs - 1) (fun i => a (S i) * (co xs (S i) - co cs (S i))) (fun i => a (1 + i)%nat * co xs (1 + i)%nat - a (1 + i)%nat * co cs (1 + i)%nat)) by (intros; cbn [Nat.add]; ring).
  rewrite Rsum_minus. ring.
Qed.
(** The quadratic approximation adds half the quadratic form of the Hessian; the cubic one adds nothing (DEFECT: 1 / 6 is an integer division). *)
Theorem C76_quadratic fv g h c x cs xs : computes fv g -> wf h -> abs h !! c = Some (AVec cs) -> abs h !! x = Some (AVec xs) -> length xs = length cs -> cs <> [] ->
  (Z.of_nat (length cs * length cs) <= int_max)%Z ->
  runs (quad_approxv fv (Some c) (Some x)) h (fun v h' => v = g cs + D1 g cs 0 * (co xs 0 - co cs 0) +
    / 2 * Rsum (length cs) (fun i => Rsum (length cs) (fun j => D2 g cs i j * (co xs i - co cs i) * (co xs j - co cs j))) /\ abs h' = abs h).
Proof.
  intros C W Ac Ax El Hne Hn. apply runs_wp. eapply wp_quad_approxv; [exact C|exact W|exact Ac|exact Ax|exact El|exact Hne|exact Hn|]. intros h' W' A'. split; [exact W'|]. split; [|exact A'].
  rewrite d1_R. unfold qform. rewrite lsum_Rsum. unr. unfold co at 1 2. f_equal; [ring|]. f_equal. apply Rsum_ext. intros i Hi. rewrite lsum_Rsum. rewrite <- Rsum_scal. apply Rsum_ext. intros j Hj. rewrite d2_R.
  assert (Ed : forall p, (p < length cs)%nat -> nth p (diffs xs cs) 0 = co xs p - co cs p).
  { intros p Hp. unfold co, diffs. rewrite !nth_lookup, lookup_zip_with. destruct (lookup_lt_is_Some_2 xs p) as [u Hu]; [lia|]. destruct (lookup_lt_is_Some_2 cs p Hp) as [w Hw]. rewrite Hu, Hw. reflexivity. }
  rewrite !Ed by assumption. ring.
Qed.
Theorem C76_cubic fv g h c x cs xs : computes fv g -> wf h -> abs h !! c = Some (AVec cs) -> abs h !! x = Some (AVec xs) -> length xs = length cs -> cs <> [] ->
  (Z.of_nat (length cs * (length cs * length cs)) <= int_max)%Z ->
  exists v, runs (quad_approxv fv (Some c) (Some x)) h (fun v1 h' => v1 = v /\ abs h' = abs h) /\ runs (cubic_approxv fv (Some c) (Some x)) h (fun v1 h' => v1 = v /\ abs h' = abs h).
Proof.
  intros C W Ac Ax El Hne Hn. eexists. split; apply runs_wp.
  - eapply wp_quad_approxv; [exact C|exact W|exact Ac|exact Ax|exact El|exact Hne|assert (0 < length cs)%nat by (destruct cs; [congruence|cbn; lia]); nia|]. intros h' W' A'. split; [exact W'|]. split; [reflexivity|exact A'].
  - eapply wp_cubic_approxv; [exact C|exact W|exact Ac|exact Ax|exact El|exact Hne|exact Hn|]. intros h' q W' A'. split; [exact W'|]. split; [|exact A']. unr. ring.
Qed.

(** ** The second partial derivative test for two variables *)
Local Notation form A B C u v := (A * u * u + 2 * B * u * v + C * v * v).
Lemma form_id A B C u v : A * form A B C u v = (A * u + B * v) * (A * u + B * v) + (A * C - B * B) * (v * v).
Proof. ring. Qed.
Lemma sq_pos t : t <> 0 -> 0 < t * t. Proof. intros. nra. Qed.
Lemma form_pos A B C u v : 0 < A -> 0 < A * C - B * B -> u <> 0 \/ v <> 0 -> 0 < form A B C u v.
Proof.
  intros HA Hd Huv. apply (Rmult_lt_reg_l A); [exact HA|]. rewrite Rmult_0_r, form_id. pose proof (Rle_0_sqr (A * u + B * v)) as Hs. unfold Rsqr in Hs.
  destruct (Req_dec v 0) as [->|Hv].
  - assert (u <> 0) as Hu by tauto. assert (0 < (A * u + B * 0) * (A * u + B * 0)); [|lra]. rewrite Rmult_0_r, Rplus_0_r. apply sq_pos. apply Rmult_integral_contrapositive_currified; lra.
  - pose proof (Rmult_lt_0_compat _ _ Hd (sq_pos v Hv)). lra.
Qed.
Lemma form_neg A B C u v : A < 0 -> 0 < A * C - B * B -> u <> 0 \/ v <> 0 -> form A B C u v < 0.
Proof. intros HA Hd Huv. pose proof (form_pos (- A) (- B) (- C) u v ltac:(lra) ltac:(lra) Huv). lra. Qed.
Lemma form_both A B C : A * C - B * B < 0 -> (exists u v, 0 < form A B C u v) /\ (exists u v, form A B C u v < 0).
Proof.
  intros Hd. destruct (Rtotal_order A 0) as [HA|[->|HA]].
  - split; [exists (- B), A|exists 1, 0; lra]. replace (form A B C (- B) A) with (A * (A * C - B * B)) by ring. nra.
  - assert (HB : B <> 0) by nra. split.
    + exists ((1 - C) / (2 * B)), 1. replace (form 0 B C ((1 - C) / (2 * B)) 1) with 1 by (field; exact HB). lra.
    + exists ((- 1 - C) / (2 * B)), 1. replace (form 0 B C ((- 1 - C) / (2 * B)) 1) with (- 1) by (field; exact HB). lra.
  - split; [exists 1, 0; lra|exists (- B), A]. replace (form A B C (- B) A) with (A * (A * C - B * B)) by ring. nra.
Qed.
Lemma form_flat A B C : A * C - B * B = 0 -> (exists u v, (u <> 0 \/ v <> 0) /\ form A B C u v = 0) /\ ~ ((exists u v, 0 < form A B C u v) /\ (exists u v, form A B C u v < 0)).
Proof.
  intros Hd. destruct (Req_dec A 0) as [->|HA].
  - assert (B = 0) as -> by nra. split; [exists 1, 0; split; [left; lra|ring]|]. intros [(u & v & Hp) (u' & v' & Hn)]. pose proof (Rle_0_sqr v) as S1. pose proof (Rle_0_sqr v') as S2. unfold Rsqr in *.
    assert (0 < C * (v * v)) by lra. assert (C * (v' * v') < 0) by lra. destruct (Rle_or_lt C 0); nra.
  - split; [exists (- B), A; split; [right; exact HA|]; replace (form A B C (- B) A) with (A * (A * C - B * B)) by ring; rewrite Hd; ring|].
    intros [(u & v & Hp) (u' & v' & Hn)]. pose proof (form_id A B C u v) as E1. pose proof (form_id A B C u' v') as E2. rewrite Hd in E1, E2. pose proof (Rle_0_sqr (A * u + B * v)) as S1. pose proof (Rle_0_sqr (A * u' + B * v')) as S2. unfold Rsqr in *.
    set (f1 := form A B C u v) in *. set (f2 := form A B C u' v') in *. clearbody f1 f2. destruct (Rle_or_lt A 0); nra.
Qed.

(** The function has a strict global minimum (maximum) at [cs] / takes larger and smaller values. *)
Definition strict_min g cs : Prop := forall ys, length ys = length cs -> ys <> cs -> g cs < g ys.
Definition strict_max g cs : Prop := forall ys, length ys = length cs -> ys <> cs -> g ys < g cs.
Definition saddle g cs : Prop := (exists ys, length ys = length cs /\ g cs < g ys) /\ (exists ys, length ys = length cs /\ g ys < g cs).
(** At a critical point of a quadratic function of two variables the test decides the nature of the point, in both directions. *)
Theorem C76_derivative_test other fv h x cs k b q : computes fv (quadratic 2 k b q) -> wf h -> abs h !! x = Some (AVec cs) -> length cs = 2%nat ->
  (forall i, (i < 2)%nat -> b i + Rsum 2 (fun p => (q i p + q p i) * co cs p) = 0) ->
  runs (derivative_test other fv (Some x)) h (fun s h' => abs h' = abs h /\
    (s = "min"%string <-> strict_min (quadratic 2 k b q) cs) /\ (s = "max"%string <-> strict_max (quadratic 2 k b q) cs) /\ (s = "saddle"%string <-> saddle (quadratic 2 k b q) cs)).
Proof.
  intros C W A El Hc. apply runs_wp. eapply wp_derivative_test; [exact C|exact W|exact A|exact El|]. intros h' W' A'. split; [exact W'|]. split; [exact A'|].
  rewrite !d2_R, !D2_quadratic by (exact El || lia). destruct cs as [|c0 [|c1 [|]]]; try discriminate El.
  set (G := quadratic 2 k b q). set (a := q 0%nat 0%nat + q 0%nat 0%nat). set (m := q 0%nat 1%nat + q 1%nat 0%nat). set (c := q 1%nat 1%nat + q 1%nat 1%nat).
  assert (EG : forall u v, G [c0 + u; c1 + v] = G [c0; c1] + / 2 * form a m c u v).
  { intros u v. pose proof (Hc 0%nat ltac:(lia)) as H0. pose proof (Hc 1%nat ltac:(lia)) as H1. unfold G, quadratic, a, m, c. rewrite !Rsum_S in *. change (Rsum 0 ?u) with 0 in *. unfold co in *. cbn [nth] in *.
    assert (E0 : b 0%nat = - ((q 0%nat 0%nat + q 0%nat 0%nat) * c0 + (q 0%nat 1%nat + q 1%nat 0%nat) * c1)) by lra. assert (E1 : b 1%nat = - ((q 1%nat 0%nat + q 0%nat 1%nat) * c0 + (q 1%nat 1%nat + q 1%nat 1%nat) * c1)) by lra.
    rewrite E0, E1. field. }
  assert (EY : forall ys, length ys = length [c0; c1] -> exists u v, ys = [c0 + u; c1 + v] /\ (ys <> [c0; c1] -> u <> 0 \/ v <> 0)).
  { intros ys Ey. destruct ys as [|y0 [|y1 [|]]]; try discriminate Ey. exists (y0 - c0), (y1 - c1). split; [f_equal; [|f_equal]; ring|]. intros N. destruct (Req_dec y0 c0) as [->|]; [|left; lra]. destruct (Req_dec y1 c1) as [->|]; [tauto|right; lra]. }
  assert (NE : forall u v, u <> 0 \/ v <> 0 -> [c0 + u; c1 + v] <> [c0; c1]) by (intros u v Huv E; injection E; intros; destruct Huv as [Huv|Huv]; apply Huv; lra).
  assert (Hmin : strict_min G [c0; c1] <-> forall u v, u <> 0 \/ v <> 0 -> 0 < form a m c u v).
  { split; [intros Hm u v Huv; specialize (Hm [c0 + u; c1 + v] eq_refl (NE u v Huv)); rewrite EG in Hm; lra|]. intros Hm ys Ey Hy. destruct (EY ys Ey) as (u & v & -> & Huv). specialize (Hm u v (Huv Hy)). rewrite EG. lra. }
  assert (Hmax : strict_max G [c0; c1] <-> forall u v, u <> 0 \/ v <> 0 -> form a m c u v < 0).
  { split; [intros Hm u v Huv; specialize (Hm [c0 + u; c1 + v] eq_refl (NE u v Huv)); rewrite EG in Hm; lra|]. intros Hm ys Ey Hy. destruct (EY ys Ey) as (u & v & -> & Huv). specialize (Hm u v (Huv Hy)). rewrite EG. lra. }
  assert (Hsad : saddle G [c0; c1] <-> (exists u v, 0 < form a m c u v) /\ (exists u v, form a m c u v < 0)).
  { split; [intros [(ys & Ey & Hy) (zs & Ez & Hz)]; destruct (EY ys Ey) as (u & v & -> & _); destruct (EY zs Ez) as (u' & v' & -> & _); rewrite EG in *; split; [exists u, v|exists u', v']; lra|].
    intros [(u & v & Hy) (u' & v' & Hz)]. split; [exists [c0 + u; c1 + v]|exists [c0 + u'; c1 + v']]; (split; [reflexivity|rewrite EG; lra]). }
  rewrite Hmin, Hmax, Hsad. replace (q 1%nat 0%nat + q 0%nat 1%nat) with m by (unfold m; ring). clearbody a m c. clear Hmin Hmax Hsad NE EY EG Hc C. unfold verdict. change (s_sub (s_mul a c) (s_mul m m)) with (a * c - m * m). change (@s_zero R _) with 0.
  assert (LT : forall x y : R, s_lt x y = true <-> x < y) by (intros; apply Rltb_true). assert (LF : forall x y : R, s_lt x y = false <-> ~ x < y) by (intros; rewrite <- LT; destruct (s_lt x0 y); intuition congruence).
  destruct (Rtotal_order (a * c - m * m) 0) as [Hd|[Hd|Hd]].
  - rewrite (proj2 (LF 0 (a * c - m * m))), !andb_false_r, (proj2 (LT (a * c - m * m) 0)) by lra. destruct (form_both a m c Hd) as [(u & v & Hp) (u' & v' & Hn)]. split_and!; (split; [try discriminate|try reflexivity]).
    + intros Hm. exfalso. assert (u' <> 0 \/ v' <> 0) as Huv by (destruct (Req_dec u' 0) as [->|]; [|auto]; destruct (Req_dec v' 0) as [->|]; [lra|auto]). specialize (Hm u' v' Huv). lra.
    + intros Hm. exfalso. assert (u <> 0 \/ v <> 0) as Huv by (destruct (Req_dec u 0) as [->|]; [|auto]; destruct (Req_dec v 0) as [->|]; [lra|auto]). specialize (Hm u v Huv). lra.
    + intros _. split; [exists u, v|exists u', v']; assumption.
  - rewrite Hd. rewrite (proj2 (LF 0 0)), !andb_false_r by lra. destruct (form_flat a m c Hd) as [(u & v & Huv & E0) Hno]. split_and!; (split; [discriminate|]).
    + intros Hm. specialize (Hm u v Huv). lra.
    + intros Hm. specialize (Hm u v Huv). lra.
    + intros Hs. contradiction.
  - assert (Ha : a <> 0) by (intros ->; nra). rewrite (proj2 (LT 0 (a * c - m * m))), !andb_true_r by lra. destruct (Rlt_or_le 0 a) as [Hp|Hp].
    + rewrite (proj2 (LT 0 a)) by lra. pose proof (fun u v => form_pos a m c u v Hp Hd) as P. split_and!; (split; [try discriminate|try reflexivity]).
      * intros _. exact P.
      * intros Hm. exfalso. specialize (Hm 1 0 ltac:(left; lra)). specialize (P 1 0 ltac:(left; lra)). lra.
      * intros [_ (u & v & Hn)]. exfalso. assert (u <> 0 \/ v <> 0) as Huv by (destruct (Req_dec u 0) as [->|]; [|auto]; destruct (Req_dec v 0) as [->|]; [lra|auto]). specialize (P u v Huv). lra.
    + assert (Hn : a < 0) by lra. rewrite (proj2 (LF 0 a)), (proj2 (LT a 0)) by lra. pose proof (fun u v => form_neg a m c u v Hn Hd) as P. split_and!; (split; [try discriminate|try reflexivity]).
      * intros Hm. exfalso. specialize (Hm 1 0 ltac:(left; lra)). specialize (P 1 0 ltac:(left; lra)). lra.
      * intros _. exact P.
      * intros [(u & v & Hq) _]. exfalso. assert (u <> 0 \/ v <> 0) as Huv by (destruct (Req_dec u 0) as [->|]; [|auto]; destruct (Req_dec v 0) as [->|]; [lra|auto]). specialize (P u v Huv). lra.
Qed.
