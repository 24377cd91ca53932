(** * C90: Harris corner detection. *)
From Verif Require Import Base BaseProofs Vec VecSpec VecProofs VecProofs2 Mat MatSpec MatProofs Act RInst LibmR PropStat PropSvm RSum Svm Conv ConvProofs PropConv Harris HarrisProofs.
From Coq Require Import Reals Lra.
Local Notation S := Datatypes.S.
Open Scope R_scope.
Implicit Types (h : heap R) (X A B : nat -> nat -> R).

(** ** Specification *)
(** The image derivatives, zero outside the image. *)
Definition gx (c r : nat) X (i j : nat) : R := ext c r X (Z.of_nat i) (Z.of_nat j + 1) - ext c r X (Z.of_nat i) (Z.of_nat j - 1).
Definition gy (c r : nat) X (i j : nat) : R := ext c r X (Z.of_nat i - 1) (Z.of_nat j) - ext c r X (Z.of_nat i + 1) (Z.of_nat j).
(** A product of derivatives, weighted by the 3x3 gaussian of standard deviation 1. *)
Definition smooth (c r : nat) A B (i j : nat) : R :=
  Rsum 3 (fun k => Rsum 3 (fun p => ext c r (fun y x => A y x * B y x) (Z.of_nat (i + k) - 1) (Z.of_nat (j + p) - 1) * gauss 1 (INR k - 1) (1 - INR p))).
(** Determinant minus 0.05 times the square of the trace of the structure tensor. *)
Definition response (c r : nat) X (i j : nat) : R :=
  let a := smooth c r (gx c r X) (gx c r X) i j in let b := smooth c r (gy c r X) (gy c r X) i j in let m := smooth c r (gx c r X) (gy c r X) i j in
  (a * b - m * m) - (a + b) * (a + b) / 20.
Definition rclass (v : R) : hclass := if Rlt_dec 0 v then Corner else if Rlt_dec v 0 then Edge else Neither.
Definition table {T} (r : nat) (f : nat -> nat -> T) : list (list T) := (fun i => f i <$> seq 0 r) <$> seq 0 r.

(** ** The values computed are those of the specification *)
Lemma ext_agree (c r : nat) A A' y x : (forall i j, (i < r)%nat -> (j < c)%nat -> A i j = A' i j) -> ext c r A y x = ext c r A' y x.
Proof. intros E. unfold ext. destruct (decide _); [|reflexivity]. apply E; lia. Qed.
Lemma dx_gx (c r : nat) X i j : (c <= r)%nat -> (j < c)%nat -> dx_at c r X i j = gx c r X i j.
Proof.
  intros Hcr Hj. unfold dx_at, gx. cbn [s_opp s_sub R_scalar]. change (@zat R R_scalar) with (@ext R R_scalar). destruct (decide (j = 0)%nat) as [->|H0]; [|destruct (decide (j = r - 1)%nat) as [E|H1]].
  - rewrite (ext_out c r X _ (Z.of_nat 0 - 1)) by lia. change (Z.of_nat 0 + 1)%Z with 1%Z. lra.
  - rewrite (ext_out c r X _ (Z.of_nat j + 1)) by lia. lra.
  - reflexivity.
Qed.
Lemma dy_gy (c r : nat) X i j : (i < r)%nat -> dy_at c r X i j = gy c r X i j.
Proof.
  intros Hi. unfold dy_at, gy. cbn [s_opp s_sub R_scalar]. change (@zat R R_scalar) with (@ext R R_scalar). destruct (decide (i = 0)%nat) as [->|H0]; [|destruct (decide (i = r - 1)%nat) as [->|H1]].
  - rewrite (ext_out c r X (Z.of_nat 0 - 1)) by lia. change (Z.of_nat 0 + 1)%Z with 1%Z. lra.
  - rewrite (ext_out c r X (Z.of_nat (r - 1) + 1)) by lia. lra.
  - reflexivity.
Qed.
Lemma gauss_at_R k p : gauss_at (F := R) 3 s_one k p = gauss 1 (INR k - 1) (1 - INR p).
Proof.
  unfold gauss_at, gaussian_2d, gauss. change (Z.quot (Z.of_nat 3 - 1) 2) with 1%Z. cbn [s_mul s_div s_one s_exp s_opp s_add s_of_Z m_pi R_scalar R_libm]. unfold s_two. cbn [s_of_Z R_scalar]. rewrite !minus_IZR, <- !INR_IZR_INZ.
  f_equal. f_equal. field.
Qed.
Lemma smooth_at_R (c r : nat) A B i j : (i < r)%nat -> (j < r)%nat -> smooth_at (F := R) c r (had A B) i j = smooth c r A B i j.
Proof.
  intros Hi Hj. unfold smooth_at, smooth. rewrite conv_value_square. cbv zeta. rewrite correlate_R. apply Rsum_ext. intros k Hk. apply Rsum_ext. intros p Hp. rewrite gauss_at_R. f_equal.
  assert (Es : forall i, start 1 i = Z.of_nat i) by (intros [|?]; cbn; lia). rewrite !Es. etransitivity; [apply (src_ext c r (had A B) 1); lia|]. rewrite !Nat2Z.inj_add. reflexivity.
Qed.
Lemma smooth_agree (c r : nat) A A' B B' i j : (forall i j, (i < r)%nat -> (j < c)%nat -> A i j = A' i j) -> (forall i j, (i < r)%nat -> (j < c)%nat -> B i j = B' i j) -> smooth c r A B i j = smooth c r A' B' i j.
Proof. intros E1 E2. unfold smooth. apply Rsum_ext. intros k _. apply Rsum_ext. intros p _. f_equal. apply ext_agree. intros y x Hy Hx. rewrite E1, E2 by assumption. reflexivity. Qed.
Lemma value_R (c r : nat) X i j : (c <= r)%nat -> (i < r)%nat -> (j < r)%nat -> harris_value (F := R) c r X i j = response c r X i j.
Proof.
  intros Hcr Hi Hj. unfold harris_value, mxx, myy, mxy. rewrite !smooth_at_R by assumption.
  rewrite !(smooth_agree c r (dx_at c r X) (gx c r X) (dx_at c r X) (gx c r X)) by (intros; apply dx_gx; lia).
  rewrite !(smooth_agree c r (dy_at c r X) (gy c r X) (dy_at c r X) (gy c r X)) by (intros; apply dy_gy; lia).
  rewrite !(smooth_agree c r (dx_at c r X) (gx c r X) (dy_at c r X) (gy c r X)) by (intros; first [apply dx_gx|apply dy_gy]; lia).
  unfold response. cbn [s_sub s_mul s_add s_div s_one s_of_Z R_scalar]. cbv zeta. unfold Rdiv. ring.
Qed.
Lemma class_R v : harris_class (F := R) v = rclass v.
Proof.
  unfold harris_class, rclass. cbn [s_lt s_zero R_scalar]. unfold Rltb. destruct (Rlt_dec 0 v); [reflexivity|]. destruct (Rlt_dec v 0); reflexivity.
Qed.
Lemma pad_R (n : Z) : m_to_int (harris_pad (F := R) n) = Some 1%Z.
Proof.
  unfold harris_pad. cbn [s_div s_sub s_add s_of_Z R_scalar m_to_int R_libm]. unfold s_two. cbn [s_of_Z R_scalar]. rewrite minus_IZR. replace ((IZR n - 1 + 3 - IZR n) / 2) with 1 by field.
  unfold Rto_int, Rtrunc. destruct (Rlt_dec _ _); [|lra]. destruct (Rlt_dec _ _); [|lra]. destruct (Rlt_dec _ _); [lra|]. f_equal.
  destruct (base_Int_part 1) as [H1 H2]. assert (Int_part 1 < 2)%Z by (apply lt_IZR; lra). assert (0 < Int_part 1)%Z by (apply lt_IZR; lra). lia.
Qed.
Lemma table_ext {T} r (f g : nat -> nat -> T) : (forall i j, (i < r)%nat -> (j < r)%nat -> f i j = g i j) -> table r f = table r g.
Proof. intros E. unfold table. apply list_fmap_ext. intros i0 i Hi. apply lookup_seq in Hi as [-> Hi]. apply list_fmap_ext. intros j0 j Hj. apply lookup_seq in Hj as [-> Hj]. apply E; lia. Qed.

(** The answer for an image at least as high as it is wide: one class per position of the square of side rows, from the sign of the
    response; the heap is as before. *)
Theorem C90_formula h x (c r : nat) X : wf h -> abs h !! x = Some (Mat c r X) -> (1 <= r)%nat -> (c <= r)%nat -> small (r + 2) ->
  runs (harris_corner_detection (Some x)) h (fun out h' => abs h' = abs h /\ out = table r (fun i j => rclass (response c r X i j))).
Proof.
  intros W A Hr Hcr [HB HL]. apply runs_wp. eapply wp_harris; [exact W|exact A|exact Hr|lia|exact HL|apply pad_R|]. intros h' W' A'. split; [exact W'|]. split; [exact A'|].
  change (harris_rows c r X r) with (table r (fun i j => harris_class (harris_value c r X i j))). apply table_ext. intros i j Hi Hj. rewrite class_R, value_R by assumption. reflexivity.
Qed.
(** Multiplying the image by a nonzero number (contrast, or negative image) does not change the answer. *)
Lemma ext_scale (c r : nat) X a y x : ext c r (fun i j => a * X i j) y x = a * ext c r X y x.
Proof. unfold ext. destruct (decide _); [reflexivity|]. cbn [s_zero R_scalar]. ring. Qed.
Lemma smooth_scale (c r : nat) A B a b i j : smooth c r (fun i j => a * A i j) (fun i j => b * B i j) i j = a * b * smooth c r A B i j.
Proof.
  unfold smooth. rewrite <- Rsum_scal. apply Rsum_ext. intros k _. rewrite <- Rsum_scal. apply Rsum_ext. intros p _. rewrite (ext_agree c r _ (fun y x => (a * b) * (A y x * B y x))) by (intros; ring). rewrite ext_scale. ring.
Qed.
Lemma response_scale (c r : nat) X a i j : response c r (fun i j => a * X i j) i j = (a * a) * (a * a) * response c r X i j.
Proof.
  assert (E1 : forall i j, gx c r (fun i j => a * X i j) i j = a * gx c r X i j) by (intros; unfold gx; rewrite !ext_scale; ring).
  assert (E2 : forall i j, gy c r (fun i j => a * X i j) i j = a * gy c r X i j) by (intros; unfold gy; rewrite !ext_scale; ring).
  set (X' := fun i j => a * X i j) in *. unfold response. rewrite (smooth_agree c r (gx c r X') (fun i j => a * gx c r X i j) (gx c r X') (fun i j => a * gx c r X i j)) by (intros; apply E1). rewrite (smooth_agree c r (gy c r X') (fun i j => a * gy c r X i j) (gy c r X') (fun i j => a * gy c r X i j)) by (intros; apply E2).
  rewrite (smooth_agree c r (gx c r X') (fun i j => a * gx c r X i j) (gy c r X') (fun i j => a * gy c r X i j)) by (intros; first [apply E1|apply E2]). rewrite !smooth_scale. cbv zeta. unfold Rdiv. ring.
Qed.
Theorem C90_scale h h2 x x2 (c r : nat) X a : wf h -> wf h2 -> abs h !! x = Some (Mat c r X) -> abs h2 !! x2 = Some (Mat c r (fun i j => a * X i j)) -> a <> 0 -> (1 <= r)%nat -> (c <= r)%nat -> small (r + 2) ->
  runs (harris_corner_detection (Some x)) h (fun out _ => runs (harris_corner_detection (Some x2)) h2 (fun out2 _ => out2 = out)).
Proof.
  intros W W2 A A2 Ha Hr Hcr HS. destruct (C90_formula h x c r X W A Hr Hcr HS) as (o & h' & E & W' & _ & ->). destruct (C90_formula h2 x2 c r _ W2 A2 Hr Hcr HS) as (o2 & h2' & E2 & W2' & _ & ->).
  eexists _, h'. split; [exact E|]. split; [exact W'|]. eexists _, h2'. split; [exact E2|]. split; [exact W2'|]. apply table_ext. intros i j _ _. rewrite response_scale.
  assert (0 < a * a) by (pose proof (Rsqr_pos_lt a Ha) as G; exact G). set (q := a * a) in *. set (v := response c r X i j). unfold rclass. assert (0 < q * q) by nra. destruct (Rlt_dec 0 v), (Rlt_dec 0 (q * q * v)); try reflexivity; try nra.
  destruct (Rlt_dec v 0), (Rlt_dec (q * q * v) 0); try reflexivity; nra.
Qed.
(** Where the image does not vary along the rows (or along the columns) of the 5x5 neighbourhood no corner is reported: a straight
    horizontal or vertical edge is not a corner.  Outside the image it counts as zero. *)
Lemma smooth_zero (c r : nat) A B i j : (forall y x, (y < r)%nat -> (x < c)%nat -> (Z.abs (Z.of_nat y - Z.of_nat i) <= 1)%Z -> (Z.abs (Z.of_nat x - Z.of_nat j) <= 1)%Z -> A y x = 0 \/ B y x = 0) -> smooth c r A B i j = 0.
Proof.
  intros E. unfold smooth. rewrite (Rsum_ext 3 _ (fun _ => 0)), Rsum_zero; [reflexivity|]. intros k Hk. rewrite (Rsum_ext 3 _ (fun _ => 0)), Rsum_zero; [reflexivity|]. intros p Hp. cbv beta.
  unfold ext. destruct (decide _) as [[H1 H2]|]; [|cbn [s_zero R_scalar]; ring]. destruct (E (Z.to_nat (Z.of_nat (i + k) - 1)) (Z.to_nat (Z.of_nat (j + p) - 1))) as [E1|E1]; [lia|lia|lia|lia| |]; rewrite E1; ring.
Qed.
Theorem C90_straight_edge h x (c r : nat) X i j : wf h -> abs h !! x = Some (Mat c r X) -> (1 <= r)%nat -> (c <= r)%nat -> small (r + 2) -> (i < r)%nat -> (j < r)%nat ->
  (forall y u v, (Z.abs (y - Z.of_nat i) <= 1)%Z -> (Z.abs (u - Z.of_nat j) <= 2)%Z -> (Z.abs (v - Z.of_nat j) <= 2)%Z -> ext c r X y u = ext c r X y v) \/
  (forall x u v, (Z.abs (x - Z.of_nat j) <= 1)%Z -> (Z.abs (u - Z.of_nat i) <= 2)%Z -> (Z.abs (v - Z.of_nat i) <= 2)%Z -> ext c r X u x = ext c r X v x) ->
  runs (harris_corner_detection (Some x)) h (fun out _ => exists row k, out !! i = Some row /\ row !! j = Some k /\ k <> Corner).
Proof.
  intros W A Hr Hcr HS Hi Hj HE. destruct (C90_formula h x c r X W A Hr Hcr HS) as (o & h' & E & W' & _ & ->). eexists _, h'. split; [exact E|]. split; [exact W'|].
  eexists _, _. split; [unfold table; rewrite list_lookup_fmap, lookup_seq_lt by exact Hi; reflexivity|]. split; [rewrite list_lookup_fmap, lookup_seq_lt by exact Hj; reflexivity|]. cbn [Nat.add].
  assert (HR : response c r X i j <= 0).
  { unfold response. destruct HE as [HE|HE].
    - rewrite (smooth_zero c r (gx c r X) (gx c r X)), (smooth_zero c r (gx c r X) (gy c r X)); cbv zeta.
      + set (b := smooth _ _ _ _ _ _). nra.
      + intros y u Hy Hu D1 D2. left. unfold gx. rewrite (HE _ (Z.of_nat u + 1)%Z (Z.of_nat u - 1)%Z) by lia. lra.
      + intros y u Hy Hu D1 D2. left. unfold gx. rewrite (HE _ (Z.of_nat u + 1)%Z (Z.of_nat u - 1)%Z) by lia. lra.
    - rewrite (smooth_zero c r (gy c r X) (gy c r X)), (smooth_zero c r (gx c r X) (gy c r X)); cbv zeta.
      + set (b := smooth _ _ _ _ _ _). nra.
      + intros y u Hy Hu D1 D2. right. unfold gy. rewrite (HE _ (Z.of_nat y - 1)%Z (Z.of_nat y + 1)%Z) by lia. lra.
      + intros y u Hy Hu D1 D2. right. unfold gy. rewrite (HE _ (Z.of_nat y - 1)%Z (Z.of_nat y + 1)%Z) by lia. lra. }
  unfold rclass. destruct (Rlt_dec _ _); [lra|]. destruct (Rlt_dec _ _); discriminate.
Qed.
Theorem C90_null h : harris_corner_detection (F := R) None h = UB.
Proof. reflexivity. Qed.
