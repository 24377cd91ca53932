(** * C74 continued: Halley's method, inverse quadratic interpolation, Euler's method, exponential growth. *)
From Verif Require Import Base BaseProofs RErf RInst Vec VecSpec VecProofs VecProofs2 MatProofs2 PropMode StatProofs Act LibmR Sym Num NumSpec NumProofs PropNum.
From Coq Require Import Reals Lra Lia.
Open Scope R_scope.
Local Notation S := Datatypes.S.

(** ** Halley *)
Lemma halley_step_R f x : halley_step f x = x - (2 * f x * num_diff f x) / (2 * num_diff f x * num_diff f x - f x * num_diff2 f x).
Proof. reflexivity. Qed.
Theorem C74_halley_iterates (f : R -> R) x0 n (h : heap R) : (Z.of_nat n <= int_max)%Z ->
  halley f x0 (INR n) h = Ok (iterate n (fun x =>
    let d := (f (x + step1) - f x) / step1 in
    let dd := (f (x + 2 * step2) - 2 * f (x + step2) + f x) / (step2 * step2) in
    x - (2 * f x * d) / (2 * d * d - f x * dd)) x0) h.
Proof.
  intros Hn. unfold halley. rewrite (run_real_R (INR n) _ n); [|exact Hn|lra|intros ->; cbn; lra]. f_equal.
  rewrite !iterate_iter. clear Hn. induction n as [|n IH]; [reflexivity|]. rewrite !Nat.iter_succ, IH, halley_step_R, num_diff_R, num_diff2_R. reflexivity.
Qed.
Theorem C74_halley_root (f : R -> R) x0 n (h : heap R) : (Z.of_nat n <= int_max)%Z -> f x0 = 0 -> halley f x0 (INR n) h = Ok x0 h.
Proof. intros Hn E. rewrite C74_halley_iterates by exact Hn. f_equal. apply iterate_fix. cbv zeta. rewrite E. unfold Rdiv. ring. Qed.
Theorem C74_halley_affine b k x0 n (h : heap R) : b <> 0 -> (0 < n)%nat -> (Z.of_nat n <= int_max)%Z ->
  halley (fun t => b * t + k) x0 (INR n) h = Ok (- k / b) h.
Proof.
  intros Hb Hp Hn. rewrite C74_halley_iterates by exact Hn. f_equal. pose proof step1_pos. pose proof step2_pos. destruct n as [|n]; [lia|]. cbn [iterate]. set (x := iterate n _ x0). cbv zeta.
  replace ((b * (x + step1) + k - (b * x + k)) / step1) with b by (field; lra).
  replace ((b * (x + 2 * step2) + k - 2 * (b * (x + step2) + k) + (b * x + k)) / (step2 * step2)) with 0 by (field; lra).
  field_simplify; [reflexivity| |]; nra.
Qed.

(** ** Inverse quadratic interpolation *)
(** The new estimate from three points with different values of [f] is the value at 0 of the quadratic through the points (f t, t);
    in particular a root among the three is returned. *)
Lemma lagrange u v w p0 p1 p2 : u <> v -> u <> w -> v <> w ->
  (v * w) / ((u - v) * (u - w)) * (p0 + p1 * u + p2 * u * u) + (u * w) / ((v - u) * (v - w)) * (p0 + p1 * v + p2 * v * v) + (u * v) / ((w - u) * (w - v)) * (p0 + p1 * w + p2 * w * w) = p0.
Proof. intros. field. repeat split; lra. Qed.
Theorem C74_inverse_quadratic (f : R -> R) a b c p0 p1 p2 : f a <> f b -> f a <> f c -> f b <> f c ->
  (forall t, t = a \/ t = b \/ t = c -> p0 + p1 * f t + p2 * f t * f t = t) -> iq f a b c = p0.
Proof.
  intros H1 H2 H3 E. rewrite <- (lagrange (f a) (f b) (f c) p0 p1 p2) by assumption. rewrite !E by tauto. reflexivity.
Qed.
(** The list of points: the oldest is dropped, the new estimate is added at the end. *)
Definition iq_points (f : R -> R) (pts : list R) : list R := match pts with a :: b :: c :: rest => b :: c :: rest ++ [iq f a b c] | _ => pts end.
Lemma iq_points_length f pts : length (iq_points f pts) = length pts.
Proof. destruct pts as [|a [|b [|c rest]]]; try reflexivity. cbn. rewrite app_length. cbn. lia. Qed.
Lemma iterate_length f pts n : length (iterate n (iq_points f) pts) = length pts.
Proof. induction n as [|n IH]; [reflexivity|]. cbn [iterate]. rewrite iq_points_length. exact IH. Qed.
Lemma wp_iq_epoch f h t pts (Q : R -> heap R -> Prop) : wf h -> abs h !! t = Some (AVec pts) -> (3 <= length pts)%nat ->
  (forall h', wf h' -> abs h' = <[t := AVec (iq_points f pts)]> (abs h) -> Q (List.last (iq_points f pts) 0) h') -> wp (iq_epoch f t) h Q.
Proof.
  intros W A Hl HQ. pose proof (avec_len h t pts W A) as Hm. destruct pts as [|a [|b [|c rest]]]; cbn [length] in Hl; try lia. unfold iq_epoch.
  wbind. eapply wp_v_at; [exact W|exact A|lia|reflexivity|]. wbind. eapply wp_v_at; [exact W|exact A|lia|reflexivity|]. wbind. eapply wp_v_at; [exact W|exact A|lia|reflexivity|]. cbv zeta.
  wbind. eapply wp_v_remove; [exact W|exact A|]. intros h1 W1 A1. rewrite decide_True in A1 by lia. change (delete (Z.to_nat 0) (a :: b :: c :: rest)) with (b :: c :: rest) in A1.
  wbind. eapply wp_v_push_back_vec; [exact W1|rewrite A1; apply lookup_insert|cbn [length] in *; lia|]. intros h2 W2 A2. apply wp_ret.
  assert (E : iq f a b c = List.last (iq_points f (a :: b :: c :: rest)) 0).
  { cbn [iq_points]. rewrite !app_comm_cons, List.last_last. reflexivity. }
  rewrite E. apply HQ; [exact W2|]. rewrite A2, A1, insert_insert. reflexivity.
Qed.
(** [n] epochs on a vector of at least three points return the last of the points (0 when n = 0); the vector is not modified and nothing leaks. *)
Theorem C74_inv_quad (f : R -> R) x pts n (h : heap R) : wf h -> abs h !! x = Some (AVec pts) -> (3 <= length pts)%nat -> (Z.of_nat n <= int_max)%Z ->
  runs (inv_quad f (Some x) (Z.of_nat n)) h (fun v h' => v = match n with O => 0 | _ => List.last (iterate n (iq_points f) pts) 0 end /\ abs h' = abs h).
Proof.
  intros W A Hl _. apply runs_wp. unfold inv_quad. wbind. apply wp_ret. wbind. eapply wp_v_duplicate; [exact W|exact A|]. intros t h1 W1 N1 A1.
  wbind. eapply (wp_for_acc_n (fun i v hi => wf hi /\ abs hi = <[t := AVec (iterate i (iq_points f) pts)]> (abs h) /\ v = match i with O => 0 | _ => List.last (iterate i (iq_points f) pts) 0 end)).
  - split; [exact W1|]. split; [exact A1|reflexivity].
  - intros i v hi Hi (Wi & Ai & _). eapply wp_iq_epoch; [exact Wi|rewrite Ai; apply lookup_insert|rewrite iterate_length; exact Hl|]. intros h' W' A'. split; [exact W'|]. split; [|reflexivity]. rewrite A', Ai, insert_insert. reflexivity.
  - intros v hi (Wi & Ai & ->). wbind. eapply wp_del; [exact Wi|rewrite Ai; apply lookup_insert|]. intros h' W' A' _. apply wp_ret. split; [exact W'|]. split; [reflexivity|]. rewrite A', Ai. apply delete_insert, N1.
Qed.
(** With fewer than three points the first epoch aborts the process. *)
Theorem C74_inv_quad_short (f : R -> R) x pts n (h : heap R) : wf h -> abs h !! x = Some (AVec pts) -> (length pts < 3)%nat -> (0 < n)%Z ->
  inv_quad f (Some x) n h = Crash.
Proof.
  intros W A Hl Hn. unfold inv_quad, deref. unfold bind at 1. unfold ret at 1. cbv beta iota. unfold bind at 1.
  assert (exists t h1, v_duplicate x h = Ok t h1 /\ wf h1 /\ abs h1 !! t = Some (AVec pts)) as (t & h1 & -> & W1 & A1).
  { assert (G : wp (v_duplicate x) h (fun t h1 => wf h1 /\ abs h1 !! t = Some (AVec pts))). { eapply wp_v_duplicate; [exact W|exact A|]. intros t h1 W1 N1 A1. split; [exact W1|]. rewrite A1. apply lookup_insert. }
    apply wp_ok in G as (t & h1 & E & G). exists t, h1. tauto. }
  unfold bind at 1. unfold for_acc. destruct (Z.to_nat (n - 0)) as [|m] eqn:En; [lia|]. cbn [for_nat].
  assert (G : iq_epoch f t h1 = Crash); [|unfold bind at 1; rewrite G; reflexivity].
  unfold iq_epoch. destruct (le_lt_dec (length pts) 1) as [L|L].
  - unfold bind at 1, v_at at 1, bind at 1. rewrite (v_size_eq h1 t pts A1). replace (Z.of_nat (length pts) <=? 1)%Z with true by lia. reflexivity.
  - destruct pts as [|a [|b [|c rest]]]; cbn [length] in *; try lia. unfold bind at 1.
    assert (G : v_at t 1 h1 = Ok b h1). { apply wp_eq. eapply wp_v_at; [exact W1|exact A1|lia|reflexivity|]. split; reflexivity. }
    rewrite G. unfold bind at 1, v_at at 1, bind at 1. rewrite (v_size_eq h1 t _ A1). reflexivity.
Qed.

(** ** Euler's method *)
Lemma to_int_R z n (h : heap R) : (Z.of_nat n <= int_max)%Z -> INR n <= z < INR n + 1 -> to_int z h = Ok (Z.of_nat n) h.
Proof.
  intros Hn Hz. unfold to_int. cbn [m_to_int R_libm]. unfold Rto_int. rewrite INR_IZR_INZ in Hz. pose proof (IZR_le _ _ Hn) as Hm. pose proof (IZR_le _ _ (Nat2Z.is_nonneg n)) as H0.
  unfold int_max in Hm. destruct (Rlt_dec _ _); [|lra]. destruct (Rlt_dec _ _); [|lra].
  replace (Rtrunc z) with (Z.of_nat n); [reflexivity|]. unfold Rtrunc. destruct (Rlt_dec z 0); [lra|]. unfold Int_part.
  rewrite <- (tech_up z (Z.of_nat n + 1)); [lia| |]; rewrite plus_IZR; lra.
Qed.
(** The step from (x, y). *)
Definition euler_step (d : R -> R -> R) (hh : R) (s : R * R) : R * R := (s.1 + hh, s.2 + hh * d s.1 s.2).
Lemma euler_fst d hh q n : (iterate n (euler_step d hh) q).1 = q.1 + INR n * hh.
Proof. induction n as [|n IH]; [cbn; lra|]. cbn [iterate]. unfold euler_step at 1. cbn [fst]. rewrite IH, S_INR. lra. Qed.
(** The number of steps is the integral part of (p - q0) / h, and the result is q1 + h (f(q0) + f(q0 + h) + ..). *)
Theorem C74_euler (f : R -> R) q0 q1 p hh n (h : heap R) : (Z.of_nat n <= int_max)%Z -> INR n <= (p - q0) / hh < INR n + 1 ->
  euler f q0 q1 p hh h = Ok (q1 + hh * sum_to n (fun i => f (q0 + INR i * hh))) h.
Proof.
  intros Hn Hz. unfold euler. unfold bind at 1. unr. rewrite (to_int_R _ n) by assumption.
  assert (G : for_acc 0 (Z.of_nat n) (q0, q1) (fun _ (s : R * R) => ret (s.1 + hh, s.2 + hh * f s.1)) h = Ok (iterate n (euler_step (fun x _ => f x) hh) (q0, q1)) h).
  { apply wp_eq. eapply (wp_for_acc_n (fun i s hi => s = iterate i (euler_step (fun x _ => f x) hh) (q0, q1) /\ hi = h)); [split; reflexivity| |].
    - intros i s hi Hi [-> ->]. apply wp_ret. split; reflexivity.
    - intros s hi [-> ->]. split; reflexivity. }
  unfold bind. rewrite G. unfold ret. f_equal. clear G Hz Hn. induction n as [|n IH]; [cbn; lra|]. cbn [iterate]. unfold euler_step at 1. cbn [snd sum_to]. rewrite IH, euler_fst. cbn [fst]. lra.
Qed.
(** A target behind the start (or less than one step ahead) returns the initial value. *)
Theorem C74_euler_none (f : R -> R) q0 q1 p hh (h : heap R) : - IZR int_max <= (p - q0) / hh < 1 -> euler f q0 q1 p hh h = Ok q1 h.
Proof.
  intros Hz. unfold euler. unfold bind at 1, to_int. unr. cbn [m_to_int R_libm]. unfold Rto_int, int_max in *. destruct (Rlt_dec _ _); [|lra]. destruct (Rlt_dec _ _); [|lra].
  assert (Rtrunc ((p - q0) / hh) <= 0)%Z as Hr.
  { unfold Rtrunc. set (z := (p - q0) / hh) in *. destruct (Rlt_dec z 0).
    - assert (0 <= Int_part (- z))%Z; [|lia]. unfold Int_part. destruct (archimed (- z)) as [H1 H2]. assert (0 < up (- z))%Z; [|lia]. apply lt_IZR. lra.
    - unfold Int_part. rewrite <- (tech_up z 1); [lia|lra|lra]. }
  unfold ret at 1. cbv beta iota. unfold for_acc. replace (Z.to_nat (Rtrunc ((p - q0) / hh) - 0)) with 0%nat by lia. reflexivity.
Qed.
(** If Y' = f with f Lipschitz, the error grows at most by K h^2 per step. *)
Theorem C74_euler_error (f Y : R -> R) K q0 q1 p hh n (h : heap R) : (Z.of_nat n <= int_max)%Z -> 0 < hh -> INR n <= (p - q0) / hh < INR n + 1 ->
  has_derivative Y f q0 (q0 + INR n * hh) -> lipschitz f K q0 (q0 + INR n * hh) -> Y q0 = q1 ->
  exists y, euler f q0 q1 p hh h = Ok y h /\ Rabs (y - Y (q0 + INR n * hh)) <= INR n * (K * hh * hh).
Proof.
  intros Hn Hh Hz D L E. eexists. split; [apply C74_euler; eassumption|]. clear Hz Hn. revert D L. induction n as [|n IH]; intros D L.
  { cbn. rewrite !Rmult_0_r, Rmult_0_l, !Rplus_0_r, E. replace (q1 - q1) with 0 by ring. rewrite Rabs_R0, Rmult_0_l. lra. }
  rewrite S_INR in *. assert (0 <= INR n) as Hp by apply pos_INR. assert (0 <= INR n * hh) as Hp2 by (apply Rmult_le_pos; lra).
  destruct (mvt Y f (q0 + INR n * hh) hh Hh) as (t & Ht & Et). { intros t Ht. apply D. lra. }
  replace (q0 + INR n * hh + hh) with (q0 + (INR n + 1) * hh) in Et by ring.
  assert (IH' := IH ltac:(intros u Hu; apply D; lra) ltac:(intros u v Hu Hv; apply L; lra)). cbn [sum_to].
  assert (Rabs (f (q0 + INR n * hh) - f t) <= K * hh) as Hf.
  { assert (0 <= K) as HK. { assert (0 <= K * Rabs (q0 + INR n * hh - t)) by (eapply Rle_trans; [apply Rabs_pos|apply (L (q0 + INR n * hh) t); lra]). assert (0 < Rabs (q0 + INR n * hh - t)) by (apply Rabs_pos_lt; lra). nra. }
    eapply Rle_trans; [apply L; lra|]. apply Rmult_le_compat_l; [exact HK|]. rewrite Rabs_left; lra. }
  replace (q1 + hh * (sum_to n (fun i => f (q0 + INR i * hh)) + f (q0 + INR n * hh)) - Y (q0 + (INR n + 1) * hh))
    with ((q1 + hh * sum_to n (fun i => f (q0 + INR i * hh)) - Y (q0 + INR n * hh)) + hh * (f (q0 + INR n * hh) - f t)) by (replace (Y (q0 + (INR n + 1) * hh)) with (Y (q0 + INR n * hh) + hh * f t) by lra; ring).
  eapply Rle_trans; [apply Rabs_triang|]. rewrite Rabs_mult, (Rabs_right hh) by lra. apply (Rmult_le_compat_l hh) in Hf; [|lra]. lra.
Qed.
(** The form for y' = d(x, y): explicit Euler steps; the vector given to the callback is (x, y). *)
Theorem C74_eulerv fv (d : R -> R -> R) q0 q1 p hh n (h : heap R) : wf h -> computes fv (fun xs => match xs with [x; y] => d x y | _ => 0 end) ->
  (Z.of_nat n <= int_max)%Z -> INR n <= (p - q0) / hh < INR n + 1 ->
  runs (eulerv fv q0 q1 p hh) h (fun y h' => y = (iterate n (euler_step d hh) (q0, q1)).2 /\ abs h' = abs h).
Proof.
  intros W C Hn Hz. apply runs_wp. unfold eulerv. wbind. unr. unfold wp at 1. rewrite (to_int_R _ n) by assumption.
  wbind. apply wp_v_new; [exact W|]. intros v h1 W1 N1 A1 _. wbind. eapply wp_v_resize; [exact W1|rewrite A1; apply lookup_insert|unfold int_max; lia|]. intros h2 W2 A2 _. rewrite A1, insert_insert in A2.
  wbind. eapply (wp_for_acc_n (fun i s hi => wf hi /\ s = iterate i (euler_step d hh) (q0, q1) /\ exists u w, abs hi = <[v := (SVec 2, [u; w])]> (abs h))).
  - split; [exact W2|]. split; [reflexivity|]. eexists _, _. exact A2.
  - intros i s hi Hi (Wi & -> & u & w & Ai). set (s := iterate i _ _) in *.
    wbind. eapply wp_v_set; [exact Wi|rewrite Ai; apply lookup_insert|]. intros h3 W3 _ A3. cbn in A3. rewrite Ai, insert_insert in A3.
    wbind. eapply wp_v_set; [exact W3|rewrite A3; apply lookup_insert|]. intros h4 W4 _ A4. cbn in A4. rewrite A3, insert_insert in A4.
    wbind. eapply (wp_call fv _ h4 v [s.1; s.2]); [exact C|exact W4|rewrite A4; apply lookup_insert|]. apply wp_ret.
    split; [exact W4|]. split; [reflexivity|]. eexists _, _. exact A4.
  - intros s hi (Wi & -> & u & w & Ai). wbind. eapply wp_del; [exact Wi|rewrite Ai; apply lookup_insert|]. intros h' W' A' _. apply wp_ret. split; [exact W'|]. split; [reflexivity|]. rewrite A', Ai. apply delete_insert, N1.
Qed.
(** Against a solution of y' = d(x, y) the error obeys e <= (1 + h L) e + K h^2 at each step: after n steps at most
    K h^2 (1 + (1 + h L) + .. + (1 + h L)^(n - 1)). *)
Theorem C74_eulerv_error fv (d : R -> R -> R) (Y : R -> R) L K q0 q1 p hh n (h : heap R) : wf h -> computes fv (fun xs => match xs with [x; y] => d x y | _ => 0 end) ->
  (Z.of_nat n <= int_max)%Z -> 0 < hh -> INR n <= (p - q0) / hh < INR n + 1 -> 0 <= L ->
  Y q0 = q1 -> has_derivative Y (fun t => d t (Y t)) q0 (q0 + INR n * hh) -> lipschitz (fun t => d t (Y t)) K q0 (q0 + INR n * hh) ->
  (forall t y z, Rabs (d t y - d t z) <= L * Rabs (y - z)) ->
  runs (eulerv fv q0 q1 p hh) h (fun y h' => Rabs (y - Y (q0 + INR n * hh)) <= K * hh * hh * sum_to n (fun i => (1 + hh * L) ^ i) /\ abs h' = abs h).
Proof.
  intros W C Hn Hh Hz HL E D Lp Ld. destruct (C74_eulerv fv d q0 q1 p hh n h W C Hn Hz) as (y & h' & E' & W' & -> & A'). exists (iterate n (euler_step d hh) (q0, q1)).2, h'. split; [exact E'|]. split; [exact W'|]. split; [|exact A'].
  clear E' W' A' C Hz Hn W h h' fv p. revert D Lp. induction n as [|n IH]; intros D Lp.
  { cbn. rewrite Rmult_0_l, Rplus_0_r, E. replace (q1 - q1) with 0 by ring. rewrite Rabs_R0, Rmult_0_r. lra. }
  rewrite S_INR in *. assert (0 <= INR n) as Hp by apply pos_INR. assert (0 <= INR n * hh) as Hp2 by (apply Rmult_le_pos; lra).
  assert (IH' := IH ltac:(intros u Hu; apply D; lra) ltac:(intros u v Hu Hv; apply Lp; lra)). clear IH.
  set (a := q0 + INR n * hh) in *. destruct (mvt Y (fun t => d t (Y t)) a hh Hh) as (t & Ht & Et). { intros t Ht. apply D. unfold a in *. lra. }
  replace (q0 + (INR n + 1) * hh) with (a + hh) in * by (unfold a; ring).
  assert (Rabs (d a (Y a) - d t (Y t)) <= K * hh) as Hf.
  { assert (0 <= K) as HK. { assert (0 <= K * Rabs (a - t)) by (eapply Rle_trans; [apply Rabs_pos|apply (Lp a t); unfold a in *; lra]). assert (0 < Rabs (a - t)) by (apply Rabs_pos_lt; lra). nra. }
    eapply Rle_trans; [apply (Lp a t); unfold a in *; lra|]. apply Rmult_le_compat_l; [exact HK|]. rewrite Rabs_left; lra. }
  cbn [iterate]. unfold euler_step at 1. cbn [snd]. rewrite euler_fst. cbn [fst]. fold a. set (y := (iterate n (euler_step d hh) (q0, q1)).2) in *.
  replace (Y (a + hh)) with (Y a + hh * d t (Y t)) by lra.
  replace (y + hh * d a y - (Y a + hh * d t (Y t))) with ((y - Y a) + hh * (d a y - d a (Y a)) + hh * (d a (Y a) - d t (Y t))) by ring.
  eapply Rle_trans; [apply Rabs_triang|]. eapply Rle_trans; [apply Rplus_le_compat_r, Rabs_triang|]. rewrite !Rabs_mult, (Rabs_right hh) by lra.
  pose proof (Ld a y (Y a)) as Hl. apply (Rmult_le_compat_l hh) in Hl; [|lra]. apply (Rmult_le_compat_l hh) in Hf; [|lra].
  assert (Es : sum_to (S n) (fun i => (1 + hh * L) ^ i) = 1 + (1 + hh * L) * sum_to n (fun i => (1 + hh * L) ^ i)).
  { clear. induction n as [|n IH]; [cbn; ring|]. change (sum_to (S (S n)) (fun i => (1 + hh * L) ^ i)) with (sum_to (S n) (fun i => (1 + hh * L) ^ i) + (1 + hh * L) ^ S n). rewrite IH at 1. cbn [sum_to pow]. ring. }
  rewrite Es. assert (0 <= 1 + hh * L) as Hq by (assert (0 <= hh * L) by (apply Rmult_le_pos; lra); lra). apply (Rmult_le_compat_l (1 + hh * L)) in IH'; [|exact Hq]. nra.
Qed.

(** ** Exponential growth *)
Theorem C74_growth C k t : growth C k 0 = C /\ derivable_pt_lim (growth C k) t (k * growth C k t).
Proof.
  unfold growth. unr. split; [rewrite Rmult_0_r, exp_0; ring|].
  replace (k * (C * exp (k * t))) with (C * (exp (k * t) * k)) by ring.
  apply (derivable_pt_lim_scal (fun t => exp (k * t))). apply (derivable_pt_lim_comp (fun t => k * t) exp); [|apply derivable_pt_lim_exp].
  pose proof (derivable_pt_lim_scal (fun t => t) k t 1 (derivable_pt_lim_id t)) as D. rewrite Rmult_1_r in D. exact D.
Qed.
