(** * Property C59 (tensor arithmetic, copies, conversion, persistence): theorems.  Conventions as in PropTen.v. *)
From Verif Require Export PropTen2.

Section props.
Context {F : Type} `{Scalar F}.
Implicit Types (h : heap F) (l a b d t : loc) (x y z k j i : nat) (T U : nat -> nat -> nat -> F) (xs ys v : list F)
  (sl : list (list F)) (cs : list (option F)).
Notation S3 x y z := (STen (Z.of_nat x) (Z.of_nat y) (Z.of_nat z)).
Ltac r_ := apply runs_wp.

(** The scalar operation behind each binary element-wise operation, and its three call forms. *)
Inductive bop := Add2 | Sub2 | Div2 | Hadamard2 | Max2.
Definition bop_fun (o : bop) (p q : F) : F :=
  match o with Add2 => s_add p q | Sub2 => s_sub p q | Div2 => s_div p q | Hadamard2 => s_mul p q | Max2 => s_max p q end.
Definition bop_call (o : bop) : loc -> option loc -> M F unit :=
  match o with Add2 => t_add | Sub2 => t_sub | Div2 => t_div | Hadamard2 => t_hadamard | Max2 => t_max end.
Definition bop_calln (o : bop) : loc -> option loc -> M F (option loc) :=
  match o with Add2 => t_addn | Sub2 => t_subn | Div2 => t_divn | Hadamard2 => t_hadamardn | Max2 => t_maxn end.
Definition bop_callb (o : bop) : loc -> option loc -> option loc -> M F unit :=
  match o with Add2 => t_addb | Sub2 => t_subb | Div2 => t_divb | Hadamard2 => t_hadamardb | Max2 => t_maxb end.

Lemma bop_zip (o : bop) x y z T U : zip_with (bop_fun o) (tlist x y z T) (tlist x y z U) = tlist x y z (fun k j i => bop_fun o (T k j i) (U k j i)).
Proof. apply tlist_zip. Qed.

(** All three forms compute entry by entry; operands and target may be the same objects; nothing else changes. *)
Theorem C59_binary h l (x0 y0 z0 : Z) cs a b x y z T U (o : bop) : wf h -> abs h !! l = Some (STen x0 y0 z0, cs) ->
  abs h !! a = Some (Ten x y z T) -> abs h !! b = Some (Ten x y z U) -> fits x y ->
  let R := Ten x y z (fun k j i => bop_fun o (T k j i) (U k j i)) in
  runs (bop_call o a (Some b)) h (fun _ h' => abs h' = <[a := R]> (abs h)) /\
  runs (bop_calln o a (Some b)) h (fun r h' => exists d, r = Some d /\ abs h !! d = None /\ abs h' = <[d := R]> (abs h)) /\
  runs (bop_callb o l (Some a) (Some b)) h (fun _ h' => abs h' = <[l := R]> (abs h)).
Proof.
  intros Hw Hl Ha Hb Hf R.
  assert (ER : R = ATen x y z (zip_with (bop_fun o) (tlist x y z T) (tlist x y z U))) by (unfold R; rewrite bop_zip; reflexivity).
  rewrite ER. clear ER R. split_and!; r_.
  - destruct o; eapply wp_t_op2; eauto.
  - destruct o; eapply wp_t_op2n; eauto 10.
  - destruct o; eapply wp_t_op2b; eauto.
Qed.
(** Different sizes or a null operand: no effect, and the returning form returns null. *)
Theorem C59_binary_rejected h l a b x y z T x' y' z' U (o : bop) : abs h !! a = Some (Ten x y z T) -> abs h !! b = Some (Ten x' y' z' U) ->
  (x, y, z) <> (x', y', z') ->
  bop_call o a (Some b) h = Ok tt h /\ bop_calln o a (Some b) h = Ok None h /\ bop_callb o l (Some a) (Some b) h = Ok tt h /\
  bop_call o a None h = Ok tt h /\ bop_calln o a None h = Ok None h /\ bop_callb o l None (Some b) h = Ok tt h /\ bop_callb o l (Some a) None h = Ok tt h.
Proof.
  intros Ha Hb Hne.
  assert (E : size3_eq (Z.of_nat x, Z.of_nat y, Z.of_nat z) (Z.of_nat x', Z.of_nat y', Z.of_nat z') = false).
  { rewrite size3_eq_true. apply bool_decide_eq_false. intros (-> & -> & ->). apply Hne. reflexivity. }
  assert (G : forall f, t_op2 f a (Some b) h = Ok tt h /\ t_op2n f a (Some b) h = Ok None h /\ t_op2b f l (Some a) (Some b) h = Ok tt h).
  { intros f. unfold t_op2, t_op2n, t_op2b, bind. rewrite (t_size_val _ _ _ _ _ _ Ha), (t_size_val _ _ _ _ _ _ Hb), E. split_and!; reflexivity. }
  destruct o; destruct (G s_add) as (G1 & G2 & G3); destruct (G s_sub) as (G4 & G5 & G6); destruct (G s_div) as (G7 & G8 & G9);
    destruct (G s_mul) as (K1 & K2 & K3); destruct (G s_max) as (K4 & K5 & K6); split_and!; first [assumption|reflexivity].
Qed.

(** Unary operations. *)
Inductive uop := Sqrt1 | Exp1 (e : F) | Abs1.
Definition uop_fun (o : uop) (p : F) : F := match o with Sqrt1 => s_sqrt p | Exp1 e => s_pow p e | Abs1 => s_abs p end.
Definition uop_call (o : uop) : loc -> M F unit := match o with Sqrt1 => t_sqrt | Exp1 e => t_exponentiate e | Abs1 => t_abs end.
Definition uop_calln (o : uop) : loc -> M F loc := match o with Sqrt1 => t_sqrtn | Exp1 e => t_exponentiaten e | Abs1 => t_absn end.
Definition uop_callb (o : uop) : loc -> option loc -> M F unit := match o with Sqrt1 => t_sqrtb | Exp1 e => t_exponentiateb e | Abs1 => t_absb end.
Theorem C59_unary h l (x0 y0 z0 : Z) cs a x y z T (o : uop) : wf h -> abs h !! l = Some (STen x0 y0 z0, cs) ->
  abs h !! a = Some (Ten x y z T) -> fits x y ->
  let R := Ten x y z (fun k j i => uop_fun o (T k j i)) in
  runs (uop_call o a) h (fun _ h' => abs h' = <[a := R]> (abs h)) /\
  runs (uop_calln o a) h (fun d h' => abs h !! d = None /\ abs h' = <[d := R]> (abs h)) /\
  runs (uop_callb o l (Some a)) h (fun _ h' => abs h' = <[l := R]> (abs h)) /\ uop_callb o l None h = Ok tt h.
Proof.
  intros Hw Hl Ha Hf R.
  assert (ER : R = ATen x y z (uop_fun o <$> tlist x y z T)) by (unfold R; rewrite tlist_fmap; reflexivity).
  rewrite ER. clear ER R. split_and!; [r_|r_|r_|destruct o; reflexivity].
  - destruct o; eapply wp_t_map; eauto.
  - destruct o; eapply wp_t_mapn; eauto 10.
  - destruct o; eapply wp_t_mapb; eauto.
Qed.

(** Scalar multiplication and addition. *)
Theorem C59_scalar h a x y z T (c : F) : wf h -> abs h !! a = Some (Ten x y z T) -> fits x y ->
  let P := Ten x y z (fun k j i => s_mul (T k j i) c) in let S := Ten x y z (fun k j i => s_add (T k j i) c) in
  runs (t_scalar_multiply c a) h (fun _ h' => abs h' = <[a := P]> (abs h)) /\
  runs (t_scalar_multiplyn c a) h (fun d h' => abs h !! d = None /\ abs h' = <[d := P]> (abs h)) /\
  runs (t_scalar_add c a) h (fun _ h' => abs h' = <[a := S]> (abs h)) /\
  runs (t_scalar_addn c a) h (fun d h' => abs h !! d = None /\ abs h' = <[d := S]> (abs h)).
Proof.
  intros Hw Ha Hf P S.
  assert (EP : P = ATen x y z ((fun p => s_mul p c) <$> tlist x y z T)) by (unfold P; rewrite tlist_fmap; reflexivity).
  assert (ES : S = ATen x y z ((fun p => s_add p c) <$> tlist x y z T)) by (unfold S; rewrite tlist_fmap; reflexivity).
  rewrite EP, ES. clear EP ES P S. split_and!; r_.
  - eapply wp_t_map; eauto.
  - eapply wp_t_mapn_dup; eauto 10.
  - eapply wp_t_map; eauto.
  - eapply wp_t_mapn_dup; eauto 10.
Qed.
(** The into-target forms are defective: the target's own entries are scaled, the source is only consulted for its size. *)
Theorem C59_scalar_into_uses_own_entries h l a x y z T U (c : F) : wf h -> abs h !! l = Some (Ten x y z T) -> abs h !! a = Some (Ten x y z U) -> fits x y ->
  runs (t_scalar_multiplyb c l (Some a)) h (fun _ h' => abs h' = <[l := Ten x y z (fun k j i => s_mul (T k j i) c)]> (abs h)) /\
  runs (t_scalar_addb c l (Some a)) h (fun _ h' => abs h' = <[l := Ten x y z (fun k j i => s_add (T k j i) c)]> (abs h)).
Proof.
  intros Hw Hl Ha Hf.
  assert (E : forall g : F -> F, Ten x y z (fun k j i => g (T k j i)) = ATen x y z (g <$> tlist x y z T)) by (intros g; rewrite tlist_fmap; reflexivity).
  rewrite (E (fun p => s_mul p c)), (E (fun p => s_add p c)). split; r_; eapply wp_t_mapb_own; eauto.
Qed.
Theorem C59_fill h l x y z cs (u : F) : wf h -> abs h !! l = Some (S3 x y z, cs) -> fits x y ->
  runs (t_fill l u) h (fun _ h' => abs h' = <[l := Ten x y z (fun _ _ _ => u)]> (abs h)).
Proof. intros. r_. eapply wp_t_fill; eauto. Qed.

(** ** Copies *)
Theorem C59_copies h l (x0 y0 z0 : Z) cs a x y z T : wf h -> abs h !! l = Some (STen x0 y0 z0, cs) -> abs h !! a = Some (Ten x y z T) -> fits x y ->
  runs (t_set_from l (Some a)) h (fun _ h' => abs h' = <[l := Ten x y z T]> (abs h)) /\
  runs (t_duplicate a) h (fun d h' => abs h !! d = None /\ abs h' = <[d := Ten x y z T]> (abs h)) /\ t_set_from l None h = Ok tt h.
Proof.
  intros Hw Hl Ha Hf. split_and!; [r_|r_|reflexivity].
  - cbn [t_set_from]. eapply wp_t_set_from_ten; eauto.
  - eapply wp_t_duplicate; eauto 10.
Qed.
(** Writing an entry of one of two distinct tensors never changes what is read from the other. *)
Theorem C59_copies_independent h a b x y z T x' y' z' U (zi yi xi : Z) (u : F) : wf h -> a <> b ->
  abs h !! a = Some (Ten x y z T) -> abs h !! b = Some (Ten x' y' z' U) ->
  runs (t_set a zi yi xi u) h (fun _ h' => forall zj yj xj : Z, exists w, t_get b zj yj xj h = Ok w h /\ t_get b zj yj xj h' = Ok w h').
Proof.
  intros Hw Hab Ha Hb. r_. rewrite Ten_TenP in Ha. eapply wp_t_set; eauto. intros h' W _ A. split; [exact W|].
  intros zj yj xj. assert (Hb' : abs h' !! b = Some (Ten x' y' z' U)) by (rewrite A, lookup_insert_ne by auto; exact Hb).
  eexists. split; eapply t_get_val; eauto.
Qed.

(** ** Shape *)
(** Reshaping keeps the flat sequence of entries and is refused, without effect, when the number of entries would change. *)
Theorem C59_shape_set h l x y z xs x' y' z' : wf h -> abs h !! l = Some (ATen x y z xs) -> fits x y -> fits x' y' -> Z.of_nat (z' * (y' * x')) <= int_max ->
  runs (t_shape_set l (Z.of_nat x', Z.of_nat y', Z.of_nat z')) h (fun _ h' =>
    ((z' * (y' * x') = z * (y * x))%nat -> abs h' = <[l := ATen x' y' z' xs]> (abs h)) /\ ((z' * (y' * x') <> z * (y * x))%nat -> abs h' = abs h)).
Proof.
  intros Hw Hl Hf Hf' HB. r_. eapply wp_t_shape_set; eauto. intros h' W A. split; [exact W|]. split; intros E.
  - rewrite decide_True in A by exact E. exact A.
  - rewrite decide_False in A by exact E. rewrite A. apply insert_id. exact Hl.
Qed.
(** Resizing to at least one entry keeps the common prefix of the flat entries. *)
Theorem C59_resize h l x y z xs x' y' z' : wf h -> abs h !! l = Some (ATen x y z xs) -> fits x' y' -> Z.of_nat (z' * (y' * x')) <= int_max ->
  runs (t_resize l (Z.of_nat x', Z.of_nat y', Z.of_nat z')) h (fun _ h' => exists cs, abs h' = <[l := (S3 x' y' z', cs)]> (abs h) /\
    length cs = (z' * (y' * x'))%nat /\ forall q, (q < z' * (y' * x'))%nat -> (q < length xs)%nat -> cs !! q = Some <$> xs !! q).
Proof.
  intros Hw Hl Hf HB. r_. eapply wp_t_resize; eauto. intros h' W A. split; [exact W|]. eexists. split; [exact A|].
  split; [apply resize_length|]. intros q Q1 Q2. rewrite lookup_resize by (rewrite ?fmap_length; lia). rewrite list_lookup_fmap.
  destruct (xs !! q); reflexivity.
Qed.

(** reset() releases the storage of a tensor that has entries and makes it 0 x 0 x 0; a tensor without entries keeps its sizes (for instance 3 x 0 x 5). *)
Theorem C59_reset h l (x y z : Z) cs : wf h -> abs h !! l = Some (STen x y z, cs) ->
  runs (t_reset l) h (fun _ h' => (cs <> [] -> abs h' = <[l := (STen 0 0 0, [])]> (abs h)) /\ (cs = [] -> abs h' = abs h)).
Proof.
  intros Hw Ha. r_. unfold t_reset. wbind. eapply wp_get_obj; [exact Ha|]. intros p Hp. pose proof (wf_ptr_nil h l _ _ Hw Ha) as PN. cbn [o_data]. destruct p as [b|].
  - assert (cs <> []) by (intros E; apply PN in E; congruence).
    eapply wp_obj_free; [exact Hw|exact Ha|reflexivity|]. intros h' W A _. split; [exact W|]. split; [intros _; exact A|intros E; contradiction].
  - assert (cs = []) by (apply PN; exact Hp). apply wp_ret. split; [exact Hw|]. split; [intros E; contradiction|reflexivity].
Qed.

(** ** Conversion *)
Theorem C59_flatten h l x y z T t n cs : wf h -> abs h !! l = Some (Ten x y z T) -> fits x y -> abs h !! t = Some (SVec n, cs) ->
  let flat := fun v => length v = (z * (y * x))%nat /\ forall k j i, (k < z)%nat -> (j < y)%nat -> (i < x)%nat -> v !! (k * (y * x) + (j * x + i))%nat = Some (T k j i) in
  runs (t_flatten l) h (fun d h' => exists v, flat v /\ abs h !! d = None /\ abs h' = <[d := AVec v]> (abs h)) /\
  runs (t_flatteno l (Some t)) h (fun _ h' => exists v, flat v /\ abs h' = <[t := AVec v]> (abs h)) /\ t_flatteno l None h = Ok tt h.
Proof.
  intros Hw Hl Hf Ht flat.
  assert (FL : flat (tlist x y z T)) by (split; [apply tlist_length|intros; apply tlist_lookup; auto]).
  split_and!; [r_|r_|reflexivity].
  - eapply wp_t_flatten; eauto 10.
  - eapply wp_t_flatteno; eauto 10.
Qed.
Theorem C59_set_from_matrix h l (x0 y0 z0 : Z) cs b x y ys : wf h -> abs h !! l = Some (STen x0 y0 z0, cs) -> abs h !! b = Some (AMat x y ys) ->
  runs (t_set_from_mat l (Some b)) h (fun _ h' => abs h' = <[l := Slices x y [ys]]> (abs h)).
Proof. intros. r_. eapply wp_t_set_from_mat; eauto. Qed.
Theorem C59_set_from_matrices h l (x0 y0 z0 : Z) cs x y ms sl : wf h -> abs h !! l = Some (STen x0 y0 z0, cs) ->
  Forall2 (fun q s => exists w, q = Some w /\ abs h !! w = Some (AMat x y s)) ms sl -> (0 < y * x)%nat -> sl <> [] -> Z.of_nat (length sl * (y * x)) <= int_max ->
  runs (t_set_from_mats l ms) h (fun _ h' => abs h' = <[l := Slices x y sl]> (abs h)).
Proof. intros. r_. eapply wp_t_set_from_mats; eauto. Qed.
Theorem C59_set_from_vectors h l (x0 y0 z0 : Z) cs x vs rows : wf h -> abs h !! l = Some (STen x0 y0 z0, cs) ->
  Forall2 (fun q row => exists w, q = Some w /\ abs h !! w = Some (AVec row)) vs rows -> width x rows -> (0 < x)%nat -> rows <> [] -> Z.of_nat (length rows * x) <= int_max ->
  runs (t_set_from_vecs l vs) h (fun _ h' => abs h' = <[l := Ten x (length rows) 1 (fun _ j i => nth i (nth j rows []) s_zero)]> (abs h)).
Proof.
  intros Hw Hl HF Hwd Hx Hr HB. r_. eapply wp_t_set_from_vecs; eauto. intros h' W A. split; [exact W|]. rewrite A. f_equal.
  rewrite Slices_Ten.
  2:{ constructor; [|constructor]. rewrite (concat_len x) by exact Hwd. lia. }
  cbn [length]. apply Ten_ext. intros k j i Hk Hj Hi. assert (k = 0)%nat by lia. subst k. cbn [nth].
  destruct (lookup_lt_is_Some_2 rows j Hj) as [rw Erw]. rewrite (nth_lookup_Some _ _ [] _ Erw).
  pose proof (proj1 (Forall_lookup _ _) Hwd _ _ Erw) as Lr. cbn in Lr.
  destruct (lookup_lt_is_Some_2 rw i ltac:(lia)) as [u Eu]. rewrite (nth_lookup_Some _ _ s_zero _ Eu).
  apply nth_lookup_Some. rewrite (concat_mlist x rows Hwd), mlist_lookup by auto. f_equal.
  rewrite (nth_lookup_Some _ _ [] _ Erw). apply nth_lookup_Some. exact Eu.
Qed.

(** ** Persistence *)
Theorem C59_roundtrip h l b (x0 y0 z0 : Z) cs x y z T : wf h -> abs h !! l = Some (Ten x y z T) -> fits x y -> abs h !! b = Some (STen x0 y0 z0, cs) ->
  runs (let! arr := t_get_data l in t_set_data b (Some arr)) h (fun _ h' => abs h' = <[b := Ten x y z T]> (abs h)).
Proof.
  intros Hw Hl Hf Hb. r_. wbind. eapply wp_t_get_data; eauto. destruct (aten_len h l _ _ _ _ Hw Hl) as [E1 E2].
  eapply wp_t_set_data; eauto.
Qed.
Theorem C59_set_data_malformed h l x y z xs : fits x y -> Z.of_nat (z * (y * x)) <= int_max -> length xs <> (z * (y * x))%nat ->
  t_set_data l None h = Ok tt h /\ t_set_data l (Some ((Z.of_nat x, Z.of_nat y, Z.of_nat z), xs)) h = Ok tt h.
Proof.
  intros Hf HB Hne. split; [reflexivity|]. unfold fits in Hf. unfold t_set_data. cbn [fst snd].
  assert (C : forall n, 0 <= n <= int_max -> chk n h = Ok n h).
  { intros n Hn. assert (int_max = 2147483647) by reflexivity. unfold chk.
    destruct (Z.leb_spec (- int_max - 1) n); [|lia]. destruct (Z.leb_spec n int_max); [|lia]. reflexivity. }
  unfold bind. replace (Z.of_nat x * Z.of_nat y) with (Z.of_nat (y * x)) by lia. rewrite C by lia.
  replace (Z.of_nat (y * x) * Z.of_nat z) with (Z.of_nat (z * (y * x))) by lia. rewrite C by lia.
  destruct (Z.eqb_spec (Z.of_nat (z * (y * x))) (Z.of_nat (length xs))); [lia|]. reflexivity.
Qed.

(** ** Comparison and product with a vector *)
Theorem C59_is_equal_approx h l b x y z T U (tol : F) : wf h -> abs h !! l = Some (Ten x y z T) -> abs h !! b = Some (Ten x y z U) -> fits x y -> l <> b ->
  runs (t_is_equal_approx l (Some b) tol) h (fun r h' => h' = h /\
    (r = true <-> forall k j i, (k < z)%nat -> (j < y)%nat -> (i < x)%nat -> s_equal_approx tol (T k j i) (U k j i) = true)).
Proof.
  intros Hw Hl Hb Hf Hne. r_. eapply wp_t_is_equal_approx; eauto. split; [exact Hw|]. split; [reflexivity|].
  rewrite forallb_forall. split.
  - intros G k j i Hk Hj Hi. apply (G (T k j i, U k j i)). apply elem_of_list_In, elem_of_list_lookup.
    exists (k * (y * x) + (j * x + i))%nat. apply lookup_zip_with_Some. eexists _, _. split; [reflexivity|]. split; apply tlist_lookup; auto.
  - intros G [p q] (m & Hm)%elem_of_list_In%elem_of_list_lookup. apply lookup_zip_with_Some in Hm as (p' & q' & [= -> ->] & Hp & Hq).
    pose proof (lookup_lt_Some _ _ _ Hp) as Lt. rewrite tlist_length in Lt. destruct (tidx_inv x y z m Lt) as (k & j & i & Hk & Hj & Hi & ->).
    rewrite tlist_lookup in Hp, Hq by auto. inversion Hp. inversion Hq. apply G; auto.
Qed.
Theorem C59_is_equal_approx_other h l b x y z T x' y' z' U (tol : F) : abs h !! l = Some (Ten x y z T) -> abs h !! b = Some (Ten x' y' z' U) ->
  (x, y, z) <> (x', y', z') -> t_is_equal_approx l (Some b) tol h = Ok false h /\ t_is_equal_approx l None tol h = Ok false h /\ t_is_equal_approx l (Some l) tol h = Ok true h.
Proof.
  intros Hl Hb Hne. split_and!; [|reflexivity|].
  - unfold t_is_equal_approx, bind. destruct (Nat.eqb_spec l b) as [->|]; [exfalso|].
    + rewrite Hl in Hb. inversion Hb as [[E1 E2 E3]]. apply Hne. f_equal; [f_equal|]; lia.
    + rewrite (t_size_val _ _ _ _ _ _ Hl), (t_size_val _ _ _ _ _ _ Hb), size3_eq_true, bool_decide_eq_false_2; [reflexivity|].
      intros (-> & -> & ->). apply Hne. reflexivity.
  - unfold t_is_equal_approx. rewrite Nat.eqb_refl. reflexivity.
Qed.
(** Entry (slice k, row j) of the result is the dot product of that row with the vector. *)
Lemma foldl_ext_in {A B} (f g : A -> B -> A) (zs : list B) : (forall (c : A) (q : B), q ∈ zs -> f c q = g c q) -> forall c : A, foldl f c zs = foldl g c zs.
Proof.
  induction zs as [|q zs IH]; intros E c; [reflexivity|]. cbn [foldl]. rewrite E by (apply elem_of_cons; auto).
  apply IH. intros. apply E, elem_of_cons; auto.
Qed.
Theorem C59_tensor_vec_mult h l x y z T b v : wf h -> abs h !! l = Some (Ten x y z T) -> abs h !! b = Some (AVec v) -> length v = x -> Z.of_nat (z * y) <= int_max ->
  runs (t_vec_mult l (Some b)) h (fun d h' => exists g, abs h !! d = None /\ abs h' = <[d := Mat y z g]> (abs h) /\
    forall k j, (k < z)%nat -> (j < y)%nat -> g k j = foldl (fun acc i => s_add acc (s_mul (T k j i) (nth i v s_zero))) s_zero (seq 0 x)).
Proof.
  intros Hw Hl Hb Hv HB. r_. eapply wp_t_vec_mult; eauto. intros d h' W N A. split; [exact W|]. eexists. split; [exact N|]. split; [exact A|].
  intros k j Hk Hj. cbv beta. unfold vlist. subst x.
  assert (E : forall (g : nat -> F) (w : list F) q acc, foldl (fun acc '(u, w) => s_add acc (s_mul u w)) acc (zip (g <$> seq q (length w)) w) =
    foldl (fun acc i => s_add acc (s_mul (g i) (nth (i - q) w s_zero))) acc (seq q (length w))).
  { intros g w. induction w as [|u w IH]; intros q acc; [reflexivity|]. cbn [length seq]. rewrite fmap_cons. cbn [zip zip_with foldl].
    rewrite Nat.sub_diag. cbn [nth]. rewrite IH. apply foldl_ext_in. intros acc' i Hi. apply elem_of_seq in Hi.
    destruct (i - q)%nat as [|m] eqn:Em; [lia|]. replace (i - S q)%nat with m by lia. reflexivity. }
  rewrite E. apply foldl_ext_in. intros acc i _. rewrite Nat.sub_0_r. reflexivity.
Qed.
End props.
