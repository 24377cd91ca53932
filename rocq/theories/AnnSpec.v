(** * Specification of a feed-forward network over exact reals. *)
From Verif Require Import Base BaseProofs Vec VecSpec Mat MatSpec RInst PropSvm Act Layer LayerSpec PropLayer Ann.
From Coq Require Import Reals.
Open Scope R_scope.
Implicit Types (h : heap R).

(** A hidden layer as a function: activation, weight distribution, number of units, biases. *)
Record slayer := SLay { sl_act : actfn; sl_wi : winit; sl_u : nat; sl_bs : list R }.
(** Width and values after passing [k]-column data [X] through the layers, layer number i using weights drawn from [raw i]. *)
Fixpoint net_fun (raw : nat -> Z -> R) (k : nat) (X : nat -> nat -> R) (ls : list slayer) : nat * (nat -> nat -> R) :=
  match ls with
  | [] => (k, X)
  | l :: ls => net_fun (fun i => raw (S i)) (sl_u l) (fun i j => run_norm_real (sl_act l) (dense k X (drawn_m (sl_wi l) (sl_u l) k (raw 0%nat)) (sl_bs l) i j)) ls
  end.
(** All sizes are representable (n rows). *)
Fixpoint net_fits (n k : nat) (ls : list slayer) : Prop :=
  match ls with
  | [] => True
  | l :: ls => (1 <= sl_u l)%nat /\ (Z.of_nat (n * sl_u l) <= int_max)%Z /\ (Z.of_nat (sl_u l * k) <= int_max)%Z /\ (Z.of_nat (sl_u l + k) <= int_max)%Z /\ net_fits n (sl_u l) ls
  end.

(** How a network object realises such a description.  Layer [o] is the function [s], with its objects at [w], [b], [z]. *)
Record li := LI { li_s : slayer; li_w : loc; li_b : loc; li_z : loc }.
Definition layer_is h (o : hlayer R) (i : li) : Prop :=
  hl_act o = sl_act (li_s i) /\ hl_wi o = sl_wi (li_s i) /\ hl_n o = Z.of_nat (sl_u (li_s i)) /\ hl_w o = Some (li_w i) /\ hl_b o = Some (li_b i) /\ hl_z o = Some (li_z i) /\ m_ok (sl_act (li_s i)) /\
  is_matrix h (li_w i) /\ is_matrix h (li_z i) /\ abs h !! li_b i = Some (AVec (sl_bs (li_s i))) /\ length (sl_bs (li_s i)) = sl_u (li_s i).
Definition li_locs (is : list li) : list loc := flat_map (fun i => [li_w i; li_z i]) is.
(** Output layer [o]: weight vector at [wo], [u] inputs. *)
Definition out_is h (o : olayer R) (wo : loc) (u : nat) : Prop := ol_w o = Some wo /\ ol_n o = Z.of_nat u /\ v_ok (ol_act o) /\ exists m cs, abs h !! wo = Some (SVec m, cs).
(** Number of columns the output layer sees. *)
Definition net_width (k : nat) (ss : list slayer) : nat := match list.last ss with Some s => sl_u s | None => k end.
(** The network [o], with its layers described by [is] and output weights at [wo], accepts data with n rows and k columns held by object [x]. *)
Definition net_ready h (o : ann R) out (is : list li) (wo x : loc) (k n : nat) : Prop :=
  wf h /\ an_out o = Some out /\ Forall2 (layer_is h) (an_net o) is /\ NoDup (li_locs is) /\ x ∉ li_locs is /\ wo ∉ (li_b <$> is) /\ net_fits n k (li_s <$> is) /\
  out_is h out wo (net_width k (li_s <$> is)) /\ (Z.of_nat n <= int_max)%Z /\ (Z.of_nat (net_width k (li_s <$> is)) <= int_max)%Z.
(** The outputs of the network on the n rows of [X]: drawn weights in every layer, drawn output bias. *)
Definition net_out (d : draws R) f (wi : winit) (ss : list slayer) (k n : nat) (X : nat -> nat -> R) : list R :=
  let N := net_fun (dr_h d) k X ss in
  map (fun i => run_norm_real f (Rsum (net_width k ss) (fun t => N.2 i t * dist_v wi (net_width k ss) (dr_o d (Z.of_nat t))) + dr_b d)) (seq 0 n).
