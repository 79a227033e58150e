(** C27: the CPU NTT. *)
From Coq Require Import ZArith Znumtheory List Bool Lia Permutation.
From Verif Require Import Base.ZSum Base.Modeq Base.Lists Base.Bitrev Base.Nega Base.Powm Base.Word Base.Fermat Base.PrimeCheck.
From Verif Require Import Ckks.Model_rns_utils Ckks.Model_math Ckks.Model_rns Ckks.Model_ntt_cpu Ckks.Spec_ntt Ckks.Proof_bitrev Ckks.Proof_ntt Ckks.Proof_ntt_ref Ckks.Proof_math Ckks.Proof_ntt_cpu Ckks.Prop_ntt_ref.
Import ListNotations.
Local Open Scope Z_scope.

(** Admissible: degree 2^L up to 2^32 and an NTT prime of at most 64 bits. *)
Definition cpu_admissible (L : nat) (q : Z) : Prop := (L <= 32)%nat /\ prime q /\ (2 * 2 ^ Z.of_nat L | q - 1) /\ q <= 2 ^ 64.

Lemma map_mod_id q l : reduced q l -> map (fun x => x mod q) l = l.
Proof. induction 1 as [|x l Hx _ IH]; [reflexivity |]. cbn. rewrite IH, Z.mod_small by exact Hx. reflexivity. Qed.
Lemma map_mod_reduced q l : 0 < q -> reduced q (map (fun x => x mod q) l).
Proof. intros Hq. unfold reduced. apply Forall_map. apply Forall_forall. intros x _. apply Z.mod_pos_bound. exact Hq. Qed.
Lemma reduced_u64 q l : q <= 2 ^ 64 -> reduced q l -> map (fun x => x mod 2 ^ 64) l = l.
Proof. intros Hq. induction 1 as [|x l Hx _ IH]; [reflexivity |]. cbn [map]. rewrite IH, Z.mod_small by lia. reflexivity. Qed.
Lemma transform_reduced L q psi a : 0 < q -> reduced q (transform L q psi a).
Proof. intros Hq. unfold reduced, transform. apply Forall_map. apply Forall_forall. intros x _. apply Z.mod_pos_bound. exact Hq. Qed.
Lemma transform_length L q psi a : length (transform L q psi a) = (2 ^ L)%nat.
Proof. unfold transform. rewrite map_length, seq_length. reflexivity. Qed.

Lemma column_is_transform L q psi a : cpu_admissible L q -> root_of_unity (2 * Z.of_nat (2 ^ L)) q = Some psi -> pw psi (2 ^ L) == -1 [mod q] ->
  length a = (2 ^ L)%nat -> ntt_negacyclic_column a q = Some (transform L q psi a).
Proof.
  intros (HL & Hq & Hd & H64) E R Ha. assert (Q : 1 < q) by (destruct Hq; lia).
  unfold ntt_negacyclic_column. rewrite Ha, E. f_equal.
  rewrite <- (map_map (fun x => x mod q) (fun x => x mod 2 ^ 64)). rewrite (permuted_transform L q psi HL Q R a Ha).
  apply (reduced_u64 q); [exact H64 |]. apply transform_reduced. lia.
Qed.

(** C27: the forward transform evaluates at the odd powers of the chosen root, in bit-reversed order. *)
Theorem C27_forward_evaluates : forall L q, cpu_admissible L q ->
  exists psi, root_of_unity (2 * Z.of_nat (2 ^ L)) q = Some psi /\ nega_root (2 ^ L) q psi /\
    forall a, length a = (2 ^ L)%nat -> ntt_negacyclic_column a q = Some (transform L q psi a).
Proof.
  intros L q A. destruct A as (HL & Hq & Hd & H64). destruct (cpu_root L q Hq Hd) as (psi & psi' & n' & E & B & R & _).
  exists psi. split; [exact E |]. split; [exact R |]. intros a Ha. exact (column_is_transform L q psi a (conj HL (conj Hq (conj Hd H64))) E R Ha).
Qed.

(** C27: the inverse undoes the forward transform and conversely, for arbitrary integer entries, modulo q. *)
Theorem C27_inverse_forward : forall L q a y, cpu_admissible L q -> length a = (2 ^ L)%nat -> ntt_negacyclic_column a q = Some y ->
  intt_negacyclic_column y q = Some (map (fun x => x mod q) a).
Proof.
  intros L q a y (HL & Hq & Hd & H64) Ha HY. assert (Q : 1 < q) by (destruct Hq; lia).
  destruct (cpu_root L q Hq Hd) as (psi & psi' & n' & E & B & R & I & N).
  rewrite (column_is_transform L q psi a (conj HL (conj Hq (conj Hd H64))) E R Ha) in HY.
  assert (EY : y = transform L q psi a) by congruence. rewrite EY.
  unfold intt_negacyclic_column. rewrite transform_length, E.
  rewrite (intt_ntt L q psi HL Q R psi' n' I N a Ha). f_equal.
  apply (reduced_u64 q); [exact H64 |]. apply map_mod_reduced. lia.
Qed.
Theorem C27_forward_inverse : forall L q y, cpu_admissible L q -> length y = (2 ^ L)%nat ->
  exists a, intt_negacyclic_column y q = Some a /\ length a = (2 ^ L)%nat /\ reduced q a /\ ntt_negacyclic_column a q = Some (map (fun x => x mod q) y).
Proof.
  intros L q y (HL & Hq & Hd & H64) Hy. assert (Q : 1 < q) by (destruct Hq; lia).
  destruct (cpu_root L q Hq Hd) as (psi & psi' & n' & E & B & R & I & N).
  assert (LP : length (permute (get_bit_reversal_perm (2 ^ L)) y) = (2 ^ L)%nat) by (rewrite permute_brev by assumption; rewrite map_length, seq_length; reflexivity).
  destruct (omega_inverse L q psi HL Q psi' n' I N) as (w' & Hw' & _).
  pose proof (intt_value L q psi HL Q psi' n' I N _ w' Hw' LP) as V.
  set (x := map _ (seq 0 (2 ^ L))) in V.
  assert (RX : reduced q x) by (unfold reduced, x; apply Forall_map; apply Forall_forall; intros v _; apply Z.mod_pos_bound; lia).
  exists x. unfold intt_negacyclic_column. rewrite Hy, E, V, (reduced_u64 q x H64 RX). split; [reflexivity |].
  destruct (ntt_intt L q psi HL Q R psi' n' I N y x Hy V) as [LX TX]. split; [exact LX |]. split; [exact RX |].
  rewrite (column_is_transform L q psi x (conj HL (conj Hq (conj Hd H64))) E R LX). rewrite TX. reflexivity.
Qed.

(** C27, all columns at once: for the moduli of a ciphertext, transforming and transforming back gives the input. *)
Theorem C27_poly_roundtrip : forall L columns moduli,
  Forall2 (fun col q => cpu_admissible L q /\ length col = (2 ^ L)%nat /\ reduced q col) columns moduli ->
  exists out, ntt_negacyclic_poly columns moduli = Some out /\ intt_negacyclic_poly out moduli = Some columns.
Proof.
  intros L columns moduli H. induction H as [|col q cols qs (A & Hc & R) _ IH].
  - exists []. split; reflexivity.
  - destruct IH as (out & E1 & E2).
    destruct (C27_forward_evaluates L q A) as (psi & _ & _ & F). specialize (F col Hc).
    exists (transform L q psi col :: out). unfold ntt_negacyclic_poly, intt_negacyclic_poly in *. cbn [map2 sequence_opt].
    rewrite F, E1. split; [reflexivity |]. rewrite (C27_inverse_forward L q col _ A Hc F), E2, (map_mod_id q col R). reflexivity.
Qed.

(** C27: pointwise products of transforms are transforms of negacyclic products. *)
Theorem C27_product : forall L q a b fa fb, cpu_admissible L q -> length a = (2 ^ L)%nat -> length b = (2 ^ L)%nat ->
  ntt_negacyclic_column a q = Some fa -> ntt_negacyclic_column b q = Some fb ->
  ntt_negacyclic_column (nega_mul q a b) q = Some (pointwise_mul q fa fb) /\ intt_negacyclic_column (pointwise_mul q fa fb) q = Some (nega_mul q a b).
Proof.
  intros L q a b fa fb A Ha Hb Fa Fb. assert (Q : 1 < q) by (destruct A as (_ & Hq & _); destruct Hq; lia).
  destruct (C27_forward_evaluates L q A) as (psi & _ & R & F).
  assert (LM : length (nega_mul q a b) = (2 ^ L)%nat) by (unfold nega_mul; rewrite map_length, seq_length; exact Ha).
  assert (X : ntt_negacyclic_column (nega_mul q a b) q = Some (pointwise_mul q fa fb)).
  { rewrite (F _ LM). rewrite (F a Ha) in Fa. rewrite (F b Hb) in Fb. injection Fa as <-. injection Fb as <-. f_equal.
    apply transform_mul; [lia | exact R | exact Ha | exact Hb]. }
  split; [exact X |]. rewrite (C27_inverse_forward L q _ _ A LM X), map_mod_id; [reflexivity |].
  unfold reduced, nega_mul. apply Forall_map. apply Forall_forall. intros v _. apply Z.mod_pos_bound. lia.
Qed.

(** Finding: the two NTTs of the library choose their roots differently, so their outputs need not be equal. *)
Theorem C27_same_root_refuted : exists q, cpu_admissible 1 q /\ ntt_admissible 1 q /\
  match mk_ntt 2 q with Some p => ntt_negacyclic_column [0; 1] q <> Some (forward p [0; 1]) | None => False end.
Proof.
  assert (P : prime 13) by (apply prime_check_sound; vm_compute; reflexivity).
  exists 13. split; [| split].
  - split; [lia |]. split; [exact P |]. split; [exists 3; reflexivity | vm_compute; discriminate].
  - split; [lia |]. split; [exact P | reflexivity].
  - vm_compute. discriminate.
Qed.

Example C27_example_admissible : cpu_admissible 3 97.
Proof. split; [lia |]. split; [apply prime_check_sound; vm_compute; reflexivity |]. split; [exists 6; reflexivity | vm_compute; discriminate]. Qed.
Example C27_example : ntt_negacyclic_column [1; 2; 3; 4; 5; 6; 7; 8] 97 = Some (transform 3 97 8 [1; 2; 3; 4; 5; 6; 7; 8]).
Proof. vm_compute. reflexivity. Qed.

Print Assumptions C27_forward_evaluates.
Print Assumptions C27_inverse_forward.
Print Assumptions C27_forward_inverse.
Print Assumptions C27_poly_roundtrip.
