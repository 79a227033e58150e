(** C28: the accelerator NTT (NTTBarrett) agrees with the CPU NTT. *)
From Coq Require Import ZArith Znumtheory List Bool Lia.
From Verif Require Import Base.ZSum Base.Modeq Base.Lists Base.Word Base.Fermat Base.PrimeCheck.
From Verif Require Import Ckks.Model_rns_utils Ckks.Model_math Ckks.Model_ntt_cpu Ckks.Model_barrett Ckks.Spec_barrett Ckks.Model_scheme Ckks.Model_ntt Ckks.Spec_ntt Ckks.Spec_poly.
From Verif Require Import Ckks.Proof_ntt_cpu Ckks.Prop_crt Ckks.Prop_barrett Ckks.Prop_ntt_cpu Ckks.Proof_slots Ckks.Proof_ntt_accel.
Import ListNotations.
Local Open Scope Z_scope.

(** a modulus the accelerator handles for an R x C layout, R = 2^lr, C = 2^lc: an NTT prime below 2^31 on which the Barrett
    kernel is exact, at least 1020*R and 1020*C; R and C at most 2^14 *)
Definition accel_modulus (lr lc : nat) (q : Z) : Prop :=
  prime q /\ (2 * 2 ^ Z.of_nat (lr + lc) | q - 1) /\ q < 2 ^ 31 /\ barrett_exact q /\
  1020 * 2 ^ Z.of_nat lr <= q /\ 1020 * 2 ^ Z.of_nat lc <= q /\ (lr <= 14)%nat /\ (lc <= 14)%nat.
Definition word_column (n : nat) (col : list Z) : Prop := length col = n /\ Forall (fun x => 0 <= x < 2 ^ 32) col.

Lemma accel_admissible lr lc q : accel_modulus lr lc q -> cpu_admissible (lr + lc) q /\ 1 < q < 2 ^ 31 /\ barrett_exact q /\
  (1020 * Z.of_nat (2 ^ lr) <= q /\ Z.of_nat (2 ^ lr) <= 16512) /\ (1020 * Z.of_nat (2 ^ lc) <= q /\ Z.of_nat (2 ^ lc) <= 16512).
Proof.
  intros (P & D & Q & B & H1 & H2 & L1 & L2). assert (1 < q) by (destruct P; lia). rewrite !Nat2Z.inj_pow. change (Z.of_nat 2) with 2.
  assert (X : forall l, (l <= 14)%nat -> 2 ^ Z.of_nat l <= 16512).
  { intros l Hl. apply Z.le_trans with (2 ^ 14); [apply Z.pow_le_mono_r; lia | lia]. }
  split; [split; [lia |]; split; [exact P |]; split; [exact D | lia] |]. split; [lia |]. split; [exact B |]. split; split; auto.
Qed.

(** part of C28: for every layout R x C of powers of two up to 2^14, list of such moduli and array of 32-bit words, the
    constants are found and both transforms equal the CPU transforms of the same array.
    Missing: moduli below 1020*max(R, C) (C28_small_moduli_refuted) and moduli on which the Barrett kernel is wrong. *)
Theorem C28_agrees_partial : forall lr lc moduli columns, Forall (accel_modulus lr lc) moduli ->
  length columns = length moduli -> Forall (word_column (2 ^ (lr + lc))) columns ->
  exists ks, ntt_precompute_constants moduli (2 ^ lr) (2 ^ lc) = Some ks /\
    ntt_negacyclic_poly columns moduli = Some (ntt_accel_poly ks columns) /\
    intt_negacyclic_poly columns moduli = Some (intt_accel_poly ks columns).
Proof.
  intros lr lc moduli columns HM. revert columns. induction HM as [|q moduli Hq _ IH]; intros columns LC HC.
  - destruct columns; [| discriminate]. exists []. repeat split.
  - destruct columns as [|col columns]; [discriminate |]. rewrite Forall_cons_iff in HC. destruct HC as [[Lc Fc] HC].
    destruct (IH columns ltac:(cbn in LC; lia) HC) as (ks & E1 & E2 & E3). apply accel_admissible in Hq. destruct Hq as (A & Q & B & HR & HCc).
    destruct (accel_constants_exist lr lc q A Q) as (k & EK).
    exists (k :: ks). unfold ntt_precompute_constants in *. cbn [map sequence_opt]. rewrite EK, E1. split; [reflexivity |].
    unfold ntt_negacyclic_poly, intt_negacyclic_poly, ntt_accel_poly, intt_accel_poly in *. cbn [map2 sequence_opt].
    rewrite (ntt_T (lr + lc) q col A Lc), (accel_inverse lr lc q A Q B HR HCc k col EK Lc Fc), E2, E3.
    rewrite (accel_forward lr lc q A Q B HR HCc k col EK Lc Fc). split; reflexivity.
Qed.
Print Assumptions C28_agrees_partial.

(** part of C28: the two transforms are mutually inverse on arrays of residues *)
Theorem C28_inverse_partial : forall lr lc moduli columns, Forall (accel_modulus lr lc) moduli ->
  Forall2 (fun col q => length col = (2 ^ (lr + lc))%nat /\ reduced q col) columns moduli ->
  exists ks, ntt_precompute_constants moduli (2 ^ lr) (2 ^ lc) = Some ks /\
    intt_accel_poly ks (ntt_accel_poly ks columns) = columns /\ ntt_accel_poly ks (intt_accel_poly ks columns) = columns.
Proof.
  intros lr lc moduli columns HM HF. induction HF as [|col q columns moduli [Lc Rc] HF IH].
  - exists []. repeat split.
  - rewrite Forall_cons_iff in HM. destruct HM as [Hq HM]. destruct (IH HM) as (ks & E1 & E2 & E3).
    apply accel_admissible in Hq. destruct Hq as (A & Q & B & HR & HCc).
    destruct (accel_constants_exist lr lc q A Q) as (k & EK).
    assert (W : forall x, reduced q x -> Forall (fun x => 0 <= x < 2 ^ 32) x).
    { intros x. apply Forall_impl. intros y Hy. lia. }
    exists (k :: ks). unfold ntt_precompute_constants in *. cbn [map sequence_opt]. rewrite EK, E1. split; [reflexivity |].
    unfold ntt_accel_poly, intt_accel_poly in *. cbn [map2]. rewrite E2, E3.
    rewrite (accel_forward lr lc q A Q B HR HCc k col EK Lc (W _ Rc)).
    assert (I1 : intt_accel k (T (lr + lc) q col) = col).
    { pose proof (accel_inverse lr lc q A Q B HR HCc k (T (lr + lc) q col) EK (T_length _ _ _) (W _ (transform_reduced (lr + lc) q (psi_of (lr + lc) q) col ltac:(lia)))) as X.
      rewrite (intt_T (lr + lc) q col A Lc) in X. injection X as <-. apply map_mod_id. exact Rc. }
    rewrite I1. split; [reflexivity |]. f_equal.
    destruct (C27_forward_inverse (lr + lc) q col A Lc) as (a & EA & La & Ra & EF).
    rewrite (accel_inverse lr lc q A Q B HR HCc k col EK Lc (W _ Rc)) in EA. injection EA as EA. rewrite EA.
    rewrite (accel_forward lr lc q A Q B HR HCc k a EK La (W _ Ra)). rewrite (ntt_T (lr + lc) q a A La) in EF. injection EF as ->. apply map_mod_id. exact Rc.
Qed.
Print Assumptions C28_inverse_partial.

(** the constants of the first n moduli are the constants made for those moduli (slice_moduli), so a ciphertext on a lower
    level is transformed alike *)
Theorem C28_slice : forall moduli r c ks n, ntt_precompute_constants moduli r c = Some ks ->
  ntt_precompute_constants (firstn n moduli) r c = Some (slice_moduli ks n).
Proof.
  intros moduli r c ks n. unfold ntt_precompute_constants, slice_moduli. revert ks n. induction moduli as [|q moduli IH]; intros ks n E.
  - cbn in E. injection E as <-. destruct n; reflexivity.
  - cbn [map sequence_opt] in E. destruct (ntt_precompute q r c) as [k |] eqn:EK; [| discriminate]. destruct (sequence_opt _) as [ks' |] eqn:ES; [| discriminate].
    injection E as <-. destruct n as [|n]; [reflexivity |]. cbn [firstn map sequence_opt]. rewrite EK, (IH ks' n eq_refl). reflexivity.
Qed.
Print Assumptions C28_slice.

(** a modulus that does not support the length is rejected *)
Theorem C28_unsupported_rejected : forall q r c, (q - 1) mod (2 * Z.of_nat (r * c)) <> 0 -> ntt_precompute q r c = None.
Proof.
  intros q r c H. unfold ntt_precompute, root_of_unity. destruct (Z.eqb_spec ((q - 1) mod (2 * Z.of_nat (r * c))) 0); [contradiction | reflexivity].
Qed.
Print Assumptions C28_unsupported_rejected.

(** without the lower bound on the moduli the claim is false: a 4 x 4 layout modulo 97 (the byte-split sums exceed q^2) *)
Theorem C28_small_moduli_refuted : ~ forall lr lc q col, prime q -> (2 * 2 ^ Z.of_nat (lr + lc) | q - 1) -> barrett_exact q -> q < 2 ^ 31 ->
  length col = (2 ^ (lr + lc))%nat -> reduced q col ->
  exists k, ntt_precompute q (2 ^ lr) (2 ^ lc) = Some k /\ ntt_negacyclic_column col q = Some (ntt_accel k col).
Proof.
  intros H. destruct (H 2%nat 2%nat 97 (repeat 96 16)) as (k & E1 & E2).
  - apply prime_check_sound. vm_compute. reflexivity.
  - exists 3. reflexivity.
  - intros z Hz. apply C23_reduction_partial; lia.
  - lia.
  - reflexivity.
  - apply Forall_forall. intros x Hx. apply repeat_spec in Hx. subst x. lia.
  - vm_compute in E1. injection E1 as <-. vm_compute in E2. discriminate.
Qed.
Print Assumptions C28_small_moduli_refuted.

Example C28_example_modulus : accel_modulus 1 2 12289.
Proof.
  split; [apply prime_check_sound; vm_compute; reflexivity |]. split; [exists 768; reflexivity |]. split; [lia |].
  split; [intros z Hz; apply C23_reduction_partial; lia |]. cbn. lia.
Qed.
Example C28_example : exists ks, ntt_precompute_constants [12289] 2 4 = Some ks /\
  ntt_accel_poly ks [[1; 2; 3; 4; 5; 6; 7; 8]] = [[2285; 6357; 1586; 9352; 404; 729; 6197; 9965]] /\
  ntt_negacyclic_poly [[1; 2; 3; 4; 5; 6; 7; 8]] [12289] = Some [[2285; 6357; 1586; 9352; 404; 729; 6197; 9965]] /\
  intt_accel_poly ks [[2285; 6357; 1586; 9352; 404; 729; 6197; 9965]] = [[1; 2; 3; 4; 5; 6; 7; 8]].
Proof. eexists. split; [vm_compute; reflexivity |]. vm_compute. repeat split. Qed.
