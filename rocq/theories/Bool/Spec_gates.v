(** Specification vocabulary for the homomorphic gates: what it means for a ciphertext to hold a bit with a given noise,
    the admissible parameters, keys and random draws, and the noise of one gate. *)
From Coq Require Import ZArith List Bool.
From Verif Require Import Base.Modeq Base.Word Cggi.Model_decomposition Cggi.Model_test_polynomial Cggi.Spec_lwe Cggi.Spec_rlwe Cggi.Spec_bootstrap.
From Verif Require Import Bool.Model_bool.
Import ListNotations.
Local Open Scope Z_scope.

(** [ct] is a ciphertext of dimension |ls| whose phase is the bit in bits 28..31 (three message bits and one padding bit)
    plus [e] *)
Definition holds_bit (ls : list Z) (ct : list Z) (b : bool) (e : Z) : Prop :=
  length ct = S (length ls) /\ Forall word32 ct /\ phase ls ct == (if b then 2 ^ 28 else 0) + e [mod 2 ^ 32].

(** the parameters and draws of one key set: degree 2^d with at least one coefficient per table entry, digits dividing 32
    bits, binary keys, noises bounded by BE (bootstrapping key) and KE (key-switching key), and a platform whose
    polynomial kernel is exact (C08) *)
Record key_setup (tpu : Z) (pr : bool_params) (d : Z) (bnn knn : nat) (ls : list Z) (rs : list (list Z))
    (bai : list (list (list (list (list Z))))) (bes : list (list (list Z))) (BE : Z)
    (kai : list (list (list Z))) (kes : list (list Z)) (KE : Z) : Prop := {
  ks_degree : 3 <= d <= 30 /\ modulus_degree (scheme pr) = Z.to_nat (2 ^ d);
  ks_modulus : plaintext_modulus (scheme pr) = 2 ^ 32;
  ks_dim : lwe_dimension (scheme pr) = length ls /\ Nat.even (length ls) = true;
  ks_rank : (1 <= rlwe_dimension (scheme pr))%nat;
  ks_lwe : binary ls;
  ks_rlwe : is_key (modulus_degree (scheme pr)) (rlwe_dimension (scheme pr)) rs /\ Forall binary rs;
  ks_bgadget : gadget (bs_decomp pr) bnn;
  ks_kgadget : gadget (ks_decomp pr) knn;
  ks_bdraws : 0 <= BE /\ bsk_draws (modulus_degree (scheme pr)) (rlwe_dimension (scheme pr)) (level_count (bs_decomp pr)) BE (bsk_count true (length ls)) bai bes;
  ks_kdraws : 0 <= KE /\ ksk_draws (rlwe_dimension (scheme pr) * modulus_degree (scheme pr)) (length ls) (level_count (ks_decomp pr)) KE kai kes;
  ks_platform : kernel_exact tpu (modulus_degree (scheme pr)) (rlwe_dimension (scheme pr)) (log_base (bs_decomp pr))
}.

(** the noise of the output of any bootstrapped gate, whatever its inputs *)
Definition gate_noise (pr : bool_params) (bnn knn : nat) (BE KE : Z) : Z :=
  let n := lwe_dimension (scheme pr) in let N := modulus_degree (scheme pr) in let k := rlwe_dimension (scheme pr) in
  rotation_noise true n N k (bs_decomp pr) bnn BE + key_switch_noise (k * N) (ks_decomp pr) knn KE.

(** the noise the inputs of a gate may carry in total, weighted as the gate combines them, and the room that modulus
    switching needs: (n + 1)/2 units of 2^(31-d), out of half the distance between two messages *)
Definition in_window (pr : bool_params) (d : Z) (total : Z) : Prop :=
  2 * total + (1 + Z.of_nat (lwe_dimension (scheme pr))) * 2 ^ (31 - d) < 2 ^ 28.
