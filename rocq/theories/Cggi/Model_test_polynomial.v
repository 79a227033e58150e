(** Model of jaxite/jaxite_cggi/test_polynomial.py and parameters.py. *)
From Coq Require Import ZArith List Bool.
From Verif Require Import Base.Word Cggi.Model_encoding Cggi.Model_rlwe.
Import ListNotations.
Local Open Scope Z_scope.

(** parameters.py:37,42: int(round(math.log2(x))) for x >= 1, computed exactly (the nearest integer to the real
    logarithm; a tie is impossible because 2^(2k+1) is not a square). *)
Definition log2_round (x : Z) : Z :=
  let k := Z.log2 x in if x * x <? 2 ^ (2 * k + 1) then k else k + 1.

(** parameters.py:7-43, class SchemeParameters *)
Record scheme_params := { lwe_dimension : nat; plaintext_modulus : Z; rlwe_dimension : nat; modulus_degree : nat }.
Definition log_mod_degree (sp : scheme_params) : Z := log2_round (Z.of_nat (modulus_degree sp)).
Definition log_plaintext_modulus (sp : scheme_params) : Z := log2_round (plaintext_modulus sp).

(** test_polynomial.py:48-90, _pad_for_error.  Negation is in uint32, before the reduction modulo coeff_mod. *)
Definition pad_for_error (polynomial : list Z) (mod_degree : nat) (coeff_mod : Z) : list Z :=
  let block_width := (mod_degree / length polynomial)%nat in
  let blocks := flat_map (fun c => repeat c block_width) polynomial in
  let split_index := (block_width / 2)%nat in
  let first_half_block := firstn split_index blocks in
  let negated_half_block := map (fun c => u32 (- c) mod coeff_mod) first_half_block in
  skipn split_index blocks ++ negated_half_block.

(** test_polynomial.py:93-150, gen_test_polynomial *)
Definition gen_test_polynomial (coeffs : list Z) (p : enc_params) (sp : scheme_params) : option (list Z) :=
  if (modulus_degree sp <? length coeffs)%nat then None
  else if negb (Z.of_nat (length coeffs) =? 2 ^ message_bits p) then None
  else encode_list (pad_for_error coeffs (modulus_degree sp) (2 ^ (padding_bits p + message_bits p))) p true.

(** test_polynomial.py:153-179, identity_test_polynomial *)
Definition identity_test_polynomial (p : enc_params) (sp : scheme_params) : option (list Z) :=
  gen_test_polynomial (map Z.of_nat (seq 0 (Z.to_nat (2 ^ message_bits p)))) p sp.

(** test_polynomial.py:182-211, trivial_encryption: rlwe.encrypt under the all-zero key with a source that returns zeros
    (rlwe.py:107-145) *)
Definition trivial_encryption (tpu : Z) (test_polynomial : list Z) (sp : scheme_params) : list (list Z) :=
  let zeros := repeat (repeat 0 (modulus_degree sp)) (rlwe_dimension sp) in
  rlwe_encrypt tpu test_polynomial
    {| rk_log := log_plaintext_modulus sp; rk_degree := modulus_degree sp; rk_data := zeros |}
    zeros (repeat 0 (modulus_degree sp)).

(** test_polynomial.py:214-233, gen_and_encrypt *)
Definition gen_and_encrypt (tpu : Z) (coeffs : list Z) (p : enc_params) (sp : scheme_params) : option (list (list Z)) :=
  match gen_test_polynomial coeffs p sp with
  | None => None
  | Some tp => Some (trivial_encryption tpu tp sp)
  end.
