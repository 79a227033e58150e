(** Model of jaxite/jaxite_cggi/lwe.py and of matrix_utils.integer_div. *)
From Coq Require Import ZArith List Bool.
From Verif Require Import Base.Word Cggi.Model_encoding.
Import ListNotations.
Local Open Scope Z_scope.

(** lwe.py:15-34, class LweSecretKey.  lwe_dimension is the length of the key data. *)
Record lwe_key := { log_modulus : Z; key_data : list Z }.

(** lwe.py:65-78, jit_encrypt: [uint32 % (uint32(2) ** log_modulus)] only when log_modulus < 32. *)
Definition jit_encrypt (plaintext : Z) (key : list Z) (ai_samples : list Z) (error_sample log_mod : Z) : list Z :=
  let clean_product := add32 (dot32 ai_samples key) plaintext in
  let obfuscated := add32 clean_product error_sample in
  let obfuscated := if log_mod <? 32 then obfuscated mod 2 ^ log_mod else obfuscated in
  ai_samples ++ [obfuscated].

(** lwe.py:48-62, encrypt; the randomness drawn from the RandomSource is an argument. *)
Definition lwe_encrypt (plaintext : Z) (sk : lwe_key) (ai_samples : list Z) (error_sample : Z) : list Z :=
  jit_encrypt plaintext (key_data sk) ai_samples error_sample (log_modulus sk).

(** lwe.py:81-90, decrypt_without_denoising; ct[-1] and ct[:-1]. *)
Definition decrypt_without_denoising (ct : list Z) (sk : lwe_key) : Z :=
  let pt := sub32 (last ct 0) (dot32 (removelast ct) (key_data sk)) in
  if log_modulus sk <? 32 then pt mod 2 ^ log_modulus sk else pt.

(** lwe.py:93-101, decrypt *)
Definition lwe_decrypt (ct : list Z) (sk : lwe_key) (p : enc_params) : Z :=
  remove_noise (decrypt_without_denoising ct sk) p.

(** lwe.py:104-109, noiseless_embedding *)
Definition noiseless_embedding (plaintext : Z) (lwe_dimension : nat) : list Z :=
  repeat 0 lwe_dimension ++ [plaintext].

(** matrix_utils.py:14-41, integer_div on one value (all operands uint32). *)
Definition integer_div (x d : Z) : Z :=
  let quotient_floor := x / d in
  let rounded_fractional_part := add32 (x mod d) (d / 2) / d in
  add32 quotient_floor rounded_fractional_part.

(** lwe.py:112-145, switch_modulus; [uint32(2) ** k] is the wrapped power. *)
Definition switch_modulus (ct : list Z) (log_in log_out : Z) : list Z :=
  let divisor := u32 (2 ^ (log_in - log_out)) in
  map (fun x => integer_div x divisor mod u32 (2 ^ log_out)) ct.
