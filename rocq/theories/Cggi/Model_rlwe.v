(** Model of jaxite/jaxite_cggi/rlwe.py.  An RLWE ciphertext is the list of its k+1 polynomials (a_1,...,a_k,b), a
    polynomial the list of its N coefficient words; modulus_degree N is an explicit argument [n]. *)
From Coq Require Import ZArith List Bool.
From Verif Require Import Base.Word Cggi.Model_encoding Cggi.Model_lwe Cggi.Model_matrix_utils.
Import ListNotations.
Local Open Scope Z_scope.

(** rlwe.py:84-104, class RlweSecretKey (rlwe_dimension is the number of rows of [rk_data]) *)
Record rlwe_key := { rk_log : Z; rk_degree : nat; rk_data : list (list Z) }.

(** rlwe.py:148-170, jit_encrypt *)
Definition rlwe_jit_encrypt (tpu : Z) (n : nat) (plaintext : list Z) (key_data ai_samples : list (list Z))
    (error_sample : list Z) (log_coefficient_modulus : Z) : list (list Z) :=
  let clean_product := vadd32 (poly_dot_product tpu n ai_samples key_data) plaintext in
  let obfuscated_product := vadd32 clean_product error_sample in
  let obfuscated_product :=
    if log_coefficient_modulus <? 32 then map (fun c => c mod 2 ^ log_coefficient_modulus) obfuscated_product
    else obfuscated_product in
  ai_samples ++ [obfuscated_product].

(** rlwe.py:122-145, encrypt; the draws of the random source are arguments *)
Definition rlwe_encrypt (tpu : Z) (plaintext : list Z) (sk : rlwe_key) (ai_samples : list (list Z)) (error_sample : list Z)
  : list (list Z) :=
  rlwe_jit_encrypt tpu (rk_degree sk) plaintext (rk_data sk) ai_samples error_sample (rk_log sk).

(** rlwe.py:179-182, the obfuscated plaintext computed by decrypt before remove_noise *)
Definition rlwe_decrypt_raw (tpu : Z) (ct : list (list Z)) (sk : rlwe_key) : list Z :=
  let dot_prod := poly_dot_product tpu (rk_degree sk) (removelast ct) (rk_data sk) in
  let obfuscated_plaintext := vsub32 (last ct []) dot_prod in
  if rk_log sk <? 32 then map (fun c => c mod 2 ^ rk_log sk) obfuscated_plaintext else obfuscated_plaintext.

(** rlwe.py:173-188, decrypt *)
Definition rlwe_decrypt (tpu : Z) (ct : list (list Z)) (sk : rlwe_key) (p : enc_params) : list Z :=
  map (fun c => remove_noise c p) (rlwe_decrypt_raw tpu ct sk).

(** rlwe.py:191-208, flatten_key: row-major reshape *)
Definition flatten_key (sk : rlwe_key) : lwe_key :=
  {| log_modulus := rk_log sk; key_data := concat (rk_data sk) |}.
