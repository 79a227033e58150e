(** Model of the parameter check in jaxite/jaxite_cggi/test_utils.py. *)
From Coq Require Import ZArith.
Local Open Scope Z_scope.

(** test_utils.py:57-90, assert_safe_modulus_switch: passes when sqrt(1 + lwe_dimension) <= mod_degree / (2 * 2^message_bits).
    Simplification: the comparison is made on the squares over the integers instead of in floating point. *)
Definition safe_modulus_switch (mod_degree message_bits lwe_dimension : Z) : bool :=
  (1 + lwe_dimension) * (2 * 2 ^ message_bits) ^ 2 <=? mod_degree ^ 2.
