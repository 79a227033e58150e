(** Model of the default k in jaxite_ec/algorithm/finite_field.py: math.ceil(math.log2(prime)) for an int prime.
    Model_reffield.v takes the exact logarithm rounded up; here the two binary64 roundings are allowed for.
    CPython's math.log2 first converts the int to a double (round to nearest, 53 bits) and then takes the
    logarithm of the double, which is exact at a power of two. Lines 127 and 202 use the result where lines 129 and 204
    use a given k, so omitting k is passing this value: fb_new v p (Some d) and fm_new v p (Some d). *)
From Coq Require Import ZArith.
Local Open Scope Z_scope.

(** finite_field.py:127 and 202: the values math.ceil(math.log2(p)) may take for 1 <= p < 2^1024.
    With 2^k <= p < 2^(k+1): an int within 2^(k-54) above 2^k has the double 2^k, so the result is k; from
    2^k + 2^(k-40) on, the logarithm exceeds k by more than any error of the rounded logarithm (a double below 1024
    has spacing at most 2^-43), so the result is k + 1. Simplified: in between, either is allowed. *)
Definition default_log (p d : Z) : Prop :=
  let k := Z.log2 p in
  if 2 ^ 54 * (p - 2 ^ k) <=? 2 ^ k then d = k
  else if 2 ^ 40 * (p - 2 ^ k) <? 2 ^ k then d = k \/ d = k + 1
  else d = k + 1.
