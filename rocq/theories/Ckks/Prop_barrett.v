(** C23, C24: Barrett reduction and modular addition. *)
From Coq Require Import ZArith List Bool Lia.
From Verif Require Import Ckks.Model_barrett Ckks.Proof_barrett.
Import ListNotations.
Local Open Scope Z_scope.

(** C23, full statement: for every m < 2^31 and z < m^2 the result is z mod m.  It is false: the constant is computed by a
    binary64 division and may come out one too large.  q = 2^29 + 2^15 + 1 is prime and 1 modulo 2^15, hence an NTT prime
    for every degree up to 2^14. *)
Theorem C23_reduction_refuted :
  ~ forall m z, 1 < m < 2 ^ 31 -> 0 <= z < m * m ->
      modular_reduction z (precompute_barrett_constants m) = z mod m.
Proof.
  intros H. specialize (H 536903681 288265562671349760 ltac:(lia) ltac:(lia)). vm_compute in H. discriminate.
Qed.
Print Assumptions C23_reduction_refuted.
Example C23_bad_prime_form : 536903681 = 2 ^ 29 + 2 ^ 15 + 1. Proof. reflexivity. Qed.
Example C23_bad_value :
  modular_reduction 288265562671349760 (precompute_barrett_constants 536903681) = 3758063614 /\
  288265562671349760 mod 536903681 = 536903680.
Proof. vm_compute. split; reflexivity. Qed.

(** for exactly which moduli the full statement holds *)
Theorem C23_reduction_correct_moduli : forall m, 1 < m < 2 ^ 31 ->
  let s := 2 * Z.log2_up m in
  (forall z, 0 <= z < m * m -> modular_reduction z (precompute_barrett_constants m) = z mod m) <->
  (float_floordiv (2 ^ s) m = 2 ^ s / m \/ (m * m - 1) * (m - 2 ^ s mod m) < 2 ^ s).
Proof.
  intros m Hm s. split.
  - intros H. destruct (Z.eq_dec (float_floordiv (2 ^ s) m) (2 ^ s / m)) as [E | N]; [left; exact E | right].
    destruct (Z.lt_ge_cases ((m * m - 1) * (m - 2 ^ s mod m)) (2 ^ s)) as [L | G]; [exact L |].
    exfalso. apply (barrett_wrong m Hm N G). apply H. nia.
  - intros H z Hz. apply barrett_correct; [lia | lia |]. destruct H as [E | L]; [left; exact E | right].
    fold s. assert (0 <= m - 2 ^ s mod m) by (pose proof (Z.mod_pos_bound (2 ^ s) m ltac:(lia)); lia). nia.
Qed.
Print Assumptions C23_reduction_correct_moduli.
(** a 30-bit NTT prime from the repository's tests, 1073740609 = 1 mod 64 *)
Example C23_correct_moduli_ex :
  float_floordiv (2 ^ (2 * Z.log2_up 1073740609)) 1073740609 = 2 ^ (2 * Z.log2_up 1073740609) / 1073740609.
Proof. vm_compute. reflexivity. Qed.

(** part of C23: every modulus up to 2^27, every z < m^2.  Missing: moduli above 2^27 whose constant is off (above). *)
Theorem C23_reduction_partial : forall m z, 1 < m <= 2 ^ 27 -> 0 <= z < m * m ->
  modular_reduction z (precompute_barrett_constants m) = z mod m.
Proof. exact barrett_small_moduli. Qed.
Print Assumptions C23_reduction_partial.
Example C23_partial_ex : modular_reduction (12345 * 12288) (precompute_barrett_constants 12289) = (12345 * 12288) mod 12289
  /\ 12345 * 12288 >= 12289 * 12289 /\ 12288 * 12288 < 12289 * 12289.
Proof. vm_compute. repeat split; intros; discriminate. Qed.

(** C24: addition of residues, for every modulus below 2^31 and 32- or 64-bit words *)
Theorem C24_add_barrett : forall bits m a b, (bits = 32 \/ bits = 64) -> 1 < m < 2 ^ 31 -> 0 <= a < m -> 0 <= b < m ->
  add_modular_barrett bits a b (Some (precompute_barrett_constants m)) = Some ((a + b) mod m).
Proof.
  intros bits m a b Hb Hm Ha Hb'. unfold add_modular_barrett. f_equal.
  rewrite (Z.mod_small (a + b)) by (destruct Hb as [-> | ->]; lia). apply barrett_sum; lia.
Qed.
Print Assumptions C24_add_barrett.

Theorem C24_add_subtract : forall bits m a b, (bits = 32 \/ bits = 64) -> 0 < m < 2 ^ 31 -> 0 <= a < m -> 0 <= b < m ->
  add_modular_subtract bits a b m = (a + b) mod m.
Proof.
  intros bits m a b Hb Hm Ha Hb'. unfold add_modular_subtract, u32'.
  rewrite (Z.mod_small (a + b)) by (destruct Hb as [-> | ->]; lia). rewrite (Z.mod_small m) by lia.
  destruct (m <=? a + b) eqn:E.
  - apply Z.leb_le in E. rewrite (Z.mod_small (a + b - m)) by (destruct Hb as [-> | ->]; lia).
    apply Z.mod_unique with 1; lia.
  - apply Z.leb_gt in E. symmetry. apply Z.mod_small. lia.
Qed.
Print Assumptions C24_add_subtract.

Theorem C24_add_simple : forall bits a b, 0 <= a -> 0 <= b -> a + b < 2 ^ bits -> add_simple bits a b = a + b.
Proof. intros bits a b Ha Hb H. apply Z.mod_small. lia. Qed.
Print Assumptions C24_add_simple.

Example C24_ex : add_modular_barrett 32 1073740608 1073740607 (Some (precompute_barrett_constants 1073740609)) = Some 1073740606
  /\ add_modular_subtract 32 1073740608 1073740607 1073740609 = 1073740606.
Proof. vm_compute. split; reflexivity. Qed.

(** the documented contract of AddModularBarrett (a+b < m^2, m < 2^31) does not suffice *)
Theorem C24_documented_contract_refuted :
  ~ forall m a b, 1 < m < 2 ^ 31 -> 0 <= a -> 0 <= b -> a + b < m * m ->
      add_modular_barrett 64 a b (Some (precompute_barrett_constants m)) = Some ((a + b) mod m).
Proof.
  intros H. specialize (H 536903681 288265562671349760 0 ltac:(lia) ltac:(lia) ltac:(lia) ltac:(lia)).
  vm_compute in H. discriminate.
Qed.
Print Assumptions C24_documented_contract_refuted.
