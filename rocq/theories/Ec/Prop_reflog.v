(** C49, the default of k: what the field classes do when the constructor computes k from the prime in floating point. *)
From Coq Require Import ZArith Znumtheory Lia.
From Verif Require Import Ec.Model_reffield Ec.Spec_reffield Ec.Prop_reffield Ec.Model_reflog Ec.Model_util Ec.Prime110 Ec.Prime377.
Local Open Scope Z_scope.

(** p is not just above a power of two: whenever 2^k < p, it is at least 2^k + 2^(k-40) *)
Definition clear_of_powers (p : Z) : Prop := forall k, 0 <= k -> 2 ^ k < p -> 2 ^ k <= 2 ^ 40 * (p - 2 ^ k).

Lemma default_exact p d : 1 < p -> clear_of_powers p -> default_log p d -> d = Z.log2_up p.
Proof.
  intros P1 C H. unfold default_log in H. destruct (Z.log2_spec p ltac:(lia)) as [L U]. pose proof (Z.log2_nonneg p) as K0. set (k := Z.log2 p) in *.
  destruct (Z.eq_dec p (2 ^ k)) as [E | N].
  - assert (EU : Z.log2_up p = k) by (rewrite E; apply Z.log2_up_pow2; exact K0). rewrite EU. destruct (Z.leb_spec (2 ^ 54 * (p - 2 ^ k)) (2 ^ k)); [exact H | lia].
  - specialize (C k K0 ltac:(lia)). assert (EU : Z.log2_up p = k + 1). { apply Z.log2_up_unique; [lia |]. replace (Z.pred (k + 1)) with k by lia. rewrite Z.add_1_r in *. lia. }
    rewrite EU. destruct (Z.leb_spec (2 ^ 54 * (p - 2 ^ k)) (2 ^ k)); [lia |]. destruct (Z.ltb_spec (2 ^ 40 * (p - 2 ^ k)) (2 ^ k)); [lia | exact H].
Qed.
Lemma log2_up_bound p : 1 < p -> 0 < Z.log2_up p /\ p <= 2 ^ Z.log2_up p.
Proof. intros P1. split; [apply Z.log2_up_pos; exact P1 | apply Z.log2_up_spec; exact P1]. Qed.

(** below 2^40 every prime is clear of powers of two *)
Lemma small_clear p : p <= 2 ^ 40 -> clear_of_powers p.
Proof. intros H k K L. assert (2 ^ 40 * 1 <= 2 ^ 40 * (p - 2 ^ k)) by (apply Z.mul_le_mono_nonneg_l; lia). lia. Qed.

(** for a prime clear of powers of two, the Barrett and Montgomery classes with k omitted compute modulo p.
    Missing because false, see below: the primes just above a power of two *)
Theorem C49_default_k_partial : forall p d e v, prime p -> p <> 2 -> p < 2 ^ 1024 -> clear_of_powers p -> default_log p d -> value_of p e v ->
  (exists x, eval_fb p (Some d) e = Some x /\ 0 <= fb_value x <= p /\ fb_value x mod p = v) /\
  (exists x, eval_fm p (Some d) e = Some x /\ 0 <= fm_value x <= p /\ fm_value (change_montgomery_form x) = v).
Proof.
  intros p d e v Hp N2 _ C D V. pose proof (prime_ge_2 p Hp) as P2. rewrite (default_exact p d ltac:(lia) C D). destruct (log2_up_bound p ltac:(lia)) as [L0 L1].
  split; [exact (C49_barrett_partial p _ e v Hp L1 V) |]. destruct (C49_montgomery_partial p _ e v Hp N2 L0 L1 V) as (x & E & B & _ & F). exists x. auto.
Qed.
Print Assumptions C49_default_k_partial.
(** and it is the exact logarithm of Model_reffield.v *)
Theorem C49_default_k_exact : forall p d v, prime p -> p < 2 ^ 1024 -> clear_of_powers p -> default_log p d ->
  fb_new v p (Some d) = fb_new v p None /\ fm_new v p (Some d) = fm_new v p None.
Proof.
  intros p d v Hp _ C D. pose proof (prime_ge_2 p Hp) as P2. rewrite (default_exact p d ltac:(lia) C D). destruct (log2_up_bound p ltac:(lia)) as [L0 _].
  split; [reflexivity |]. unfold fm_new. replace (match Z.log2_up p with 0 => Z.log2_up p | _ => Z.log2_up p end) with (Z.log2_up p) by (destruct (Z.log2_up p); reflexivity). reflexivity.
Qed.
Print Assumptions C49_default_k_exact.

(** FINDING: 2^110 + 45050585342630109 is prime and its default k is 110, so that R < p; the element with the stored value p - 1,
    squared, stores a value above p, although with k = 111 every result stays in [0, p] (C49_montgomery_partial) *)
Definition bad_value : Z := 1298074214633706923369505790203985.
Theorem C49_default_k_refuted : prime p110 /\ 0 <= bad_value < p110 /\ forall d, default_log p110 d -> d = 110 /\ 2 ^ d < p110 /\
  exists x y, fm_new bad_value p110 (Some d) = Some x /\ fm_value x = p110 - 1 /\ fm_mul x x = Some y /\ p110 < fm_value y.
Proof.
  split; [exact prime_110 |]. split; [vm_compute; split; [discriminate | reflexivity] |]. intros d D.
  assert (E : d = 110) by (unfold default_log in D; vm_compute in D; exact D). subst d. split; [reflexivity |]. split; [reflexivity |].
  eexists. eexists. split; [vm_compute; reflexivity |]. split; [vm_compute; reflexivity |]. split; vm_compute; reflexivity.
Qed.
Print Assumptions C49_default_k_refuted.

(** the hypotheses are met: a default exists for every prime, the 377-bit prime of the curve is clear of powers of two and its default is 377 *)
Example C49_default_k_example : (forall p, exists d, default_log p d) /\ clear_of_powers MODULUS_377_INT /\ prime MODULUS_377_INT /\ default_log MODULUS_377_INT 377 /\ clear_of_powers 12289 /\ default_log 12289 14.
Proof.
  split; [intros p; unfold default_log; cbv zeta; destruct (_ <=? _); [eexists; reflexivity |]; destruct (_ <? _); [eexists; left; reflexivity | eexists; reflexivity] |].
  split.
  - intros k K L. destruct (Z.le_gt_cases k 376) as [H | H].
    + assert (2 ^ k <= 2 ^ 376) by (apply Z.pow_le_mono_r; lia). assert (2 ^ 376 <= 2 ^ 40 * (MODULUS_377_INT - 2 ^ 376)) by (vm_compute; discriminate). lia.
    + assert (2 ^ 377 <= 2 ^ k) by (apply Z.pow_le_mono_r; lia). assert (MODULUS_377_INT < 2 ^ 377) by reflexivity. lia.
  - split; [exact prime_377 |]. split; [vm_compute; reflexivity |]. split; [apply small_clear; vm_compute; discriminate | vm_compute; reflexivity].
Qed.
