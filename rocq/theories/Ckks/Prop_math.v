(** C40: primitive roots of unity. *)
From Coq Require Import ZArith Znumtheory List Bool Lia.
From Verif Require Import Base.ZSum Base.Modeq Base.Lists Base.Powm Base.Fermat Base.Order Base.PrimeCheck Ckks.Model_math Ckks.Model_rns Ckks.Proof_math Ckks.Proof_ntt_ref.
Import ListNotations.
Local Open Scope Z_scope.

(** x has multiplicative order exactly m modulo q *)
Definition has_order (q m x : Z) : Prop := x ^ m == 1 [mod q] /\ forall k, 0 < k < m -> ~ (x ^ k == 1 [mod q]).

Lemma has_order_ord q m x : 1 <= m -> (has_order q m x <-> ord q x (Z.to_nat m)).
Proof.
  intros Hm. unfold has_order, ord, pw. rewrite Z2Nat.id by lia. split.
  - intros [H1 H2]. split; [exact H1 |]. intros k Hk.
    assert (G : pw x (Nat.gcd (Z.to_nat m) k) == 1 [mod q]) by (apply pw_gcd; unfold pw; [rewrite Z2Nat.id by lia; exact H1 | exact Hk]).
    destruct (Nat.gcd_divide (Z.to_nat m) k) as [D1 D2]. set (g := Nat.gcd (Z.to_nat m) k) in *.
    assert (g <= Z.to_nat m)%nat by (apply Nat.divide_pos_le in D1; lia).
    destruct (Nat.eq_dec g (Z.to_nat m)) as [E | N]; [rewrite <- E; exact D2 |]. exfalso.
    assert (g <> 0)%nat by (intros E; destruct D1 as [c Hc]; lia).
    apply (H2 (Z.of_nat g)); [lia | exact G].
  - intros [H1 H2]. split; [exact H1 |]. intros k Hk E. specialize (H2 (Z.to_nat k)). rewrite Z2Nat.id in H2 by lia.
    apply H2 in E. apply Nat.divide_pos_le in E; lia.
Qed.

(** C40: prime_factors returns exactly the prime divisors. *)
Theorem C40_prime_factors : forall n, 1 <= n -> forall r, In r (prime_factors n) <-> prime r /\ (r | n).
Proof. exact prime_factors_spec. Qed.

(** C40: find_generator succeeds for every odd prime and returns a generator of the multiplicative group. *)
Theorem C40_generator : forall q, prime q -> 2 < q -> exists g, find_generator q = Some g /\ 2 <= g < q /\ has_order q (q - 1) g.
Proof.
  intros q Hq Q. destruct (find_generator_spec q Hq Q) as (g & E & B & O). exists g. split; [exact E |]. split; [exact B |].
  apply has_order_ord; [lia | exact O].
Qed.

(** C40: root_of_unity returns an element of order exactly m, and the smallest one. *)
Theorem C40_root_of_unity : forall m q, prime q -> 2 <= m -> (m | q - 1) ->
  exists r, root_of_unity m q = Some r /\ 0 <= r < q /\ has_order q m r /\ forall x, 0 <= x < q -> has_order q m x -> r <= x.
Proof.
  intros m q Hq Hm Hd. destruct (root_of_unity_spec m q Hq Hm Hd) as (r & E & B & O & M). exists r. split; [exact E |]. split; [exact B |].
  split; [apply has_order_ord; [lia | exact O] |]. intros x Bx Ox. apply M; [exact Bx |]. apply has_order_ord; [lia | exact Ox].
Qed.

(** C40: and rejects m not dividing q - 1. *)
Theorem C40_rejects : forall m q, 0 < m -> ~ (m | q - 1) -> root_of_unity m q = None.
Proof.
  intros m q Hm H. unfold root_of_unity. destruct (Z.eqb_spec ((q - 1) mod m) 0) as [E | E]; [| reflexivity].
  exfalso. apply H. apply Z.mod_divide; [lia | exact E].
Qed.

(** Finding: m = 1 divides q - 1 for every q, yet the request is rejected ("No primitive 1-th root found"). *)
Theorem C40_order_one_refuted : forall q, root_of_unity 1 q = None.
Proof.
  intros q. unfold root_of_unity. rewrite Z.mod_1_r. cbn [Z.eqb negb]. destruct (find_generator q); reflexivity.
Qed.

(** C40: the reference implementation's own search returns a root of order exactly 2n for n a power of two. *)
Theorem C40_reference_root : forall L q, prime q -> q mod (2 * 2 ^ Z.of_nat L) = 1 ->
  exists psi, primitive_root (2 * 2 ^ Z.of_nat L) q = Some psi /\ 0 <= psi < q /\ has_order q (2 * 2 ^ Z.of_nat L) psi.
Proof.
  intros L q Hq Hm. assert (Q : 1 < q) by (destruct Hq; lia).
  destruct (primitive_root_spec L q Hq Hm) as (psi & E & B & R). exists psi. split; [exact E |]. split; [exact B |].
  assert (P : 0 < 2 ^ Z.of_nat L) by (apply Z.pow_pos_nonneg; lia).
  assert (Q2 : 2 < q). { destruct (Z.eq_dec q 2) as [-> |]; [| lia]. exfalso. destruct L as [|L].
    - discriminate Hm. - rewrite Z.mod_small in Hm; [discriminate |]. rewrite Nat2Z.inj_succ, Z.pow_succ_r by lia.
      assert (0 < 2 ^ Z.of_nat L) by (apply Z.pow_pos_nonneg; lia). lia. }
  apply has_order_ord; [lia |].
  replace (Z.to_nat (2 * 2 ^ Z.of_nat L)) with (2 ^ S L)%nat.
  2: { apply Nat2Z.inj. rewrite Z2Nat.id by lia. rewrite Nat2Z.inj_pow, (Nat2Z.inj_succ L), Z.pow_succ_r by lia. reflexivity. }
  assert (P2 : (0 < 2 ^ S L)%nat) by (pose proof (Nat.pow_nonzero 2 (S L)); lia).
  apply ord_check; [exact P2 | |].
  - rewrite Nat.pow_succ_r', Nat.mul_comm, pw_mul, R. reflexivity.
  - intros p Pp Dp. rewrite (nprime_divides_pow 2 p (S L) prime_2 Pp Dp). rewrite Nat.pow_succ_r', Nat.mul_comm, Nat.div_mul by lia.
    rewrite R. intros F. apply (small_nz q 2); [lia |]. change 2 with (1 - -1). rewrite <- F. reflexivity.
Qed.

Example C40_example : root_of_unity 16 97 = Some 8 /\ find_generator 97 = Some 5 /\ root_of_unity 6 97 = Some 36 /\ root_of_unity 5 97 = None /\ prime 97.
Proof.
  split; [vm_compute; reflexivity |]. split; [vm_compute; reflexivity |]. split; [vm_compute; reflexivity |].
  split; [vm_compute; reflexivity |]. apply (prime_check_sound 97). vm_compute. reflexivity.
Qed.

Print Assumptions C40_prime_factors.
Print Assumptions C40_generator.
Print Assumptions C40_root_of_unity.
Print Assumptions C40_reference_root.
