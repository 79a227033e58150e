(** C26: the reference NTT (rns.Ntt) is an invertible ring homomorphism. *)
From Coq Require Import ZArith Znumtheory List Bool Lia.
From Verif Require Import Base.ZSum Base.Modeq Base.Lists Base.Bitrev Base.Nega Base.Powm Base.Fermat Base.PrimeCheck.
From Verif Require Import Ckks.Model_rns_utils Ckks.Model_rns Ckks.Spec_ntt Ckks.Proof_bitrev Ckks.Proof_ntt Ckks.Proof_ntt_ref.
Import ListNotations.
Local Open Scope Z_scope.

(** Admissible parameters: n = 2^L >= 2 and an NTT prime q = 1 mod 2n. *)
Definition ntt_admissible (L : nat) (q : Z) : Prop := (1 <= L)%nat /\ prime q /\ q mod (2 * 2 ^ Z.of_nat L) = 1.

Lemma mk_ntt_ok L q p : ntt_admissible L q -> mk_ntt (2 ^ L) q = Some p -> 1 < q /\ exists psi, 0 <= psi < q /\ ntt_ok L q psi p.
Proof.
  intros (HL & Hq & Hm) E. split; [destruct Hq; lia |].
  destruct (mk_ntt_spec L q HL Hq Hm) as (p' & psi & E' & B & OK). exists psi. split; [exact B |]. rewrite E in E'. injection E' as ->. exact OK.
Qed.

(** C26: the constructor accepts all admissible parameters. *)
Theorem C26_constructor_total : forall L q, ntt_admissible L q -> exists p, mk_ntt (2 ^ L) q = Some p.
Proof. intros L q (HL & Hq & Hm). destruct (mk_ntt_spec L q HL Hq Hm) as (p & _ & E & _). exists p. exact E. Qed.

(** C26: and rejects sizes that are not powers of two and moduli that are not 1 modulo 2n. *)
Theorem C26_constructor_rejects : forall n q, (~ exists L, n = (2 ^ L)%nat) \/ q mod (2 * Z.of_nat n) <> 1 -> mk_ntt n q = None.
Proof.
  intros n q H. unfold mk_ntt. destruct (is_power_of_two (Z.of_nat n)) eqn:E; [| reflexivity]. cbn [negb].
  destruct H as [H | H].
  - exfalso. apply H. destruct (is_power_of_two_only _ E) as (k & Hk & Ek). exists (Z.to_nat k).
    apply Nat2Z.inj. rewrite Nat2Z.inj_pow, Z2Nat.id by exact Hk. exact Ek.
  - apply Z.eqb_neq in H. rewrite H. reflexivity.
Qed.

(** C26: forward evaluates the polynomial at the odd powers of a root of X^n = -1, in bit-reversed order. *)
Theorem C26_forward_evaluates : forall L q p, ntt_admissible L q -> mk_ntt (2 ^ L) q = Some p ->
  exists psi, 0 <= psi < q /\ nega_root (2 ^ L) q psi /\ forall a, length a = (2 ^ L)%nat -> forward p a = transform L q psi a.
Proof.
  intros L q p A E. destruct (mk_ntt_ok L q p A E) as (Q & psi & B & OK). exists psi. split; [exact B |]. split.
  - exact (no_root _ _ _ _ OK).
  - intros a Ha. apply forward_transform; [apply A | exact Q | exact OK | exact Ha].
Qed.

(** C26: backward undoes forward and forward undoes backward, for arbitrary integer entries, modulo q. *)
Theorem C26_backward_forward : forall L q p a, ntt_admissible L q -> mk_ntt (2 ^ L) q = Some p -> length a = (2 ^ L)%nat ->
  backward p (forward p a) = map (fun x => x mod q) a.
Proof.
  intros L q p a A E Ha. destruct (mk_ntt_ok L q p A E) as (Q & psi & B & OK).
  apply (backward_forward L q psi); [apply A | exact Q | exact OK | exact Ha].
Qed.
Theorem C26_forward_backward : forall L q p a, ntt_admissible L q -> mk_ntt (2 ^ L) q = Some p -> length a = (2 ^ L)%nat ->
  forward p (backward p a) = map (fun x => x mod q) a.
Proof.
  intros L q p a A E Ha. destruct (mk_ntt_ok L q p A E) as (Q & psi & B & OK).
  apply (forward_backward L q psi); [apply A | exact Q | exact OK | exact Ha].
Qed.
(** C26: in particular reduced vectors are recovered exactly. *)
Theorem C26_roundtrip : forall L q p a, ntt_admissible L q -> mk_ntt (2 ^ L) q = Some p -> length a = (2 ^ L)%nat -> reduced q a ->
  backward p (forward p a) = a /\ forward p (backward p a) = a.
Proof.
  intros L q p a A E Ha HR. rewrite (C26_backward_forward L q p a A E Ha), (C26_forward_backward L q p a A E Ha).
  assert (X : map (fun x => x mod q) a = a).
  { clear - HR. induction HR as [|x l Hx HR IH]; [reflexivity |]. cbn. rewrite IH, Z.mod_small by exact Hx. reflexivity. }
  split; exact X.
Qed.

(** C26: transforms turn negacyclic products into pointwise products. *)
Theorem C26_product : forall L q p a b, ntt_admissible L q -> mk_ntt (2 ^ L) q = Some p -> length a = (2 ^ L)%nat -> length b = (2 ^ L)%nat ->
  forward p (nega_mul q a b) = pointwise_mul q (forward p a) (forward p b) /\
  backward p (pointwise_mul q (forward p a) (forward p b)) = nega_mul q a b.
Proof.
  intros L q p a b A E Ha Hb. destruct (mk_ntt_ok L q p A E) as (Q & psi & B & OK).
  assert (LM : length (nega_mul q a b) = (2 ^ L)%nat) by (unfold nega_mul; rewrite map_length, seq_length; exact Ha).
  assert (F : forward p (nega_mul q a b) = pointwise_mul q (forward p a) (forward p b)).
  { rewrite !(forward_transform L q psi p (proj1 A) Q OK) by assumption. apply transform_mul; [lia | exact (no_root _ _ _ _ OK) | exact Ha | exact Hb]. }
  split; [exact F |]. rewrite <- F.
  destruct (C26_roundtrip L q p (nega_mul q a b) A E LM) as [R _]; [| exact R].
  unfold reduced, nega_mul. apply Forall_forall. intros x Hx. apply in_map_iff in Hx. destruct Hx as (k & <- & _). apply Z.mod_pos_bound. lia.
Qed.

(** Finding: the smallest power of two, n = 1, is accepted by the argument checks but the constructor fails with IndexError,
    for every modulus. *)
Theorem C26_degree_one_refuted : forall q, mk_ntt 1 q = None.
Proof.
  intros q. unfold mk_ntt. destruct (negb _); [reflexivity |]. destruct (negb _); [reflexivity |].
  destruct (inverse_mod _ _); [| reflexivity]. destruct (primitive_root _ _); reflexivity.
Qed.

Example C26_example_admissible : ntt_admissible 3 97 /\ ntt_admissible 3 536903681.
Proof.
  split; (split; [lia |]; split; [| reflexivity]).
  - apply prime_check_sound. vm_compute. reflexivity.
  - apply prime_check_sound. vm_compute. reflexivity.
Qed.
Example C26_example : match mk_ntt 8 97 with
  | Some p => forward p [1; 2; 3; 4; 5; 6; 7; 8] = transform 3 97 8 [1; 2; 3; 4; 5; 6; 7; 8]
  | None => False end.
Proof. vm_compute. reflexivity. Qed.

Print Assumptions C26_constructor_total.
Print Assumptions C26_forward_evaluates.
Print Assumptions C26_roundtrip.
Print Assumptions C26_product.
