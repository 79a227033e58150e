(** Automorphisms respect sums and negacyclic products. *)
From Coq Require Import ZArith Znumtheory List Bool Lia.
From Verif Require Import Base.ZSum Base.Modeq Base.Nega Base.Powm Base.Bitrev Base.Lists.
From Verif Require Import Ckks.Model_scheme Ckks.Spec_ntt Ckks.Spec_poly Ckks.Proof_ntt_cpu Ckks.Proof_transform Ckks.Prop_ntt_cpu Ckks.Proof_slots Ckks.Proof_encrypt Ckks.Proof_auto.
Import ListNotations.
Local Open Scope Z_scope.

Lemma auto_linear L q g c0 c1 s : cpu_admissible L q -> g mod 2 = 1 -> length c0 = (2 ^ L)%nat -> length c1 = (2 ^ L)%nat -> length s = (2 ^ L)%nat ->
  poly_mod q (poly_add (poly_auto g c0) (poly_mul (poly_auto g c1) (poly_auto g s))) = poly_mod q (poly_auto g (poly_add c0 (poly_mul c1 s))).
Proof.
  intros A Hg L0 L1 Ls. pose proof (psi_of_root L q A) as RT. pose proof (admissible_gt1 L q A) as Q. pose proof (pow2_ge1 L) as P1.
  apply (slots_determine L); [exact A | rewrite poly_add_length, poly_auto_length; exact L0 | rewrite poly_auto_length, poly_add_length; exact L0 |].
  intros j Hj. unfold T. rewrite slot_add by (first [exact Hj | rewrite poly_mul_length, !poly_auto_length; congruence]). rewrite slot_mul by (first [exact Hj | exact RT | rewrite poly_auto_length; assumption | lia]).
  rewrite !slot_eval by exact Hj. set (x := pw (psi_of L q) (2 * brev L j + 1)).
  assert (R : pw x (2 ^ L) == -1 [mod q]).
  { unfold x. rewrite <- pw_mul, Nat.mul_comm, pw_mul, RT. apply pw_neg1_odd. rewrite Nat.add_1_r, Nat.odd_succ, Nat.even_mul. reflexivity. }
  set (N := 2 * Z.of_nat (2 ^ L)). assert (HN : 0 < N) by (unfold N; lia). set (g' := Z.to_nat (g mod N)). pose proof (Z.mod_pos_bound g N HN) as GB.
  assert (EG : Z.of_nat g' == g [mod 2 * Z.of_nat (2 ^ L)]) by (unfold g'; rewrite Z2Nat.id by lia; apply eqm_mod).
  assert (OG : Nat.odd g' = true).
  { destruct (Nat.odd g') eqn:E; [reflexivity |]. exfalso. rewrite <- Nat.negb_even in E. apply negb_false_iff, Nat.even_spec in E. destruct E as [h E].
    apply eqm_ex in EG. destruct EG as [z EG]. rewrite E in EG. replace g with ((Z.of_nat h - z * Z.of_nat (2 ^ L)) * 2) in Hg by lia. rewrite Z_mod_mult in Hg. discriminate. }
  assert (R' : pw (pw x g') (2 ^ L) == -1 [mod q]). { rewrite <- pw_mul, Nat.mul_comm, pw_mul, R. apply pw_neg1_odd. exact OG. }
  rewrite (auto_eval q (2 ^ L) g g' c0) by assumption. rewrite (auto_eval q (2 ^ L) g g' c1) by assumption. rewrite (auto_eval q (2 ^ L) g g' s) by assumption.
  rewrite (auto_eval q (2 ^ L) g g' (poly_add c0 (poly_mul c1 s))) by (first [assumption | rewrite poly_add_length; assumption]).
  set (y := pw x g') in *. rewrite !eval_co, poly_add_length, L0, L1, Ls. rewrite <- (evalf_nega q (2 ^ L) (co c1) (co s) y R').
  apply eqm_eq. unfold evalf. rewrite <- zsum_add. apply zsum_ext. intros i Hi. rewrite co_add by lia. rewrite co_mul by lia. rewrite L1. ring.
Qed.
