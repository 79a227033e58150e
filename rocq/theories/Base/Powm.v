(** Powers with natural exponents modulo q, and evaluation of polynomials in Z[X]/(X^N+1) at roots of X^N = -1. *)
From Coq Require Import ZArith List Lia Setoid Morphisms.
From Verif Require Import Base.ZSum Base.Modeq Base.Nega.
Import ListNotations.
Local Open Scope Z_scope.

Definition pw (x : Z) (n : nat) : Z := x ^ Z.of_nat n.

Lemma pw_0 x : pw x 0 = 1. Proof. reflexivity. Qed.
Lemma pw_1 x : pw x 1 = x. Proof. unfold pw. apply Z.pow_1_r. Qed.
Lemma pw_S x n : pw x (S n) = x * pw x n.
Proof. unfold pw. rewrite Nat2Z.inj_succ, Z.pow_succ_r by lia. reflexivity. Qed.
Lemma pw_add x a b : pw x (a + b) = pw x a * pw x b.
Proof. unfold pw. rewrite Nat2Z.inj_add, Z.pow_add_r by lia. reflexivity. Qed.
Lemma pw_mul x a b : pw x (a * b) = pw (pw x a) b.
Proof. unfold pw. rewrite Nat2Z.inj_mul, Z.pow_mul_r by lia. reflexivity. Qed.
Lemma pw_mul_base x y n : pw (x * y) n = pw x n * pw y n.
Proof. unfold pw. apply Z.pow_mul_l. Qed.
Lemma pw_one n : pw 1 n = 1.
Proof. unfold pw. apply Z.pow_1_l. lia. Qed.

#[global] Instance pw_mor q : Proper (eqm q ==> eq ==> eqm q) pw.
Proof.
  intros a b H n m <-. induction n as [|n IH]; [reflexivity |]. rewrite !pw_S. apply eqm_mul_mor; assumption.
Qed.

Lemma pw_neg1_even q n : Nat.even n = true -> pw (-1) n == 1 [mod q].
Proof.
  intros H. apply Nat.even_spec in H. destruct H as [k ->]. rewrite pw_mul.
  change (pw (-1) 2) with 1. rewrite pw_one. reflexivity.
Qed.
Lemma pw_neg1_odd q n : Nat.odd n = true -> pw (-1) n == -1 [mod q].
Proof.
  intros H. apply Nat.odd_spec in H. destruct H as [k ->]. rewrite pw_add, pw_mul.
  change (pw (-1) 2) with 1. rewrite pw_one. reflexivity.
Qed.

(** value of a polynomial with coefficients a_0, ..., a_(n-1) *)
Definition evalf (n : nat) (a : nat -> Z) (x : Z) : Z := zsum n (fun i => a i * pw x i).

Lemma evalf_ext n a b x : (forall i, (i < n)%nat -> a i = b i) -> evalf n a x = evalf n b x.
Proof. intros H. apply zsum_ext. intros i Hi. rewrite H by exact Hi. reflexivity. Qed.
Lemma evalf_eqm q n a b x y : (forall i, (i < n)%nat -> a i == b i [mod q]) -> x == y [mod q] -> evalf n a x == evalf n b y [mod q].
Proof. intros H E. apply eqm_zsum. intros i Hi. rewrite E. rewrite (H i Hi). reflexivity. Qed.

(** multiplication modulo X^N + 1 becomes multiplication of values at every x with x^N = -1 *)
Lemma evalf_nega q N a b x : pw x N == -1 [mod q] ->
  evalf N (nega_coeff N a b) x == evalf N a x * evalf N b x [mod q].
Proof.
  intros Hx. unfold evalf, nega_coeff.
  rewrite (zsum_ext N _ (fun k => zsum N (fun i => (if (i <=? k)%nat then a i * b (k - i)%nat else - (a i * b (k + N - i)%nat)) * pw x k)))
    by (intros k Hk; rewrite zsum_mul_r; reflexivity).
  rewrite zsum_swap.
  rewrite <- zsum_mul_r. apply eqm_zsum. intros i Hi. 
  replace N with (i + (N - i))%nat at 1 by lia. rewrite zsum_split.
  replace (zsum N (fun i0 => b i0 * pw x i0)) with (zsum ((N - i) + i) (fun j => b j * pw x j)) by (f_equal; lia).
  rewrite zsum_split. rewrite Z.mul_add_distr_l. rewrite (Z.add_comm (a i * pw x i * zsum (N - i) _)).
  apply eqm_add_mor.
  - rewrite <- zsum_mul_l. apply eqm_zsum. intros k Hk.
    destruct (Nat.leb_spec i k) as [H | H]; [lia |].
    replace (k + N - i)%nat with (N - i + k)%nat by lia.
    transitivity (a i * b (N - i + k)%nat * (pw x N * pw x k)).
    + rewrite Hx. apply eqm_eq. ring.
    + apply eqm_eq. replace (pw x N) with (pw x i * pw x (N - i)) by (rewrite <- pw_add; f_equal; lia).
      rewrite (pw_add x (N - i) k). ring.
  - apply eqm_eq. rewrite <- zsum_mul_l. apply zsum_ext. intros k Hk.
    destruct (Nat.leb_spec i (i + k)) as [H | H]; [| lia].
    replace (i + k - i)%nat with k by lia. rewrite pw_add. ring.
Qed.
