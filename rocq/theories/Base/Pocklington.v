(** Primality certificates: Pocklington's theorem in the form of Brillhart, Lehmer and Selfridge, and modular powers
    computed with given quotients instead of divisions. *)
From Coq Require Import ZArith Znumtheory List Lia Setoid Morphisms.
From Verif Require Import Base.Modeq Base.Powm Base.Fermat Base.Order.
Import ListNotations.
Local Open Scope Z_scope.

Lemma pow_eqm q a b e : a == b [mod q] -> a ^ e == b ^ e [mod q].
Proof.
  intros H. destruct (Z.le_gt_cases 0 e) as [He | He]; [| rewrite !Z.pow_neg_r by lia; apply eqm_refl].
  revert e He. apply natlike_ind; [apply eqm_refl |]. intros e He IH. rewrite !Z.pow_succ_r by lia. rewrite IH. rewrite H. apply eqm_refl.
Qed.

Lemma fermatZ r a : prime r -> ~ (a == 0 [mod r]) -> a ^ (r - 1) == 1 [mod r].
Proof. intros Hr Ha. pose proof (fermat r a Hr Ha) as F. unfold pw in F. rewrite Z2Nat.id in F by (destruct Hr; lia). exact F. Qed.

(** two exponents giving 1 give 1 at their greatest common divisor *)
Lemma pow_gcd r a m n : 0 < m -> 0 < n -> a ^ m == 1 [mod r] -> a ^ n == 1 [mod r] -> a ^ Z.gcd m n == 1 [mod r].
Proof.
  intros Hm Hn Em En. pose proof (pw_gcd r a (Z.to_nat n) (Z.to_nat m)) as G. unfold pw in G. rewrite !Z2Nat.id in G by lia. specialize (G Em En).
  replace (Z.of_nat (Nat.gcd (Z.to_nat m) (Z.to_nat n))) with (Z.gcd m n) in G; [exact G |].
  set (x := Z.to_nat m). set (y := Z.to_nat n). replace m with (Z.of_nat x) by lia. replace n with (Z.of_nat y) by lia.
  apply Z.gcd_unique; [lia | apply divide_nat_Z, Nat.gcd_divide_l | apply divide_nat_Z, Nat.gcd_divide_r |].
  intros q Hx Hy. rewrite <- (Z.abs_eq (Z.of_nat (Nat.gcd x y))) by lia. apply Z.divide_abs_r.
  apply Z.divide_abs_l. replace (Z.abs q) with (Z.of_nat (Z.to_nat (Z.abs q))) by lia. apply divide_nat_Z. apply Nat.gcd_greatest; apply divide_nat_Z; rewrite Z2Nat.id by lia; apply Z.divide_abs_l; assumption.
Qed.

(** the divisors of a prime power *)
Lemma divides_prime_power q : prime q -> forall e, 0 <= e -> forall g, 0 < g -> (g | q ^ e) -> exists j, 0 <= j <= e /\ g = q ^ j.
Proof.
  intros Hq e He. pattern e. apply natlike_ind; [| | exact He]; clear e He.
  - intros g Hg D. exists 0. rewrite Z.pow_0_r in *. split; [lia |]. apply Z.divide_1_r_nonneg in D; lia.
  - intros e He IH g Hg D. pose proof (prime_ge_2 q Hq). rewrite Z.pow_succ_r in D by lia. destruct (Zdivide_dec q g) as [[k Hk] | N].
    + subst g. destruct (IH k) as (j & Hj & E); [nia | |].
      { destruct D as [c Hc]. exists c. apply (Z.mul_reg_l _ _ q); [lia |]. rewrite Hc. ring. }
      exists (j + 1). split; [lia |]. rewrite Z.pow_add_r, Z.pow_1_r by lia. rewrite E. ring.
    + destruct (IH g Hg) as (j & Hj & E); [| exists j; split; [lia | exact E]].
      apply (Gauss g q); [exact D |]. apply rel_prime_sym, prime_rel_prime; assumption.
Qed.

(** one prime power of the known part of N - 1 *)
Definition witness (N a q e : Z) : Prop :=
  prime q /\ 0 < e /\ (q ^ e | N - 1) /\ a ^ (N - 1) == 1 [mod N] /\ exists w, (a ^ ((N - 1) / q) - 1) * w == 1 [mod N].

Lemma witness_divides N a q e r : 1 < N -> witness N a q e -> prime r -> (r | N) -> (q ^ e | r - 1).
Proof.
  intros HN (Hq & He & [m Hm] & Ea & w & Ew) Hr Hd. pose proof (prime_ge_2 q Hq) as Q2. pose proof (prime_ge_2 r Hr) as R2.
  assert (Hqe : 0 < q ^ e) by (apply Z.pow_pos_nonneg; lia). assert (Hm0 : 0 < m) by nia.
  apply (eqm_weaken N r _ _ Hd) in Ea. apply (eqm_weaken N r _ _ Hd) in Ew.
  assert (Na : ~ (a == 0 [mod r])). { intros H0. rewrite (pow_eqm r _ _ _ H0) in Ea. rewrite Z.pow_0_l in Ea by lia. apply eqm_small in Ea; lia. }
  set (b := a ^ m). assert (Eb : b ^ (q ^ e) == 1 [mod r]). { unfold b. rewrite <- Z.pow_mul_r by lia. rewrite <- Hm. exact Ea. }
  assert (Nb : ~ (b == 0 [mod r])). { intros H0. rewrite (pow_eqm r _ _ _ H0) in Eb. rewrite Z.pow_0_l in Eb by lia. apply eqm_small in Eb; lia. }
  pose proof (pow_gcd r b (q ^ e) (r - 1) Hqe ltac:(lia) Eb (fermatZ r b Hr Nb)) as G.
  destruct (divides_prime_power q Hq e ltac:(lia) (Z.gcd (q ^ e) (r - 1))) as (j & Hj & E).
  { pose proof (Z.gcd_nonneg (q ^ e) (r - 1)). assert (Z.gcd (q ^ e) (r - 1) <> 0); [| lia]. intros Z0. apply Z.gcd_eq_0_l in Z0. lia. }
  { apply Z.gcd_divide_l. }
  rewrite E in G. destruct (Z.eq_dec j e) as [-> | Nj]; [rewrite <- E; apply Z.gcd_divide_r |]. exfalso.
  assert (Eq : (N - 1) / q = m * (q ^ j * q ^ (e - 1 - j))). { rewrite <- Z.pow_add_r by lia. replace (j + (e - 1 - j)) with (e - 1) by ring. rewrite Hm. replace (q ^ e) with (q ^ (e - 1) * q). - rewrite Z.mul_assoc. apply Z.div_mul. lia. - rewrite <- (Z.pow_1_r q) at 2. rewrite <- Z.pow_add_r by lia. f_equal. lia. }
  assert (W : a ^ ((N - 1) / q) == 1 [mod r]). { rewrite Eq. rewrite !Z.pow_mul_r by (try apply Z.mul_nonneg_nonneg; try apply Z.pow_nonneg; lia). fold b. rewrite (pow_eqm r _ _ _ G). rewrite Z.pow_1_l by (apply Z.pow_nonneg; lia). apply eqm_refl. }
  rewrite W in Ew. replace ((1 - 1) * w) with 0 in Ew by ring. apply eqm_small in Ew; lia.
Qed.

(** if every prime divisor of N is 1 modulo F, so is every divisor *)
Lemma divisors_one N F : (forall r, prime r -> (r | N) -> (F | r - 1)) -> forall m, 0 < m -> (m | N) -> (F | m - 1).
Proof.
  intros H. assert (S : forall k m : nat, (m < k)%nat -> (0 < m)%nat -> (Z.of_nat m | N) -> (F | Z.of_nat m - 1)).
  { induction k as [| k IH]; intros m Hk Hm D; [lia |]. destruct (Nat.eq_dec m 1) as [-> | N1]; [exists 0; ring |].
    destruct (prime_divisor_Z m) as (r & Pr & R0 & [c Hc]); [lia |]. pose proof (prime_ge_2 r Pr).
    assert (C0 : 0 < c) by nia. destruct (IH (Z.to_nat c)) as [u Hu]; [nia | lia | |].
    { rewrite Z2Nat.id by lia. apply Z.divide_trans with (Z.of_nat m); [exists r; lia | exact D]. }
    rewrite Z2Nat.id in Hu by lia. destruct (H r Pr) as [v Hv]; [apply Z.divide_trans with (Z.of_nat m); [exists c; exact Hc | exact D] |].
    exists (u * r + v). rewrite Hc. replace (c * r - 1) with ((c - 1) * r + (r - 1)) by ring. rewrite Hu, Hv. ring. }
  intros m Hm D. specialize (S (Datatypes.S (Z.to_nat m)) (Z.to_nat m)). rewrite Z2Nat.id in S by lia. apply S; [lia | lia | exact D].
Qed.

(** the conclusion: N = (c F + d) F + 1 with c < d - 1 leaves no room for two factors that are 1 modulo F *)
Theorem bls N F c d : 1 < F -> 0 <= c -> 0 <= d < F -> c < d - 1 -> N = (c * F + d) * F + 1 ->
  (forall r, prime r -> (r | N) -> (F | r - 1)) -> prime N.
Proof.
  intros HF Hc Hd Hcd EN H. assert (N1 : 1 < N) by (rewrite EN; clear - HF Hc Hd Hcd; nia). apply prime_alt. split; [exact N1 |]. intros n Hn [m Hm].
  assert (M : 1 < m < N) by (clear - Hn Hm; nia). pose proof (divisors_one N F H) as D.
  destruct (D n) as [a Ha]; [lia | exists m; exact Hm |]. destruct (D m) as [b Hb]; [lia | exists n; lia |].
  assert (A0 : 1 <= a) by (clear - Ha Hn HF; nia). assert (B0 : 1 <= b) by (clear - Hb M HF; nia).
  assert (E : a * b * F + a + b = c * F + d). { apply (Z.mul_reg_r _ _ F); [lia |]. replace n with (a * F + 1) in Hm by lia. replace m with (b * F + 1) in Hm by lia. rewrite EN in Hm. clear - Hm. lia. }
  clear D H Hm EN M Hn N1 Ha Hb. set (k := c - a * b). assert (K : a + b = d + k * F) by (unfold k; lia). assert (K0 : 0 <= k) by (clear - K Hd A0 B0 HF; nia).
  assert (a + b <= a * b + 1) by (clear - A0 B0; nia). assert (0 <= k * F) by (clear - K0 HF; nia). clear E. unfold k in *. lia.
Qed.

(** ** powers with given quotients *)
(** one pass over the bits of an exponent, most significant first; the list carries, beside each bit, the multiples of N to
    take away after the squaring and after the multiplication.  Any multiple is sound; the right one keeps the numbers small. *)
Fixpoint powq (N a x : Z) (l : list (bool * Z * Z)) : Z :=
  match l with
  | [] => x
  | (b, k, k') :: l' => let y := Z.square x - N * k in powq N a (if b then y * a - N * k' else y) l'
  end.
Fixpoint bits_value (e : Z) (l : list (bool * Z * Z)) : Z :=
  match l with [] => e | (b, _, _) :: l' => bits_value (2 * e + if b then 1 else 0) l' end.
Lemma powq_ok N a : forall l x e, 0 <= e -> x == a ^ e [mod N] -> powq N a x l == a ^ bits_value e l [mod N].
Proof.
  induction l as [| [[b k] k'] l IH]; intros x e He H; [exact H |]. cbn [powq bits_value]. apply IH; [destruct b; lia |].
  assert (S : x * x == a ^ (2 * e) [mod N]). { replace (2 * e) with (e + e) by ring. rewrite Z.pow_add_r by lia. rewrite H. apply eqm_refl. }
  assert (R : forall y k, y - N * k == y [mod N]) by (intros y k0; exists (- k0); ring). rewrite Z.square_spec.
  destruct b; [| rewrite Z.add_0_r, R; exact S]. rewrite R, R, Z.pow_add_r, Z.pow_1_r by lia. rewrite S. apply eqm_refl.
Qed.
(** the step used by certificates: x = a^e gives y = a^(e f) once the pass over f's bits, started at x, ends in y *)
Lemma powq_step N a x e f y l : 0 <= e -> 0 <= f -> x == a ^ e [mod N] -> bits_value 1 l = f -> powq N x x l = y -> y == a ^ (e * f) [mod N].
Proof.
  intros He Hf H B P. rewrite Z.pow_mul_r by lia. rewrite <- (pow_eqm N _ _ f H). rewrite <- P, <- B. apply powq_ok; [lia |]. rewrite Z.pow_1_r. apply eqm_refl.
Qed.
(** the pieces of a certificate *)
Definition is_pow (N a e x : Z) : Prop := 0 <= e /\ x == a ^ e [mod N].
Lemma bits_value_pos : forall l e, 0 <= e -> 0 <= bits_value e l.
Proof. induction l as [| [[b k] k'] l IH]; intros e He; [exact He |]. cbn [bits_value]. apply IH. destruct b; lia. Qed.
Lemma is_pow_base N a : is_pow N a 1 a.
Proof. split; [lia |]. rewrite Z.pow_1_r. apply eqm_refl. Qed.
Lemma is_pow_step N a e x f y l : is_pow N a e x -> bits_value 1 l = f -> powq N x x l = y -> is_pow N a (e * f) y.
Proof.
  intros [He H] B P. assert (Hf : 0 <= f) by (rewrite <- B; apply bits_value_pos; lia). split; [apply Z.mul_nonneg_nonneg; assumption |]. apply (powq_step N a x e f y l); assumption.
Qed.
Lemma is_pow_exp N a e e' x : is_pow N a e x -> e = e' -> is_pow N a e' x.
Proof. intros H <-. exact H. Qed.
Lemma witness_intro N a q j x m w k : prime q -> 0 < j -> N - 1 = m * q ^ j -> is_pow N a (N - 1) 1 -> is_pow N a ((N - 1) / q) x -> (x - 1) * w - 1 = k * N -> witness N a q j.
Proof.
  intros Hq Hj Hm [_ H1] [_ Hx] Hw. split; [exact Hq |]. split; [exact Hj |]. split; [exists m; exact Hm |]. split; [apply eqm_sym; exact H1 |]. exists w. rewrite <- Hx. exists k. exact Hw.
Qed.
Lemma witness_divides_1 N a q r : 1 < N -> witness N a q 1 -> prime r -> (r | N) -> (q | r - 1).
Proof. intros H W P D. pose proof (witness_divides N a q 1 r H W P D) as X. rewrite Z.pow_1_r in X. exact X. Qed.
Lemma mul_divides a b x : Z.gcd a b = 1 -> (a | x) -> (b | x) -> (a * b | x).
Proof. intros E [u Hu] D. apply Zgcd_1_rel_prime in E. subst x. destruct (Gauss b a u) as [v Hv]; [rewrite Z.mul_comm; exact D | apply rel_prime_sym; exact E |]. exists v. subst u. ring. Qed.
