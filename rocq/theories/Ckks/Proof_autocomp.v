(** Automorphisms compose, are additive, keep congruences and do not enlarge coefficients. *)
From Coq Require Import ZArith Znumtheory List Bool Lia.
From Verif Require Import Base.ZSum Base.Modeq Base.Nega Base.Powm Base.Lists.
From Verif Require Import Ckks.Spec_poly Ckks.Proof_transform Ckks.Proof_auto Ckks.Proof_keyswitch Ckks.Proof_moddown Ckks.Proof_encrypt.
Import ListNotations.
Local Open Scope Z_scope.

(** 1 when r is a multiple of 2n, -1 when r is n more than one, 0 otherwise *)
Definition chi (n r : Z) : Z := if r mod (2 * n) =? 0 then 1 else if r mod (2 * n) =? n then -1 else 0.

Lemma chi_cases n r : 0 < n -> (exists z, r = 2 * n * z) /\ chi n r = 1 \/ (exists z, r = n + 2 * n * z) /\ chi n r = -1 \/ (forall z, r <> n * z) /\ chi n r = 0.
Proof.
  intros Hn. unfold chi. pose proof (Z.div_mod r (2 * n) ltac:(lia)) as D. pose proof (Z.mod_pos_bound r (2 * n) ltac:(lia)) as B.
  destruct (Z.eqb_spec (r mod (2 * n)) 0) as [E | E]; [left; split; [exists (r / (2 * n)); lia | reflexivity] |].
  destruct (Z.eqb_spec (r mod (2 * n)) n) as [E' | E']; [right; left; split; [exists (r / (2 * n)); lia | reflexivity] |].
  right. right. split; [| reflexivity]. intros z ->. destruct (Z.Even_or_Odd z) as [[w ->] | [w ->]].
  - apply E. replace (n * (2 * w)) with (w * (2 * n)) by ring. apply Z_mod_mult.
  - apply E'. replace (n * (2 * w + 1)) with (n + w * (2 * n)) by ring. rewrite Z_mod_plus_full. apply Z.mod_small. lia.
Qed.
Lemma chi_period n r z : 0 < n -> chi n (r + 2 * n * z) = chi n r.
Proof. intros Hn. unfold chi. replace (r + 2 * n * z) with (r + z * (2 * n)) by ring. rewrite Z_mod_plus_full. reflexivity. Qed.
Lemma chi_shift n r : 0 < n -> chi n (r + n) = - chi n r.
Proof.
  intros Hn. destruct (chi_cases n r Hn) as [[[z E1] ->] | [[[z E1] ->] | [H ->]]]; destruct (chi_cases n (r + n) Hn) as [[[w E] ->] | [[[w E] ->] | [H' ->]]]; try reflexivity; exfalso.
  - assert (2 * (w - z) = 1) by nia. lia.
  - apply (H' (2 * z + 1)). lia.
  - assert (2 * (w - z) = 1) by nia. lia.
  - apply (H' (2 * z + 2)). lia.
  - apply (H (2 * w - 1)). lia.
  - apply (H (2 * w)). lia.
Qed.

Lemma co_chi g a k : (k < length a)%nat -> co (poly_auto g a) k = zsum (length a) (fun i => chi (Z.of_nat (length a)) (Z.of_nat i * g - Z.of_nat k) * co a i).
Proof.
  intros Hk. rewrite co_auto by exact Hk. apply zsum_ext. intros i Hi. cbv zeta. set (n := Z.of_nat (length a)). assert (Hn : 0 < n) by lia. set (x := Z.of_nat i * g).
  pose proof (Z.div_mod x (2 * n) ltac:(lia)) as D. pose proof (Z.mod_pos_bound x (2 * n) ltac:(lia)) as B. set (r := x mod (2 * n)) in *.
  replace (x - Z.of_nat k) with (r - Z.of_nat k + 2 * n * (x / (2 * n))) by lia. rewrite chi_period by exact Hn. rewrite Nat2Z.inj_add. fold n.
  destruct (chi_cases n (r - Z.of_nat k) Hn) as [[[z E] ->] | [[[z E] ->] | [H ->]]].
  - assert (z = 0) by nia. destruct (Z.eqb_spec r (Z.of_nat k)); [ring | nia].
  - assert (z = 0 \/ z = -1) as [-> | ->] by nia; [| lia]. destruct (Z.eqb_spec r (Z.of_nat k)); [lia |]. destruct (Z.eqb_spec r (Z.of_nat k + n)); [ring | lia].
  - destruct (Z.eqb_spec r (Z.of_nat k)); [exfalso; apply (H 0); lia |]. destruct (Z.eqb_spec r (Z.of_nat k + n)); [exfalso; apply (H 1); lia | ring].
Qed.

Lemma auto_add g a b : length a = length b -> poly_auto g (poly_add a b) = poly_add (poly_auto g a) (poly_auto g b).
Proof.
  intros E. apply (list_ext 0); [rewrite poly_auto_length, !poly_add_length, poly_auto_length; reflexivity |]. intros k Hk. rewrite poly_auto_length, poly_add_length in Hk.
  change (co (poly_auto g (poly_add a b)) k = co (poly_add (poly_auto g a) (poly_auto g b)) k). rewrite co_add by (rewrite poly_auto_length; exact Hk). rewrite !co_chi by (rewrite ?poly_add_length; lia).
  rewrite poly_add_length, <- E, <- zsum_add. apply zsum_ext. intros i Hi. rewrite co_add by exact Hi. ring.
Qed.

Lemma auto_congr q g a b : 0 < q -> poly_mod q a = poly_mod q b -> poly_mod q (poly_auto g a) = poly_mod q (poly_auto g b).
Proof.
  intros Hq E. apply poly_mod_eqm in E; [| exact Hq]. destruct E as [EL E]. apply poly_mod_eqm; [exact Hq |]. rewrite !poly_auto_length. split; [exact EL |]. intros k Hk.
  rewrite !co_chi by lia. rewrite <- EL. apply eqm_zsum. intros i Hi. rewrite (E i Hi). reflexivity.
Qed.

Lemma auto_compose g h a : g mod 2 = 1 -> poly_auto g (poly_auto h a) = poly_auto (h * g) a.
Proof.
  intros Hg. apply (list_ext 0); [rewrite !poly_auto_length; reflexivity |]. intros k Hk. rewrite !poly_auto_length in Hk.
  change (co (poly_auto g (poly_auto h a)) k = co (poly_auto (h * g) a) k). rewrite !co_chi by (rewrite ?poly_auto_length; exact Hk). rewrite poly_auto_length. set (n := Z.of_nat (length a)). assert (Hn : 0 < n) by lia.
  transitivity (zsum (length a) (fun j => zsum (length a) (fun i => chi n (Z.of_nat j * g - Z.of_nat k) * (chi n (Z.of_nat i * h - Z.of_nat j) * co a i)))).
  { apply zsum_ext. intros j Hj. rewrite co_chi by exact Hj. fold n. rewrite zsum_mul_l. reflexivity. }
  rewrite zsum_swap. apply zsum_ext. intros i Hi. set (x := Z.of_nat i * h). pose proof (Z.div_mod x n ltac:(lia)) as D. pose proof (Z.mod_pos_bound x n ltac:(lia)) as B.
  set (j := Z.to_nat (x mod n)). assert (Ej : Z.of_nat j = x mod n) by (unfold j; apply Z2Nat.id; lia).
  rewrite (zsum_single (length a) j).
  - replace (Z.of_nat i * (h * g)) with (x * g) by (unfold x; ring). destruct (Z.Even_or_Odd (x / n)) as [[z E] | [z E]].
    + replace (x - Z.of_nat j) with (0 + 2 * n * z) by nia. rewrite chi_period by exact Hn. replace (chi n 0) with 1 by (unfold chi; rewrite Z.mod_0_l by lia; reflexivity).
      replace (x * g - Z.of_nat k) with (Z.of_nat j * g - Z.of_nat k + 2 * n * (z * g)) by nia. rewrite chi_period by exact Hn. ring.
    + pose proof (Z.div_mod g 2 ltac:(lia)) as Dg. rewrite Hg in Dg. set (w := g / 2) in *.
      replace (x - Z.of_nat j) with (0 + n + 2 * n * z) by nia. rewrite chi_period, chi_shift by exact Hn. replace (chi n 0) with 1 by (unfold chi; rewrite Z.mod_0_l by lia; reflexivity).
      replace (x * g - Z.of_nat k) with (Z.of_nat j * g - Z.of_nat k + n + 2 * n * (z * g + w)).
      * rewrite chi_period, chi_shift by exact Hn. ring.
      * assert (X : x = Z.of_nat j + n * (2 * z + 1)) by lia. rewrite X. transitivity (Z.of_nat j * g - Z.of_nat k + n * (2 * w + 1) + 2 * n * z * g); [ring |]. rewrite <- Dg at 1. ring.
  - lia.
  - intros j' Hj' NE. destruct (chi_cases n (x - Z.of_nat j') Hn) as [[[z E] _] | [[[z E] _] | [_ ->]]]; [exfalso | exfalso | ring]; apply NE; apply Nat2Z.inj; rewrite Ej.
    + apply (Z.mod_unique_pos x n (2 * z) (Z.of_nat j')); lia.
    + apply (Z.mod_unique_pos x n (2 * z + 1) (Z.of_nat j')); lia.
Qed.

Lemma zsum_one n f B : 0 <= B -> (forall i j, (i < n)%nat -> (j < n)%nat -> i <> j -> f i = 0 \/ f j = 0) -> (forall i, (i < n)%nat -> Z.abs (f i) <= B) -> Z.abs (zsum n f) <= B.
Proof.
  intros HB. induction n as [|n IH]; intros H1 H2; cbn [zsum]; [lia |].
  destruct (Z.eq_dec (f n) 0) as [E | E].
  - rewrite E, Z.add_0_r. apply IH; intros; [apply H1 | apply H2]; lia.
  - replace (zsum n f) with 0; [pose proof (H2 n ltac:(lia)); lia |]. symmetry. rewrite (zsum_ext n f (fun _ => 0)); [rewrite (zsum_ext n (fun _ => 0) (fun i => 0 * 0)) by reflexivity; rewrite zsum_mul_l; ring |].
    intros i Hi. destruct (H1 i n ltac:(lia) ltac:(lia) ltac:(lia)); [assumption | contradiction].
Qed.

Lemma odd_gcd_pow2 g L : g mod 2 = 1 -> Z.gcd (2 ^ Z.of_nat L) g = 1.
Proof.
  intros Hg. assert (R : rel_prime 2 g).
  { apply prime_rel_prime; [exact prime_2 |]. intros D. apply Z.mod_divide in D; lia. }
  apply Zgcd_1_rel_prime. apply rel_prime_sym. induction L as [|L IH]; [apply rel_prime_sym, rel_prime_1 |].
  replace (2 ^ Z.of_nat (S L)) with (2 * 2 ^ Z.of_nat L) by (rewrite Nat2Z.inj_succ, Z.pow_succ_r by lia; reflexivity). apply rel_prime_mult; [apply rel_prime_sym; exact R | exact IH].
Qed.

Lemma auto_bound L g a B : g mod 2 = 1 -> length a = (2 ^ L)%nat -> 0 <= B -> poly_bound B a -> poly_bound B (poly_auto g a).
Proof.
  intros Hg La HB BA. apply poly_bound_intro. intros k Hk. rewrite poly_auto_length in Hk. rewrite co_chi by exact Hk. apply zsum_one; [exact HB | |].
  - intros i j Hi Hj NE. set (n := Z.of_nat (length a)). assert (En : n = 2 ^ Z.of_nat L) by (unfold n; rewrite La, Nat2Z.inj_pow; reflexivity). assert (Hn : 0 < n) by lia.
    destruct (chi_cases n (Z.of_nat i * g - Z.of_nat k) Hn) as [Ci | [Ci | [_ ->]]]; [| | left; ring]; (destruct (chi_cases n (Z.of_nat j * g - Z.of_nat k) Hn) as [Cj | [Cj | [_ ->]]]; [| | right; ring]); exfalso;
      destruct Ci as [[z Ez] _]; destruct Cj as [[w Ew] _]; apply NE, Nat2Z.inj;
      (assert (DV : (n | g * (Z.of_nat i - Z.of_nat j))) by (first [exists (2 * z - 2 * w); lia | exists (2 * z - 2 * w + 1); lia | exists (2 * z - 2 * w - 1); lia]));
      (apply Z.gauss in DV; [| rewrite En; apply odd_gcd_pow2; exact Hg]); destruct DV as [d DV]; (assert (Z.of_nat i < n) by (unfold n; lia)); (assert (Z.of_nat j < n) by (unfold n; lia)); clearbody n; (assert (d = 0) by nia); subst d; lia.
  - intros i Hi. pose proof (poly_bound_co B a i BA Hi). assert (H01 : Z.abs (chi (Z.of_nat (length a)) (Z.of_nat i * g - Z.of_nat k)) <= 1) by (unfold chi; repeat match goal with |- context [if ?b then _ else _] => destruct b end; cbn; lia).
    rewrite Z.abs_mul. nia.
Qed.
