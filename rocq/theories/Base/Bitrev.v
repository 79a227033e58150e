(** Reversal of the low L bits of a natural number: the mathematics of bit-reversed orders. *)
From Coq Require Import ZArith List Lia Arith.
Import ListNotations.

Fixpoint brev (L x : nat) : nat :=
  match L with O => 0 | S l => (x mod 2) * 2 ^ l + brev l (x / 2) end.

Lemma pow2_nz l : 2 ^ l <> 0. Proof. apply Nat.pow_nonzero. lia. Qed.
Lemma pow2_ge1 l : 1 <= 2 ^ l. Proof. pose proof (pow2_nz l). lia. Qed.

Lemma brev_lt L : forall x, brev L x < 2 ^ L.
Proof.
  induction L as [|l IH]; intros x; [cbn; lia |]. cbn [brev]. rewrite Nat.pow_succ_r'.
  specialize (IH (x / 2)). pose proof (Nat.mod_upper_bound x 2 ltac:(lia)). nia.
Qed.

Lemma brev_0 L : brev L 0 = 0.
Proof. induction L as [|l IH]; cbn [brev]; auto. Qed.

(** appending a low bit *)
Lemma brev_low L x b : b < 2 -> brev (S L) (2 * x + b) = b * 2 ^ L + brev L x.
Proof.
  intros Hb. cbn [brev]. replace (2 * x + b) with (b + x * 2) by lia.
  rewrite Nat.mod_add, Nat.div_add by lia. rewrite Nat.mod_small, Nat.div_small by lia. reflexivity.
Qed.

(** adding a high bit *)
Lemma brev_high L : forall x b, x < 2 ^ L -> b < 2 -> brev (S L) (x + b * 2 ^ L) = 2 * brev L x + b.
Proof.
  induction L as [|l IH]; intros x b Hx Hb.
  - cbn in Hx. assert (x = 0) by lia. subst x. destruct b as [|[|b]]; [reflexivity | reflexivity | lia].
  - rewrite Nat.pow_succ_r' in *.
    remember (S l) as sl. cbn [brev]. subst sl.
    assert (E1 : (x + b * (2 * 2 ^ l)) mod 2 = x mod 2).
    { replace (x + b * (2 * 2 ^ l)) with (x + (b * 2 ^ l) * 2) by lia. apply Nat.mod_add. lia. }
    assert (E2 : (x + b * (2 * 2 ^ l)) / 2 = x / 2 + b * 2 ^ l).
    { replace (x + b * (2 * 2 ^ l)) with (x + (b * 2 ^ l) * 2) by lia. apply Nat.div_add. lia. }
    rewrite E1, E2. rewrite IH; [| apply Nat.div_lt_upper_bound; lia | exact Hb].
    cbn [brev]. rewrite Nat.pow_succ_r'. lia.
Qed.

Lemma brev_involutive L : forall x, x < 2 ^ L -> brev L (brev L x) = x.
Proof.
  induction L as [|l IH]; intros x Hx; [cbn in *; lia |].
  rewrite Nat.pow_succ_r' in Hx.
  pose proof (Nat.div_mod x 2 ltac:(lia)) as E. pose proof (Nat.mod_upper_bound x 2 ltac:(lia)) as B.
  cbn [brev]. rewrite (Nat.add_comm (x mod 2 * 2 ^ l)).
  change (brev (S l) (brev l (x / 2) + x mod 2 * 2 ^ l) = x).
  rewrite brev_high by (try apply brev_lt; lia).
  rewrite IH by (apply Nat.div_lt_upper_bound; lia). lia.
Qed.

Lemma brev_inj L x y : x < 2 ^ L -> y < 2 ^ L -> brev L x = brev L y -> x = y.
Proof. intros Hx Hy H. rewrite <- (brev_involutive L x Hx), <- (brev_involutive L y Hy), H. reflexivity. Qed.

(** the low s bits of an L-bit number, read as an s-bit number *)
Lemma brev_widen L s b : s <= L -> b < 2 ^ s -> brev L b = brev s b * 2 ^ (L - s).
Proof.
  revert s b. induction L as [|l IH]; intros s b Hs Hb.
  - assert (s = 0) by lia. subst. reflexivity.
  - destruct s as [|s].
    + cbn in Hb. assert (b = 0) by lia. subst. rewrite brev_0. reflexivity.
    + cbn [brev]. rewrite Nat.pow_succ_r' in Hb.
      rewrite (IH s (b / 2)) by (try apply Nat.div_lt_upper_bound; lia).
      replace (S l - S s) with (l - s) by lia.
      replace (2 ^ l) with (2 ^ s * 2 ^ (l - s)) by (rewrite <- Nat.pow_add_r; f_equal; lia). ring.
Qed.

(** 2^s + b: the index of twiddle b in the table for stage s *)
Lemma brev_stage L s b : s < L -> b < 2 ^ s -> brev L (2 ^ s + b) = (2 * brev s b + 1) * 2 ^ (L - s - 1).
Proof.
  intros Hs Hb.
  assert (H1 : 2 ^ s + b < 2 ^ (S s)) by (rewrite Nat.pow_succ_r'; lia).
  rewrite (brev_widen L (S s)) by (try exact H1; lia).
  replace (2 ^ s + b) with (b + 1 * 2 ^ s) by lia. rewrite brev_high by lia.
  replace (L - S s) with (L - s - 1) by lia. reflexivity.
Qed.

(** the all-ones prefix 2^L - 2^(s+1): reversed it is 2^(L-1-s) - 1 *)
Lemma brev_ones_prefix L s b : s < L -> b < 2 ^ s -> S (brev L (2 ^ L - 2 ^ S s + b)) = brev L (2 ^ s + b).
Proof.
  revert s b. induction L as [|l IH]; intros s b Hs Hb; [lia |].
  assert (P : 2 ^ S s <= 2 ^ S l) by (apply Nat.pow_le_mono_r; lia).
  destruct s as [|s].
  - cbn in Hb. assert (b = 0) by lia. subst b. rewrite Nat.add_0_r.
    change (2 ^ 1) with 2 in *. change (2 ^ 0) with 1. rewrite Nat.add_0_r in *.
    replace (brev (S l) 1) with (2 ^ l) by (cbn; change (1 mod 2) with 1; change (1/2) with 0; rewrite brev_0; lia).
    destruct l as [|l].
    + reflexivity.
    + (* 2^(l+2) - 2 = 2 * (2^(l+1) - 1) *)
      replace (2 ^ S (S l) - 2) with (2 * (2 ^ S l - 1) + 0) by (rewrite (Nat.pow_succ_r' 2 (S l)); pose proof (pow2_ge1 (S l)); lia).
      rewrite brev_low by lia. rewrite Nat.mul_0_l, Nat.add_0_l.
      (* brev (S l) (2^(S l) - 1) = 2^(S l) - 1 *)
      assert (O : forall k, brev k (2 ^ k - 1) = 2 ^ k - 1).
      { clear. induction k as [|k IHk]; [reflexivity |].
        replace (2 ^ S k - 1) with (2 * (2 ^ k - 1) + 1) at 1 by (rewrite Nat.pow_succ_r'; pose proof (pow2_ge1 k); lia).
        rewrite brev_low by lia. rewrite IHk. rewrite Nat.pow_succ_r'. pose proof (pow2_ge1 k). lia. }
      rewrite O. pose proof (pow2_ge1 (S l)). lia.
  - pose proof (Nat.div_mod b 2 ltac:(lia)) as E. pose proof (Nat.mod_upper_bound b 2 ltac:(lia)) as B.
    rewrite (Nat.pow_succ_r' 2 s) in Hb.
    assert (P2 : 2 ^ S s <= 2 ^ l) by (apply Nat.pow_le_mono_r; lia).
    replace (2 ^ S l - 2 ^ S (S s) + b) with (2 * (2 ^ l - 2 ^ S s + b / 2) + b mod 2).
    2: { rewrite (Nat.pow_succ_r' 2 l), (Nat.pow_succ_r' 2 (S s)). lia. }
    replace (2 ^ S s + b) with (2 * (2 ^ s + b / 2) + b mod 2) by (rewrite Nat.pow_succ_r'; lia).
    rewrite !brev_low by lia.
    rewrite <- (IH s (b / 2)) by (try apply Nat.div_lt_upper_bound; lia). lia.
Qed.
