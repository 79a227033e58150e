From Coq Require Import ZArith Znumtheory List Bool Lia Setoid.
From Verif Require Import Base.ZSum Base.Modeq Base.Lists Base.Bitrev Base.Nega Base.Powm Base.Word Base.Bits.
From Verif Require Import Ckks.Model_rns_utils Ckks.Model_math Ckks.Model_scheme Ckks.Model_auto Ckks.Spec_ntt Ckks.Spec_poly Ckks.Proof_bitrev Ckks.Proof_transform.
Import ListNotations.
Local Open Scope Z_scope.

Lemma poly_auto_length g a : length (poly_auto g a) = length a.
Proof. unfold poly_auto. rewrite map_length, seq_length. reflexivity. Qed.
Lemma co_auto g a k : (k < length a)%nat -> co (poly_auto g a) k = zsum (length a) (fun i =>
    let r := (Z.of_nat i * g) mod (2 * Z.of_nat (length a)) in
    if r =? Z.of_nat k then co a i else if r =? Z.of_nat (k + length a) then - co a i else 0).
Proof. intros H. unfold poly_auto, co at 1. rewrite nth_map_seq by exact H. reflexivity. Qed.

(** powers of a root of X^n = -1 depend on the exponent modulo 2n *)
Lemma pw_period q x n e e' : (0 < n)%nat -> pw x n == -1 [mod q] -> (e mod (2 * n) = e' mod (2 * n))%nat -> pw x e == pw x e' [mod q].
Proof.
  intros Hn Hx E.
  assert (H : forall m, pw x m == pw x (m mod (2 * n)) [mod q]).
  { intros m. rewrite (Nat.div_mod m (2 * n)) at 1 by lia. rewrite pw_add, pw_mul.
    assert (X : pw x (2 * n) == 1 [mod q]). { replace (2 * n)%nat with (n + n)%nat by lia. rewrite pw_add, Hx. reflexivity. }
    assert (Y : pw (pw x (2 * n)) (m / (2 * n)) == 1 [mod q]). { rewrite X. rewrite pw_one. reflexivity. }
    rewrite Y, Z.mul_1_l. reflexivity. }
  rewrite (H e), (H e'), E. reflexivity.
Qed.

Lemma auto_eval q n g g' a x : (0 < n)%nat -> length a = n -> pw x n == -1 [mod q] -> Z.of_nat g' == g [mod 2 * Z.of_nat n] ->
  eval (poly_auto g a) x == eval a (pw x g') [mod q].
Proof.
  intros Hn La Hx Hg. rewrite !eval_co, poly_auto_length, La. unfold evalf.
  rewrite (zsum_ext n (fun i => co (poly_auto g a) i * pw x i) (fun k => zsum n (fun i =>
    (if (Z.of_nat i * g) mod (2 * Z.of_nat n) =? Z.of_nat k then co a i else if (Z.of_nat i * g) mod (2 * Z.of_nat n) =? Z.of_nat (k + n) then - co a i else 0) * pw x k))).
  2: { intros k Hk. rewrite co_auto by lia. rewrite La. rewrite zsum_mul_r. reflexivity. }
  rewrite zsum_swap. apply eqm_zsum. intros i Hi.
  assert (R : (Z.of_nat i * g) mod (2 * Z.of_nat n) = Z.of_nat ((g' * i) mod (2 * n))).
  { rewrite Nat2Z.inj_mod. replace (Z.of_nat (2 * n)) with (2 * Z.of_nat n) by lia. apply eqm_mod_iff; [lia |].
    rewrite Nat2Z.inj_mul, Hg. apply eqm_eq. ring. }
  rewrite R. set (r := ((g' * i) mod (2 * n))%nat). assert (Hr : (r < 2 * n)%nat) by (apply Nat.mod_upper_bound; lia).
  assert (P : pw (pw x g') i == pw x r [mod q]). { rewrite <- pw_mul. apply (pw_period q x n); [exact Hn | exact Hx |]. unfold r. rewrite Nat.mod_mod by lia. reflexivity. }
  rewrite P. destruct (Nat.lt_ge_cases r n) as [C | C].
  - rewrite (zsum_single n r); [| exact C |].
    + rewrite Z.eqb_refl. reflexivity.
    + intros k Hk NE. destruct (Z.eqb_spec (Z.of_nat r) (Z.of_nat k)); [lia |]. destruct (Z.eqb_spec (Z.of_nat r) (Z.of_nat (k + n))); [lia |]. lia.
  - rewrite (zsum_single n (r - n)); [| lia |].
    + destruct (Z.eqb_spec (Z.of_nat r) (Z.of_nat (r - n))); [lia |]. destruct (Z.eqb_spec (Z.of_nat r) (Z.of_nat (r - n + n))); [| lia].
      replace r with (n + (r - n))%nat at 2 by lia. rewrite pw_add, Hx. apply eqm_eq. ring.
    + intros k Hk NE. destruct (Z.eqb_spec (Z.of_nat r) (Z.of_nat k)); [lia |]. destruct (Z.eqb_spec (Z.of_nat r) (Z.of_nat (k + n))); [lia |]. lia.
Qed.

(** the 32-bit bit reversal is the bit reversal *)
Lemma bit_reverse_u32_loop_spec n : forall m (r x : nat), (m + n <= 32)%nat -> (r < 2 ^ m)%nat ->
  bit_reverse_u32_loop n (Z.of_nat r) (Z.of_nat x) = Z.of_nat (r * 2 ^ n + brev n x).
Proof.
  induction n as [|n IH]; intros m r x Hm Hr; cbn [bit_reverse_u32_loop brev].
  - f_equal. cbn. lia.
  - rewrite land1_nat, shiftr1_nat. pose proof (Nat.mod_upper_bound x 2 ltac:(lia)).
    assert (P : Z.of_nat (2 ^ S m) <= 2 ^ 32). { rewrite Nat2Z.inj_pow. apply Z.pow_le_mono_r; lia. }
    rewrite Nat.pow_succ_r' in P.
    unfold u32. rewrite (Z.mod_small (Z.shiftl (Z.of_nat r) 1)) by (rewrite Z.shiftl_mul_pow2 by lia; lia).
    rewrite lor_shift1 by lia. replace (2 * Z.of_nat r + Z.of_nat (x mod 2)) with (Z.of_nat (2 * r + x mod 2)) by lia.
    rewrite (IH (S m)); [f_equal; rewrite Nat.pow_succ_r'; lia | lia | rewrite Nat.pow_succ_r'; lia].
Qed.
Lemma bit_reverse_u32_spec L x : (L <= 32)%nat -> bit_reverse_u32 L (Z.of_nat x) = Z.of_nat (brev L x).
Proof. intros H. unfold bit_reverse_u32. change 0 with (Z.of_nat 0) at 1. rewrite (bit_reverse_u32_loop_spec L 0); [f_equal | lia | cbn; lia]. Qed.

(** the gathered index t satisfies 2*rev(t)+1 = (2*rev(j)+1)*g modulo 2n *)
Lemma automorphism_index_spec L g j : (L <= 31)%nat -> 0 <= g < 2 ^ 32 -> g mod 2 = 1 -> (j < 2 ^ L)%nat ->
  let t := automorphism_index (2 ^ L) g j in
  (t < 2 ^ L)%nat /\ ((2 * brev L t + 1) mod (2 * 2 ^ L) = ((2 * brev L j + 1) * Z.to_nat g) mod (2 * 2 ^ L))%nat.
Proof.
  intros HL Hg Ho Hj. unfold automorphism_index. rewrite Nat.log2_pow2 by lia.
  assert (P : Z.of_nat (2 ^ L) = 2 ^ Z.of_nat L) by apply Nat2Z.inj_pow.
  assert (P31 : 2 ^ Z.of_nat L <= 2 ^ 31) by (apply Z.pow_le_mono_r; lia). assert (PP : 0 < 2 ^ Z.of_nat L) by (apply Z.pow_pos_nonneg; lia).
  replace (u32 (Z.of_nat j)) with (Z.of_nat j) by (symmetry; apply Z.mod_small; lia). rewrite bit_reverse_u32_spec by lia.
  set (b := brev L j). assert (Hb : (b < 2 ^ L)%nat) by apply brev_lt.
  set (x := (2 * Z.of_nat b + 1) * g).
  assert (E1 : u32 (u32 (u32 (u32 (2 * Z.of_nat b) + 1) * g) - 1) = (x - 1) mod 2 ^ 32).
  { unfold u32. rewrite (Z.mod_small (2 * Z.of_nat b)) by lia. rewrite (Z.mod_small (2 * Z.of_nat b + 1)) by lia. fold x.
    rewrite Zminus_mod_idemp_l. reflexivity. }
  rewrite E1.
  assert (Xo : exists y, x = 2 * y + 1 /\ 0 <= y).
  { exists (Z.of_nat b * g + g / 2). pose proof (Z.div_mod g 2 ltac:(lia)). unfold x. split; [lia |]. pose proof (Z.div_pos g 2). nia. }
  destruct Xo as (y & Ey & Hy).
  assert (E2 : (x - 1) mod 2 ^ 32 / 2 mod Z.of_nat (2 ^ L) = y mod 2 ^ Z.of_nat L).
  { rewrite Ey, P. replace (2 * y + 1 - 1) with (y * 2) by lia. change (2 ^ 32) with (2 ^ 31 * 2). rewrite Zmult_mod_distr_r, Z.div_mul by lia.
    replace (2 ^ 31) with (2 ^ Z.of_nat L * 2 ^ (31 - Z.of_nat L)) by (rewrite <- Z.pow_add_r by lia; f_equal; lia).
    apply mod_mod_divide; [lia | | apply Z.divide_factor_l]. apply Z.mul_pos_pos; [lia | apply Z.pow_pos_nonneg; lia]. }
  rewrite E2. pose proof (Z.mod_pos_bound y (2 ^ Z.of_nat L) PP) as B.
  replace (y mod 2 ^ Z.of_nat L) with (Z.of_nat (Z.to_nat (y mod 2 ^ Z.of_nat L))) by lia.
  rewrite bit_reverse_u32_spec by lia. rewrite Nat2Z.id. set (w := Z.to_nat (y mod 2 ^ Z.of_nat L)).
  assert (Hw : (w < 2 ^ L)%nat) by (unfold w; lia). split; [apply brev_lt |]. rewrite brev_involutive by exact Hw.
  apply Nat2Z.inj. rewrite !Nat2Z.inj_mod. replace (Z.of_nat (2 * 2 ^ L)) with (2 * 2 ^ Z.of_nat L) by lia.
  replace (Z.of_nat (2 * w + 1)) with (2 * (y mod 2 ^ Z.of_nat L) + 1) by (unfold w; lia).
  replace (Z.of_nat ((2 * b + 1) * Z.to_nat g)) with x by (unfold x; lia). rewrite Ey.
  apply eqm_mod_iff; [lia |]. apply eqm_ex. exists (- (y / 2 ^ Z.of_nat L)). pose proof (Z.div_mod y (2 ^ Z.of_nat L) ltac:(lia)). lia.
Qed.

(** C37 for one column *)
Lemma automorphism_column L q psi g a : (L <= 31)%nat -> 0 < q -> pw psi (2 ^ L) == -1 [mod q] -> 0 <= g < 2 ^ 32 -> g mod 2 = 1 ->
  length a = (2 ^ L)%nat ->
  map (fun j => nth (automorphism_index (2 ^ L) g j) (transform L q psi a) 0) (seq 0 (2 ^ L)) = transform L q psi (poly_auto g a).
Proof.
  intros HL Hq Hr Hg Ho La. apply transform_intro; [exact Hq | rewrite map_length, seq_length; reflexivity |].
  intros j Hj. rewrite (nth_map_seq (fun j => nth (automorphism_index (2 ^ L) g j) (transform L q psi a) 0)) by exact Hj.
  destruct (automorphism_index_spec L g j HL Hg Ho Hj) as [Ht E]. split; [apply slot_range; assumption |].
  rewrite !slot_eval by assumption. set (t := automorphism_index (2 ^ L) g j) in *.
  assert (R : pw (pw psi (2 * brev L j + 1)) (2 ^ L) == -1 [mod q]).
  { rewrite <- pw_mul, Nat.mul_comm, pw_mul, Hr. apply pw_neg1_odd. rewrite Nat.add_1_r, Nat.odd_succ, Nat.even_mul. reflexivity. }
  rewrite (auto_eval q (2 ^ L) g (Z.to_nat g)); [| apply pow2_ge1 | exact La | exact R | rewrite Z2Nat.id by lia; reflexivity].
  rewrite !eval_co. apply evalf_eqm; [reflexivity |]. rewrite <- pw_mul. apply (pw_period q psi (2 ^ L)); [apply pow2_ge1 | exact Hr | exact E].
Qed.

(** reversal of the order complements the bits *)
Lemma brev_complement L : forall j, (j < 2 ^ L)%nat -> brev L (2 ^ L - 1 - j) = (2 ^ L - 1 - brev L j)%nat.
Proof.
  induction L as [|l IH]; intros j Hj; [reflexivity |]. rewrite Nat.pow_succ_r' in *.
  pose proof (Nat.div_mod j 2 ltac:(lia)) as E. pose proof (Nat.mod_upper_bound j 2 ltac:(lia)) as B.
  assert (Hd : (j / 2 < 2 ^ l)%nat) by (apply Nat.div_lt_upper_bound; lia).
  replace (2 * 2 ^ l - 1 - j)%nat with (2 * (2 ^ l - 1 - j / 2) + (1 - j mod 2))%nat by lia.
  rewrite brev_low by lia. rewrite IH by exact Hd. rewrite E at 3. rewrite brev_low by lia.
  pose proof (brev_lt l (j / 2)). nia.
Qed.
Lemma flip_column L q psi a : (0 < q) -> pw psi (2 ^ L) == -1 [mod q] -> length a = (2 ^ L)%nat ->
  rev (transform L q psi a) = transform L q psi (poly_auto (-1) a).
Proof.
  intros Hq Hr La. apply transform_intro; [exact Hq | rewrite rev_length; apply transform_len |].
  intros j Hj. rewrite rev_nth by (rewrite transform_len; exact Hj). rewrite transform_len.
  replace (2 ^ L - S j)%nat with (2 ^ L - 1 - j)%nat by lia.
  split; [apply slot_range; [assumption | lia] |]. rewrite !slot_eval by lia. rewrite brev_complement by exact Hj.
  assert (R : pw (pw psi (2 * brev L j + 1)) (2 ^ L) == -1 [mod q]).
  { rewrite <- pw_mul, Nat.mul_comm, pw_mul, Hr. apply pw_neg1_odd. rewrite Nat.add_1_r, Nat.odd_succ, Nat.even_mul. reflexivity. }
  pose proof (pow2_ge1 L). pose proof (brev_lt L j).
  rewrite (auto_eval q (2 ^ L) (-1) (2 * 2 ^ L - 1)); [| apply pow2_ge1 | exact La | exact R | apply eqm_ex; exists 1; lia].
  rewrite !eval_co. apply evalf_eqm; [reflexivity |]. rewrite <- pw_mul. apply (pw_period q psi (2 ^ L)); [apply pow2_ge1 | exact Hr |].
  set (b := brev L j) in *. set (n := (2 ^ L)%nat) in *.
  replace ((2 * b + 1) * (2 * n - 1))%nat with (2 * (n - 1 - b) + 1 + (2 * b) * (2 * n))%nat by nia.
  symmetry. apply Nat.mod_add. lia.
Qed.
