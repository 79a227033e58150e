(** Small facts about powers of two, masks and rounding. *)
From Coq Require Import ZArith List Lia Bool.
From Verif Require Import Base.ZSum Base.Modeq Base.Word.
Local Open Scope Z_scope.

Lemma pow2_pos k : 0 <= k -> 0 < 2 ^ k.
Proof. intros. apply Z.pow_pos_nonneg; lia. Qed.

Lemma land_mask x n : 0 <= n -> Z.land x (2 ^ n - 1) = x mod 2 ^ n.
Proof. intros. rewrite <- Z.land_ones by lia. rewrite Z.ones_equiv. f_equal. Qed.

Lemma land_1 x : Z.land x 1 = x mod 2.
Proof. apply (land_mask x 1). lia. Qed.

Lemma pow2_S k : 0 <= k -> 2 ^ (k + 1) = 2 * 2 ^ k.
Proof. intros. rewrite Z.pow_add_r by lia. change (2 ^ 1) with 2. ring. Qed.

Lemma pow2_le a b : 0 <= a <= b -> 2 ^ a <= 2 ^ b.
Proof. intros. apply Z.pow_le_mono_r; lia. Qed.

Lemma pow2_split a b : 0 <= a <= b -> 2 ^ b = 2 ^ a * 2 ^ (b - a).
Proof. intros. rewrite <- Z.pow_add_r by lia. f_equal. lia. Qed.

Lemma mod_mod_divide x a b : 0 < a -> 0 < b -> (a | b) -> (x mod b) mod a = x mod a.
Proof.
  intros Ha Hb [c Hc]. symmetry. rewrite Hc. rewrite Z.mul_comm.
  rewrite Z.rem_mul_r by nia. rewrite Z.mul_comm, Z.mod_add by lia. symmetry. apply Z.mod_mod. lia.
Qed.

(** (x mod (a*b)) / a = (x/a) mod b *)
Lemma div_mod_mul x a b : 0 < a -> 0 < b -> (x mod (a * b)) / a = (x / a) mod b.
Proof.
  intros. rewrite Z.rem_mul_r by lia. rewrite Z.mul_comm, Z.div_add by lia.
  rewrite Z.div_small by (apply Z.mod_pos_bound; lia). lia.
Qed.

Lemma half_up x k : 1 <= k -> x / 2 ^ k + (x / 2 ^ (k - 1)) mod 2 = (x + 2 ^ (k - 1)) / 2 ^ k.
Proof.
  intros Hk. set (h := 2 ^ (k - 1)). assert (0 < h) by (apply pow2_pos; lia).
  replace (2 ^ k) with (h * 2) by (unfold h; rewrite (Z.mul_comm _ 2), <- pow2_S by lia; f_equal; lia).
  rewrite <- !Z.div_div by lia.
  replace (x + h) with (x + 1 * h) by ring. rewrite Z.div_add by lia.
  pose proof (Z.div_mod (x / h) 2 ltac:(lia)). pose proof (Z.mod_pos_bound (x / h) 2 ltac:(lia)).
  set (y := x / h) in *. assert (E : y mod 2 = 0 \/ y mod 2 = 1) by lia.
  destruct E as [E|E]; rewrite E in *.
  - replace (y + 1) with (1 + (y / 2) * 2) by lia. rewrite Z.div_add by lia. change (1 / 2) with 0. lia.
  - replace (y + 1) with (0 + (y / 2 + 1) * 2) by lia. rewrite Z.div_add by lia. change (0 / 2) with 0. lia.
Qed.
