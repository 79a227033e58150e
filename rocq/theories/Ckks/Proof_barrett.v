From Coq Require Import ZArith List Bool Lia.
From Verif Require Import Ckks.Model_barrett.
Local Open Scope Z_scope.

Lemma rne_bounds : forall n d, 0 < d -> n / d <= rne n d <= n / d + 1.
Proof.
  intros n d Hd. unfold rne.
  destruct (2 * (n mod d) <? d); [lia |]. destruct (d <? 2 * (n mod d)); [lia |].
  destruct (Z.even (n / d)); lia.
Qed.

(** rounding up needs a remainder of at least half the divisor *)
Lemma rne_up : forall n d, 0 < d -> rne n d = n / d + 1 -> d <= 2 * (n mod d).
Proof.
  intros n d Hd. unfold rne.
  destruct (2 * (n mod d) <? d) eqn:E1; [lia |]. apply Z.ltb_ge in E1. lia.
Qed.

(** for moduli of k bits the exponent of 2^(2k)/m is k *)
Lemma float_floordiv_pow : forall m k, 1 < m -> k = Z.log2_up m -> k <= 52 ->
  float_floordiv (2 ^ (2 * k)) m = rne (2 ^ (2 * k) * 2 ^ (52 - k)) m / 2 ^ (52 - k).
Proof.
  intros m k Hm -> Hk.
  pose proof (Z.log2_up_spec m Hm) as [H1 H2].
  pose proof (Z.log2_up_pos m Hm) as Hp.
  set (k := Z.log2_up m) in *.
  assert (Hpow : 2 ^ k = 2 * 2 ^ (Z.pred k)) by (rewrite <- Z.pow_succ_r by lia; f_equal; lia).
  unfold float_floordiv. rewrite Z.log2_pow2 by lia.
  assert (Hb : 0 < 2 ^ Z.pred k) by (apply Z.pow_pos_nonneg; lia).
  assert (E2 : 2 ^ (2 * k) = 2 ^ k * 2 ^ k) by (rewrite <- Z.pow_add_r by lia; f_equal; lia).
  destruct (Z.eq_dec m (2 ^ k)) as [Em | Nm].
  - assert (L : Z.log2 m = k) by (rewrite Em; apply Z.log2_pow2; lia).
    rewrite L. replace (2 * k - k) with k by lia.
    assert (C : m * 2 ^ k <=? 2 ^ (2 * k) = true) by (apply Z.leb_le; rewrite E2; nia).
    rewrite C. destruct (0 <=? 52 - k) eqn:E; [reflexivity | apply Z.leb_gt in E; lia].
  - assert (L : Z.log2 m = Z.pred k).
    { apply Z.log2_unique; [lia |]. rewrite Z.succ_pred. lia. }
    rewrite L.
    replace (2 * k - Z.pred k) with (k + 1) by lia.
    assert (C : m * 2 ^ (k + 1) <=? 2 ^ (2 * k) = false).
    { apply Z.leb_gt. rewrite E2, Z.pow_add_r by lia. change (2 ^ 1) with 2.
      assert (0 < 2 ^ k) by (apply Z.pow_pos_nonneg; lia). nia. }
    rewrite C. replace (k + 1 - 1) with k by lia.
    destruct (0 <=? 52 - k) eqn:E; [reflexivity | apply Z.leb_gt in E; lia].
Qed.

(** the constant is the exact quotient or one more; one more only when 2^s mod m is close to m *)
Lemma float_floordiv_cases : forall m k, 1 < m -> k = Z.log2_up m -> k <= 31 ->
  let c := float_floordiv (2 ^ (2 * k)) m in
  c = 2 ^ (2 * k) / m \/
  (c = 2 ^ (2 * k) / m + 1 /\ 2 ^ (53 - k) * (m - 2 ^ (2 * k) mod m) <= m).
Proof.
  intros m k Hm Hk Hk31. cbv zeta. rewrite (float_floordiv_pow m k Hm Hk) by lia.
  set (A := 2 ^ (2 * k)). set (D := 2 ^ (52 - k)).
  assert (HD : 0 < D) by (apply Z.pow_pos_nonneg; lia).
  pose proof (Z.div_mod A m ltac:(lia)) as EA.
  pose proof (Z.mod_pos_bound A m ltac:(lia)) as BA.
  set (q := A / m) in *. set (r := A mod m) in *.
  assert (E1 : A * D / m = q * D + r * D / m).
  { replace (A * D) with (r * D + (q * D) * m) by (rewrite EA; ring). rewrite Z.div_add by lia. ring. }
  pose proof (rne_bounds (A * D) m ltac:(lia)) as RB.
  pose proof (rne_up (A * D) m ltac:(lia)) as RU.
  set (x := rne (A * D) m) in *.
  pose proof (Z.div_mod (r * D) m ltac:(lia)) as ER.
  pose proof (Z.mod_pos_bound (r * D) m ltac:(lia)) as BR.
  assert (EM : (A * D) mod m = (r * D) mod m).
  { replace (A * D) with (r * D + (q * D) * m) by (rewrite EA; ring). apply Z.mod_add. lia. }
  set (qr := r * D / m) in *. set (rr := (r * D) mod m) in *.
  assert (Hqr : 0 <= qr < D).
  { split; [apply Z.div_pos; nia | apply Z.div_lt_upper_bound; nia]. }
  destruct (Z.eq_dec x (A * D / m)) as [Ex | Nx].
  - left. rewrite Ex, E1. rewrite Z.add_comm, Z.div_add by lia. rewrite Z.div_small by lia. lia.
  - assert (Ex : x = A * D / m + 1) by lia. specialize (RU Ex). rewrite EM in RU.
    destruct (Z.eq_dec (qr + 1) D) as [Eq | Nq].
    + right. split.
      * rewrite Ex, E1. replace (q * D + qr + 1) with ((q + 1) * D) by lia. apply Z.div_mul. lia.
      * replace (2 ^ (53 - k)) with (2 * D) by (unfold D; rewrite <- Z.pow_succ_r by lia; f_equal; lia).
        nia.
    + left. rewrite Ex, E1. replace (q * D + qr + 1) with ((qr + 1) + q * D) by lia.
      rewrite Z.div_add by lia. rewrite Z.div_small by lia. lia.
Qed.

Lemma land32 : forall z, 0 <= z -> Z.land z (2 ^ 32 - 1) = z mod 2 ^ 32.
Proof. intros z Hz. rewrite Z.sub_1_r. change (Z.pred (2 ^ 32)) with (Z.ones 32). apply Z.land_ones. lia. Qed.

Lemma u64_small : forall x, 0 <= x < 2 ^ 64 -> u64 x = x.
Proof. intros. unfold u64. apply Z.mod_small. lia. Qed.
Lemma u32_small' : forall x, 0 <= x < 2 ^ 32 -> u32' x = x.
Proof. intros. unfold u32'. apply Z.mod_small. lia. Qed.
Lemma shr64_small : forall x k, 0 <= k < 64 -> shr64 x k = x / 2 ^ k.
Proof. intros. unfold shr64. destruct (k <? 64) eqn:E; [reflexivity | apply Z.ltb_ge in E; lia]. Qed.

(** the quotient estimate computed by the code is floor(z*c / 2^s) *)
Lemma estimate : forall z c k, 1 <= k <= 31 -> 0 <= z < 2 ^ (2 * k) -> 0 <= c <= 2 ^ (k + 1) -> c < 2 ^ 32 ->
  let w := Z.min (2 * k) 32 in
  shr64 (u64 (shr64 (u64 (Z.land z (2 ^ 32 - 1) * c)) w + u64 (shr64 z w * c))) (2 * k - w) = z * c / 2 ^ (2 * k).
Proof.
  intros z c k Hk Hz Hc Hc32 w.
  rewrite land32 by lia.
  assert (Hz64 : 0 <= z < 2 ^ 62).
  { split; [lia |]. apply Z.lt_le_trans with (2 ^ (2 * k)); [lia |]. apply Z.pow_le_mono_r; lia. }
  pose proof (Z.mod_pos_bound z (2 ^ 32) ltac:(lia)) as B1.
  assert (Hw : 0 <= w <= 32) by (unfold w; lia).
  assert (Hpw : 0 < 2 ^ w) by (apply Z.pow_pos_nonneg; lia).
  rewrite (shr64_small z w) by lia.
  rewrite (u64_small (z mod 2 ^ 32 * c)) by nia.
  rewrite (shr64_small _ w) by lia.
  destruct (Z.le_gt_cases (2 * k) 32) as [Hs | Hs].
  - assert (Ew : w = 2 * k) by (unfold w; lia).
    assert (Hz32 : z < 2 ^ 32) by (apply Z.lt_le_trans with (2 ^ (2 * k)); [lia | apply Z.pow_le_mono_r; lia]).
    rewrite (Z.mod_small z) by lia.
    rewrite Ew. rewrite (Z.div_small z) by lia. rewrite Z.mul_0_l, (u64_small 0), Z.add_0_r by lia.
    rewrite Z.sub_diag. rewrite u64_small.
    + rewrite shr64_small by lia. change (2 ^ 0) with 1. apply Z.div_1_r.
    + split; [apply Z.div_pos; nia |]. apply Z.div_lt_upper_bound; [apply Z.pow_pos_nonneg; lia |]. 
      assert (1 <= 2 ^ (2 * k)) by (apply (Z.pow_le_mono_r 2 0); lia). nia.
  - assert (Ew : w = 32) by (unfold w; lia). rewrite Ew.
    assert (Hq : 0 <= z / 2 ^ 32 < 2 ^ 30) by (split; [apply Z.div_pos; lia | apply Z.div_lt_upper_bound; lia]).
    rewrite (u64_small (z / 2 ^ 32 * c)) by nia.
    assert (Hd : 0 <= z mod 2 ^ 32 * c / 2 ^ 32 < 2 ^ 32).
    { split; [apply Z.div_pos; nia | apply Z.div_lt_upper_bound; nia]. }
    rewrite u64_small by nia.
    rewrite shr64_small by lia.
    rewrite <- (Z.div_add (z mod 2 ^ 32 * c) (z / 2 ^ 32 * c) (2 ^ 32)) by lia.
    replace (z mod 2 ^ 32 * c + z / 2 ^ 32 * c * 2 ^ 32) with (z * c)
      by (rewrite (Z.div_mod z (2 ^ 32)) at 1 by lia; ring).
    rewrite Z.div_div by (try apply Z.pow_pos_nonneg; lia).
    f_equal. rewrite <- Z.pow_add_r by lia. f_equal. lia.
Qed.

(** correctness from the two facts about the estimate *)
Lemma reduction_of_estimate : forall z m c k, 1 < m -> k = Z.log2_up m -> k <= 31 ->
  0 <= z < m * m -> 0 <= c <= 2 ^ (k + 1) -> c < 2 ^ 32 ->
  z / m - 1 <= z * c / 2 ^ (2 * k) <= z / m ->
  modular_reduction z {| bc_m := c; bc_moduli := m; bc_w := Z.min (2 * k) 32; bc_s_w := 2 * k - Z.min (2 * k) 32 |} = z mod m.
Proof.
  intros z m c k Hm Hk Hk31 Hz Hc Hc32 Ht.
  pose proof (Z.log2_up_spec m Hm) as [L1 L2]. rewrite <- Hk in *.
  assert (Hk1 : 1 <= k) by (subst k; pose proof (Z.log2_up_pos m Hm); lia).
  assert (Hm31 : m <= 2 ^ 31) by (apply Z.le_trans with (2 ^ k); [lia | apply Z.pow_le_mono_r; lia]).
  assert (Hzk : 0 <= z < 2 ^ (2 * k)).
  { split; [lia |]. apply Z.lt_le_trans with (m * m); [lia |].
    replace (2 ^ (2 * k)) with (2 ^ k * 2 ^ k) by (rewrite <- Z.pow_add_r by lia; f_equal; lia). nia. }
  unfold modular_reduction. cbn [bc_m bc_moduli bc_w bc_s_w].
  rewrite (estimate z c k) by (try split; lia).
  set (t := z * c / 2 ^ (2 * k)) in *.
  pose proof (Z.div_mod z m ltac:(lia)) as EZ. pose proof (Z.mod_pos_bound z m ltac:(lia)) as BZ.
  assert (T0 : 0 <= t) by (apply Z.div_pos; [nia | apply Z.pow_pos_nonneg; lia]).
  assert (Hz62 : z < 2 ^ 62) by nia.
  assert (Q0 : 0 <= z / m) by (apply Z.div_pos; lia).
  rewrite (u64_small (t * m)) by nia.
  assert (Hr : z - t * m = z mod m \/ z - t * m = z mod m + m).
  { assert (t = z / m \/ t = z / m - 1) as [-> | ->] by lia; [left | right]; lia. }
  rewrite (u64_small (z - t * m)) by lia.
  destruct Hr as [Hr | Hr]; rewrite Hr.
  - destruct (m <=? z mod m) eqn:E; [apply Z.leb_le in E; lia |]. apply u32_small'. lia.
  - destruct (m <=? z mod m + m) eqn:E; [| apply Z.leb_gt in E; lia].
    replace (z mod m + m - m) with (z mod m) by lia. rewrite u64_small by lia. apply u32_small'. lia.
Qed.

(** the quotient estimate, exact constant *)
Lemma estimate_exact : forall z m k, 1 < m -> m <= 2 ^ k -> 0 <= k -> 0 <= z < m * m ->
  z / m - 1 <= z * (2 ^ (2 * k) / m) / 2 ^ (2 * k) <= z / m.
Proof.
  intros z m k Hm Hk K0 Hz.
  set (A := 2 ^ (2 * k)). assert (HA : 0 < A) by (apply Z.pow_pos_nonneg; lia).
  assert (Hzk : z < A).
  { apply Z.lt_le_trans with (m * m); [lia |].
    replace A with (2 ^ k * 2 ^ k) by (unfold A; rewrite <- Z.pow_add_r by lia; f_equal; lia). nia. }
  pose proof (Z.div_mod A m ltac:(lia)) as EA. pose proof (Z.mod_pos_bound A m ltac:(lia)) as BA.
  pose proof (Z.div_mod z m ltac:(lia)) as EZ. pose proof (Z.mod_pos_bound z m ltac:(lia)) as BZ.
  set (c := A / m) in *. set (q := z / m) in *.
  assert (c0 : 0 <= c) by (apply Z.div_pos; lia).
  assert (q0 : 0 <= q) by (apply Z.div_pos; lia).
  split.
  - apply Z.div_le_lower_bound; [lia |]. (* A*(q-1) <= z*c *)
    (* m*A*(q-1) <= m z c = z (A - r) ; z A - z r >= z A - z (m-1) >= zA - A(m-1) ; mAq <= zA *)
    assert (m * (A * (q - 1)) <= m * (z * c)).
    { replace (m * (z * c)) with (z * (m * c)) by ring. nia. }
    nia.
  - assert (z * c / A < q + 1); [| lia]. apply Z.div_lt_upper_bound; [lia |].
    assert (m * (z * c) < m * (A * (q + 1))); [| nia].
    replace (m * (z * c)) with (z * (m * c)) by ring. nia.
Qed.

(** the quotient estimate when the constant was rounded up *)
Lemma estimate_up : forall z m k, 1 < m -> m <= 2 ^ k -> 0 <= k -> 0 <= z < m * m ->
  z * (m - 2 ^ (2 * k) mod m) < 2 ^ (2 * k) ->
  z / m - 1 <= z * (2 ^ (2 * k) / m + 1) / 2 ^ (2 * k) <= z / m.
Proof.
  intros z m k Hm Hk K0 Hz Hd.
  pose proof (estimate_exact z m k Hm Hk K0 Hz) as [E1 _].
  set (A := 2 ^ (2 * k)) in *. assert (HA : 0 < A) by (apply Z.pow_pos_nonneg; lia).
  pose proof (Z.div_mod A m ltac:(lia)) as EA. pose proof (Z.mod_pos_bound A m ltac:(lia)) as BA.
  pose proof (Z.div_mod z m ltac:(lia)) as EZ. pose proof (Z.mod_pos_bound z m ltac:(lia)) as BZ.
  set (c := A / m) in *. set (q := z / m) in *. set (r := A mod m) in *.
  split.
  - eapply Z.le_trans; [exact E1 |]. apply Z.div_le_mono; [lia | nia].
  - assert (z * (c + 1) / A < q + 1); [| lia]. apply Z.div_lt_upper_bound; [lia |].
    assert (m * (z * (c + 1)) < m * (A * (q + 1))); [| nia].
    replace (m * (z * (c + 1))) with (z * A + z * (m - r)) by (rewrite EA at 1; ring).
    nia.
Qed.

Lemma constant_bound : forall m k, 1 < m -> k = Z.log2_up m -> 1 <= k ->
  2 ^ (2 * k) / m < 2 ^ (k + 1) .
Proof.
  intros m k Hm Hk K1. pose proof (Z.log2_up_spec m Hm) as [L1 L2]. rewrite <- Hk in *.
  apply Z.div_lt_upper_bound; [lia |].
  replace (2 ^ (2 * k)) with (2 ^ Z.pred k * 2 ^ (k + 1)) by (rewrite <- Z.pow_add_r by lia; f_equal; lia).
  assert (0 < 2 ^ (k + 1)) by (apply Z.pow_pos_nonneg; lia). nia.
Qed.

(** main statement: correct as soon as the constant is exact or its excess is harmless for this z *)
Lemma barrett_correct : forall m z, 1 < m < 2 ^ 31 -> 0 <= z < m * m ->
  let s := 2 * Z.log2_up m in
  (float_floordiv (2 ^ s) m = 2 ^ s / m \/ z * (m - 2 ^ s mod m) < 2 ^ s) ->
  modular_reduction z (precompute_barrett_constants m) = z mod m.
Proof.
  intros m z Hm Hz s Hc. unfold precompute_barrett_constants. fold s.
  set (k := Z.log2_up m) in *.
  assert (K1 : 1 <= k) by (unfold k; pose proof (Z.log2_up_pos m ltac:(lia)); lia).
  assert (K31 : k <= 31) by (unfold k; apply Z.log2_up_le_pow2; lia).
  pose proof (Z.log2_up_spec m ltac:(lia)) as [L1 L2]. fold k in L1, L2.
  pose proof (constant_bound m k ltac:(lia) eq_refl K1) as CB.
  pose proof (float_floordiv_cases m k ltac:(lia) eq_refl K31) as CC. cbv zeta in CC.
  assert (C0 : 0 <= 2 ^ (2 * k) / m) by (apply Z.div_pos; [apply Z.pow_nonneg |]; lia).
  assert (P32 : 2 ^ (k + 1) <= 2 ^ 32) by (apply Z.pow_le_mono_r; lia).
  rewrite (u32_small' m) by lia.
  unfold s in *.
  destruct CC as [CE | [CE CX]].
  - rewrite CE. rewrite u64_small by (split; [lia |]; apply Z.lt_trans with (2 ^ 32); lia).
    apply (reduction_of_estimate z m _ k); try lia. apply estimate_exact; lia.
  - destruct Hc as [Hc | Hc]; [lia |]. rewrite CE.
    assert (Hlt : 2 ^ (2 * k) / m + 1 < 2 ^ 32).
    { (* the excess is only possible with a remainder, so the quotient is below 2^(k+1) - 1 or k < 31 *)
      destruct (Z.eq_dec (2 ^ (2 * k) / m + 1) (2 ^ 32)) as [Ee | Ne]; [| lia].
      exfalso.
      assert (k = 31) by (destruct (Z.eq_dec k 31); [assumption |]; exfalso;
        assert (2 ^ (k + 1) <= 2 ^ 31) by (apply Z.pow_le_mono_r; lia); lia).
      subst k. rewrite H in *. change (2 ^ (2 * 31)) with (2 ^ 62) in *.
      pose proof (Z.mul_div_le (2 ^ 62) m ltac:(lia)). change (Z.pred 31) with 30 in L1.
      assert (m * (2 ^ 32 - 1) <= 2 ^ 62) by nia. nia. }
    rewrite u64_small by (split; [lia |]; apply Z.lt_trans with (2 ^ 32); lia).
    apply (reduction_of_estimate z m _ k); try lia. apply estimate_up; lia.
Qed.

(** moduli up to 2^27: always correct *)
Lemma barrett_small_moduli : forall m z, 1 < m <= 2 ^ 27 -> 0 <= z < m * m ->
  modular_reduction z (precompute_barrett_constants m) = z mod m.
Proof.
  intros m z Hm Hz. apply barrett_correct; [lia | lia |].
  set (k := Z.log2_up m) in *.
  assert (K1 : 1 <= k) by (unfold k; pose proof (Z.log2_up_pos m ltac:(lia)); lia).
  assert (K27 : k <= 27) by (unfold k; apply Z.log2_up_le_pow2; lia).
  pose proof (Z.log2_up_spec m ltac:(lia)) as [L1 L2]. fold k in L1, L2.
  pose proof (float_floordiv_cases m k ltac:(lia) eq_refl ltac:(lia)) as CC. cbv zeta in CC.
  destruct CC as [CE | [CE CX]]; [left; exact CE | right].
  assert (2 ^ 26 <= 2 ^ (53 - k)) by (apply Z.pow_le_mono_r; lia).
  pose proof (Z.mod_pos_bound (2 ^ (2 * k)) m ltac:(lia)) as BA.
  assert (E2 : 2 ^ (2 * k) = 2 ^ k * 2 ^ k) by (rewrite <- Z.pow_add_r by lia; f_equal; lia).
  assert (m - 2 ^ (2 * k) mod m <= 2) by nia.
  destruct (Z.eq_dec (m - 2 ^ (2 * k) mod m) 1) as [E1 | N1]; [rewrite E1; nia |].
  (* remainder distance 2: only m = 2^27, but then the remainder is 0 *)
  assert (Em : m = 2 ^ 27) by nia. exfalso.
  assert (Ek : k = 27) by (unfold k; rewrite Em; reflexivity).
  clearbody k. subst k. subst m. change (2 ^ (2 * 27) mod 2 ^ 27) with 0 in CX. cbn in CX. lia.
Qed.

(** when the rounded constant is harmful, the largest argument is reduced wrongly *)
Lemma barrett_wrong : forall m, 1 < m < 2 ^ 31 ->
  let s := 2 * Z.log2_up m in
  float_floordiv (2 ^ s) m <> 2 ^ s / m -> 2 ^ s <= (m * m - 1) * (m - 2 ^ s mod m) ->
  modular_reduction (m * m - 1) (precompute_barrett_constants m) <> (m * m - 1) mod m.
Proof.
  intros m Hm s Hne Hge. unfold precompute_barrett_constants. fold s.
  set (k := Z.log2_up m) in *.
  assert (K1 : 1 <= k) by (unfold k; pose proof (Z.log2_up_pos m ltac:(lia)); lia).
  assert (K31 : k <= 31) by (unfold k; apply Z.log2_up_le_pow2; lia).
  pose proof (Z.log2_up_spec m ltac:(lia)) as [L1 L2]. fold k in L1, L2.
  pose proof (constant_bound m k ltac:(lia) eq_refl K1) as CB.
  pose proof (float_floordiv_cases m k ltac:(lia) eq_refl K31) as CC. cbv zeta in CC.
  unfold s in *. destruct CC as [CE | [CE CX]]; [contradiction |].
  rewrite CE. rewrite (u32_small' m) by lia.
  assert (C0 : 0 <= 2 ^ (2 * k) / m) by (apply Z.div_pos; [apply Z.pow_nonneg |]; lia).
  assert (P32 : 2 ^ (k + 1) <= 2 ^ 32) by (apply Z.pow_le_mono_r; lia).
  rewrite u64_small by (split; [lia |]; apply Z.le_lt_trans with (2 ^ 32); lia).
  assert (Hlt : 2 ^ (2 * k) / m + 1 < 2 ^ 32).
  { destruct (Z.eq_dec (2 ^ (2 * k) / m + 1) (2 ^ 32)) as [Ee | Ne]; [| lia]. exfalso.
    assert (k = 31) by (destruct (Z.eq_dec k 31); [assumption |]; exfalso;
      assert (2 ^ (k + 1) <= 2 ^ 31) by (apply Z.pow_le_mono_r; lia); lia).
    clear Hge Hne CX CE. clearbody k. subst k. change (2 ^ (2 * 31)) with (2 ^ 62) in *.
    pose proof (Z.mul_div_le (2 ^ 62) m ltac:(lia)). change (Z.pred 31) with 30 in L1.
    assert (m * (2 ^ 32 - 1) <= 2 ^ 62) by nia. nia. }
  assert (E2 : 2 ^ (2 * k) = 2 ^ k * 2 ^ k) by (rewrite <- Z.pow_add_r by lia; f_equal; lia).
  unfold modular_reduction. cbn [bc_m bc_moduli bc_w bc_s_w].
  rewrite (estimate (m * m - 1) (2 ^ (2 * k) / m + 1) k) by (try split; try lia; nia).
  set (A := 2 ^ (2 * k)) in *. assert (HA : 0 < A) by (apply Z.pow_pos_nonneg; lia).
  pose proof (Z.div_mod A m ltac:(lia)) as EA. pose proof (Z.mod_pos_bound A m ltac:(lia)) as BA.
  set (c := A / m) in *. set (r := A mod m) in *.
  assert (Et : (m * m - 1) * (c + 1) / A = m).
  { assert (EX : m * ((m * m - 1) * (c + 1)) = (m * m - 1) * A + (m * m - 1) * (m - r)) by (rewrite EA at 1; ring).
    assert (m - r <= m) by lia.
    assert (mmA : m * m <= A) by nia.
    assert (2 <= 2 ^ (53 - k)) by (apply (Z.pow_le_mono_r 2 1); lia).
    assert (m - r < m) by nia.
    assert ((m * m - 1) * (m - r) < A * m) by nia.
    apply Z.le_antisymm.
    - assert ((m * m - 1) * (c + 1) / A < m + 1); [| lia]. apply Z.div_lt_upper_bound; [lia |].
      assert (m * ((m * m - 1) * (c + 1)) < m * (A * (m + 1))); [| nia]. rewrite EX. nia.
    - apply Z.div_le_lower_bound; [lia |].
      assert (m * (A * m) <= m * ((m * m - 1) * (c + 1))); [| nia]. rewrite EX. nia. }
  rewrite Et.
  rewrite (u64_small (m * m)) by nia.
  replace (m * m - 1 - m * m) with (-1) by ring.
  change (u64 (-1)) with (2 ^ 64 - 1).
  assert (Eb : m <=? 2 ^ 64 - 1 = true) by (apply Z.leb_le; lia). rewrite Eb.
  rewrite u64_small by lia.
  assert (EM : (m * m - 1) mod m = m - 1).
  { replace (m * m - 1) with (m - 1 + (m - 1) * m) by ring. rewrite Z.mod_add by lia. apply Z.mod_small. lia. }
  rewrite EM. unfold u32'.
  replace (2 ^ 64 - 1 - m) with (2 ^ 32 - 1 - m + (2 ^ 32 - 1) * 2 ^ 32) by lia.
  rewrite Z.mod_add by lia. rewrite Z.mod_small by lia. lia.
Qed.

(** arguments below 2m are always reduced correctly *)
Lemma barrett_sum : forall m z, 1 < m < 2 ^ 31 -> 0 <= z < 2 * m ->
  modular_reduction z (precompute_barrett_constants m) = z mod m.
Proof.
  intros m z Hm Hz. apply barrett_correct; [lia | nia |].
  set (k := Z.log2_up m) in *.
  assert (K1 : 1 <= k) by (unfold k; pose proof (Z.log2_up_pos m ltac:(lia)); lia).
  assert (K31 : k <= 31) by (unfold k; apply Z.log2_up_le_pow2; lia).
  pose proof (Z.log2_up_spec m ltac:(lia)) as [L1 L2]. fold k in L1, L2.
  pose proof (float_floordiv_cases m k ltac:(lia) eq_refl ltac:(lia)) as CC. cbv zeta in CC.
  destruct CC as [CE | [CE CX]]; [left; exact CE | right].
  assert (2 ^ 22 <= 2 ^ (53 - k)) by (apply Z.pow_le_mono_r; lia).
  pose proof (Z.mod_pos_bound (2 ^ (2 * k)) m ltac:(lia)) as BA.
  assert (E2 : 2 ^ (2 * k) = 2 ^ k * 2 ^ k) by (rewrite <- Z.pow_add_r by lia; f_equal; lia).
  set (d := m - 2 ^ (2 * k) mod m) in *.
  assert (2 ^ 22 * d <= m) by nia.
  rewrite E2. nia.
Qed.

(** arguments up to 2^22 m (and below m^2) are always reduced correctly: sums of many residues *)
Lemma barrett_large_sum : forall m z, 1 < m < 2 ^ 31 -> 0 <= z < m * m -> z < 2 ^ 22 * m ->
  modular_reduction z (precompute_barrett_constants m) = z mod m.
Proof.
  intros m z Hm Hz Hz'. apply barrett_correct; [lia | lia |].
  set (k := Z.log2_up m) in *.
  assert (K1 : 1 <= k) by (unfold k; pose proof (Z.log2_up_pos m ltac:(lia)); lia).
  assert (K31 : k <= 31) by (unfold k; apply Z.log2_up_le_pow2; lia).
  pose proof (Z.log2_up_spec m ltac:(lia)) as [L1 L2]. fold k in L1, L2.
  pose proof (float_floordiv_cases m k ltac:(lia) eq_refl ltac:(lia)) as CC. cbv zeta in CC.
  destruct CC as [CE | [CE CX]]; [left; exact CE | right].
  assert (2 ^ 22 <= 2 ^ (53 - k)) by (apply Z.pow_le_mono_r; lia).
  pose proof (Z.mod_pos_bound (2 ^ (2 * k)) m ltac:(lia)) as BA.
  assert (E2 : 2 ^ (2 * k) = 2 ^ k * 2 ^ k) by (rewrite <- Z.pow_add_r by lia; f_equal; lia).
  set (d := m - 2 ^ (2 * k) mod m) in *.
  assert (2 ^ 22 * d <= m) by nia. assert (0 < d) by (unfold d; lia).
  assert (z * d < m * m) by nia. nia.
Qed.
