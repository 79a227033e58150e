From Coq Require Import ZArith List Lia Bool.
From Verif Require Import Base.ZSum Base.Modeq Base.Word Base.Bits Cggi.Model_encoding.
Local Open Scope Z_scope.

Lemma mk_enc_params_inv t m pd p : mk_enc_params t m pd = Some p ->
  total_bits p = t /\ message_bits p = m /\ padding_bits p = pd /\ 1 <= t /\ 1 <= m /\ 0 <= pd /\ m + pd <= t.
Proof.
  unfold mk_enc_params. repeat match goal with |- context [if ?b then _ else _] => destruct b eqn:? end;
    intros H; inversion H; subst; cbn. repeat split; lia.
Qed.

(** the rounding computed by round_to_power_of_2, before the wrap *)
Lemma round_spec x k : word32 x -> 0 <= k < 32 ->
  round_to_power_of_2 x k = u32 (2 ^ k * ((x + 2 ^ k / 2) / 2 ^ k)).
Proof.
  intros Hx Hk. unfold round_to_power_of_2. rewrite land_1. rewrite shl32_val by lia.
  destruct (Z.eq_dec k 0) as [->|Hk0].
  - change (shr32 x (0 - 1)) with 0. rewrite shr32_val by lia. change (2 ^ 0) with 1. change (0 mod 2) with 0.
    rewrite Z.div_1_r. change (1 / 2) with 0. rewrite Z.div_1_r. unfold add32. rewrite !Z.add_0_r.
    rewrite !(u32_id x) by assumption. f_equal. ring.
  - rewrite !shr32_val by lia. unfold add32. rewrite half_up by lia.
    replace (2 ^ k / 2) with (2 ^ (k - 1)).
    2:{ replace k with (k - 1 + 1) at 2 by lia. rewrite pow2_S by lia. rewrite Z.mul_comm, Z.div_mul by lia. reflexivity. }
    unfold u32. rewrite Z.mul_mod_idemp_l by lia. f_equal. ring.
Qed.

Lemma round_word x k : word32 (round_to_power_of_2 x k).
Proof.
  unfold round_to_power_of_2, shl32. destruct (_ && _); [apply u32_word | unfold word32; lia].
Qed.

Lemma shifted_spec x k : word32 x -> 0 <= k < 32 ->
  shr32 (round_to_power_of_2 x k) k = ((x + 2 ^ k / 2) / 2 ^ k) mod 2 ^ (32 - k).
Proof.
  intros Hx Hk. rewrite round_spec by assumption. rewrite shr32_val by lia. unfold u32.
  replace W32 with (2 ^ k * 2 ^ (32 - k)) by (apply pow2_W32; lia).
  assert (0 < 2 ^ k) by (apply pow2_pos; lia). assert (0 < 2 ^ (32 - k)) by (apply pow2_pos; lia).
  rewrite div_mod_mul by assumption. rewrite (Z.mul_comm (2 ^ k)), Z.div_mul by lia. reflexivity.
Qed.

Lemma decode_any x k b : word32 x -> 0 <= k < 32 -> 0 <= b -> k + b <= 32 ->
  Z.land (shr32 (round_to_power_of_2 x k) k) (2 ^ b - 1) = ((x + 2 ^ k / 2) / 2 ^ k) mod 2 ^ b.
Proof.
  intros. rewrite shifted_spec by assumption. rewrite land_mask by assumption.
  apply mod_mod_divide; try (apply pow2_pos; lia).
  exists (2 ^ (32 - k - b)). rewrite <- Z.pow_add_r by lia. f_equal. lia.
Qed.

(** an error inside the window is removed by rounding *)
Lemma window_div m e k : 0 <= k -> - 2 ^ k <= 2 * e < 2 ^ k -> (m * 2 ^ k + e + 2 ^ k / 2) / 2 ^ k = m.
Proof.
  intros Hk He. assert (0 < 2 ^ k) by (apply pow2_pos; lia).
  destruct (Z.eq_dec k 0) as [->|Hk0].
  - change (2 ^ 0) with 1 in *. change (1/2) with 0. assert (e = 0) by lia. subst. rewrite Z.div_1_r. ring.
  - assert (E : 2 ^ k = 2 * (2 ^ k / 2)).
    { replace k with (k - 1 + 1) by lia. rewrite pow2_S by lia. rewrite (Z.mul_comm 2), Z.div_mul by lia. ring. }
    set (h := 2 ^ k / 2) in *. replace (m * 2 ^ k + e + h) with ((e + h) + m * 2 ^ k) by ring.
    rewrite Z.div_add by lia. rewrite Z.div_small by lia. lia.
Qed.

(** the same when the sum was reduced modulo a larger power of two *)
Lemma window_div_mod m e k b M : 0 <= k -> 0 <= b -> k + b <= M -> - 2 ^ k <= 2 * e < 2 ^ k ->
  (((m * 2 ^ k + e) mod 2 ^ M + 2 ^ k / 2) / 2 ^ k) mod 2 ^ b = m mod 2 ^ b.
Proof.
  intros Hk Hb HM He.
  assert (0 < 2 ^ k) by (apply pow2_pos; lia). assert (0 < 2 ^ b) by (apply pow2_pos; lia).
  assert (0 < 2 ^ M) by (apply pow2_pos; lia).
  set (q := (m * 2 ^ k + e) / 2 ^ M).
  assert (E : (m * 2 ^ k + e) mod 2 ^ M = m * 2 ^ k + e - q * 2 ^ M).
  { pose proof (Z.div_mod (m * 2 ^ k + e) (2 ^ M) ltac:(lia)). unfold q. lia. }
  rewrite E. replace (2 ^ M) with (2 ^ k * (2 ^ b * 2 ^ (M - k - b))).
  2:{ rewrite <- !Z.pow_add_r by lia. f_equal. lia. }
  set (t := 2 ^ (M - k - b)).
  replace (m * 2 ^ k + e - q * (2 ^ k * (2 ^ b * t)) + 2 ^ k / 2) with ((m - q * (2 ^ b * t)) * 2 ^ k + e + 2 ^ k / 2) by ring.
  rewrite window_div by assumption.
  replace (m - q * (2 ^ b * t)) with (m + (- (q * t)) * 2 ^ b) by ring. apply Z.mod_add. lia.
Qed.

(** encode succeeds exactly on the messages in range *)
Lemma encode_dom t m pd p x : mk_enc_params t m pd = Some p -> t <= 32 -> m < 32 ->
  - 2147483648 <= x < W32 ->
  (exists c, encode x p false = Some c) <-> 0 <= x < 2 ^ m.
Proof.
  intros Hp Ht Hm Hx. destruct (mk_enc_params_inv _ _ _ _ Hp) as (E1 & E2 & E3 & ? & ? & ? & ?).
  assert (Hmm : 2 <= 2 ^ m <= 2 ^ 31) by (split; [change 2 with (2^1) at 1; apply pow2_le; lia | apply pow2_le; lia]).
  change (2 ^ 31) with 2147483648 in Hmm.
  unfold encode, message_max. rewrite E2. rewrite (u32_id (2 ^ m - 1)) by (unfold word32; lia).
  replace (W32 <=? 2 ^ m - 1) with false by (symmetry; apply Z.leb_gt; lia).
  pose proof (u32_word x) as Hw. unfold word32 in Hw.
  destruct ((2 ^ m - 1 <? u32 x) || (u32 x <? 0)) eqn:E.
  - split; [intros [c Hc]; discriminate|]. intros Hr. rewrite (u32_id x) in E by (unfold word32; lia).
    apply orb_true_iff in E. destruct E as [E|E]; apply Z.ltb_lt in E; lia.
  - split; [|intros; eexists; reflexivity]. intros _. apply orb_false_iff in E. destruct E as [E _]. apply Z.ltb_ge in E.
    unfold u32 in *. destruct (Z_lt_le_dec x 0).
    + assert (Ex : x mod W32 = x + W32).
      { symmetry. apply Z.mod_unique with (-1); lia. }
      rewrite Ex in E. lia.
    + rewrite Z.mod_small in E by lia. lia.
Qed.

Lemma encode_val x p tp c : encode x p tp = Some c -> c = shl32 x (error_bits p).
Proof.
  unfold encode. destruct (_ <=? _); [discriminate|]. destruct (_ || _); [discriminate|]. congruence.
Qed.

Lemma encode_false_val t m pd p x : mk_enc_params t m pd = Some p -> t <= 32 -> 0 <= x < 2 ^ m ->
  encode x p false = Some (x * 2 ^ (t - (m + pd))).
Proof.
  intros Hp Ht Hx. destruct (mk_enc_params_inv _ _ _ _ Hp) as (E1 & E2 & E3 & ? & ? & ? & ?).
  assert (2 ^ m <= 2 ^ 32) by (apply pow2_le; lia). change (2 ^ 32) with W32 in *.
  unfold encode, message_max, error_bits. rewrite E1, E2, E3. rewrite (u32_id (2 ^ m - 1)) by (unfold word32; lia).
  replace (W32 <=? 2 ^ m - 1) with false by (symmetry; apply Z.leb_gt; lia).
  rewrite (u32_id x) by (unfold word32; lia).
  replace ((2 ^ m - 1 <? x) || (x <? 0)) with false.
  2:{ symmetry. apply orb_false_iff. split; apply Z.ltb_ge; lia. }
  rewrite shl32_val by lia. rewrite u32_id; [reflexivity|].
  assert (0 < 2 ^ (t - (m + pd))) by (apply pow2_pos; lia).
  unfold word32. split; [nia|].
  apply Z.lt_le_trans with (2 ^ m * 2 ^ (t - (m + pd))); [nia|].
  rewrite <- Z.pow_add_r by lia. change W32 with (2 ^ 32). apply pow2_le. lia.
Qed.

Lemma decode_window t m pd p x e M : mk_enc_params t m pd = Some p -> t <= M -> M <= 32 ->
  0 <= x < 2 ^ m -> - 2 ^ (t - (m + pd)) <= 2 * e < 2 ^ (t - (m + pd)) ->
  decode ((x * 2 ^ (t - (m + pd)) + e) mod 2 ^ M) p = x /\
  decode_without_removing_padding ((x * 2 ^ (t - (m + pd)) + e) mod 2 ^ M) p = x.
Proof.
  intros Hp HtM HM Hx He. destruct (mk_enc_params_inv _ _ _ _ Hp) as (E1 & E2 & E3 & ? & ? & ? & ?).
  unfold decode, decode_without_removing_padding, remove_noise, error_bits. rewrite E1, E2, E3.
  set (k := t - (m + pd)) in *.
  assert (Hw : word32 ((x * 2 ^ k + e) mod 2 ^ M)).
  { unfold word32. assert (0 < 2 ^ M <= 2 ^ 32) by (split; [apply pow2_pos | apply pow2_le]; lia).
    change (2 ^ 32) with W32 in *. pose proof (Z.mod_pos_bound (x * 2 ^ k + e) (2 ^ M)). lia. }
  split; rewrite decode_any by (try assumption; lia); rewrite window_div_mod by (try assumption; lia).
  - apply Z.mod_small. lia.
  - apply Z.mod_small. assert (2 ^ m <= 2 ^ (m + pd)) by (apply pow2_le; lia). lia.
Qed.

Lemma remove_noise_window t m pd p x e : mk_enc_params t m pd = Some p -> t <= 32 ->
  0 <= x < 2 ^ (m + pd) -> - 2 ^ (t - (m + pd)) <= 2 * e < 2 ^ (t - (m + pd)) ->
  remove_noise (u32 (x * 2 ^ (t - (m + pd)) + e)) p = u32 (x * 2 ^ (t - (m + pd))).
Proof.
  intros Hp HM Hx He. destruct (mk_enc_params_inv _ _ _ _ Hp) as (E1 & E2 & E3 & ? & ? & ? & ?).
  unfold remove_noise, error_bits. rewrite E1, E2, E3. set (k := t - (m + pd)) in *.
  rewrite round_spec by (try apply u32_word; lia).
  assert (0 < 2 ^ k) by (apply pow2_pos; lia).
  pose proof (Z.div_mod (x * 2 ^ k + e) W32 ltac:(lia)) as D. fold (u32 (x * 2 ^ k + e)) in D.
  set (q := (x * 2 ^ k + e) / W32) in *.
  replace (u32 (x * 2 ^ k + e) + 2 ^ k / 2) with ((x - q * 2 ^ (32 - k)) * 2 ^ k + e + 2 ^ k / 2).
  2:{ rewrite Z.mul_sub_distr_r. replace (q * 2 ^ (32 - k) * 2 ^ k) with (q * W32); [lia|].
      rewrite <- (pow2_W32 k) by lia. ring. }
  rewrite window_div by (assumption || lia).
  unfold u32. replace (2 ^ k * (x - q * 2 ^ (32 - k))) with (x * 2 ^ k + (- q) * W32).
  2:{ rewrite <- (pow2_W32 k) by lia. ring. }
  apply Z.mod_add. lia.
Qed.
