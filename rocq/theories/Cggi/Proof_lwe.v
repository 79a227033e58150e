From Coq Require Import ZArith List Lia Bool.
From Verif Require Import Base.ZSum Base.Modeq Base.Word Base.Bits Cggi.Model_encoding Cggi.Model_lwe Cggi.Spec_lwe Cggi.Proof_encoding.
Import ListNotations.
Local Open Scope Z_scope.

Lemma decrypt_eqm ct sk : 0 <= log_modulus sk <= 32 ->
  decrypt_without_denoising ct sk == phase (key_data sk) ct [mod 2 ^ log_modulus sk].
Proof.
  unfold decrypt_without_denoising, phase. set (L := log_modulus sk). intros HL.
  assert (Hd : (2 ^ L | W32)) by (apply pow2_div_W32; lia).
  assert (E : sub32 (last ct 0) (dot32 (removelast ct) (key_data sk)) == last ct 0 - dotZ (removelast ct) (key_data sk) [mod W32]).
  { rewrite sub32_eqm. unfold dot32. rewrite u32_eqm. reflexivity. }
  apply (eqm_weaken _ _ _ _ Hd) in E.
  destruct (L <? 32) eqn:El; [|exact E]. rewrite <- E. apply eqm_mod.
Qed.

Lemma decrypt_range ct sk : 0 <= log_modulus sk <= 32 -> 0 <= decrypt_without_denoising ct sk < 2 ^ log_modulus sk.
Proof.
  intros H. unfold decrypt_without_denoising. destruct (log_modulus sk <? 32) eqn:E.
  - apply Z.mod_pos_bound. apply pow2_pos. lia.
  - apply Z.ltb_ge in E. replace (log_modulus sk) with 32 by lia. apply u32_word.
Qed.

(** decryption is the phase modulo 2^log_modulus *)
Lemma decrypt_phase ct sk : 0 <= log_modulus sk <= 32 ->
  decrypt_without_denoising ct sk = phase (key_data sk) ct mod 2 ^ log_modulus sk.
Proof.
  intros H. symmetry. apply eqm_small_mod.
  - apply pow2_pos. lia.
  - symmetry. apply decrypt_eqm. assumption.
  - apply decrypt_range. assumption.
Qed.

Lemma phase_app s a b : phase s (a ++ [b]) = b - dotZ a s.
Proof. unfold phase. rewrite last_last, removelast_last. reflexivity. Qed.

Lemma jit_encrypt_phase m s a e L : 0 <= L <= 32 ->
  phase s (jit_encrypt m s a e L) == m + e [mod 2 ^ L].
Proof.
  intros HL. unfold jit_encrypt. rewrite phase_app.
  assert (Hd : (2 ^ L | W32)) by (apply pow2_div_W32; lia).
  assert (E : add32 (add32 (dot32 a s) m) e == dotZ a s + m + e [mod W32]).
  { rewrite !add32_eqm. unfold dot32. rewrite u32_eqm. reflexivity. }
  apply (eqm_weaken _ _ _ _ Hd) in E.
  destruct (L <? 32).
  - rewrite eqm_mod, E. apply eqm_eq. ring.
  - rewrite E. apply eqm_eq. ring.
Qed.

Lemma encrypt_decrypt m sk a e : 0 <= log_modulus sk <= 32 ->
  decrypt_without_denoising (lwe_encrypt m sk a e) sk = (m + e) mod 2 ^ log_modulus sk.
Proof.
  intros H. rewrite decrypt_phase by assumption. apply eqm_mod_iff; [apply pow2_pos; lia|].
  apply jit_encrypt_phase. assumption.
Qed.

Lemma dotZ_repeat0 n s : dotZ (repeat 0 n) s = 0.
Proof. revert s. induction n as [|n IH]; intros [|z s]; cbn [repeat]; rewrite ?dotZ_nil_r; try reflexivity.
  rewrite dotZ_cons, IH. lia. Qed.

Lemma embedding_decrypt m n sk : 0 <= log_modulus sk <= 32 ->
  decrypt_without_denoising (noiseless_embedding m n) sk = m mod 2 ^ log_modulus sk.
Proof.
  intros H. rewrite decrypt_phase by assumption. unfold noiseless_embedding. rewrite phase_app, dotZ_repeat0. f_equal. ring.
Qed.

(** linear combinations *)
Lemma list_split_last (l : list Z) n : length l = S n -> exists a b, l = a ++ [b] /\ length a = n.
Proof.
  intros H. exists (removelast l), (last l 0). assert (l <> []) by (intros ->; discriminate).
  pose proof (app_removelast_last 0 H0) as E. split; [exact E|].
  rewrite E in H. rewrite app_length in H. cbn in H. lia.
Qed.

Lemma phase_add s a b n : length a = S n -> length b = S n ->
  phase s (vadd32 a b) == phase s a + phase s b [mod W32].
Proof.
  intros Ha Hb. destruct (list_split_last _ _ Ha) as (a1 & ax & -> & H1). destruct (list_split_last _ _ Hb) as (b1 & bx & -> & H2).
  unfold vadd32. rewrite map2_app by lia. cbn [map2]. rewrite !phase_app. rewrite add32_eqm.
  rewrite dotZ_map2_add by (lia || apply add32_eqm). apply eqm_eq. ring.
Qed.

Lemma phase_sub s a b n : length a = S n -> length b = S n ->
  phase s (vsub32 a b) == phase s a - phase s b [mod W32].
Proof.
  intros Ha Hb. destruct (list_split_last _ _ Ha) as (a1 & ax & -> & H1). destruct (list_split_last _ _ Hb) as (b1 & bx & -> & H2).
  unfold vsub32. rewrite map2_app by lia. cbn [map2]. rewrite !phase_app. rewrite sub32_eqm.
  rewrite dotZ_map2_sub by (lia || apply sub32_eqm). apply eqm_eq. ring.
Qed.

Lemma phase_scale s c a n : length a = S n ->
  phase s (vscale32 c a) == c * phase s a [mod W32].
Proof.
  intros Ha. destruct (list_split_last _ _ Ha) as (a1 & ax & -> & H1).
  unfold vscale32. rewrite map_app. cbn [map]. rewrite !phase_app. rewrite mul32_eqm.
  rewrite (dotZ_map_scale c) by apply mul32_eqm. apply eqm_eq. ring.
Qed.

Lemma vadd32_length a b n : length a = n -> length b = n -> length (vadd32 a b) = n.
Proof. intros. unfold vadd32. rewrite map2_length. lia. Qed.
Lemma vsub32_length a b n : length a = n -> length b = n -> length (vsub32 a b) = n.
Proof. intros. unfold vsub32. rewrite map2_length. lia. Qed.
Lemma vscale32_length c a : length (vscale32 c a) = length a.
Proof. apply map_length. Qed.

(** modulus switching *)
Lemma integer_div_round x d : word32 x -> 0 < d <= 2147483648 ->
  exists k, integer_div x d == k [mod W32] /\ 2 * Z.abs (d * k - x) <= d.
Proof.
  unfold word32, integer_div. intros Hx Hd.
  pose proof (Z.div_mod x d ltac:(lia)) as D. pose proof (Z.mod_pos_bound x d ltac:(lia)) as Hm.
  pose proof (Z.div_mod d 2 ltac:(lia)) as D2. pose proof (Z.mod_pos_bound d 2 ltac:(lia)) as Hm2.
  set (r := x mod d) in *. set (h := d / 2) in *. set (qf := x / d) in *.
  unfold add32 at 2. rewrite u32_id by (unfold word32; lia).
  exists (qf + (r + h) / d). split; [apply add32_eqm|].
  destruct (Z_lt_le_dec (r + h) d).
  - rewrite Z.div_small by lia. lia.
  - assert (E : (r + h) / d = 1) by (symmetry; apply Z.div_unique with (r + h - d); lia). rewrite E. lia.
Qed.

Lemma switch_word ct a b : 0 <= b < 32 -> Forall (fun x => 0 <= x < 2 ^ b) (switch_modulus ct a b).
Proof.
  intros H. unfold switch_modulus. apply Forall_map. apply Forall_forall. intros x _.
  assert (0 < 2 ^ b) by (apply pow2_pos; lia).
  assert (E : u32 (2 ^ b) = 2 ^ b).
  { apply u32_id. unfold word32. assert (2 ^ b <= 2 ^ 31) by (apply pow2_le; lia). change (2 ^ 31) with 2147483648 in *. lia. }
  rewrite E. apply Z.mod_pos_bound. assumption.
Qed.

Lemma switch_entry x a b : word32 x -> 0 <= b <= a -> a <= 32 -> a - b < 32 -> b < 32 ->
  exists k, 2 * Z.abs (2 ^ (a - b) * (integer_div x (u32 (2 ^ (a - b))) mod u32 (2 ^ b)) - x - k * 2 ^ a) <= 2 ^ (a - b).
Proof.
  intros Hx Hab Ha Hs Hb.
  assert (Hd : 0 < 2 ^ (a - b) <= 2 ^ 31) by (split; [apply pow2_pos | apply pow2_le]; lia).
  assert (Hb2 : 0 < 2 ^ b <= 2 ^ 31) by (split; [apply pow2_pos | apply pow2_le]; lia).
  change (2 ^ 31) with 2147483648 in *.
  rewrite !u32_id by (unfold word32; lia).
  destruct (integer_div_round x (2 ^ (a - b)) Hx Hd) as (k & Ek & Bk).
  set (v := integer_div x (2 ^ (a - b))) in *.
  assert (E : v mod 2 ^ b == k [mod 2 ^ b]).
  { rewrite eqm_mod. apply (eqm_weaken W32); [apply pow2_div_W32; lia|exact Ek]. }
  apply eqm_ex in E. destruct E as [t Et]. rewrite Et. exists t.
  rewrite (pow2_split b a) by lia.
  replace (2 ^ (a - b) * (k + t * 2 ^ b) - x - t * (2 ^ b * 2 ^ (a - b))) with (2 ^ (a - b) * k - x) by ring. exact Bk.
Qed.

Lemma switch_dot a b l s : Forall word32 l -> Forall (fun z => z = 0 \/ z = 1) s -> length l = length s ->
  0 <= b <= a -> a <= 32 -> a - b < 32 -> b < 32 ->
  exists k, 2 * Z.abs (2 ^ (a - b) * dotZ (switch_modulus l a b) s - dotZ l s - k * 2 ^ a) <= lsum s * 2 ^ (a - b).
Proof.
  intros Hl Hs Hlen Hab Ha Hd Hb. revert s Hs Hlen. induction Hl as [|x l Hx Hl IH]; intros s Hs Hlen.
  - destruct s; [|discriminate]. exists 0. cbn [lsum switch_modulus map]. unfold dotZ; cbn [map2 lsum]. rewrite Z.mul_0_r. cbn. lia.
  - destruct s as [|z s]; [discriminate|]. inversion Hs as [|? ? Hz Hs']; subst.
    destruct (IH s Hs' ltac:(cbn in Hlen; lia)) as [k IHk].
    destruct (switch_entry x a b Hx Hab Ha Hd Hb) as [t Ht].
    unfold switch_modulus in *. cbn [map lsum]. rewrite !dotZ_cons.
    set (X := integer_div x (u32 (2 ^ (a - b))) mod u32 (2 ^ b)) in *.
    set (Y := dotZ (map _ l) s) in *. set (D := 2 ^ (a - b)) in *. set (A := 2 ^ a) in *.
    destruct Hz as [-> | ->].
    + exists k. replace (D * (X * 0 + Y) - (x * 0 + dotZ l s) - k * A) with (D * Y - dotZ l s - k * A) by ring. lia.
    + exists (k + t).
      replace (D * (X * 1 + Y) - (x * 1 + dotZ l s) - (k + t) * A) with ((D * Y - dotZ l s - k * A) + (D * X - x - t * A)) by ring.
      lia.
Qed.

Lemma switch_app l l' a b : switch_modulus (l ++ l') a b = switch_modulus l a b ++ switch_modulus l' a b.
Proof. apply map_app. Qed.

Lemma switch_phase a b ct s : Forall word32 ct -> Forall (fun z => z = 0 \/ z = 1) s -> length ct = S (length s) ->
  0 <= b <= a -> a <= 32 -> a - b < 32 -> b < 32 ->
  exists k, 2 * Z.abs (2 ^ (a - b) * phase s (switch_modulus ct a b) - phase s ct - k * 2 ^ a) <= (1 + lsum s) * 2 ^ (a - b).
Proof.
  intros Hl Hs Hlen Hab Ha Hd Hb. destruct (list_split_last _ _ Hlen) as (l & x & -> & H1).
  apply Forall_app in Hl. destruct Hl as [Hl Hx]. inversion Hx as [|? ? Hx' _]; subst.
  destruct (switch_dot a b l s Hl Hs H1 Hab Ha Hd Hb) as [k Hk].
  destruct (switch_entry x a b Hx' Hab Ha Hd Hb) as [t Ht].
  rewrite switch_app. unfold switch_modulus at 2. cbn [map]. rewrite !phase_app.
  set (X := integer_div x (u32 (2 ^ (a - b))) mod u32 (2 ^ b)) in *.
  set (Y := dotZ (switch_modulus l a b) s) in *. set (D := 2 ^ (a - b)) in *. set (A := 2 ^ a) in *.
  exists (t - k).
  replace (D * (X - Y) - (x - dotZ l s) - (t - k) * A) with ((D * X - x - t * A) - (D * Y - dotZ l s - k * A)) by ring. lia.
Qed.

Lemma lsum_binary s : Forall (fun z => z = 0 \/ z = 1) s -> 0 <= lsum s <= Z.of_nat (length s).
Proof. induction 1 as [|z s Hz Hs IH]; cbn [lsum length]; lia. Qed.

Lemma lin_ct_length cts n e : Forall (fun c => length c = n) cts -> lin_leaves (length cts) e -> length (lin_ct cts e) = n.
Proof.
  intros H. induction e as [i|a IHa b IHb|a IHa b IHb|c a IHa]; cbn [lin_ct lin_leaves]; intros Hl.
  - rewrite Forall_forall in H. apply H, nth_In. assumption.
  - apply vadd32_length; tauto.
  - apply vsub32_length; tauto.
  - rewrite vscale32_length. tauto.
Qed.

Lemma lin_phase s cts n e : Forall (fun c => length c = S n) cts -> lin_leaves (length cts) e ->
  phase s (lin_ct cts e) == lin_z (fun i => phase s (nth i cts [])) e [mod W32].
Proof.
  intros H. induction e as [i|a IHa b IHb|a IHa b IHb|c a IHa]; cbn [lin_ct lin_leaves lin_z]; intros Hl.
  - reflexivity.
  - rewrite (phase_add s _ _ n) by (apply lin_ct_length; tauto). rewrite IHa, IHb by tauto. reflexivity.
  - rewrite (phase_sub s _ _ n) by (apply lin_ct_length; tauto). rewrite IHa, IHb by tauto. reflexivity.
  - rewrite (phase_scale s _ _ n) by (apply lin_ct_length; tauto). rewrite IHa by tauto. reflexivity.
Qed.

Lemma lin_z_eqm q v w e : (forall i, v i == w i [mod q]) -> lin_z v e == lin_z w e [mod q].
Proof. intros H. induction e; cbn [lin_z]; [apply H | rewrite IHe1, IHe2; reflexivity | rewrite IHe1, IHe2; reflexivity | rewrite IHe; reflexivity]. Qed.

Lemma lin_z_add v w e : lin_z (fun i => v i + w i) e = lin_z v e + lin_z w e.
Proof. induction e; cbn [lin_z]; lia. Qed.

Lemma lin_z_bound v E e : (forall i, Z.abs (v i) <= E i) -> Z.abs (lin_z v e) <= lin_abs E e.
Proof.
  intros H. induction e; cbn [lin_z lin_abs]; [apply H | lia | lia | rewrite Z.abs_mul; nia].
Qed.

Lemma lin_decrypt sk cts n e : 0 <= log_modulus sk <= 32 -> Forall (fun c => length c = S n) cts -> lin_leaves (length cts) e ->
  decrypt_without_denoising (lin_ct cts e) sk = lin_z (fun i => decrypt_without_denoising (nth i cts []) sk) e mod 2 ^ log_modulus sk.
Proof.
  intros HL H Hl. rewrite decrypt_phase by assumption. apply eqm_mod_iff; [apply pow2_pos; lia|].
  rewrite (eqm_weaken W32 _ _ _ (pow2_div_W32 _ HL) (lin_phase (key_data sk) cts n e H Hl)).
  apply lin_z_eqm. intros i. symmetry. apply decrypt_eqm. assumption.
Qed.

Lemma lin_noise sk cts n e (msg err bnd : nat -> Z) : 0 <= log_modulus sk <= 32 ->
  Forall (fun c => length c = S n) cts -> lin_leaves (length cts) e ->
  (forall i, Z.abs (err i) <= bnd i) ->
  (forall i, (i < length cts)%nat -> decrypt_without_denoising (nth i cts []) sk = (msg i + err i) mod 2 ^ log_modulus sk) ->
  exists E, Z.abs E <= lin_abs bnd e /\ decrypt_without_denoising (lin_ct cts e) sk = (lin_z msg e + E) mod 2 ^ log_modulus sk.
Proof.
  intros HL H Hl Hb Hm. exists (lin_z err e). split; [apply lin_z_bound; assumption|].
  rewrite (lin_decrypt sk cts n) by assumption. rewrite <- lin_z_add. apply eqm_mod_iff; [apply pow2_pos; lia|].
  clear - Hl Hm. induction e; cbn [lin_z lin_leaves] in *.
  - rewrite Hm by assumption. apply eqm_mod.
  - rewrite IHe1, IHe2 by tauto. reflexivity.
  - rewrite IHe1, IHe2 by tauto. reflexivity.
  - rewrite IHe by tauto. reflexivity.
Qed.

Lemma switch_phase_n a b ct s : Forall word32 ct -> binary s -> length ct = S (length s) ->
  0 <= b <= a -> a <= 32 -> a - b < 32 -> b < 32 ->
  exists k, 2 * Z.abs (2 ^ (a - b) * phase s (switch_modulus ct a b) - phase s ct - k * 2 ^ a) <= (1 + Z.of_nat (length s)) * 2 ^ (a - b).
Proof.
  intros Hl Hs Hlen Hab Ha Hd Hb. destruct (switch_phase a b ct s Hl Hs Hlen Hab Ha Hd Hb) as [k Hk]. exists k.
  pose proof (lsum_binary s Hs). assert (0 < 2 ^ (a - b)) by (apply pow2_pos; lia). nia.
Qed.

Lemma round_idem x k b : word32 x -> 0 <= k < 32 -> 0 <= b -> k + b <= 32 ->
  Z.land (shr32 (round_to_power_of_2 (round_to_power_of_2 x k) k) k) (2 ^ b - 1) =
  Z.land (shr32 (round_to_power_of_2 x k) k) (2 ^ b - 1).
Proof.
  intros Hx Hk Hb Hkb. rewrite !decode_any by (try apply round_word; assumption).
  rewrite round_spec by assumption. set (t := (x + 2 ^ k / 2) / 2 ^ k).
  pose proof (window_div_mod t 0 k b 32 ltac:(lia) Hb Hkb) as W.
  assert (0 < 2 ^ k) by (apply pow2_pos; lia).
  rewrite Z.add_0_r in W. change (2 ^ 32) with W32 in W. unfold u32. rewrite (Z.mul_comm (2 ^ k)). apply W. lia.
Qed.

Lemma decode_remove_noise t m pd p x : mk_enc_params t m pd = Some p -> t <= 32 -> word32 x ->
  decode (remove_noise x p) p = decode x p.
Proof.
  intros Hp Ht Hx. destruct (mk_enc_params_inv _ _ _ _ Hp) as (E1 & E2 & E3 & ? & ? & ? & ?).
  unfold decode, remove_noise, error_bits. rewrite E1, E2, E3. apply round_idem; try assumption; lia.
Qed.

Lemma full_roundtrip t m pd p sk x e a : mk_enc_params t m pd = Some p -> t <= log_modulus sk <= 32 ->
  0 <= x < 2 ^ m -> - 2 ^ (t - (m + pd)) <= 2 * e < 2 ^ (t - (m + pd)) ->
  exists c, encode x p false = Some c /\ decode (lwe_decrypt (lwe_encrypt c sk a e) sk p) p = x.
Proof.
  intros Hp HL Hx He. destruct (mk_enc_params_inv _ _ _ _ Hp) as (E1 & E2 & E3 & ? & ? & ? & ?).
  eexists. split; [eapply encode_false_val; eauto; lia|].
  unfold lwe_decrypt. rewrite encrypt_decrypt by lia.
  rewrite (decode_remove_noise t m pd); try assumption; try lia.
  - eapply decode_window; eauto; lia.
  - pose proof (Z.mod_pos_bound (x * 2 ^ (t - (m + pd)) + e) (2 ^ log_modulus sk) ltac:(apply pow2_pos; lia)).
    assert (2 ^ log_modulus sk <= 2 ^ 32) by (apply pow2_le; lia). change (2 ^ 32) with W32 in *. unfold word32. lia.
Qed.
