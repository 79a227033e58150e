(** Properties C66 and C14 for the two helpers the other files leave out: reading the noise of a plaintext, and the test polynomial
    of the identity. *)
From Coq Require Import ZArith List Lia Bool.
From Verif Require Import Base.ZSum Base.Modeq Base.Nega Base.Word Base.Bits.
From Verif Require Import Cggi.Model_encoding Cggi.Model_rlwe Cggi.Model_test_polynomial Cggi.Spec_poly.
From Verif Require Import Cggi.Proof_encoding Cggi.Prop_bootstrap.
Import ListNotations.
Local Open Scope Z_scope.

(** ** C66 *)
Lemma s32_of x : - 2 ^ 31 <= x < 2 ^ 31 -> s32 (u32 x) = x.
Proof.
  intros H. unfold s32. rewrite u32_u32. unfold u32. destruct (Z.ltb_spec x 0).
  - replace (x mod W32) with (x + W32) by (symmetry; rewrite <- (Z.mod_small (x + W32) W32) by lia; rewrite <- (Z.mul_1_l W32) at 2; rewrite Z.mod_add by lia; reflexivity).
    destruct (Z.ltb_spec (x + W32) 2147483648); lia.
  - rewrite Z.mod_small by lia. destruct (Z.ltb_spec x 2147483648); lia.
Qed.
Lemma s32_high x : 2 ^ 31 <= x < 2 ^ 32 -> s32 (u32 x) = x - 2 ^ 32.
Proof.
  intros H. change (2 ^ 31) with 2147483648 in H. change (2 ^ 32) with W32 in *. unfold s32. rewrite u32_u32. unfold u32. rewrite Z.mod_small by lia. destruct (Z.ltb_spec x 2147483648); lia.
Qed.
(** For every parameter triple, message and noise in the rounding window, extract_noise returns the noise that was added to the
    encoding of the message, as a signed integer, with one exception: a message encoded as 2^31 with a negative noise, where the
    difference of the two int32 views is off by 2^32.  That encoding exists only for 32-bit plaintexts without padding. *)
Theorem C66_extract_noise_partial : forall t m pd p x e,
  mk_enc_params t m pd = Some p -> t <= 32 -> 0 <= x < 2 ^ m ->
  - 2 ^ (t - (m + pd)) <= 2 * e < 2 ^ (t - (m + pd)) ->
  exists c, encode x p false = Some c /\
    (c <> 2 ^ 31 \/ 0 <= e -> extract_noise ((c + e) mod 2 ^ 32) p = e) /\
    (c = 2 ^ 31 -> e < 0 -> extract_noise ((c + e) mod 2 ^ 32) p = e + 2 ^ 32) /\
    (c = 2 ^ 31 -> t = 32 /\ pd = 0).
Proof.
  intros t m pd p x e Hp Ht Hx He. exists (x * 2 ^ (t - (m + pd))). split; [apply (encode_false_val t m pd p x Hp); lia |].
  destruct (mk_enc_params_inv _ _ _ _ Hp) as (E1 & E2 & E3 & ? & ? & ? & ?).
  change ((x * 2 ^ (t - (m + pd)) + e) mod 2 ^ 32) with (u32 (x * 2 ^ (t - (m + pd)) + e)). unfold extract_noise.
  assert (2 ^ m <= 2 ^ (m + pd)) by (apply pow2_le; lia).
  rewrite (remove_noise_window t m pd p x e Hp Ht ltac:(lia) He).
  set (k := t - (m + pd)) in *. assert (0 < 2 ^ k) by (apply pow2_pos; lia).
  assert (U : (x + 1) * 2 ^ k <= 2 ^ (t - pd)). { replace (t - pd) with (m + k) by lia. rewrite Z.pow_add_r by lia. nia. }
  assert (D : 2 ^ 31 = 2 ^ (31 - k) * 2 ^ k) by (rewrite <- Z.pow_add_r by lia; f_equal; lia).
  assert (L : 2 ^ (t - pd) <= 2 ^ 32) by (apply pow2_le; lia). assert (N : 0 <= x * 2 ^ k) by nia.
  assert (S3 : 2 ^ 32 = 2 * 2 ^ 31) by reflexivity. set (h := 2 ^ (31 - k)) in *.
  split; [| split].
  - intros C. destruct (Z.lt_trichotomy x h) as [X | [X | X]].
    + assert ((x + 1) * 2 ^ k <= 2 ^ 31) by nia. rewrite !s32_of by nia. ring.
    + assert (x * 2 ^ k = 2 ^ 31) by nia. rewrite !s32_high by nia. ring.
    + assert ((h + 1) * 2 ^ k <= x * 2 ^ k) by nia. rewrite !s32_high by nia. ring.
  - intros C Ne. rewrite C. rewrite s32_of, s32_high by nia. lia.
  - intros C. assert (~ t - pd <= 31); [| lia]. intros Q. assert (2 ^ (t - pd) <= 2 ^ 31) by (apply pow2_le; lia). nia.
Qed.
Example C66_extract_noise_ex :
  let p := {| total_bits := 32; message_bits := 3; padding_bits := 1 |} in
  mk_enc_params 32 3 1 = Some p /\ extract_noise ((7 * 2 ^ 28 - 12345) mod 2 ^ 32) p = - 12345 /\ extract_noise ((0 - 77) mod 2 ^ 32) p = - 77 /\
  extract_noise ((5 * 2 ^ 28 + 2 ^ 27 - 1) mod 2 ^ 32) p = 2 ^ 27 - 1.
Proof. repeat split; vm_compute; reflexivity. Qed.
Print Assumptions C66_extract_noise_partial.

(** FINDING: without padding, message 4 of 3 bits with noise -1 is reported to have noise 2^32 - 1. *)
Theorem C66_extract_noise_refuted : ~ forall t m pd p x c e, mk_enc_params t m pd = Some p -> t <= 32 -> encode x p false = Some c -> 0 <= x < 2 ^ m ->
  - 2 ^ (t - (m + pd)) <= 2 * e < 2 ^ (t - (m + pd)) -> extract_noise ((c + e) mod 2 ^ 32) p = e.
Proof.
  intros H. specialize (H 32 3 0 {| total_bits := 32; message_bits := 3; padding_bits := 0 |} 4 (2 ^ 31) (-1) eq_refl ltac:(lia) eq_refl ltac:(lia) ltac:(lia)). vm_compute in H. discriminate.
Qed.
Print Assumptions C66_extract_noise_refuted.

(** ** C14 *)
(** the test polynomial of the identity: rotated to the slot of message m, with the index off by less than half a block, its
    constant coefficient is the encoding of m *)
Theorem C14_identity_test_polynomial : forall t msg pd p sp w,
  mk_enc_params t msg pd = Some p -> t <= 32 -> msg + pd < 32 -> Z.of_nat (modulus_degree sp) = 2 ^ msg * Z.of_nat w -> (1 <= w)%nat ->
  exists tp, identity_test_polynomial p sp = Some tp /\ length tp = modulus_degree sp /\ Forall word32 tp /\
    forall m J delta k, 0 <= m < 2 ^ msg -> J = m * Z.of_nat w + delta + k * (2 * Z.of_nat (modulus_degree sp)) ->
      - Z.of_nat (w / 2) <= delta < Z.of_nat w - Z.of_nat (w / 2) ->
      exists c, encode m p false = Some c /\ coeff (mulXpow (- J) tp) 0 == c [mod 2 ^ t].
Proof.
  intros t msg pd p sp w Hp Ht Hm HN Hw. destruct (mk_enc_params_inv _ _ _ _ Hp) as (E1 & E2 & E3 & ? & ? & ? & ?).
  unfold identity_test_polynomial. rewrite E2. set (f := map Z.of_nat (seq 0 (Z.to_nat (2 ^ msg)))).
  assert (0 < 2 ^ msg) by (apply pow2_pos; lia).
  assert (Lf : length f = Z.to_nat (2 ^ msg)) by (unfold f; rewrite map_length, seq_length; reflexivity).
  assert (2 ^ msg <= 2 ^ (msg + pd)) by (apply pow2_le; lia).
  destruct (C14_test_polynomial t msg pd p sp f w Hp Ht Hm) as (tp & A & B & C & D).
  - rewrite Lf. lia.
  - rewrite Lf. apply Nat2Z.inj. rewrite Nat2Z.inj_mul, Z2Nat.id by lia. exact HN.
  - exact Hw.
  - apply Forall_forall. intros c Hc. unfold f in Hc. apply in_map_iff in Hc. destruct Hc as (i & <- & Hi). apply in_seq in Hi. lia.
  - exists tp. split; [exact A |]. split; [exact B |]. split; [exact C |]. intros m J delta k Hm' HJ Hd.
    exists (m * 2 ^ (t - (msg + pd))). split; [apply (encode_false_val t msg pd p m Hp); lia |].
    replace m with (nth (Z.to_nat m) f 0). 2:{ unfold f. change 0 with (Z.of_nat 0) at 1. rewrite map_nth, seq_nth by lia. lia. }
    apply (D (Z.to_nat m) J delta k); [lia | rewrite Z2Nat.id by lia; exact HJ | exact Hd].
Qed.
Example C14_identity_ex :
  let p := {| total_bits := 32; message_bits := 2; padding_bits := 1 |} in
  let sp := {| lwe_dimension := 4; plaintext_modulus := 2 ^ 32; rlwe_dimension := 1; modulus_degree := 16 |} in
  mk_enc_params 32 2 1 = Some p /\ option_map (fun tp => map (fun c => c / 2 ^ 29) tp) (identity_test_polynomial p sp) = Some [0;0;1;1;1;1;2;2;2;2;3;3;3;3;0;0].
Proof. split; vm_compute; reflexivity. Qed.
Print Assumptions C14_identity_test_polynomial.
