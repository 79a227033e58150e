(** Property C67: what the parameter check for modulus switching guarantees. *)
From Coq Require Import ZArith List Lia Bool.
From Verif Require Import Base.Modeq Base.Word.
From Verif Require Import Cggi.Model_encoding Cggi.Model_lwe Cggi.Model_modcheck Cggi.Spec_lwe Cggi.Prop_lwe.
Import ListNotations.
Local Open Scope Z_scope.

(** The check accepts a degree of 64 with 3 message bits and 15 samples, and yet an encryption of 0 without any noise decodes
    to another message once its modulus is switched to 2 * 64. *)
Theorem C67_safe_check_refuted : exists ct s p p',
  safe_modulus_switch 64 3 (Z.of_nat (length s)) = true /\
  mk_enc_params 32 3 1 = Some p /\ mk_enc_params 7 3 1 = Some p' /\
  Forall word32 ct /\ binary s /\ length ct = S (length s) /\ phase s ct = 0 /\
  decode (decrypt_without_denoising ct {| log_modulus := 32; key_data := s |}) p = 0 /\
  decode (decrypt_without_denoising (switch_modulus ct 32 7) {| log_modulus := 7; key_data := s |}) p' <> 0.
Proof.
  exists (repeat (2 ^ 24) 15 ++ [15 * 2 ^ 24]), (repeat 1 15).
  eexists. eexists. split; [reflexivity|]. split; [reflexivity|]. split; [reflexivity|].
  split; [apply Forall_forall; intros x Hx; apply in_app_or in Hx; destruct Hx as [Hx|Hx]; [apply repeat_spec in Hx; subst x; unfold word32; lia|
    destruct Hx as [<-|[]]; unfold word32; lia]|].
  split; [apply Forall_forall; intros z Hz; apply repeat_spec in Hz; auto|].
  split; [reflexivity|]. split; [reflexivity|]. split; [reflexivity|]. vm_compute. discriminate.
Qed.
Print Assumptions C67_safe_check_refuted.

(** What does suffice for every ciphertext: with (1 + n) * 2^bits <= degree the switch moves the phase by at most half a message unit.
    Missing for the check as written: it compares the square root of 1 + n only, and is satisfied by parameters for which this fails. *)
Theorem C67_safe_check_partial : forall L bits ct s,
  Forall word32 ct -> binary s -> length ct = S (length s) -> 0 <= bits <= L -> L <= 30 ->
  (1 + Z.of_nat (length s)) * 2 ^ bits <= 2 ^ L ->
  exists k, 2 * Z.abs (2 ^ (31 - L) * phase s (switch_modulus ct 32 (L + 1)) - phase s ct - k * 2 ^ 32) <= 2 ^ (31 - bits).
Proof.
  intros L bits ct s W B Hl Hb HL H.
  destruct (C04_switch_modulus 32 (L + 1) ct s W B Hl ltac:(lia) ltac:(lia) ltac:(lia) ltac:(lia)) as (_ & _ & k & K).
  exists k. replace (32 - (L + 1)) with (31 - L) in K by lia. eapply Z.le_trans; [exact K|].
  apply (Z.mul_le_mono_pos_r _ _ (2 ^ bits)); [apply Z.pow_pos_nonneg; lia|].
  rewrite <- Z.pow_add_r by lia. replace (31 - bits + bits) with (L + (31 - L)) by lia. rewrite Z.pow_add_r by lia.
  pose proof (Z.pow_pos_nonneg 2 (31 - L) ltac:(lia) ltac:(lia)). nia.
Qed.
Example C67_safe_check_ex : (1 + Z.of_nat (length [1; 0; 1])) * 2 ^ 3 <= 2 ^ 10 /\ safe_modulus_switch (2 ^ 10) 3 3 = true /\
  switch_modulus [2 ^ 31 + 2 ^ 21; 4294967295; 5; 2 ^ 28] 32 11 = [1025; 0; 0; 128].
Proof. repeat split; vm_compute; congruence. Qed.
Print Assumptions C67_safe_check_partial.
