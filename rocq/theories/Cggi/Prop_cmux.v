(** Property C11: the argument checks of cmux, cmux with the byte layout, and the external product of ciphertext objects. *)
From Coq Require Import ZArith List Lia Bool Setoid Morphisms Ring.
From Verif Require Import Base.ZSum Base.Modeq Base.Nega Base.Word Base.Bits.
From Verif Require Import Cggi.Model_encoding Cggi.Model_lwe Cggi.Model_decomposition Cggi.Model_matrix_utils Cggi.Model_polymul.
From Verif Require Import Cggi.Model_rlwe Cggi.Model_rgsw Cggi.Model_test_polynomial Cggi.Model_bootstrap Cggi.Model_extprod.
From Verif Require Import Cggi.Spec_lwe Cggi.Spec_poly Cggi.Spec_rlwe Cggi.Spec_bootstrap.
From Verif Require Import Cggi.Proof_encoding Cggi.Proof_lwe Cggi.Proof_decomposition Cggi.Proof_key_switch Cggi.Proof_matrix_utils Cggi.Proof_poly Cggi.Proof_polymul Cggi.Proof_rlwe Cggi.Proof_rgsw.
From Verif Require Import Cggi.Proof_blind_rotate Cggi.Proof_test_polynomial Cggi.Proof_bootstrap Cggi.Prop_rlwe Cggi.Prop_bootstrap.
Import ListNotations.
Local Open Scope Z_scope.

(** Two ciphertexts whose coefficient moduli are different powers of two up to 2^32, or whose ring degrees differ,
    are refused, whatever the control and the messages are. *)
Theorem C11_cmux_rejects : forall tpu control ct0 ct1 p use_bat,
  0 <= rc_log ct0 <= 32 -> 0 <= rc_log ct1 <= 32 ->
  rc_log ct0 <> rc_log ct1 \/ rc_degree ct0 <> rc_degree ct1 ->
  cmux tpu control ct0 ct1 p use_bat = None.
Proof.
  intros tpu control ct0 ct1 p b H0 H1 D. unfold cmux.
  destruct (coefficient_modulus ct0 =? coefficient_modulus ct1) eqn:E; [|reflexivity]. cbn [negb].
  destruct D as [D|D]; [|apply Nat.eqb_neq in D; rewrite D; reflexivity].
  exfalso. apply D. apply Z.eqb_eq in E. unfold coefficient_modulus, u32 in E. change W32 with (2 ^ 32) in E.
  assert (A : forall l, 0 <= l < 32 -> (2 ^ l) mod 2 ^ 32 = 2 ^ l).
  { intros l Hl. apply Z.mod_small. split; [apply Z.pow_nonneg; lia|apply Z.pow_lt_mono_r; lia]. }
  destruct (Z.eq_dec (rc_log ct0) 32) as [e0|e0]; destruct (Z.eq_dec (rc_log ct1) 32) as [e1|e1].
  - congruence.
  - rewrite e0 in E. rewrite (A (rc_log ct1)) in E by lia.
    change ((2 ^ 32) mod 2 ^ 32) with 0 in E. pose proof (Z.pow_pos_nonneg 2 (rc_log ct1)). lia.
  - rewrite e1 in E. rewrite (A (rc_log ct0)) in E by lia.
    change ((2 ^ 32) mod 2 ^ 32) with 0 in E. pose proof (Z.pow_pos_nonneg 2 (rc_log ct0)). lia.
  - rewrite !A in E by lia. apply (Z.pow_inj_r 2); lia.
Qed.
Example C11_cmux_rejects_log_ex :
  cmux 0 (Plain []) {| rc_log := 32; rc_degree := 4; rc_message := [] |} {| rc_log := 31; rc_degree := 4; rc_message := [] |}
    {| log_base := 8; level_count := 4; decomp_total := 32 |} false = None.
Proof. reflexivity. Qed.

(** The modulus is compared as a 32-bit word, in which every power from 2^32 up is 0: different moduli above that are
    taken for the same, and a 32-bit ciphertext reports the modulus 0. *)
Theorem C11_cmux_wide_modulus_refuted :
  exists ct0 ct1, rc_log ct0 <> rc_log ct1 /\ coefficient_modulus ct0 = 0 /\
    exists tpu control p out, cmux tpu control ct0 ct1 p false = Some out.
Proof.
  exists {| rc_log := 32; rc_degree := 1; rc_message := [[1]; [2]] |}, {| rc_log := 33; rc_degree := 1; rc_message := [[3]; [4]] |}.
  split; [cbn; lia|]. split; [reflexivity|].
  exists 0, (Plain [[[0]; [0]]; [[0]; [0]]]), {| log_base := 8; level_count := 1; decomp_total := 32 |}.
  eexists. vm_compute. reflexivity.
Qed.
Print Assumptions C11_cmux_rejects.
Print Assumptions C11_cmux_wide_modulus_refuted.

(** The object-level external product: the labels of the RLWE ciphertext are kept and its phase is multiplied by [m]. *)
Theorem C11_external_product_object : forall tpu N k s p nn m ai es E S ct,
  (0 < N)%nat -> is_key N k s -> 0 <= S -> Forall (Forall (fun z => Z.abs z <= S)) s -> gadget p nn ->
  0 <= E -> rgsw_draws N k (level_count p) E ai es -> is_rlwe N k (rc_message ct) -> kernel_exact tpu N k (log_base p) ->
  exists out, external_product tpu (Plain (rgsw_jit_encrypt tpu N m s ai es p k 32)) ct p = Some out /\
    rc_log out = rc_log ct /\ rc_degree out = rc_degree ct /\ is_rlwe N k (rc_message out) /\
    rlwe_near N (2 ^ 32) s (rc_message out) (fun j => m * rlwe_phase N s (rc_message ct) j) (ext_product_noise N k p nn S m E).
Proof.
  intros tpu N k s p nn m ai es E S0 ct HN Hs HS0 HS G HE D Hct Hker.
  destruct (C11_external_product tpu N k s p nn m ai es E S0 (rc_message ct) HN Hs HS0 HS G HE D Hct Hker) as (out & H1 & H2 & H3).
  unfold external_product. rewrite H1. eexists. split; [reflexivity|]. cbn [rc_log rc_degree rc_message].
  split; [reflexivity|]. split; [reflexivity|]. split; [exact H2|exact H3].
Qed.
Example C11_external_product_object_ex :
  let C := rgsw_jit_encrypt 0 exN 1 ex_s ex_ai ex_es ex_p 1 32 in
  option_map (fun out => (rc_log out, rc_degree out, rlwe_decrypt_raw 0 (rc_message out) {| rk_log := 32; rk_degree := 2; rk_data := ex_s |}))
    (external_product 0 (Plain C) {| rc_log := 32; rc_degree := 2; rc_message :=
      trivial_encryption 0 [2 ^ 28; 3] {| lwe_dimension := 2; plaintext_modulus := 2 ^ 32; rlwe_dimension := 1; modulus_degree := 2 |} |} ex_p)
  = Some (32, 2%nat, [2 ^ 28; 3]).
Proof. vm_compute. reflexivity. Qed.
Print Assumptions C11_external_product_object.

(** cmux with the control in the byte layout *)
Theorem C11_cmux_bat : forall tpu N k s p nn m ai es E S ct0 ct1,
  (0 < N)%nat -> is_key N k s -> 0 <= S -> Forall (Forall (fun z => Z.abs z <= S)) s -> gadget p nn ->
  0 <= E -> rgsw_draws N k (level_count p) E ai es -> Forall (Forall (Forall (Forall word32))) ai -> m = 0 \/ m = 1 ->
  is_rlwe N k (rc_message ct0) -> is_rlwe N k (rc_message ct1) -> bat_exact tpu N ((k + 1) * level_count p) ->
  rc_log ct0 = rc_log ct1 -> rc_degree ct0 = rc_degree ct1 ->
  exists out, cmux tpu (Bat (bat_offline_compile_cggi (rgsw_jit_encrypt tpu N m s ai es p k 32))) ct0 ct1 p true = Some out /\
    rc_log out = rc_log ct0 /\ rc_degree out = rc_degree ct0 /\ is_rlwe N k (rc_message out) /\
    rlwe_near N (2 ^ 32) s (rc_message out) (fun j => rlwe_phase N s (rc_message (if m =? 0 then ct0 else ct1)) j) (ext_product_noise N k p nn S 1 E).
Proof.
  intros tpu N k s p nn m ai es E S0 ct0 ct1 HN Hs HS0 HS (Hb & Hnn & Ht & HL) HE (D1 & D2 & D3 & D4) HW Hm Hc0 Hc1 Hker Hq Hd.
  pose proof (proj1 Hs) as Hk. subst k. unfold is_key, is_rlwe in *.
  replace ((length s + 1) * level_count p)%nat with (S (length s) * level_count p)%nat in Hker by lia.
  pose proof (rgsw_encrypt_ok N HN s Hs p nn Hb Hnn HL tpu m ai es (conj D1 D2) D3 E HE D4) as Hok.
  assert (Hent : entry N s p tpu true (Bat (bat_offline_compile_cggi (rgsw_jit_encrypt tpu N m s ai es p (length s) 32))) (rgsw_jit_encrypt tpu N m s ai es p (length s) 32)).
  { right. repeat split; auto. apply rgsw_words. exact HW. }
  set (C := rgsw_jit_encrypt tpu N m s ai es p (length s) 32) in *.
  pose proof (msub32_rect _ _ _ _ Hc1 Hc0) as Hsub.
  pose proof (ext_value N HN s p nn Hb Hnn Ht HL tpu true _ _ _ Hent (proj1 Hok) Hsub) as Hv.
  unfold cmux, coefficient_modulus, jit_cmux. rewrite Hq, Hd, Z.eqb_refl, Nat.eqb_refl. cbn [negb]. rewrite Hv.
  pose proof (nega_vecmat_rect N (S (length s)) (decompose_rlwe_ciphertext (msub32 (rc_message ct1) (rc_message ct0)) p) C) as Hr.
  eexists. split; [reflexivity|]. cbn [rc_message rc_log rc_degree]. split; [reflexivity|]. split; [reflexivity|]. split; [apply madd32_rect; assumption|].
  assert (HKb : forall i, (i < length s)%nat -> pbnd N S0 (pl N HN (nth i s []))) by (intros i _; apply key_bound; assumption).
  assert (HA : amp N 1 (pconst N HN m)).
  { intros B x Hx. apply (pbnd_le N HN (Z.abs m * B)); [|apply amp_const; exact Hx].
    pose proof (Hx 0) as H0. destruct Hm; subst m; cbn [Z.abs]; lia. }
  destruct (external_product_phase N HN s p nn Hb Hnn Ht HL S0 HKb _ 1 E _ _ Hok HA Hsub) as (err & He & Hph).
  rewrite ext_noise_eq in He by lia.
  exists (fun j => fn err (Z.of_nat j)). split; [intros j _; apply He|]. intros j Hj. change (2 ^ 32) with W32.
  rewrite <- (rph_coeff N HN s _ j Hj).
  rewrite (rph_madd N HN s _ _ Hc0 Hr (Z.of_nat j)). cbn [fn padd]. rewrite (Hph (Z.of_nat j)). cbn [fn padd]. rewrite pconst_mul. cbn [fn pscale].
  rewrite (rph_msub N HN s _ _ Hc1 Hc0 (Z.of_nat j)). cbn [fn psub].
  destruct Hm; subst m; cbn [Z.eqb]; rewrite <- !(rph_coeff N HN s _ j Hj); apply eqm_eq; ring.
Qed.
(** the second branch is chosen; 510 of the 513 is noise *)
Example C11_cmux_bat_ex :
  let sp := {| lwe_dimension := 2; plaintext_modulus := 2 ^ 32; rlwe_dimension := 1; modulus_degree := 2 |} in
  let ct x := {| rc_log := 32; rc_degree := 2; rc_message := trivial_encryption 0 x sp |} in
  Forall (Forall (Forall (Forall word32))) ex_ai /\
  option_map (fun out => rlwe_decrypt_raw 0 (rc_message out) {| rk_log := 32; rk_degree := 2; rk_data := ex_s |})
    (cmux 0 (Bat (bat_offline_compile_cggi (rgsw_jit_encrypt 0 exN 1 ex_s ex_ai ex_es ex_p 1 32))) (ct [5; 6]) (ct [2 ^ 28; 3]) ex_p true)
  = Some [2 ^ 28; 513].
Proof. split; [unfold ex_ai, word32; repeat first [apply Forall_nil | apply Forall_cons]; lia|vm_compute; reflexivity]. Qed.
Print Assumptions C11_cmux_bat.

(** Selecting with cmux and extracting the constant coefficient gives an LWE ciphertext, under the flattened key, of the
    constant coefficient of the selected branch. *)
Theorem C13_cmux_extract : forall tpu N k s p nn m ai es E S ct0 ct1,
  (0 < N)%nat -> is_key N k s -> 0 <= S -> Forall (Forall (fun z => Z.abs z <= S)) s -> gadget p nn ->
  0 <= E -> rgsw_draws N k (level_count p) E ai es -> m = 0 \/ m = 1 ->
  is_rlwe N k (rc_message ct0) -> is_rlwe N k (rc_message ct1) -> kernel_exact tpu N k (log_base p) ->
  rc_log ct0 = rc_log ct1 -> rc_degree ct0 = N -> rc_degree ct1 = N ->
  exists out e, cmux tpu (Plain (rgsw_jit_encrypt tpu N m s ai es p k 32)) ct0 ct1 p false = Some out /\
    length (sample_extract out) = Datatypes.S (k * N) /\ Z.abs e <= ext_product_noise N k p nn S 1 E /\
    phase (key_data (flatten_key {| rk_log := 32; rk_degree := N; rk_data := s |})) (sample_extract out)
      == rlwe_phase N s (rc_message (if m =? 0 then ct0 else ct1)) 0 + e [mod 2 ^ 32].
Proof.
  intros tpu N k s p nn m ai es E S0 ct0 ct1 HN Hs HS0 HS G HE D Hm Hc0 Hc1 Hker Hq Hd0 Hd1.
  destruct (C11_cmux tpu N k s p nn m ai es E S0 ct0 ct1 HN Hs HS0 HS G HE D Hm Hc0 Hc1 Hker Hq ltac:(congruence)) as (out & H1 & H2 & err & H3 & H4).
  assert (Hdeg : rc_degree out = N).
  { unfold cmux in H1. destruct (negb _) in H1; [discriminate|]. destruct (negb _) in H1; [discriminate|].
    destruct (jit_cmux _ _ _ _ _ _) in H1; [|discriminate]. injection H1 as <-. exact Hd0. }
  destruct (C13_sample_extract N k s (rc_message out) HN Hs H2) as [L P].
  exists out, (err 0%nat). split; [exact H1|]. unfold sample_extract. rewrite Hdeg. split; [exact L|]. split; [apply H3; exact HN|].
  eapply eqm_trans; [exact P|]. apply H4. exact HN.
Qed.
Example C13_cmux_extract_ex :
  let sp := {| lwe_dimension := 2; plaintext_modulus := 2 ^ 32; rlwe_dimension := 1; modulus_degree := 2 |} in
  let ct x := {| rc_log := 32; rc_degree := 2; rc_message := trivial_encryption 0 x sp |} in
  option_map (fun out => (phase (concat ex_s) (sample_extract out)) mod 2 ^ 32)
    (cmux 0 (Plain (rgsw_jit_encrypt 0 exN 1 ex_s ex_ai ex_es ex_p 1 32)) (ct [5; 6]) (ct [2 ^ 28; 3]) ex_p false)
  = Some (2 ^ 28 mod 2 ^ 32).
Proof. vm_compute. reflexivity. Qed.
Print Assumptions C13_cmux_extract.
