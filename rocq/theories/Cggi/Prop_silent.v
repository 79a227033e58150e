(** Property C69: the mid-bootstrap decrypter raises no false alarm. *)
From Coq Require Import ZArith List Lia Bool Setoid Morphisms Ring.
From Verif Require Import Base.ZSum Base.Modeq Base.Nega Base.Word Base.Bits.
From Verif Require Import Cggi.Model_encoding Cggi.Model_lwe Cggi.Model_decomposition Cggi.Model_matrix_utils Cggi.Model_polymul.
From Verif Require Import Cggi.Model_rlwe Cggi.Model_rgsw Cggi.Model_key_switch Cggi.Model_test_polynomial Cggi.Model_bootstrap Cggi.Model_callback.
From Verif Require Import Cggi.Spec_lwe Cggi.Spec_poly Cggi.Spec_rlwe Cggi.Spec_bootstrap.
From Verif Require Import Cggi.Proof_encoding Cggi.Proof_lwe Cggi.Proof_decomposition Cggi.Proof_key_switch Cggi.Proof_matrix_utils Cggi.Proof_poly Cggi.Proof_polymul Cggi.Proof_rlwe Cggi.Proof_rgsw.
From Verif Require Import Cggi.Proof_blind_rotate Cggi.Proof_test_polynomial Cggi.Proof_bootstrap Cggi.Prop_bootstrap Cggi.Prop_callback.
Import ListNotations.
Local Open Scope Z_scope.

(** the extracted ciphertext, before the key switch *)
Lemma extracted_phase : forall tpu d msg p f w k s ls bp bnn bai bes BE use_bmmp use_bat ct m delta j,
  mk_enc_params 32 msg 1 = Some p -> msg + 1 < 32 ->
  (0 <= d <= 30) -> let N := Z.to_nat (2 ^ d) in
  Z.of_nat (length f) = 2 ^ msg -> N = (length f * w)%nat -> Forall (fun c => 0 <= c <= 2 ^ (msg + 1)) f ->
  is_key N k s -> Forall binary s -> binary ls -> Nat.even (length ls) = true ->
  gadget bp bnn -> 0 <= BE -> bsk_draws N k (level_count bp) BE (bsk_count use_bmmp (length ls)) bai bes ->
  platform_ok tpu N k bp use_bmmp use_bat bai ->
  length ct = S (length ls) -> (m < length f)%nat ->
  phase ls (switch_modulus ct 32 (d + 1)) = Z.of_nat m * Z.of_nat w + delta + j * (2 * Z.of_nat N) ->
  - Z.of_nat (w / 2) <= delta < Z.of_nat w - Z.of_nat (w / 2) ->
  exists bsk tp rotated,
    gen_bootstrapping_key tpu ls {| rk_log := 32; rk_degree := N; rk_data := s |} bp bai bes use_bmmp use_bat = Some bsk /\
    gen_and_encrypt tpu f p (params32 (length ls) k N) = Some tp /\
    jit_blind_rotate tpu tp (switch_modulus ct 32 (d + 1)) (bsk_bits bsk) 32 bp (bsk_use_bmmp bsk) (bsk_use_bat bsk) = Some rotated /\
    exists v, Z.abs v <= rotation_noise use_bmmp (length ls) N k bp bnn BE /\
      phase (concat s) (jit_sample_extract rotated N) == nth m f 0 * 2 ^ (32 - (msg + 1)) + v [mod 2 ^ 32].
Proof.
  intros tpu d msg p f w k s ls bp bnn bai bes BE ub ut ct m delta j.
  intros Hp Hmsg Hd N Hf HNw Hfr Hs Hbs Hls Hev Hbg HBE HBD Hpl Hct Hm HJ Hdel.
  assert (HNZ : Z.of_nat N = 2 ^ d) by (unfold N; rewrite Z2Nat.id; [reflexivity|apply Z.lt_le_incl, pow2_pos; lia]).
  assert (HN : (0 < N)%nat) by (pose proof (pow2_pos d ltac:(lia)); lia).
  assert (Hw : (1 <= w)%nat) by (destruct w; [lia|lia]).
  assert (Hdiv : (2 * Z.of_nat N | 2 ^ 32)).
  { rewrite HNZ. exists (2 ^ (31 - d)). rewrite Z.mul_assoc, (Z.mul_comm _ 2), <- Z.mul_assoc, <- Z.pow_add_r by lia. replace (31 - d + d) with 31 by lia. reflexivity. }
  assert (HK1 : Forall (Forall (fun z => Z.abs z <= 1)) s).
  { eapply Forall_impl; [|exact Hbs]. intros r Hr. eapply Forall_impl; [|exact Hr]. intros z Hz. cbn beta in Hz. lia. }
  set (sp := params32 (length ls) k N).
  destruct (test_polynomial_spec 32 msg 1 p sp f w Hp ltac:(lia) Hmsg Hf HNw Hw Hfr) as (tp & T1 & T2 & T3 & T4).
  change (modulus_degree sp) with N in *.
  set (rot := trivial_encryption tpu tp sp).
  assert (Hrot : is_rlwe N k rot) by (apply (trivial_rect tpu tp sp); assumption).
  set (ct' := switch_modulus ct 32 (d + 1)) in *.
  assert (Hct' : length ct' = S (length ls)) by (unfold ct', switch_modulus; rewrite map_length; exact Hct).
  destruct (rotate_peq tpu N HN k s ls bp bnn bai bes 1 BE ub ut rot ct' Hs HK1 ltac:(lia) Hls Hev Hdiv Hbg HBE HBD Hpl Hrot Hct') as (bsk & out & H1 & H2 & H3 & err & H4 & H5).
  exists bsk, rot, out. split; [exact H1|]. split; [unfold gen_and_encrypt; rewrite T1; reflexivity|]. split; [exact H2|].
  pose proof (proj1 Hs) as Hks. subst k. unfold is_key in Hs.
  destruct (sample_extract_phase N HN s Hs out H3) as [X1 X2].
  exists (fn err 0). split; [apply (H4 0)|].
  change (2 ^ 32) with W32. rewrite X1. rewrite (H5 0). cbn [fn padd]. rewrite pmono_mul.
  pose proof (trivial_phase N HN s tpu tp (length ls) T2) as TP.
  unfold log_plaintext_modulus in TP. cbn [plaintext_modulus] in TP. rewrite log2_round_pow2 in TP by lia. change (2 ^ 32) with W32 in TP.
  change (trivial_encryption tpu tp {| lwe_dimension := length ls; plaintext_modulus := W32; rlwe_dimension := length s; modulus_degree := N |}) with rot in TP.
  rewrite (TP (0 - - phase ls ct')). cbn [fn pl]. replace (0 - - phase ls ct') with (phase ls ct') by lia.
  pose proof (T4 m (phase ls ct') delta j Hm HJ Hdel) as TT. change (2 ^ 32) with W32 in TT. rewrite TT. apply eqm_eq. ring.
Qed.

(** a phase inside the window of a message decodes to it *)
Lemma phase_decodes t msg pd p sk ct x e : mk_enc_params t msg pd = Some p -> t <= log_modulus sk -> log_modulus sk <= 32 -> 0 <= x < 2 ^ msg ->
  phase (key_data sk) ct == x * 2 ^ (t - (msg + pd)) + e [mod 2 ^ log_modulus sk] -> 2 * Z.abs e < 2 ^ (t - (msg + pd)) ->
  decode (decrypt_without_denoising ct sk) p = x.
Proof.
  intros Hp H1 H2 Hx Hph He. destruct (mk_enc_params_inv _ _ _ _ Hp) as (_ & _ & _ & Ht & _ & _ & _).
  rewrite decrypt_phase by lia. replace (phase (key_data sk) ct mod 2 ^ log_modulus sk) with ((x * 2 ^ (t - (msg + pd)) + e) mod 2 ^ log_modulus sk).
  - apply (decode_window t msg pd p x e (log_modulus sk) Hp); lia.
  - symmetry. apply eqm_mod_iff; [apply pow2_pos; lia|exact Hph].
Qed.

(** For every ciphertext inside the noise window of C15, keys and randomness as there, and a table of messages: if the noise the
    bootstrap adds stays below half a message unit, the decrypter observing it reports no failure at any stage. *)
Theorem C69_silent : forall tpu d msg p f k s ls bp bnn bai bes BE kp knn kai kes KE use_bmmp use_bat ct m e prev,
  mk_enc_params 32 msg 1 = Some p -> msg + 1 < 32 ->
  (0 <= d <= 30) -> let N := Z.to_nat (2 ^ d) in
  Z.of_nat (length f) = 2 ^ msg -> msg <= d -> Forall (fun c => 0 <= c < 2 ^ msg) f ->
  (1 <= k)%nat -> is_key N k s -> Forall binary s -> binary ls -> Nat.even (length ls) = true ->
  gadget bp bnn -> 0 <= BE -> bsk_draws N k (level_count bp) BE (bsk_count use_bmmp (length ls)) bai bes ->
  platform_ok tpu N k bp use_bmmp use_bat bai ->
  gadget kp knn -> 0 <= KE -> ksk_draws (k * N) (length ls) (level_count kp) KE kai kes ->
  Forall word32 ct -> length ct = S (length ls) -> (m < length f)%nat ->
  phase ls ct == Z.of_nat m * 2 ^ (32 - (msg + 1)) + e [mod 2 ^ 32] ->
  2 * Z.abs e + (1 + Z.of_nat (length ls)) * 2 ^ (31 - d) < 2 ^ (32 - (msg + 1)) ->
  2 * (rotation_noise use_bmmp (length ls) N k bp bnn BE + key_switch_noise (k * N) kp knn KE) < 2 ^ (32 - (msg + 1)) ->
  let lsk := {| log_modulus := 32; key_data := ls |} in let rsk := {| rk_log := 32; rk_degree := N; rk_data := s |} in
  let sp := params32 (length ls) k N in
  exists bsk tp out,
    gen_bootstrapping_key tpu ls rsk bp bai bes use_bmmp use_bat = Some bsk /\ gen_and_encrypt tpu f p sp = Some tp /\
    bootstrap_observed tpu ct tp bsk (ksk_gen kp (flatten_key rsk) lsk kai kes) kp bp sp
      (Some (mid_decrypt {| md_sp := sp; md_enc := p; md_lwe := lsk; md_rlwe := rsk |} f)) {| starting := prev; failures := [] |} =
    (Some out, {| starting := Some (Z.of_nat m); failures := [] |}).
Proof.
  intros tpu d msg p f k s ls bp bnn bai bes BE kp knn kai kes KE ub ut ct m e prev.
  intros Hp Hmsg Hd N Hf Hmd Hfr Hk1 Hs Hbs Hls Hev Hbg HBE HBD Hpl HKG HKE HKD Hcw Hct Hm Hph Hwin Hn1 lsk rsk sp.
  destruct (mk_enc_params_inv _ _ _ _ Hp) as (P1 & P2 & P3 & _ & Hmsg1 & _ & _).
  assert (Hfr' : Forall (fun c => 0 <= c <= 2 ^ (msg + 1)) f).
  { eapply Forall_impl; [|exact Hfr]. intros c Hc. cbn beta in *. rewrite Z.pow_add_r by lia. lia. }
  assert (Hfm : 0 <= nth m f 0 < 2 ^ msg) by (rewrite Forall_forall in Hfr; apply Hfr; apply nth_In; exact Hm).
  assert (Hmr : 0 <= Z.of_nat m < 2 ^ msg) by lia.
  destruct (C15_bootstrap tpu d msg p f k s ls bp bnn bai bes BE kp knn kai kes KE ub ut ct m e Hp Hmsg Hd Hf Hmd Hfr' Hk1 Hs Hbs Hls Hev Hbg HBE HBD Hpl HKG HKE HKD Hcw Hct Hm Hph Hwin)
    as (bsk & tp & out & B1 & B2 & B3 & _ & _ & v & Hv & B4).
  assert (HK0 : 0 <= key_switch_noise (k * N) kp knn KE).
  { assert (G1 : 0 <= gadget_trunc kp knn) by (unfold gadget_trunc; destruct (_ =? _)%nat; [lia|apply Z.pow_nonneg; lia]).
    assert (G2 : 0 <= 2 ^ log_base kp * KE) by (apply Z.mul_nonneg_nonneg; [apply Z.pow_nonneg|]; lia).
    unfold key_switch_noise, key_switch_noise_gen. apply Z.mul_nonneg_nonneg; [lia|]. apply Z.add_nonneg_nonneg; [lia|]. apply Z.mul_nonneg_nonneg; lia. }
  (* the block of the switched phase *)
  set (w := Z.to_nat (2 ^ (d - msg))).
  assert (HwZ : Z.of_nat w = 2 ^ (d - msg)) by (unfold w; rewrite Z2Nat.id; [reflexivity|apply Z.lt_le_incl, pow2_pos; lia]).
  assert (HNZ : Z.of_nat N = 2 ^ d) by (unfold N; rewrite Z2Nat.id; [reflexivity|apply Z.lt_le_incl, pow2_pos; lia]).
  assert (HNw : N = (length f * w)%nat).
  { apply Nat2Z.inj. rewrite Nat2Z.inj_mul, HNZ, Hf, HwZ, <- Z.pow_add_r by lia. f_equal. lia. }
  assert (HD2 : exists delta j, phase ls (switch_modulus ct 32 (d + 1)) = Z.of_nat m * Z.of_nat w + delta + j * (2 * Z.of_nat N) /\ 2 * Z.abs delta < Z.of_nat w).
  { destruct (switch_phase_n 32 (d + 1) ct ls Hcw Hls Hct ltac:(lia) ltac:(lia) ltac:(lia) ltac:(lia)) as (kk & Hkk).
    replace (32 - (d + 1)) with (31 - d) in Hkk by lia.
    set (J := phase ls (switch_modulus ct 32 (d + 1))) in *.
    pose proof Hph as Hph'. apply eqm_ex in Hph'. destruct Hph' as (k2 & Hph2).
    set (u := 2 ^ (31 - d)) in *. assert (Hu : 0 < u) by (apply pow2_pos; lia).
    assert (HD : 2 ^ (32 - (msg + 1)) = u * Z.of_nat w) by (rewrite HwZ; unfold u; rewrite <- Z.pow_add_r by lia; f_equal; lia).
    assert (HM : 2 ^ 32 = u * (2 * Z.of_nat N)).
    { rewrite HNZ. unfold u. replace (2 * 2 ^ d) with (2 ^ (d + 1)) by (rewrite Z.pow_add_r by lia; ring). rewrite <- Z.pow_add_r by lia. f_equal. lia. }
    rewrite HM in Hkk, Hph2. rewrite HD in Hph2, Hwin.
    exists (J - Z.of_nat m * Z.of_nat w - (kk + k2) * (2 * Z.of_nat N)), (kk + k2). split; [lia|].
    set (delta := J - Z.of_nat m * Z.of_nat w - (kk + k2) * (2 * Z.of_nat N)).
    assert (Habs : 2 * Z.abs (u * delta) < u * Z.of_nat w).
    { replace (u * delta) with (u * J - phase ls ct - kk * (u * (2 * Z.of_nat N)) + e) by (rewrite Hph2; unfold delta; ring). lia. }
    rewrite Z.abs_mul, (Z.abs_eq u) in Habs by lia. nia. }
  destruct HD2 as (delta & j & HJ & Hdel).
  assert (Hw2 : 2 * Z.of_nat (w / 2) <= Z.of_nat w <= 2 * Z.of_nat (w / 2) + 1).
  { pose proof (Nat.div_mod w 2 ltac:(lia)). pose proof (Nat.mod_upper_bound w 2 ltac:(lia)). lia. }
  destruct (extracted_phase tpu d msg p f w k s ls bp bnn bai bes BE ub ut ct m delta j Hp Hmsg Hd Hf HNw Hfr' Hs Hbs Hls Hev Hbg HBE HBD Hpl Hct Hm HJ ltac:(lia))
    as (bsk' & tp' & rot & E1 & E2 & E3 & v1 & Hv1 & E4).
  fold rsk in B1, B2, B3. fold N in B1, B2, B3, Hv. fold rsk sp in B1, B2, B3, E1, E2. fold lsk in B3.
  assert (Q1 : Some bsk' = Some bsk) by (etransitivity; [symmetry; exact E1 | exact B1]). injection Q1 as ->.
  assert (Q2 : Some tp' = Some tp) by (etransitivity; [symmetry; exact E2 | exact B2]). injection Q2 as ->.
  assert (Hlp : log_plaintext_modulus sp = 32) by (apply (log2_round_pow2 32); lia).
  assert (Hld : log_mod_degree sp = d) by (unfold log_mod_degree; change (modulus_degree sp) with N; rewrite HNZ; apply log2_round_pow2; lia).
  change (Z.abs v1 <= rotation_noise ub (length ls) N k bp bnn BE) in Hv1.
  set (dd := {| md_sp := sp; md_enc := p; md_lwe := lsk; md_rlwe := rsk |}).
  assert (Hpd : mk_enc_params (d + 1) msg 1 = Some {| total_bits := d + 1; message_bits := msg; padding_bits := 1 |}).
  { unfold mk_enc_params. replace (d + 1 <? 1) with false by (symmetry; apply Z.ltb_ge; lia). replace (msg <? 1) with false by (symmetry; apply Z.ltb_ge; lia).
    replace (d + 1 - (msg + 1) <? 0) with false by (symmetry; apply Z.ltb_ge; lia). reflexivity. }
  assert (Hin : decode (lwe_decrypt ct lsk p) p = Z.of_nat m).
  { assert (He2 : 2 * Z.abs e < 2 ^ (32 - (msg + 1))) by (pose proof (pow2_pos (31 - d) ltac:(lia)); nia).
    unfold lwe_decrypt. rewrite (decode_remove_noise 32 msg 1); [|exact Hp|lia|].
    - apply (phase_decodes 32 msg 1 p lsk ct (Z.of_nat m) e Hp); cbn [log_modulus key_data lsk]; try lia. exact Hph.
    - apply (decrypt_range ct lsk). cbn. lia. }
  exists bsk, tp, out. split; [exact B1|]. split; [exact B2|].
  destruct (C69_report tpu ct tp bsk (ksk_gen kp (flatten_key rsk) lsk kai kes) kp bp dd f {| total_bits := d + 1; message_bits := msg; padding_bits := 1 |} out prev) as (rot' & r & R1 & R2 & R3 & R4).
  { cbn [md_sp md_enc dd]. rewrite Hld, P2, P3. exact Hpd. }
  { right. cbn [md_enc dd]. rewrite P2. exact Hf. }
  { exact B3. }
  cbn [md_sp md_enc md_lwe md_rlwe dd] in R1, R2, R3, R4. rewrite Hlp, Hld in R1, R4. rewrite E3 in R1. injection R1 as <-. rewrite Hin in R3, R4.
  fold dd in R2. change (bootstrap_observed tpu ct tp bsk (ksk_gen kp (flatten_key rsk) lsk kai kes) kp bp sp (Some (mid_decrypt dd f)) {| starting := prev; failures := [] |} = (Some out, {| starting := Some (Z.of_nat m); failures := [] |})).
  rewrite R2. f_equal.
  assert (HI : image f (Z.of_nat m) = nth m f 0).
  { unfold image. destruct f; [cbn in Hm; lia|]. rewrite Nat2Z.id. reflexivity. }
  assert (HF : failures r = []).
  { apply R4. rewrite HI. split; [|split].
    - apply (phase_decodes (d + 1) msg 1 _ {| log_modulus := d + 1; key_data := ls |} _ (Z.of_nat m) delta Hpd); cbn [log_modulus key_data]; try lia.
      + rewrite HJ. replace (d + 1 - (msg + 1)) with (d - msg) by lia. rewrite HwZ, HNZ. apply eqm_ex. exists j.
        replace (2 ^ (d + 1)) with (2 * 2 ^ d) by (rewrite Z.pow_add_r by lia; ring). ring.
      + replace (d + 1 - (msg + 1)) with (d - msg) by lia. rewrite <- HwZ. exact Hdel.
    - apply (phase_decodes 32 msg 1 p (flatten_key rsk) _ (nth m f 0) v1 Hp); cbn [log_modulus key_data flatten_key rsk rk_log rk_data]; try lia. exact E4.
    - apply (phase_decodes 32 msg 1 p lsk out (nth m f 0) v Hp); cbn [log_modulus key_data lsk]; try lia. exact B4. }
  destruct r as [st fl]. cbn [starting failures] in R3, HF. rewrite R3, HF. reflexivity.
Qed.
Print Assumptions C69_silent.

(** the hypotheses are met by the keys and the ciphertext of C15_hyps_ex with the table [1;0]; C69_ex runs the same case *)
Example C69_silent_ex :
  Forall (fun c => 0 <= c < 2 ^ 1) [1;0] /\
  2 * (rotation_noise true (length ex_ls) 8 1 ex_gp 2 1 + key_switch_noise (1 * 8) ex_gp 2 1) < 2 ^ (32 - (1 + 1)) /\
  exists bsk tp,
    gen_bootstrapping_key 6 ex_ls {| rk_log := 32; rk_degree := Z.to_nat (2 ^ 3); rk_data := ex_rs |} ex_gp ex_bai ex_bes true false = Some bsk /\
    gen_and_encrypt 6 [1;0] (md_enc ex_dec) (params32 2 1 (Z.to_nat (2 ^ 3))) = Some tp /\
    snd (bootstrap_observed 6 ex_ct tp bsk
      (ksk_gen ex_gp (flatten_key {| rk_log := 32; rk_degree := Z.to_nat (2 ^ 3); rk_data := ex_rs |}) {| log_modulus := 32; key_data := ex_ls |} ex_kai ex_kes)
      ex_gp ex_gp (params32 2 1 (Z.to_nat (2 ^ 3))) (Some (mid_decrypt ex_dec [1;0])) {| starting := None; failures := [] |}) =
    {| starting := Some 1; failures := [] |}.
Proof.
  destruct C15_hyps_ex as (A1 & A2 & A3 & A4 & A5 & A6 & A7 & A8 & A9 & A10 & A11).
  assert (F : Forall (fun c => 0 <= c < 2 ^ 1) [1;0]) by (repeat first [apply Forall_nil | apply Forall_cons]; lia).
  assert (B : 2 * (rotation_noise true (length ex_ls) 8 1 ex_gp 2 1 + key_switch_noise (1 * 8) ex_gp 2 1) < 2 ^ (32 - (1 + 1))) by (vm_compute; reflexivity).
  split; [exact F|]. split; [exact B|].
  destruct (C69_silent 6 3 1 _ [1;0] 1 ex_rs ex_ls ex_gp 2 ex_bai ex_bes 1 ex_gp 2 ex_kai ex_kes 1 true false ex_ct 1 1000 None
    A1 ltac:(lia) ltac:(lia) eq_refl ltac:(lia) F ltac:(lia) A2 A3 A4 eq_refl A5 ltac:(lia) A6 A7 A5 ltac:(lia) A8 A9 eq_refl ltac:(cbn; lia) A10 A11 B)
    as (bsk & tp & out & R1 & R2 & R3).
  exists bsk, tp. split; [exact R1|]. split; [exact R2|]. exact (f_equal snd R3).
Qed.
