(** Properties C10 (RLWE) and C11 (RGSW, external product, cmux). *)
From Coq Require Import ZArith List Lia Bool Setoid Morphisms Ring.
From Verif Require Import Base.ZSum Base.Modeq Base.Nega Base.Word Base.Bits.
From Verif Require Import Cggi.Model_encoding Cggi.Model_lwe Cggi.Model_decomposition Cggi.Model_matrix_utils Cggi.Model_polymul.
From Verif Require Import Cggi.Model_rlwe Cggi.Model_rgsw Cggi.Model_test_polynomial Cggi.Model_bootstrap.
From Verif Require Import Cggi.Spec_lwe Cggi.Spec_poly Cggi.Spec_rlwe Cggi.Spec_bootstrap.
From Verif Require Import Cggi.Proof_encoding Cggi.Proof_lwe Cggi.Proof_decomposition Cggi.Proof_key_switch Cggi.Proof_matrix_utils Cggi.Proof_poly Cggi.Proof_polymul Cggi.Proof_rlwe Cggi.Proof_rgsw.
From Verif Require Import Cggi.Proof_blind_rotate Cggi.Proof_test_polynomial Cggi.Proof_bootstrap.
Import ListNotations.
Local Open Scope Z_scope.

Lemma raw_range tpu ct sk : 0 <= rk_log sk <= 32 -> Forall (fun c => 0 <= c < 2 ^ rk_log sk) (rlwe_decrypt_raw tpu ct sk).
Proof.
  intros HL. unfold rlwe_decrypt_raw. cbv zeta. destruct (Z.ltb_spec (rk_log sk) 32).
  - apply Forall_map, Forall_forall. intros c _. apply Z.mod_pos_bound, pow2_pos. lia.
  - replace (rk_log sk) with 32 by lia. unfold vsub32. change (2 ^ 32) with W32.
    generalize (last ct []) (poly_dot_product tpu (rk_degree sk) (removelast ct) (rk_data sk)). intros a. induction a as [|x a IH]; intros [|y b0]; cbn [map2]; constructor; [apply u32_word|apply IH].
Qed.

(** ** C10 *)
(** [rk_degree sk] is N; masks and key have k polynomials of N coefficients. *)
Theorem C10_decrypt_encrypt : forall tpu sk k pt ai e,
  (0 < rk_degree sk)%nat -> 0 <= rk_log sk <= 32 ->
  is_key (rk_degree sk) k (rk_data sk) -> is_key (rk_degree sk) k ai ->
  length pt = rk_degree sk -> length e = rk_degree sk ->
  rlwe_decrypt_raw tpu (rlwe_encrypt tpu pt sk ai e) sk =
    map (fun j => (coeff pt j + coeff e j) mod 2 ^ rk_log sk) (seq 0 (rk_degree sk)).
Proof.
  intros tpu [L N s] k pt ai e HN HL Hs Hai Hpt He. cbn [rk_degree rk_log rk_data] in *. unfold rlwe_encrypt. cbn [rk_degree rk_log rk_data].
  pose proof (proj1 Hs) as Hk. rewrite <- Hk in Hs, Hai. unfold is_key in *.
  pose proof (rlwe_encrypt_rect N HN s Hs tpu pt ai e L Hai Hpt He) as Hr.
  set (ct := rlwe_jit_encrypt tpu N pt s ai e L) in *.
  assert (Hlen : length (rlwe_decrypt_raw tpu ct {| rk_log := L; rk_degree := N; rk_data := s |}) = N).
  { destruct (rlwe_decrypt_length N HN s Hs tpu ct L N Hr) as [H|H]; [exact H|congruence]. }
  apply (list_eq_nth 0); [rewrite map_length, seq_length; exact Hlen|]. intros j Hj. rewrite Hlen in Hj.
  rewrite nth_map_seq by exact Hj.
  pose proof (rlwe_decrypt_phase N HN s Hs tpu ct L Hr HL (Z.of_nat j)) as H1. cbn [fn pl] in H1. rewrite ext_nat in H1 by exact Hj.
  pose proof (rlwe_encrypt_phase N HN s Hs tpu pt ai e L Hai Hpt He HL (Z.of_nat j)) as H2. cbn [fn padd pl] in H2. rewrite !ext_nat in H2 by exact Hj.
  fold ct in H2. symmetry. apply eqm_small_mod; [apply pow2_pos; lia|unfold coeff; rewrite <- H2; symmetry; exact H1|].
  pose proof (raw_range tpu ct {| rk_log := L; rk_degree := N; rk_data := s |} HL) as HF. rewrite Forall_forall in HF. apply HF, nth_In. lia.
Qed.
Example C10_decrypt_encrypt_ex :
  let sk := {| rk_log := 32; rk_degree := 4; rk_data := [[1;0;1;1];[0;1;1;0]] |} in
  rlwe_decrypt_raw 0 (rlwe_encrypt 0 [5;0;7;9] sk [[4000000000;3;2;1];[9;8;7;4294967295]] [1;2;4294967295;0]) sk = [6;2;6;9].
Proof. vm_compute. reflexivity. Qed.
Print Assumptions C10_decrypt_encrypt.

(** the message polynomial comes back coefficient by coefficient *)
Theorem C10_message_survives : forall t msg pd p tpu sk k xs ai e,
  mk_enc_params t msg pd = Some p -> t <= rk_log sk <= 32 -> (0 < rk_degree sk)%nat ->
  is_key (rk_degree sk) k (rk_data sk) -> is_key (rk_degree sk) k ai ->
  length xs = rk_degree sk -> length e = rk_degree sk -> Forall (fun x => 0 <= x < 2 ^ msg) xs ->
  Forall (fun v => - 2 ^ (t - (msg + pd)) <= 2 * s32 v < 2 ^ (t - (msg + pd))) e ->
  exists pt, encode_list xs p false = Some pt /\
    map (fun c => decode c p) (rlwe_decrypt tpu (rlwe_encrypt tpu pt sk ai e) sk p) = xs.
Proof.
  intros t msg pd p tpu sk k xs ai e Hp HL HN Hs Hai Hxs He Hx Hev.
  destruct (mk_enc_params_inv _ _ _ _ Hp) as (E1 & E2 & E3 & ? & ? & ? & ?).
  exists (map (fun x => x * 2 ^ (t - (msg + pd))) xs). split.
  { clear Hxs. induction Hx as [|x xs Hx Hxs IH]; cbn [encode_list map]; [reflexivity|].
    rewrite (encode_false_val t msg pd p x Hp) by lia. rewrite IH. reflexivity. }
  unfold rlwe_decrypt. rewrite C10_decrypt_encrypt with (k := k) by (assumption || lia || (rewrite map_length; assumption)).
  rewrite !map_map. apply (list_eq_nth 0); [rewrite map_length, seq_length; congruence|]. intros j Hj. rewrite map_length, seq_length in Hj.
  rewrite nth_map_seq by exact Hj. unfold coeff. rewrite (nth_map_lt _ _ _ _ 0) by lia.
  assert (Hxj : 0 <= nth j xs 0 < 2 ^ msg) by (rewrite Forall_forall in Hx; apply Hx, nth_In; lia).
  assert (Hej : - 2 ^ (t - (msg + pd)) <= 2 * s32 (nth j e 0) < 2 ^ (t - (msg + pd))) by (rewrite Forall_forall in Hev; apply Hev, nth_In; lia).
  assert (EQ : (nth j xs 0 * 2 ^ (t - (msg + pd)) + nth j e 0) mod 2 ^ rk_log sk = (nth j xs 0 * 2 ^ (t - (msg + pd)) + s32 (nth j e 0)) mod 2 ^ rk_log sk).
  { apply eqm_mod_iff; [apply pow2_pos; lia|]. apply (eqm_weaken W32); [apply pow2_div_W32; lia|]. rewrite s32_eqm. reflexivity. }
  rewrite EQ. rewrite (decode_remove_noise t msg pd); try assumption; try lia.
  - eapply decode_window; eauto; lia.
  - pose proof (Z.mod_pos_bound (nth j xs 0 * 2 ^ (t - (msg + pd)) + s32 (nth j e 0)) (2 ^ rk_log sk) ltac:(apply pow2_pos; lia)).
    assert (2 ^ rk_log sk <= 2 ^ 32) by (apply pow2_le; lia). change (2 ^ 32) with W32 in *. unfold word32. lia.
Qed.
Example C10_message_survives_ex :
  let p := {| total_bits := 32; message_bits := 3; padding_bits := 1 |} in
  let sk := {| rk_log := 32; rk_degree := 2; rk_data := [[1;1]] |} in
  encode_list [5;2] p false = Some [1342177280; 536870912] /\
  map (fun c => decode c p) (rlwe_decrypt 0 (rlwe_encrypt 0 [1342177280; 536870912] sk [[4000000000;3]] [134217727; 4160749568]) sk p) = [5;2].
Proof. split; vm_compute; reflexivity. Qed.
Print Assumptions C10_message_survives.

(** a trivial encryption decrypts to its polynomial under every key of the right shape *)
Theorem C10_trivial_encryption : forall tpu n k N s tp,
  (0 < N)%nat -> is_key N k s -> length tp = N -> Forall word32 tp ->
  let sp := {| lwe_dimension := n; plaintext_modulus := 2 ^ 32; rlwe_dimension := k; modulus_degree := N |} in
  rlwe_decrypt_raw tpu (trivial_encryption tpu tp sp) {| rk_log := 32; rk_degree := N; rk_data := s |} = tp.
Proof.
  intros tpu n k N s tp HN Hs Htp Hw sp. pose proof (proj1 Hs) as Hk. subst k. unfold is_key in Hs.
  pose proof (trivial_rect tpu tp sp HN Htp) as Hr. cbn [rlwe_dimension sp] in Hr. cbn [ modulus_degree ] in Hr.
  assert (Hlen : length (rlwe_decrypt_raw tpu (trivial_encryption tpu tp sp) {| rk_log := 32; rk_degree := N; rk_data := s |}) = N).
  { destruct (rlwe_decrypt_length N HN s Hs tpu _ 32 N Hr) as [H|H]; [exact H|congruence]. }
  apply (list_eq_nth 0); [lia|]. intros j Hj. rewrite Hlen in Hj.
  pose proof (rlwe_decrypt_phase N HN s Hs tpu _ 32 Hr ltac:(lia) (Z.of_nat j)) as H1. cbn [fn pl] in H1. rewrite ext_nat in H1 by exact Hj.
  pose proof (trivial_phase N HN s tpu tp n Htp) as H2.
  unfold log_plaintext_modulus in H2. cbn [plaintext_modulus] in H2. rewrite log2_round_pow2 in H2 by lia. specialize (H2 (Z.of_nat j)). cbn [fn pl] in H2. rewrite ext_nat in H2 by exact Hj.
  pose proof (raw_range tpu (trivial_encryption tpu tp sp) {| rk_log := 32; rk_degree := N; rk_data := s |} ltac:(cbn; lia)) as HF. rewrite Forall_forall in HF.
  rewrite Forall_forall in Hw.
  apply (eqm_small (2 ^ 32)); [apply HF, nth_In; lia|apply Hw, nth_In; lia|]. rewrite H1. exact H2.
Qed.
Example C10_trivial_ex :
  rlwe_decrypt_raw 6 (trivial_encryption 6 [7;8;9;4294967295] {| lwe_dimension := 4; plaintext_modulus := 2 ^ 32; rlwe_dimension := 2; modulus_degree := 4 |})
    {| rk_log := 32; rk_degree := 4; rk_data := [[1;0;1;1];[0;1;1;0]] |} = [7;8;9;4294967295].
Proof. vm_compute. reflexivity. Qed.
Print Assumptions C10_trivial_encryption.

(** ** C11 *)
(** The external product of an RGSW encryption of any integer [m] with any RLWE ciphertext; [S] bounds the key. *)
Theorem C11_external_product : forall tpu N k s p nn m ai es E S ct,
  (0 < N)%nat -> is_key N k s -> 0 <= S -> Forall (Forall (fun z => Z.abs z <= S)) s -> gadget p nn ->
  0 <= E -> rgsw_draws N k (level_count p) E ai es -> is_rlwe N k ct -> kernel_exact tpu N k (log_base p) ->
  exists out, jit_external_product tpu (Plain (rgsw_jit_encrypt tpu N m s ai es p k 32)) ct p false = Some out /\ is_rlwe N k out /\
    rlwe_near N (2 ^ 32) s out (fun j => m * rlwe_phase N s ct j) (ext_product_noise N k p nn S m E).
Proof.
  intros tpu N k s p nn m ai es E S0 ct HN Hs HS0 HS (Hb & Hnn & Ht & HL) HE (D1 & D2 & D3 & D4) Hct Hker.
  pose proof (proj1 Hs) as Hk. subst k. unfold is_key, is_rlwe in *.
  pose proof (rgsw_encrypt_ok N HN s Hs p nn Hb Hnn HL tpu m ai es (conj D1 D2) D3 E HE D4) as Hok.
  assert (Hent : entry N s p tpu false (Plain (rgsw_jit_encrypt tpu N m s ai es p (length s) 32)) (rgsw_jit_encrypt tpu N m s ai es p (length s) 32)) by (left; auto).
  pose proof (ext_value N HN s p nn Hb Hnn Ht HL tpu false _ _ ct Hent (proj1 Hok) Hct) as Hv.
  eexists. split; [exact Hv|]. split; [apply nega_vecmat_rect|].
  assert (HKb : forall i, (i < length s)%nat -> pbnd N S0 (pl N HN (nth i s []))) by (intros i _; apply key_bound; assumption).
  destruct (external_product_phase N HN s p nn Hb Hnn Ht HL S0 HKb _ (Z.abs m) E _ ct Hok (amp_abs N HN m) Hct) as (err & He & Hph).
  rewrite ext_noise_eq in He by lia.
  replace (ext_product_noise N (length s) p nn S0 (Z.abs m) E) with (ext_product_noise N (length s) p nn S0 m E) in He by (unfold ext_product_noise; rewrite Z.abs_involutive; reflexivity).
  eapply near_of_peq; [|exact He|exact Hph]. intros j Hj. rewrite pconst_mul. cbn [fn pscale]. rewrite (rph_coeff N HN s ct j Hj). reflexivity.
Qed.
Print Assumptions C11_external_product.

(** with the byte layout of bat_offline_compile *)
Theorem C11_external_product_bat : forall tpu N k s p nn m ai es E S ct,
  (0 < N)%nat -> is_key N k s -> 0 <= S -> Forall (Forall (fun z => Z.abs z <= S)) s -> gadget p nn ->
  0 <= E -> rgsw_draws N k (level_count p) E ai es -> Forall (Forall (Forall (Forall word32))) ai ->
  is_rlwe N k ct -> bat_exact tpu N ((k + 1) * level_count p) ->
  exists out, jit_external_product tpu (Bat (bat_offline_compile_cggi (rgsw_jit_encrypt tpu N m s ai es p k 32))) ct p true = Some out /\ is_rlwe N k out /\
    rlwe_near N (2 ^ 32) s out (fun j => m * rlwe_phase N s ct j) (ext_product_noise N k p nn S m E).
Proof.
  intros tpu N k s p nn m ai es E S0 ct HN Hs HS0 HS (Hb & Hnn & Ht & HL) HE (D1 & D2 & D3 & D4) HW Hct Hker.
  pose proof (proj1 Hs) as Hk. subst k. unfold is_key, is_rlwe in *.
  replace ((length s + 1) * level_count p)%nat with (S (length s) * level_count p)%nat in Hker by lia.
  pose proof (rgsw_encrypt_ok N HN s Hs p nn Hb Hnn HL tpu m ai es (conj D1 D2) D3 E HE D4) as Hok.
  assert (Hent : entry N s p tpu true (Bat (bat_offline_compile_cggi (rgsw_jit_encrypt tpu N m s ai es p (length s) 32))) (rgsw_jit_encrypt tpu N m s ai es p (length s) 32)).
  { right. repeat split; auto. apply rgsw_words. exact HW. }
  pose proof (ext_value N HN s p nn Hb Hnn Ht HL tpu true _ _ ct Hent (proj1 Hok) Hct) as Hv.
  eexists. split; [exact Hv|]. split; [apply nega_vecmat_rect|].
  assert (HKb : forall i, (i < length s)%nat -> pbnd N S0 (pl N HN (nth i s []))) by (intros i _; apply key_bound; assumption).
  destruct (external_product_phase N HN s p nn Hb Hnn Ht HL S0 HKb _ (Z.abs m) E _ ct Hok (amp_abs N HN m) Hct) as (err & He & Hph).
  rewrite ext_noise_eq in He by lia.
  replace (ext_product_noise N (length s) p nn S0 (Z.abs m) E) with (ext_product_noise N (length s) p nn S0 m E) in He by (unfold ext_product_noise; rewrite Z.abs_involutive; reflexivity).
  eapply near_of_peq; [|exact He|exact Hph]. intros j Hj. rewrite pconst_mul. cbn [fn pscale]. rewrite (rph_coeff N HN s ct j Hj). reflexivity.
Qed.
Print Assumptions C11_external_product_bat.

(** cmux returns the branch selected by the bit; ciphertexts of different modulus or degree are rejected *)
Theorem C11_cmux : forall tpu N k s p nn m ai es E S ct0 ct1,
  (0 < N)%nat -> is_key N k s -> 0 <= S -> Forall (Forall (fun z => Z.abs z <= S)) s -> gadget p nn ->
  0 <= E -> rgsw_draws N k (level_count p) E ai es -> m = 0 \/ m = 1 ->
  is_rlwe N k (rc_message ct0) -> is_rlwe N k (rc_message ct1) -> kernel_exact tpu N k (log_base p) ->
  rc_log ct0 = rc_log ct1 -> rc_degree ct0 = rc_degree ct1 ->
  exists out, cmux tpu (Plain (rgsw_jit_encrypt tpu N m s ai es p k 32)) ct0 ct1 p false = Some out /\ is_rlwe N k (rc_message out) /\
    rlwe_near N (2 ^ 32) s (rc_message out) (fun j => rlwe_phase N s (rc_message (if m =? 0 then ct0 else ct1)) j) (ext_product_noise N k p nn S 1 E).
Proof.
  intros tpu N k s p nn m ai es E S0 ct0 ct1 HN Hs HS0 HS (Hb & Hnn & Ht & HL) HE (D1 & D2 & D3 & D4) Hm Hc0 Hc1 Hker Hq Hd.
  pose proof (proj1 Hs) as Hk. subst k. unfold is_key, is_rlwe in *.
  pose proof (rgsw_encrypt_ok N HN s Hs p nn Hb Hnn HL tpu m ai es (conj D1 D2) D3 E HE D4) as Hok.
  set (C := rgsw_jit_encrypt tpu N m s ai es p (length s) 32) in *.
  assert (Hent : entry N s p tpu false (Plain C) C) by (left; auto).
  pose proof (msub32_rect _ _ _ _ Hc1 Hc0) as Hsub.
  pose proof (ext_value N HN s p nn Hb Hnn Ht HL tpu false _ _ _ Hent (proj1 Hok) Hsub) as Hv.
  unfold cmux, coefficient_modulus, jit_cmux. rewrite Hq, Hd, Z.eqb_refl, Nat.eqb_refl. cbn [negb]. rewrite Hv.
  pose proof (nega_vecmat_rect N (S (length s)) (decompose_rlwe_ciphertext (msub32 (rc_message ct1) (rc_message ct0)) p) C) as Hr.
  eexists. split; [reflexivity|]. cbn [rc_message]. split; [apply madd32_rect; assumption|].
  assert (HKb : forall i, (i < length s)%nat -> pbnd N S0 (pl N HN (nth i s []))) by (intros i _; apply key_bound; assumption).
  assert (HA : amp N 1 (pconst N HN m)).
  { intros B x Hx. apply (pbnd_le N HN (Z.abs m * B)); [|apply amp_const; exact Hx].
    pose proof (Hx 0) as H0. destruct Hm; subst m; cbn [Z.abs]; lia. }
  destruct (external_product_phase N HN s p nn Hb Hnn Ht HL S0 HKb _ 1 E _ _ Hok HA Hsub) as (err & He & Hph).
  rewrite ext_noise_eq in He by lia.
  exists (fun j => fn err (Z.of_nat j)). split; [intros j _; apply He|]. intros j Hj. change (2 ^ 32) with W32.
  rewrite <- (rph_coeff N HN s _ j Hj).
  rewrite (rph_madd N HN s _ _ Hc0 Hr (Z.of_nat j)). cbn [fn padd]. rewrite (Hph (Z.of_nat j)). cbn [fn padd]. rewrite pconst_mul. cbn [fn pscale].
  rewrite (rph_msub N HN s _ _ Hc1 Hc0 (Z.of_nat j)). cbn [fn psub].
  destruct Hm; subst m; cbn [Z.eqb]; rewrite <- !(rph_coeff N HN s _ j Hj); apply eqm_eq; ring.
Qed.
Example C11_cmux_rejects_ex :
  cmux 0 (Plain []) {| rc_log := 32; rc_degree := 4; rc_message := [] |} {| rc_log := 32; rc_degree := 8; rc_message := [] |}
    {| log_base := 8; level_count := 4; decomp_total := 32 |} false = None.
Proof. reflexivity. Qed.
Print Assumptions C11_cmux.

(** a concrete RGSW encryption that meets all hypotheses above, with its external product *)
Definition exN := 2%nat.
Definition ex_s := [[1;1]].
Definition ex_p := {| log_base := 8; level_count := 4; decomp_total := 32 |}.
Definition ex_ai := [[[[1;2]];[[3;4]];[[5;6]];[[7;8]]];[[[11;12]];[[13;14]];[[15;16]];[[4294967295;18]]]].
Definition ex_es := [[1;0;4294967295;0];[0;1;1;0]].
Example C11_hyps_ex : gadget ex_p 4 /\ is_key exN 1 ex_s /\ rgsw_draws exN 1 4 1 ex_ai ex_es /\ Forall binary ex_s.
Proof.
  unfold gadget, is_key, rgsw_draws, rect, cube, rect, shape2, binary. cbn [log_base level_count decomp_total ex_p].
  assert (A : forall e, e = 0 \/ e = 1 \/ e = 4294967295 -> Z.abs (s32 e) <= 1) by (intros e [->|[->| ->]]; vm_compute; discriminate).
  repeat split; try lia; repeat (constructor; auto); apply A; auto.
Qed.
Example C11_ex :
  let C := rgsw_jit_encrypt 0 exN 1 ex_s ex_ai ex_es ex_p 1 32 in
  option_map (fun out => rlwe_decrypt_raw 0 out {| rk_log := 32; rk_degree := 2; rk_data := ex_s |})
    (jit_external_product 0 (Plain C) (trivial_encryption 0 [2 ^ 28; 3] {| lwe_dimension := 2; plaintext_modulus := 2 ^ 32; rlwe_dimension := 1; modulus_degree := 2 |}) ex_p false)
  = Some [2 ^ 28; 3].
Proof. vm_compute. reflexivity. Qed.

Section MulOpp.
  Variables (N : nat) (HN : (0 < N)%nat).
  Add Ring PolyRing5 : (poly_ring N W32 HN).
  Lemma mul_opp_r a b c : peq N W32 (pmul N (pmul N a b) (popp N c)) (popp N (pmul N a (pmul N b c))).
  Proof. ring. Qed.
End MulOpp.

(** RGSW decryption returns the message; it needs a key polynomial with constant coefficient 1 *)
Lemma first_unit_spec data i0 : match first_unit data i0 with
  | Some i => (i0 <= i < i0 + length data)%nat /\ nth 0 (nth (i - i0) data []) 0 = 1
  | None => Forall (fun s => nth 0 s 0 <> 1) data end.
Proof.
  revert i0. induction data as [|s data IH]; intros i0; cbn [first_unit]; [constructor|].
  destruct (Z.eqb_spec (nth 0 s 0) 1) as [E|E].
  - cbn [length]. split; [lia|]. rewrite Nat.sub_diag. exact E.
  - specialize (IH (S i0)). destruct (first_unit data (S i0)) as [i|].
    + destruct IH as [H1 H2]. cbn [length]. split; [lia|]. replace (i - i0)%nat with (S (i - S i0)) by lia. exact H2.
    + constructor; assumption.
Qed.

Theorem C11_rgsw_decrypt : forall tpu sk k p nn m ai es E,
  (0 < rk_degree sk)%nat -> rk_log sk = 32 -> is_key (rk_degree sk) k (rk_data sk) -> gadget p nn ->
  rgsw_draws (rk_degree sk) k (level_count p) E ai es -> 2 * E < 2 ^ (32 - log_base p) -> 0 <= m < 2 ^ log_base p ->
  rgsw_decrypt tpu (rgsw_encrypt tpu m sk p ai es) p sk =
    if existsb (fun s => nth 0 s 0 =? 1) (rk_data sk) then Some m else None.
Proof.
  intros tpu [L N s] k p nn m ai es E HN HLq Hs (Hb & Hnn & Ht & HL) (D1 & D2 & D3 & D4) HE Hm.
  cbn [rk_degree rk_log rk_data] in *. subst L. pose proof (proj1 Hs) as Hk. subst k. unfold is_key in Hs.
  unfold rgsw_decrypt, rgsw_encrypt. cbn [rk_degree rk_log rk_data].
  pose proof (first_unit_spec s 0) as HU. destruct (first_unit s 0) as [i|].
  2:{ replace (existsb _ s) with false; [reflexivity|]. symmetry. apply not_true_iff_false. intros H. apply existsb_exists in H.
      destruct H as (x & Hx & H). apply Z.eqb_eq in H. rewrite Forall_forall in HU. exact (HU x Hx H). }
  destruct HU as [Hi Hu]. rewrite Nat.sub_0_r in Hu.
  replace (existsb _ s) with true.
  2:{ symmetry. apply existsb_exists. exists (nth i s []). split; [apply nth_In; lia|]. apply Z.eqb_eq. exact Hu. }
  f_equal. cbv zeta.
  replace (level_count p * i)%nat with (i * level_count p + 0)%nat by lia.
  rewrite (rgsw_nth N HN s p nn HL tpu m ai es (conj D1 D2)) by lia.
  set (a := nth 0 (nth i ai []) []). set (e := nth 0 (nth i es []) 0).
  assert (Ha : rect (length s) N a) by (apply (ai_rect N HN s p nn HL ai (conj D1 D2)); lia).
  pose proof (row_rect N HN s Hs p nn HL tpu m ai (conj D1 D2) a e 0 i Ha ltac:(lia)) as Hr.
  pose proof (row_phase N HN s Hs p nn Hb Hnn HL tpu m ai (conj D1 D2) a e 0 i Ha ltac:(lia) ltac:(lia)) as Hph.
  set (row := encrypt_and_modify_one_row tpu N s p 32 a e 1 i m) in *.
  set (ip := vsum N (map2 (poly_mul tpu) (firstn (length s) row) s)).
  assert (HF : Forall (fun x => length x = N) (firstn (length s) row)) by (apply Forall_firstn, (rect_Forall _ _ _ Hr)).
  assert (Hfl : length (firstn (length s) row) = length s) by (rewrite firstn_length, (rect_length _ _ _ Hr); lia).
  change ip with (poly_dot_product tpu N (firstn (length s) row) s).
  assert (Hdl : length (poly_dot_product tpu N (firstn (length s) row) s) = N) by (apply poly_dot_length; [exact HF|apply (rect_Forall _ _ _ Hs)]).
  assert (Hbl : length (nth (length s) row []) = N) by (apply (rect_nth (S (length s))); [exact Hr|lia]).
  rewrite (nth_map_lt _ _ _ _ 0) by (rewrite vsub32_length; lia).
  set (c := nth 0 (vsub32 (poly_dot_product tpu N (firstn (length s) row) s) (nth (length s) row [])) 0).
  assert (Hc : c == m * 2 ^ (32 - log_base p) - s32 e [mod W32]).
  { assert (H1 : peq N W32 (pl N HN (vsub32 (poly_dot_product tpu N (firstn (length s) row) s) (nth (length s) row []))) (popp N (rph N HN s row))).
    { rewrite pl_vsub by assumption. rewrite pl_dot by (assumption || apply (rect_Forall _ _ _ Hs)). rewrite Hfl. rewrite (rph_unfold N HN s row).
      intros z. cbn [fn psub popp]. rewrite !psum_fn. apply eqm_eq.
      match goal with |- ?u - ?v = - (_ - ?w) => assert (EE : u = w); [|rewrite EE; ring] end.
      apply zsum_ext. intros r Hr'. rewrite nth_firstn_lt by exact Hr'. reflexivity. }
    specialize (H1 (Z.of_nat 0)). cbn [fn pl popp] in H1. rewrite ext_nat in H1 by exact HN. fold c in H1. rewrite H1.
    rewrite (Hph (Z.of_nat 0)). cbn [fn padd pl]. rewrite ext_nat by exact HN. rewrite nth_repeat_lt by exact HN.
    assert (HS : peq N W32 (pmul N (pmul N (pconst N HN m) (gw N HN p 0)) (sigma N HN s i))
                   (popp N (pmul N (pconst N HN m) (pmul N (gw N HN p 0) (pl N HN (nth i s [])))))).
    { unfold sigma. destruct (Nat.ltb_spec i (length s)); [|lia]. apply (mul_opp_r N HN). }
    rewrite (HS (Z.of_nat 0)). cbn [fn popp]. rewrite pconst_mul. cbn [fn pscale]. unfold gw. rewrite pconst_mul. cbn [fn pscale pl].
    rewrite ext_nat by exact HN. rewrite Hu. apply eqm_eq. replace (1 + Z.of_nat 0) with 1 by lia. rewrite Z.mul_1_l. ring. }
  assert (Hcw : word32 c). { unfold c, vsub32. rewrite (nth_map2 _ _ _ _ 0 0) by lia. apply u32_word. }
  assert (He : Z.abs (s32 e) <= E).
  { destruct D3 as [F1 F2]. rewrite Forall_forall in D4, F2. assert (HIn : In (nth i es []) es) by (apply nth_In; lia).
    specialize (D4 _ HIn). rewrite Forall_forall in D4. apply D4. apply nth_In. rewrite (F2 _ HIn). lia. }
  rewrite shifted_spec by (assumption || lia). replace (32 - (32 - log_base p)) with (log_base p) by lia. rewrite Z.mod_mod by (pose proof (pow2_pos (log_base p) ltac:(lia)); lia).
  replace c with ((m * 2 ^ (32 - log_base p) + - s32 e) mod 2 ^ 32).
  2:{ symmetry. apply (eqm_small W32); [exact Hcw|apply Z.mod_pos_bound; reflexivity|]. change (2 ^ 32) with W32. rewrite eqm_mod. rewrite Hc. apply eqm_eq. ring. }
  rewrite window_div_mod by lia. apply Z.mod_small. lia.
Qed.
Example C11_rgsw_decrypt_ex :
  rgsw_decrypt 0 (rgsw_encrypt 0 77 {| rk_log := 32; rk_degree := 2; rk_data := ex_s |} ex_p ex_ai ex_es) ex_p {| rk_log := 32; rk_degree := 2; rk_data := ex_s |} = Some 77.
Proof. vm_compute. reflexivity. Qed.
Print Assumptions C11_rgsw_decrypt.
