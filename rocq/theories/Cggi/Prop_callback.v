(** Property C69: observing a bootstrap does not change it, and the observer's report is right. *)
From Coq Require Import ZArith List Bool Lia.
From Verif Require Import Base.Word Cggi.Model_encoding Cggi.Model_lwe Cggi.Model_decomposition Cggi.Model_key_switch.
From Verif Require Import Cggi.Model_rlwe Cggi.Model_test_polynomial Cggi.Model_bootstrap Cggi.Model_callback.
From Verif Require Import Cggi.Spec_lwe Cggi.Spec_rlwe Cggi.Spec_bootstrap Cggi.Prop_bootstrap.
Import ListNotations.
Local Open Scope Z_scope.

(** The result does not depend on the callback, as long as it does not raise; without one nothing is observed. *)
Theorem C69_transparent : forall (W : Type) tpu ct tp bsk ksk kp bp sp (callback : event -> W -> option W) w,
  (forall e w, callback e w <> None) ->
  fst (bootstrap_observed tpu ct tp bsk ksk kp bp sp (Some callback) w) = bootstrap tpu ct tp bsk ksk kp bp sp /\
  bootstrap_observed tpu ct tp bsk ksk kp bp sp None w = (bootstrap tpu ct tp bsk ksk kp bp sp, w).
Proof.
  intros W tpu ct tp bsk ksk kp bp sp f w H. split; unfold bootstrap_observed, bootstrap, notify; cbv zeta.
  - destruct (f (Initial ct) w) as [w1|] eqn:E1; [|destruct (H _ _ E1)].
    destruct (f (ApproxCiphertext _) w1) as [w2|] eqn:E2; [|destruct (H _ _ E2)].
    destruct (jit_blind_rotate _ _ _ _ _ _ _ _) as [r|]; [|reflexivity].
    destruct (f (Rotated r) w2) as [w3|] eqn:E3; [|destruct (H _ _ E3)].
    destruct (f (Extracted _) w3) as [w4|] eqn:E4; [|destruct (H _ _ E4)].
    destruct (f (KeySwitched _) w4) as [w5|] eqn:E5; [|destruct (H _ _ E5)]. reflexivity.
  - destruct (jit_blind_rotate _ _ _ _ _ _ _ _) as [r|]; reflexivity.
Qed.
Print Assumptions C69_transparent.

(** The callback sees five stages: the input first, then the ciphertext over 2N, the rotated polynomial, the extracted ciphertext,
    and last the result. *)
Theorem C69_stages : forall tpu ct tp bsk ksk kp bp sp out,
  bootstrap tpu ct tp bsk ksk kp bp sp = Some out ->
  exists rotated,
    jit_blind_rotate tpu tp (switch_modulus ct (log_plaintext_modulus sp) (log_mod_degree sp + 1)) (bsk_bits bsk) (log_plaintext_modulus sp) bp
      (bsk_use_bmmp bsk) (bsk_use_bat bsk) = Some rotated /\
    bootstrap_observed tpu ct tp bsk ksk kp bp sp (Some (fun e seen => Some (seen ++ [e]))) [] =
    (Some out, [Initial ct; ApproxCiphertext (switch_modulus ct (log_plaintext_modulus sp) (log_mod_degree sp + 1)); Rotated rotated;
                Extracted (jit_sample_extract rotated (modulus_degree sp)); KeySwitched out]).
Proof.
  intros tpu ct tp bsk ksk kp bp sp out H. unfold bootstrap in H. unfold bootstrap_observed, notify. cbv zeta in *.
  destruct (jit_blind_rotate _ _ _ _ _ _ _ _) as [r|]; [|discriminate]. injection H as <-. exists r. split; reflexivity.
Qed.
Print Assumptions C69_stages.

(** the message a table stands for: no table or an empty one is the identity *)
Definition image (lut : list Z) (m : Z) : Z := match lut with [] => m | _ => nth (Z.to_nat m) lut 0 end.

Lemma compare_starting r a b : starting (compare r a b) = starting r.
Proof. unfold compare. destruct (match a with Some v => v =? b | None => false end); reflexivity. Qed.
Lemma compare_nil r a b : failures (compare r (Some a) b) = [] <-> failures r = [] /\ b = a.
Proof.
  unfold compare. destruct (Z.eqb_spec a b) as [->|E]; [tauto|]. cbn [failures].
  split; [intros H; apply app_eq_nil in H; destruct H; discriminate|intros [_ H]; congruence].
Qed.
Lemma decode_range x p : 0 <= message_bits p -> 0 <= decode x p < 2 ^ message_bits p.
Proof.
  intros H. unfold decode. replace (2 ^ message_bits p - 1) with (Z.ones (message_bits p)) by (rewrite Z.ones_equiv; lia).
  rewrite Z.land_ones by exact H. apply Z.mod_pos_bound. apply Z.pow_pos_nonneg; lia.
Qed.

(** With the decrypter as callback and a table that is empty or has an entry for every message, nothing raises: the result is that
    of the bootstrap.  No failure is reported exactly when the message survives the modulus switch, and the extracted
    ciphertext and the result both decode, under their keys, to the image of the message the input decodes to. *)
Theorem C69_report : forall tpu ct tp bsk ksk kp bp d lut pd out prev,
  mk_enc_params (log_mod_degree (md_sp d) + 1) (message_bits (md_enc d)) (padding_bits (md_enc d)) = Some pd ->
  lut = [] \/ Z.of_nat (length lut) = 2 ^ message_bits (md_enc d) ->
  bootstrap tpu ct tp bsk ksk kp bp (md_sp d) = Some out ->
  let m := decode (lwe_decrypt ct (md_lwe d) (md_enc d)) (md_enc d) in
  exists rotated r,
    jit_blind_rotate tpu tp (switch_modulus ct (log_plaintext_modulus (md_sp d)) (log_mod_degree (md_sp d) + 1)) (bsk_bits bsk) (log_plaintext_modulus (md_sp d)) bp
      (bsk_use_bmmp bsk) (bsk_use_bat bsk) = Some rotated /\
    bootstrap_observed tpu ct tp bsk ksk kp bp (md_sp d) (Some (mid_decrypt d lut)) {| starting := prev; failures := [] |} = (Some out, r) /\
    starting r = Some m /\
    (failures r = [] <->
     decode (decrypt_without_denoising (switch_modulus ct (log_plaintext_modulus (md_sp d)) (log_mod_degree (md_sp d) + 1))
               {| log_modulus := log_mod_degree (md_sp d) + 1; key_data := key_data (md_lwe d) |}) pd = m /\
     decode (decrypt_without_denoising (jit_sample_extract rotated (modulus_degree (md_sp d))) (flatten_key (md_rlwe d))) (md_enc d) = image lut m /\
     decode (decrypt_without_denoising out (md_lwe d)) (md_enc d) = image lut m).
Proof.
  intros tpu ct tp bsk ksk kp bp d lut pd out prev Hp Hlut H m.
  assert (Hb : 0 <= message_bits (md_enc d)).
  { unfold mk_enc_params in Hp. destruct (_ <? 1) in Hp; [discriminate|]. destruct (message_bits (md_enc d) <? 1) eqn:E in Hp; [discriminate|].
    apply Z.ltb_ge in E. lia. }
  assert (HE : expected lut (Some m) = Some (Some (image lut m))).
  { unfold expected, image. destruct lut as [|a l]; [reflexivity|]. destruct Hlut as [Hl|Hl]; [discriminate|].
    pose proof (decode_range (lwe_decrypt ct (md_lwe d) (md_enc d)) (md_enc d) Hb) as R. fold m in R.
    rewrite (nth_error_nth' _ 0) by lia. reflexivity. }
  unfold bootstrap in H. unfold bootstrap_observed, notify. cbv zeta in *. cbn [mid_decrypt starting failures]. rewrite Hp. fold m.
  destruct (jit_blind_rotate _ _ _ _ _ _ _ _) as [rot|]; [|discriminate]. injection H as <-. exists rot.
  set (r0 := {| starting := Some m; failures := [] |}).
  rewrite !compare_starting. change (starting r0) with (Some m). rewrite HE. rewrite !compare_starting. change (starting r0) with (Some m). rewrite HE.
  eexists. split; [reflexivity|]. split; [reflexivity|]. rewrite !compare_starting. split; [reflexivity|].
  rewrite !compare_nil. change (failures r0) with (@nil (option Z * Z)). tauto.
Qed.
Print Assumptions C69_report.

(** a callback that raises ends the bootstrap *)
Theorem C69_raising : forall (W : Type) tpu ct tp bsk ksk kp bp sp (callback : event -> W -> option W) w,
  callback (Initial ct) w = None -> bootstrap_observed tpu ct tp bsk ksk kp bp sp (Some callback) w = (None, w).
Proof. intros W tpu ct tp bsk ksk kp bp sp f w H. unfold bootstrap_observed, notify. rewrite H. reflexivity. Qed.
Print Assumptions C69_raising.

(** the keys, the noisy ciphertext and the table of C15_ex: five stages, and no failure reported for the right table; two for a wrong one *)
Definition ex_dec := {| md_sp := params32 2 1 8; md_enc := {| total_bits := 32; message_bits := 1; padding_bits := 1 |};
  md_lwe := {| log_modulus := 32; key_data := ex_ls |}; md_rlwe := {| rk_log := 32; rk_degree := 8; rk_data := ex_rs |} |}.
Example C69_ex :
  match gen_bootstrapping_key 6 ex_ls {| rk_log := 32; rk_degree := 8; rk_data := ex_rs |} ex_gp ex_bai ex_bes true false,
        gen_and_encrypt 6 [1;0] (md_enc ex_dec) (params32 2 1 8) with
  | Some bsk, Some tp =>
      let run lut := snd (bootstrap_observed 6 ex_ct tp bsk
        (ksk_gen ex_gp (flatten_key {| rk_log := 32; rk_degree := 8; rk_data := ex_rs |}) {| log_modulus := 32; key_data := ex_ls |} ex_kai ex_kes)
        ex_gp ex_gp (params32 2 1 8) (Some (mid_decrypt ex_dec lut)) {| starting := None; failures := [] |}) in
      (run [1;0], run [0;1])
  | _, _ => ({| starting := None; failures := [] |}, {| starting := None; failures := [] |})
  end = ({| starting := Some 1; failures := [] |}, {| starting := Some 1; failures := [(Some 1, 0); (Some 1, 0)] |}).
Proof. vm_compute. reflexivity. Qed.
