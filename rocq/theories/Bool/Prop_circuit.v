(** Property C17: circuits of any size.  Property C22: the 128-bit parameters. *)
From Coq Require Import ZArith List Bool String Lia.
From Verif Require Import Base.ZSum Base.Modeq Base.Word Base.Bits Cggi.Model_encoding Cggi.Model_lwe Cggi.Model_decomposition Cggi.Model_key_switch.
From Verif Require Import Cggi.Model_rlwe Cggi.Model_test_polynomial Cggi.Model_bootstrap Cggi.Spec_lwe Cggi.Spec_poly Cggi.Spec_rlwe Cggi.Spec_bootstrap.
From Verif Require Import Cggi.Proof_encoding Cggi.Proof_decomposition Cggi.Proof_lwe Cggi.Proof_rgsw Cggi.Prop_bootstrap.
From Verif Require Import Bool.Model_lut Bool.Model_bool Bool.Spec_bool Bool.Spec_gates Bool.Spec_circuit Bool.Proof_lut Bool.Prop_lut Bool.Prop_gates.
Import ListNotations.
Local Open Scope Z_scope.

Definition env_ok (ls : list Z) (M : Z) (cts : list (list Z)) (bits : list bool) : Prop :=
  Forall2 (fun ct b => exists e, Z.abs e <= M /\ holds_bit ls ct b e) cts bits.

Lemma env_nth ls M cts bits i b : env_ok ls M cts bits -> nth_error bits i = Some b ->
  exists ct e, nth_error cts i = Some ct /\ Z.abs e <= M /\ holds_bit ls ct b e.
Proof.
  intros H. revert i. induction H as [|ct b' cts bits [e [He Hb]] HF IH]; intros [|i] Hi; cbn in Hi; try discriminate.
  - injection Hi as ->. exists ct, e. split; [reflexivity|]. split; assumption.
  - destruct (IH i Hi) as (ct' & e' & A & B). exists ct', e'. split; [exact A|exact B].
Qed.
Lemma gate_result_weaken ls B M r b : B <= M -> gate_result ls B r b -> gate_result ls M r b.
Proof. intros HB (o & v & A1 & A2 & A3). exists o, v. split; [exact A1|]. split; [lia|exact A3]. Qed.

Lemma public_gate_table name f : gate_function name = Some f -> public_gate name = Some (gate2 name).
Proof.
  unfold gate_function, public_gate.
  repeat match goal with |- (if (name =? ?s)%string then _ else _) = _ -> _ => destruct (String.eqb_spec name s); [subst name; reflexivity |] end. discriminate.
Qed.

Section Circuit.
Context {tpu : Z} {pr : bool_params} {d : Z} {bnn knn : nat} {ls : list Z} {rs : list (list Z)}.
Context {bai : list (list (list (list (list Z))))} {bes : list (list (list Z))} {BE : Z} {kai : list (list (list Z))} {kes : list (list Z)} {KE : Z}.
Context {sk : server_key_set} {M : Z}.
Hypothesis HS : key_setup tpu pr d bnn knn ls rs bai bes BE kai kes KE.
Hypothesis Hsk : server_keys tpu (client_keys pr ls rs) pr bai bes kai kes = Some sk.
Hypothesis HM : gate_noise pr bnn knn BE KE <= M.
Hypothesis HM0 : 0 <= M.
Hypothesis HW : in_window pr d (7 * M).

Lemma instr_ok cts bits c : env_ok ls M cts bits ->
  match eval_instr bits c with
  | Some b => gate_result ls M (run_instr tpu sk pr cts c) b
  | None => True
  end.
Proof.
  intros HE. pose proof (proj1 (ks_dim _ _ _ _ _ _ _ _ _ _ _ _ _ HS)) as Hn.
  assert (Hget : forall i b, nth_error bits i = Some b -> exists ct e, nth_error cts i = Some ct /\ Z.abs e <= M /\ holds_bit ls ct b e).
  { intros i b. apply env_nth. exact HE. }
  destruct c as [b|i|name i j|i tb|i j tb|i j k tb|i j k]; cbn [eval_instr run_instr]; unfold wire1.
  - eapply gate_result_weaken; [|apply C16_constant; exact Hn]. lia.
  - destruct (nth_error bits i) as [x|] eqn:E1; [|exact I]. destruct (Hget i x E1) as (c1 & e1 & -> & B1 & H1).
    destruct (C16_not pr ls c1 x e1 Hn H1) as (o & A1 & A2). exists o, (- e1). split; [exact A1|]. split; [lia|exact A2].
  - destruct (nth_error bits i) as [x|] eqn:E1; [|exact I]. destruct (Hget i x E1) as (c1 & e1 & -> & B1 & H1).
    destruct (nth_error bits j) as [y|] eqn:E2; [|exact I]. destruct (Hget j y E2) as (c2 & e2 & -> & B2 & H2).
    destruct (gate_function name) as [f|] eqn:EF; [|exact I]. rewrite (public_gate_table name f EF). eapply gate_result_weaken; [exact HM|].
    eapply C16_gate2; try eassumption. unfold in_window in *. lia.
  - destruct (nth_error bits i) as [x|] eqn:E1; [|exact I]. destruct (Hget i x E1) as (c1 & e1 & -> & B1 & H1).
    pose proof (C16_lut1 pr ls c1 x e1 tb Hn H1) as HL. destruct (_ && _); [|exact I]. eapply gate_result_weaken; [exact B1|exact HL].
  - destruct (nth_error bits i) as [x|] eqn:E1; [|exact I]. destruct (Hget i x E1) as (c1 & e1 & -> & B1 & H1).
    destruct (nth_error bits j) as [y|] eqn:E2; [|exact I]. destruct (Hget j y E2) as (c2 & e2 & -> & B2 & H2).
    eapply gate_result_weaken; [exact HM|]. eapply C16_lut2; try eassumption. unfold in_window in *. lia.
  - destruct (nth_error bits i) as [x|] eqn:E1; [|exact I]. destruct (Hget i x E1) as (c1 & e1 & -> & B1 & H1).
    destruct (nth_error bits j) as [y|] eqn:E2; [|exact I]. destruct (Hget j y E2) as (c2 & e2 & -> & B2 & H2).
    destruct (nth_error bits k) as [z|] eqn:E3; [|exact I]. destruct (Hget k z E3) as (c3 & e3 & -> & B3 & H3).
    eapply gate_result_weaken; [exact HM|]. eapply C16_lut3; try eassumption. unfold in_window in *. lia.
  - destruct (nth_error bits i) as [x|] eqn:E1; [|exact I]. destruct (Hget i x E1) as (c1 & e1 & -> & B1 & H1).
    destruct (nth_error bits j) as [y|] eqn:E2; [|exact I]. destruct (Hget j y E2) as (c2 & e2 & -> & B2 & H2).
    destruct (nth_error bits k) as [z|] eqn:E3; [|exact I]. destruct (Hget k z E3) as (c3 & e3 & -> & B3 & H3).
    eapply gate_result_weaken; [exact HM|]. eapply C16_cmux; try eassumption. unfold in_window in *. lia.
Qed.

Lemma circuit_ok c : forall cts bits values, env_ok ls M cts bits -> eval_circuit c bits = Some values ->
  exists out, run_circuit tpu sk pr c cts = Some out /\ env_ok ls M out values.
Proof.
  induction c as [|i c IH]; intros cts bits values HE HC; cbn [eval_circuit run_circuit] in *.
  - injection HC as <-. exists cts. split; [reflexivity|exact HE].
  - pose proof (instr_ok cts bits i HE) as HI. destruct (eval_instr bits i) as [b|]; [|discriminate].
    destruct HI as (o & v & -> & A2 & A3). apply (IH (cts ++ [o]) (bits ++ [b])); [|exact HC].
    apply Forall2_app; [exact HE|]. constructor; [exists v; split; assumption|constructor].
Qed.
End Circuit.

(** For every circuit, every input bits encrypted with noise at most M and every key set whose gate noise is at most M, if
    seven times M fits in the window then the encrypted run succeeds and every wire decrypts to its cleartext value. *)
Theorem C17_circuit : forall tpu pr d bnn knn ls rs bai bes BE kai kes KE sk M c cts bits values,
  key_setup tpu pr d bnn knn ls rs bai bes BE kai kes KE ->
  server_keys tpu (client_keys pr ls rs) pr bai bes kai kes = Some sk ->
  gate_noise pr bnn knn BE KE <= M -> in_window pr d (7 * M) ->
  Forall2 (fun ct b => exists e, Z.abs e <= M /\ holds_bit ls ct b e) cts bits ->
  eval_circuit c bits = Some values ->
  exists out, run_circuit tpu sk pr c cts = Some out /\
    map (fun ct => bool_decrypt ct (client_keys pr ls rs)) out = map Some values.
Proof.
  intros tpu pr d bnn knn ls rs bai bes BE kai kes KE sk M c cts bits values HS Hsk HM HW HE HC.
  assert (HG : 0 <= gate_noise pr bnn knn BE KE).
  { destruct (ks_bdraws _ _ _ _ _ _ _ _ _ _ _ _ _ HS) as [H1 _]. destruct (ks_kdraws _ _ _ _ _ _ _ _ _ _ _ _ _ HS) as [H2 _].
    destruct (ks_bgadget _ _ _ _ _ _ _ _ _ _ _ _ _ HS) as (Hb & _). destruct (ks_kgadget _ _ _ _ _ _ _ _ _ _ _ _ _ HS) as (Hk & _).
    assert (T : forall p nn, 0 <= gadget_trunc p nn).
    { intros p nn. unfold gadget_trunc. destruct (Nat.eqb _ _); [lia|]. apply Z.pow_nonneg. lia. }
    pose proof (T (bs_decomp pr) bnn). pose proof (T (ks_decomp pr) knn).
    assert (0 < 2 ^ log_base (bs_decomp pr)) by (apply Z.pow_pos_nonneg; lia). assert (0 < 2 ^ log_base (ks_decomp pr)) by (apply Z.pow_pos_nonneg; lia).
    unfold gate_noise, rotation_noise, rotation_noise_gen, key_switch_noise, key_switch_noise_gen, ext_product_noise. rewrite !Z.mul_1_r, !Z.mul_1_l.
    apply Z.add_nonneg_nonneg.
    - apply Z.mul_nonneg_nonneg; [lia|]. apply Z.add_nonneg_nonneg; repeat apply Z.mul_nonneg_nonneg; nia.
    - apply Z.mul_nonneg_nonneg; [lia|]. apply Z.add_nonneg_nonneg; [lia|]. repeat apply Z.mul_nonneg_nonneg; lia. }
  destruct (circuit_ok (M := M) HS Hsk HM ltac:(lia) HW c cts bits values HE HC) as (out & R1 & R2).
  exists out. split; [exact R1|]. clear - R2 HS HW HM HG. induction R2 as [|ct b out values [e [He Hb]] HF IH]; [reflexivity|].
  cbn [map]. f_equal; [|exact IH]. apply (C16_decrypt pr ls rs ct b e); [exact (ks_modulus _ _ _ _ _ _ _ _ _ _ _ _ _ HS)|exact Hb|].
  unfold in_window in HW. assert (0 <= (1 + Z.of_nat (lwe_dimension (scheme pr))) * 2 ^ (31 - d)) by (apply Z.mul_nonneg_nonneg; [lia|apply Z.pow_nonneg; lia]). lia.
Qed.
Print Assumptions C17_circuit.

(** The test parameters: for all binary keys, masks, and noises of at most ten standard deviations (the test source has
    standard deviation 1), on every platform, every circuit on fresh encryptions decrypts to its cleartext value. *)
Definition test_draws (ls : list Z) (rs : list (list Z)) bai bes kai kes : Prop :=
  List.length ls = 4%nat /\ binary ls /\ is_key 512 1 rs /\ Forall binary rs /\
  bsk_draws 512 1 8 10 (bsk_count true 4) bai bes /\ ksk_draws 512 4 8 10 kai kes.
Lemma test_setup tpu ls rs bai bes kai kes : test_draws ls rs bai bes kai kes ->
  key_setup tpu params_test 9 8 8 ls rs bai bes 10 kai kes 10.
Proof.
  intros (H1 & H2 & H3 & H4 & H5 & H6). constructor; cbn [scheme params_test modulus_degree plaintext_modulus lwe_dimension rlwe_dimension ks_decomp bs_decomp]; rewrite ?H1.
  - split; [lia|reflexivity].
  - reflexivity.
  - split; reflexivity.
  - lia.
  - exact H2.
  - split; assumption.
  - unfold gadget; cbn; lia.
  - unfold gadget; cbn; lia.
  - split; [lia|exact H5].
  - split; [lia|exact H6].
  - right. right. right. cbn [mk_decomp log_base]. split; [lia|]. vm_compute. reflexivity.
Qed.
Theorem C17_test_parameters : forall tpu ls rs bai bes kai kes sk c inputs cts bits values,
  test_draws ls rs bai bes kai kes ->
  server_keys tpu (client_keys params_test ls rs) params_test bai bes kai kes = Some sk ->
  Forall (fun v : bool * list Z * Z => List.length (snd (fst v)) = 4%nat /\ Forall word32 (snd (fst v)) /\ Z.abs (s32 (snd v)) <= 10) inputs ->
  map (fun v => bool_encrypt (fst (fst v)) (client_keys params_test ls rs) (snd (fst v)) (snd v)) inputs = map Some cts ->
  bits = map (fun v => fst (fst v)) inputs ->
  eval_circuit c bits = Some values ->
  exists out, run_circuit tpu sk params_test c cts = Some out /\
    map (fun ct => bool_decrypt ct (client_keys params_test ls rs)) out = map Some values.
Proof.
  intros tpu ls rs bai bes kai kes sk c inputs cts bits values HD Hsk HI Hcts -> HC.
  pose proof (test_setup tpu _ _ _ _ _ _ HD) as HS. destruct HD as (H1 & _).
  apply (C17_circuit tpu params_test 9 8 8 ls rs bai bes 10 kai kes 10 sk 17000000 c cts (map (fun v => fst (fst v)) inputs) values HS Hsk).
  - vm_compute. discriminate.
  - vm_compute. reflexivity.
  - revert cts Hcts. clear - HI H1. induction HI as [|[[b ai] e] inputs (A1 & A2 & A3) HF IH]; intros [|ct cts] Hcts; try discriminate; [constructor|].
    cbn [map fst snd] in *. injection Hcts as E1 E2. constructor; [|apply IH; exact E2].
    destruct (C16_encrypt params_test ls rs b ai e eq_refl ltac:(lia) A2) as (ct' & B1 & B2). rewrite B1 in E1. injection E1 as ->.
    exists (s32 e). split; [lia|exact B2].
  - exact HC.
Qed.
Print Assumptions C17_test_parameters.

(** *** instances *)
Definition z_poly (N : nat) : list Z := repeat 0 N.
Definition z_bai (N k L n : nat) := repeat (repeat (repeat (repeat (z_poly N) k) L) (S k)) (bsk_count true n).
Definition z_bes (L k n : nat) (e : Z) := repeat (repeat (repeat e L) (S k)) (bsk_count true n).
Definition z_kai (n n' L : nat) (a : Z) := repeat (repeat (repeat a n') L) n.
Definition z_kes (n L : nat) (e : Z) := repeat (repeat e L) n.

Lemma z_bsk_draws N k L n e E : Z.abs (s32 e) <= E -> bsk_draws N k L E (bsk_count true n) (z_bai N k L n) (z_bes L k n e).
Proof.
  intros He. split; [apply repeat_length|]. split; [apply repeat_length|]. intros j Hj. unfold z_bai, z_bes. rewrite !nth_repeat_lt by exact Hj.
  split; [apply repeat_length|]. split; [|split].
  - apply Forall_repeat'. split; [apply repeat_length|]. apply Forall_repeat'. split; [apply repeat_length|]. apply Forall_repeat', repeat_length.
  - split; [apply repeat_length|]. apply Forall_repeat', repeat_length.
  - apply Forall_repeat', Forall_repeat'. exact He.
Qed.
Lemma z_ksk_draws n n' L a e E : Z.abs (s32 e) <= E -> ksk_draws n n' L E (z_kai n n' L a) (z_kes n L e).
Proof.
  intros He. split; [apply repeat_length|]. split; [|split].
  - apply Forall_repeat'. split; [apply repeat_length|]. apply Forall_repeat', repeat_length.
  - split; [apply repeat_length|]. apply Forall_repeat', repeat_length.
  - apply Forall_repeat', Forall_repeat'. exact He.
Qed.
Example C17_test_draws_ex : test_draws [1;0;1;1] [repeat 1 512] (z_bai 512 1 8 4) (z_bes 8 1 4 4294967295) (z_kai 512 4 8 123456789) (z_kes 512 8 7).
Proof.
  split; [reflexivity|]. split; [apply Forall_forall; intros z Hz; cbn in Hz; lia|].
  split; [split; [reflexivity|]; constructor; [apply repeat_length|constructor]|].
  split; [constructor; [apply Forall_repeat'; lia|constructor]|]. split; [apply z_bsk_draws|apply z_ksk_draws]; vm_compute; discriminate.
Qed.
(** a full adder with a multiplexer at the end; wires 0 1 2 are the inputs *)
Definition ex_adder : circuit :=
  [IGate "xor" 0 1; IGate "xor" 3 2; ILut3 0 1 2 232; INot 5; IConst true; ICmux 4 6 7; ILut1 8 1; ILut2 9 5 6].
Example C17_eval_ex : eval_circuit ex_adder [true; false; true] = Some [true; false; true; true; false; true; false; true; false; true; false].
Proof. reflexivity. Qed.

(** the hypotheses of the gate theorems (C16) are met by this key set with noises up to 17 million *)
Example C16_setup_ex : exists tpu pr d bnn knn ls rs bai bes BE kai kes KE,
  key_setup tpu pr d bnn knn ls rs bai bes BE kai kes KE /\ 0 < BE /\ in_window pr d (7 * 17000000) /\ gate_noise pr bnn knn BE KE <= 17000000.
Proof.
  do 13 eexists. split; [apply (test_setup 6), C17_test_draws_ex|]. split; [lia|]. split; vm_compute; [reflexivity|discriminate].
Qed.

(** ** C22 *)
(** The full statement ("every two-input gate is correct for every mask and binary key") is false.  Finding: with the
    128-bit parameters, a noiseless encryption whose mask has 128 entries at the rounding midpoint, under a key with ones
    there, is moved a whole message slot by the modulus switching; NAND(true, true) then decrypts to true although every
    noise drawn is zero. *)
Definition c22_ls := repeat 1 800.
Definition c22_rs := repeat (repeat 0 512) 2.
Definition c22_x := jit_encrypt (2 ^ 28) c22_ls (repeat (2 ^ 20) 128 ++ repeat 0 672) 0 32.
Definition c22_y := jit_encrypt (2 ^ 28) c22_ls (repeat 0 800) 0 32.

Lemma c22_phase : phase c22_ls (switch_modulus (comb2 c22_x c22_y) 32 (9 + 1)) = 128.
Proof. vm_compute. reflexivity. Qed.

Theorem C22_all_ciphertexts_refuted : exists sk out,
  key_setup 6 params_128 9 8 8 c22_ls c22_rs (z_bai 512 2 6 800) (z_bes 6 2 800 0) 0 (z_kai 1024 800 5 0) (z_kes 1024 5 0) 0 /\
  server_keys 6 (client_keys params_128 c22_ls c22_rs) params_128 (z_bai 512 2 6 800) (z_bes 6 2 800 0) (z_kai 1024 800 5 0) (z_kes 1024 5 0) = Some sk /\
  holds_bit c22_ls c22_x true 0 /\ holds_bit c22_ls c22_y true 0 /\
  nand_ 6 c22_x c22_y sk params_128 = Some out /\
  bool_decrypt out (client_keys params_128 c22_ls c22_rs) = Some true.
Proof.
  assert (HB : binary c22_ls) by (apply Forall_repeat'; lia).
  assert (HL : List.length c22_ls = 800%nat) by apply repeat_length.
  assert (HR : is_key 512 2 c22_rs). { split; [apply repeat_length|]. apply Forall_repeat', repeat_length. }
  assert (HBD : bsk_draws 512 2 6 0 (bsk_count true 800) (z_bai 512 2 6 800) (z_bes 6 2 800 0)) by (apply z_bsk_draws; vm_compute; discriminate).
  assert (HKD : ksk_draws (2 * 512) 800 5 0 (z_kai 1024 800 5 0) (z_kes 1024 5 0)) by (apply (z_ksk_draws 1024); vm_compute; discriminate).
  assert (HK : kernel_exact 6 512 2 4). { right. right. right. split; [lia|]. vm_compute. reflexivity. }
  assert (HBG : gadget (mk_decomp 4 6) 8) by (unfold gadget; cbn; lia).
  assert (HKG : gadget (mk_decomp 4 5) 8) by (unfold gadget; cbn; lia).
  assert (HS : key_setup 6 params_128 9 8 8 c22_ls c22_rs (z_bai 512 2 6 800) (z_bes 6 2 800 0) 0 (z_kai 1024 800 5 0) (z_kes 1024 5 0) 0).
  { constructor; cbn [scheme params_128 modulus_degree plaintext_modulus lwe_dimension rlwe_dimension ks_decomp bs_decomp]; rewrite ?HL.
    - split; [lia|reflexivity].
    - reflexivity.
    - split; reflexivity.
    - lia.
    - exact HB.
    - split; [exact HR|]. apply Forall_repeat', Forall_repeat'. lia.
    - exact HBG.
    - exact HKG.
    - split; [lia|exact HBD].
    - split; [lia|exact HKD].
    - exact HK. }
  assert (HX : holds_bit c22_ls c22_x true 0).
  { split; [vm_compute; reflexivity|]. split.
    - unfold c22_x, jit_encrypt. apply Forall_app. split; [apply Forall_app; split; apply Forall_repeat'; vm_compute; split; congruence|].
      constructor; [|constructor]. vm_compute. split; congruence.
    - unfold c22_x. rewrite jit_encrypt_phase by lia. reflexivity. }
  assert (HY : holds_bit c22_ls c22_y true 0).
  { split; [vm_compute; reflexivity|]. split.
    - unfold c22_y, jit_encrypt. apply Forall_app. split; [apply Forall_repeat'; vm_compute; split; congruence|].
      constructor; [|constructor]. vm_compute. split; congruence.
    - unfold c22_y. rewrite jit_encrypt_phase by lia. reflexivity. }
  destruct (comb2_holds c22_ls c22_x c22_y true true 0 0 HX HY) as (L & W & _).
  destruct (padded_spec {| num_inputs := 2; truth_table := 7 |} ltac:(cbn; lia)) as (f & F1 & F2 & F3 & F4 & F5).
  destruct (bootstrap_block_gen 0 6 9 3 ENCODING_PARAMS f 64 2 c22_rs c22_ls (mk_decomp 4 6) 8 (z_bai 512 2 6 800) (z_bes 6 2 800 0) 0
              (mk_decomp 4 5) 8 (z_kai 1024 800 5 0) (z_kes 1024 5 0) 0 true false (comb2 c22_x c22_y) 2 0 0)
    as (bsk & tp & out & B1 & B2 & B3 & B4 & B5 & v & B6 & B7);
    change (Z.to_nat (2 ^ 9)) with 512%nat in *; rewrite ?c22_phase, ?HL; try assumption; try lia; try reflexivity.
  { apply Forall_repeat', Forall_repeat'. lia. }
  { cbn. lia. }
  cbv zeta in *. rewrite HL in *.
  eexists. exists out. split; [exact HS|]. split.
  { rewrite (client_eq HS). unfold server_keys. cbn [lwe_sk rlwe_sk key_data scheme params_128 modulus_degree bs_decomp]. rewrite B1. reflexivity. }
  split; [exact HX|]. split; [exact HY|]. split.
  { unfold nand_, gate2, run_bootstrap, lut_poly_by_name. replace (lut_by_name "nand") with (Some {| num_inputs := 2; truth_table := 7 |}) by reflexivity.
    unfold as_rlwe_test_polynomial. rewrite F1. change (scheme params_128) with (params32 800 2 512). rewrite B2. cbn [sk_bsk sk_ksk]. exact B3. }
  apply (C16_decrypt params_128 c22_ls c22_rs out true v); [reflexivity| |].
  - split; [rewrite HL; exact B4|]. split; [exact B5|]. rewrite B7. rewrite F3 by (cbn; lia). reflexivity.
  - assert (HV : rotation_noise_gen true 800 512 2 (mk_decomp 4 6) 8 0 0 + key_switch_noise_gen (2 * 512) (mk_decomp 4 5) 8 0 0 = 204800) by (vm_compute; reflexivity).
    rewrite HV in B6. lia.
Qed.
Print Assumptions C22_all_ciphertexts_refuted.

(** What does hold for the 128-bit parameters: whenever the switched phase stays in the slot of the two inputs, the output
    holds the table entry up to the gate noise. *)
Theorem C22_gate_partial : forall tpu ls rs bai bes BE kai kes KE sk name gate f x y (a b : bool) delta j,
  key_setup tpu params_128 9 8 8 ls rs bai bes BE kai kes KE ->
  server_keys tpu (client_keys params_128 ls rs) params_128 bai bes kai kes = Some sk ->
  public_gate name = Some gate -> gate_function name = Some f ->
  List.length x = 801%nat -> List.length y = 801%nat ->
  phase ls (switch_modulus (comb2 x y) 32 10) = Z.of_nat (row [a; b]) * 64 + delta + j * 1024 -> - 32 <= delta < 32 ->
  gate_result ls (gate_noise params_128 8 8 BE KE) (gate tpu x y sk params_128) (f a b).
Proof.
  intros tpu ls rs bai bes BE kai kes KE sk name gate f x y a b delta j HS Hsk Hg Hf Hx Hy Hp Hdl. rewrite (public_gate_table name f Hf) in Hg. injection Hg as <-.
  pose proof (C18_lut_by_name name) as HN. rewrite Hf in HN. destruct HN as (t & T1 & T2 & T3).
  destruct t as [tn tb]. cbn [num_inputs truth_table] in *. subst tn.
  destruct (padded_spec {| num_inputs := 2; truth_table := tb |} ltac:(cbn; lia)) as (l & F1 & F2 & F3 & F4 & F5). cbn [num_inputs truth_table] in F3.
  pose proof (client_eq HS) as HC.
  destruct HS as [[Hd HN'] Hmod [Hdim Hev] Hk Hbl [Hrs Hbr] HBG HKG [HBE HBD] [HKE HKD] Hpl].
  cbn [scheme params_128 modulus_degree plaintext_modulus lwe_dimension rlwe_dimension ks_decomp bs_decomp] in *.
  assert (Hm : (row [a; b] < 4)%nat) by (destruct a, b; cbn; lia).
  destruct (C15_bootstrap_block tpu 9 3 ENCODING_PARAMS l 64 2 rs ls (mk_decomp 4 6) 8 bai bes BE (mk_decomp 4 5) 8 kai kes KE true false (comb2 x y) (row [a; b]) delta j)
    as (bsk & tp & out & B1 & B2 & B3 & B4 & B5 & v & B6 & B7);
    change (Z.to_nat (2 ^ 9)) with 512%nat in *; try assumption; try lia; try reflexivity.
  { unfold comb2. rewrite <- Hdim. apply vadd32_length; [rewrite vscale32_length|]; assumption. }
  cbv zeta in *. rewrite HC in Hsk. unfold server_keys in Hsk. cbn [lwe_sk rlwe_sk key_data scheme params_128 modulus_degree bs_decomp ks_decomp] in Hsk.
  rewrite B1 in Hsk. injection Hsk as <-.
  exists out, v. split; [|split].
  - unfold gate2, run_bootstrap, lut_poly_by_name. rewrite T1. unfold as_rlwe_test_polynomial. rewrite F1.
    rewrite <- Hdim in B2, B3. change (scheme params_128) with (params32 800 2 512). rewrite B2. exact B3.
  - unfold gate_noise. rewrite <- Hdim in B6. exact B6.
  - split; [exact B4|]. split; [exact B5|]. rewrite B7. rewrite F3 by exact Hm. rewrite T3. change (32 - (3 + 1)) with 28. apply eqm_eq.
    destruct (f a b); cbn [Z.b2z]; lia.
Qed.
Print Assumptions C22_gate_partial.
