(** Property C16: the Boolean gates. *)
From Coq Require Import ZArith List Bool String Lia.
From Verif Require Import Base.ZSum Base.Modeq Base.Word Base.Bits Cggi.Model_encoding Cggi.Model_lwe Cggi.Model_decomposition Cggi.Model_key_switch.
From Verif Require Import Cggi.Model_rlwe Cggi.Model_test_polynomial Cggi.Model_bootstrap Cggi.Spec_lwe Cggi.Spec_rlwe Cggi.Spec_bootstrap.
From Verif Require Import Cggi.Proof_encoding Cggi.Proof_decomposition Cggi.Proof_lwe Cggi.Prop_bootstrap.
From Verif Require Import Bool.Model_lut Bool.Model_bool Bool.Spec_bool Bool.Spec_gates Bool.Proof_lut Bool.Prop_lut.
Import ListNotations.
Local Open Scope Z_scope.

(** the ciphertext entries stay 32-bit words *)
Lemma vadd32_word a b : Forall word32 (vadd32 a b).
Proof. unfold vadd32. revert b. induction a as [|x a IH]; intros [|y b]; cbn [map2]; constructor; [apply u32_word|apply IH]. Qed.
Lemma vsub32_word a b : Forall word32 (vsub32 a b).
Proof. unfold vsub32. revert b. induction a as [|x a IH]; intros [|y b]; cbn [map2]; constructor; [apply u32_word|apply IH]. Qed.

Lemma comb2_holds ls x y a b ea eb : holds_bit ls x a ea -> holds_bit ls y b eb ->
  List.length (comb2 x y) = S (List.length ls) /\ Forall word32 (comb2 x y) /\
  phase ls (comb2 x y) == Z.of_nat (row [a; b]) * 2 ^ 28 + (2 * ea + eb) [mod 2 ^ 32].
Proof.
  intros (L1 & _ & P1) (L2 & _ & P2). unfold comb2. split; [apply vadd32_length; [rewrite vscale32_length|]; assumption|].
  split; [apply vadd32_word|].
  change (2 ^ 32) with W32 in *. rewrite (phase_add ls _ _ (List.length ls)) by (rewrite ?vscale32_length; assumption).
  rewrite (phase_scale ls 2 x (List.length ls)) by assumption. rewrite P1, P2. apply eqm_eq. generalize (2 ^ 28). intros q.
  destruct a, b; unfold row; cbn [msb_first Nat.mul Nat.add]; lia.
Qed.
Lemma comb3_holds ls x y z a b c ea eb ec : holds_bit ls x a ea -> holds_bit ls y b eb -> holds_bit ls z c ec ->
  List.length (comb3 x y z) = S (List.length ls) /\ Forall word32 (comb3 x y z) /\
  phase ls (comb3 x y z) == Z.of_nat (row [a; b; c]) * 2 ^ 28 + (4 * ea + 2 * eb + ec) [mod 2 ^ 32].
Proof.
  intros (L1 & _ & P1) (L2 & _ & P2) (L3 & _ & P3). unfold comb3.
  assert (L4 : List.length (vadd32 (vscale32 4 x) (vscale32 2 y)) = S (List.length ls)) by (apply vadd32_length; rewrite vscale32_length; assumption).
  split; [apply vadd32_length; assumption|]. split; [apply vadd32_word|].
  change (2 ^ 32) with W32 in *. rewrite (phase_add ls _ _ (List.length ls)) by assumption. rewrite (phase_add ls _ _ (List.length ls)) by (rewrite ?vscale32_length; assumption).
  rewrite (phase_scale ls 4 x (List.length ls)) by assumption. rewrite (phase_scale ls 2 y (List.length ls)) by assumption.
  rewrite P1, P2, P3. apply eqm_eq. generalize (2 ^ 28). intros q.
  destruct a, b, c; unfold row; cbn [msb_first Nat.mul Nat.add]; lia.
Qed.

Section Gates.
Context {tpu : Z} {pr : bool_params} {d : Z} {bnn knn : nat} {ls : list Z} {rs : list (list Z)}.
Context {bai : list (list (list (list (list Z))))} {bes : list (list (list Z))} {BE : Z} {kai : list (list (list Z))} {kes : list (list Z)} {KE : Z}.
Hypothesis HS : key_setup tpu pr d bnn knn ls rs bai bes BE kai kes KE.

Lemma scheme_params32 : scheme pr = params32 (List.length ls) (rlwe_dimension (scheme pr)) (modulus_degree (scheme pr)).
Proof.
  destruct HS as [_ Hm [Hn _] _ _ _ _ _ _ _ _]. destruct (scheme pr) as [n pm k N]. cbn in *. subst. reflexivity.
Qed.

Lemma client_eq : client_keys pr ls rs =
  {| lwe_sk := {| log_modulus := 32; key_data := ls |}; rlwe_sk := {| rk_log := 32; rk_degree := modulus_degree (scheme pr); rk_data := rs |} |}.
Proof.
  unfold client_keys, log_plaintext_modulus. rewrite (ks_modulus _ _ _ _ _ _ _ _ _ _ _ _ _ HS).
  replace (log2_round (2 ^ 32)) with 32 by reflexivity. reflexivity.
Qed.

(** the bootstrapping step shared by all gates *)
Lemma gate_step n tb ct m e : (n <= 3)%nat -> (m < 2 ^ n)%nat ->
  List.length ct = S (List.length ls) -> Forall word32 ct ->
  phase ls ct == Z.of_nat m * 2 ^ 28 + e [mod 2 ^ 32] -> in_window pr d (Z.abs e) ->
  exists sk out, server_keys tpu (client_keys pr ls rs) pr bai bes kai kes = Some sk /\
    run_bootstrap tpu ct (as_rlwe_test_polynomial tpu (scheme pr) {| num_inputs := n; truth_table := tb |}) sk pr = Some out /\
    exists v, Z.abs v <= gate_noise pr bnn knn BE KE /\ holds_bit ls out (table_entry tb m) v.
Proof.
  intros Hn Hm Hl Hw Hp He. set (t := {| num_inputs := n; truth_table := tb |}).
  destruct (padded_spec t Hn) as (f & F1 & F2 & F3 & F4 & F5). cbn [num_inputs truth_table t] in F3.
  pose proof scheme_params32 as HP. pose proof client_eq as HC.
  destruct HS as [[Hd HN] Hmod [Hdim Hev] Hk Hbl [Hrs Hbr] HBG HKG [HBE HBD] [HKE HKD] Hpl].
  set (k := rlwe_dimension (scheme pr)) in *.
  assert (Hm8 : (m < 8)%nat).
  { assert (2 ^ n <= 2 ^ 3)%nat by (apply Nat.pow_le_mono_r; lia). change (2 ^ 3)%nat with 8%nat in *. lia. }
  rewrite HN in *. set (N := Z.to_nat (2 ^ d)) in *.
  destruct (C15_bootstrap tpu d 3 ENCODING_PARAMS f k rs ls (bs_decomp pr) bnn bai bes BE (ks_decomp pr) knn kai kes KE true false ct m e)
    as (bsk & tp & out & B1 & B2 & B3 & B4 & B5 & v & B6 & B7); fold N; auto; try lia.
  { unfold in_window in He. rewrite Hdim in He. change (32 - (3 + 1)) with 28. exact He. }
  cbv zeta in B1, B2, B3, B6. fold N in B1, B2, B3, B6.
  exists {| sk_bsk := bsk; sk_ksk := ksk_gen (ks_decomp pr) (flatten_key {| rk_log := 32; rk_degree := N; rk_data := rs |}) {| log_modulus := 32; key_data := ls |} kai kes |}, out.
  split. { rewrite HC. unfold server_keys. cbn [lwe_sk rlwe_sk key_data]. rewrite B1. reflexivity. }
  split. { unfold run_bootstrap, as_rlwe_test_polynomial. rewrite F1. rewrite HP, B2. cbn [sk_bsk sk_ksk]. exact B3. }
  exists v. split. { unfold gate_noise. rewrite Hdim, HN. exact B6. }
  split; [exact B4|]. split; [exact B5|]. rewrite B7. change (32 - (3 + 1)) with 28. rewrite F3 by exact Hm.
  apply eqm_eq. destruct (table_entry tb m); cbn [Z.b2z]; ring.
Qed.

Lemma server_exists : exists sk, server_keys tpu (client_keys pr ls rs) pr bai bes kai kes = Some sk.
Proof.
  rewrite client_eq. unfold server_keys, gen_bootstrapping_key. cbn [lwe_sk rlwe_sk key_data].
  rewrite (proj2 (ks_dim _ _ _ _ _ _ _ _ _ _ _ _ _ HS)). cbn [negb andb]. eexists. reflexivity.
Qed.
End Gates.

(** ** the theorems.  [sk] is the server key set made from the client keys and the draws. *)
Definition gate_result (ls : list Z) (bound : Z) (result : option (list Z)) (b : bool) : Prop :=
  exists out v, result = Some out /\ Z.abs v <= bound /\ holds_bit ls out b v.

(** fresh encryptions hold the bit with the drawn noise; decryption recovers any bit held with noise below 2^27 *)
Theorem C16_encrypt : forall pr ls rs value ai e,
  plaintext_modulus (scheme pr) = 2 ^ 32 -> List.length ai = List.length ls -> Forall word32 ai ->
  exists ct, bool_encrypt value (client_keys pr ls rs) ai e = Some ct /\ holds_bit ls ct value (s32 e).
Proof.
  intros pr ls rs value ai e Hm Hai Hw. unfold bool_encrypt.
  assert (HE : encode (if value then CLEARTEXT_TRUE else CLEARTEXT_FALSE) ENCODING_PARAMS false = Some (if value then 2 ^ 28 else 0)) by (destruct value; reflexivity).
  rewrite HE. unfold client_keys, log_plaintext_modulus. rewrite Hm. replace (log2_round (2 ^ 32)) with 32 by reflexivity.
  eexists. split; [reflexivity|]. unfold lwe_encrypt. cbn [log_modulus key_data lwe_sk]. split; [|split].
  - unfold jit_encrypt. rewrite app_length, Hai. cbn. lia.
  - unfold jit_encrypt. apply Forall_app. split; [exact Hw|]. constructor; [|constructor]. change (32 <? 32) with false. cbv iota. apply u32_word.
  - rewrite jit_encrypt_phase by lia. change (2 ^ 32) with W32. apply eqm_add_mor; [reflexivity|symmetry; apply s32_eqm].
Qed.
Theorem C16_decrypt : forall pr ls rs ct b e,
  plaintext_modulus (scheme pr) = 2 ^ 32 -> holds_bit ls ct b e -> - 2 ^ 27 <= e < 2 ^ 27 ->
  bool_decrypt ct (client_keys pr ls rs) = Some b.
Proof.
  intros pr ls rs ct b e Hm (H1 & H2 & H3) He. unfold bool_decrypt, client_keys, log_plaintext_modulus. rewrite Hm.
  replace (log2_round (2 ^ 32)) with 32 by reflexivity. cbn [lwe_sk]. unfold lwe_decrypt.
  assert (HD : decrypt_without_denoising ct {| log_modulus := 32; key_data := ls |} = ((if b then 1 else 0) * 2 ^ (32 - (3 + 1)) + e) mod 2 ^ 32).
  { rewrite decrypt_phase by (cbn; lia). cbn [key_data log_modulus]. apply eqm_mod_iff; [lia|]. rewrite H3. apply eqm_eq. destruct b; reflexivity. }
  rewrite HD. rewrite (decode_remove_noise 32 3 1); try reflexivity; try lia.
  - rewrite (proj1 (decode_window 32 3 1 ENCODING_PARAMS (if b then 1 else 0) e 32 eq_refl ltac:(lia) ltac:(lia) ltac:(destruct b; lia) ltac:(lia))).
    destruct b; reflexivity.
  - unfold word32. change W32 with (2 ^ 32). apply Z.mod_pos_bound. lia.
Qed.
Print Assumptions C16_encrypt.
Print Assumptions C16_decrypt.

(** the ten named two-input gates *)
Theorem C16_gate2 : forall tpu pr d bnn knn ls rs bai bes BE kai kes KE sk name f x y a b ea eb,
  key_setup tpu pr d bnn knn ls rs bai bes BE kai kes KE ->
  server_keys tpu (client_keys pr ls rs) pr bai bes kai kes = Some sk ->
  gate_function name = Some f ->
  holds_bit ls x a ea -> holds_bit ls y b eb -> in_window pr d (2 * Z.abs ea + Z.abs eb) ->
  gate_result ls (gate_noise pr bnn knn BE KE) (gate2 name tpu x y sk pr) (f a b).
Proof.
  intros tpu pr d bnn knn ls rs bai bes BE kai kes KE sk name f x y a b ea eb HS Hsk Hf Hx Hy He.
  pose proof (C18_lut_by_name name) as HN. rewrite Hf in HN. destruct HN as (t & T1 & T2 & T3).
  destruct (comb2_holds ls x y a b ea eb Hx Hy) as (L & W & P).
  destruct (gate_step HS 2 (truth_table t) (comb2 x y) (row [a; b]) (2 * ea + eb)) as (sk' & out & S1 & S2 & v & S3 & S4); try assumption; try lia.
  { destruct a, b; cbn; lia. }
  { unfold in_window in *. lia. }
  rewrite Hsk in S1. injection S1 as <-. exists out, v. split; [|split; [exact S3|rewrite <- T3; exact S4]].
  unfold gate2, lut_poly_by_name. rewrite T1. destruct t as [tn tt0]. cbn [num_inputs truth_table] in *. subst tn. exact S2.
Qed.
Print Assumptions C16_gate2.
(** the same, one public function at a time *)
Theorem C16_named_gates : forall tpu pr d bnn knn ls rs bai bes BE kai kes KE sk x y a b ea eb,
  key_setup tpu pr d bnn knn ls rs bai bes BE kai kes KE ->
  server_keys tpu (client_keys pr ls rs) pr bai bes kai kes = Some sk ->
  holds_bit ls x a ea -> holds_bit ls y b eb -> in_window pr d (2 * Z.abs ea + Z.abs eb) ->
  let computes gate value := gate_result ls (gate_noise pr bnn knn BE KE) (gate tpu x y sk pr) value in
  computes and_ (a && b) /\ computes andny_ (negb a && b) /\ computes andyn_ (a && negb b) /\ computes nand_ (negb (a && b)) /\
  computes or_ (a || b) /\ computes orny_ (negb a || b) /\ computes oryn_ (a || negb b) /\ computes nor_ (negb (a || b)) /\
  computes xor_ (xorb a b) /\ computes xnor_ (negb (xorb a b)).
Proof.
  intros tpu pr d bnn knn ls rs bai bes BE kai kes KE sk x y a b ea eb HS Hsk Hx Hy He computes.
  assert (G : forall name f, gate_function name = Some f -> computes (gate2 name) (f a b)) by (intros name f Hf; eapply C16_gate2; eassumption).
  repeat split.
  - exact (G "and"%string _ eq_refl).
  - exact (G "andny"%string _ eq_refl).
  - exact (G "andyn"%string _ eq_refl).
  - exact (G "nand"%string _ eq_refl).
  - exact (G "or"%string _ eq_refl).
  - exact (G "orny"%string _ eq_refl).
  - exact (G "oryn"%string _ eq_refl).
  - exact (G "nor"%string _ eq_refl).
  - exact (G "xor"%string _ eq_refl).
  - exact (G "xnor"%string _ eq_refl).
Qed.
Print Assumptions C16_named_gates.

(** truth tables of two and three inputs: the last argument is the most significant bit of the row *)
Theorem C16_lut2 : forall tpu pr d bnn knn ls rs bai bes BE kai kes KE sk tb x y a b ea eb,
  key_setup tpu pr d bnn knn ls rs bai bes BE kai kes KE ->
  server_keys tpu (client_keys pr ls rs) pr bai bes kai kes = Some sk ->
  holds_bit ls x a ea -> holds_bit ls y b eb -> in_window pr d (Z.abs ea + 2 * Z.abs eb) ->
  gate_result ls (gate_noise pr bnn knn BE KE) (lut2 tpu x y tb sk pr) (table_entry tb (row [b; a])).
Proof.
  intros tpu pr d bnn knn ls rs bai bes BE kai kes KE sk tb x y a b ea eb HS Hsk Hx Hy He.
  destruct (comb2_holds ls y x b a eb ea Hy Hx) as (L & W & P).
  destruct (gate_step HS 2 tb (comb2 y x) (row [b; a]) (2 * eb + ea)) as (sk' & out & S1 & S2 & v & S3 & S4); try assumption; try lia.
  { destruct a, b; cbn; lia. }
  { unfold in_window in *. lia. }
  rewrite Hsk in S1. injection S1 as <-. exists out, v. split; [exact S2|split; [exact S3|exact S4]].
Qed.
Theorem C16_lut3 : forall tpu pr d bnn knn ls rs bai bes BE kai kes KE sk tb x y z a b c ea eb ec,
  key_setup tpu pr d bnn knn ls rs bai bes BE kai kes KE ->
  server_keys tpu (client_keys pr ls rs) pr bai bes kai kes = Some sk ->
  holds_bit ls x a ea -> holds_bit ls y b eb -> holds_bit ls z c ec -> in_window pr d (Z.abs ea + 2 * Z.abs eb + 4 * Z.abs ec) ->
  gate_result ls (gate_noise pr bnn knn BE KE) (lut3 tpu x y z tb sk pr) (table_entry tb (row [c; b; a])).
Proof.
  intros tpu pr d bnn knn ls rs bai bes BE kai kes KE sk tb x y z a b c ea eb ec HS Hsk Hx Hy Hz He.
  destruct (comb3_holds ls z y x c b a ec eb ea Hz Hy Hx) as (L & W & P).
  destruct (gate_step HS 3 tb (comb3 z y x) (row [c; b; a]) (4 * ec + 2 * eb + ea)) as (sk' & out & S1 & S2 & v & S3 & S4); try assumption; try lia.
  { destruct a, b, c; cbn; lia. }
  { unfold in_window in *. lia. }
  rewrite Hsk in S1. injection S1 as <-. exists out, v. split; [exact S2|split; [exact S3|exact S4]].
Qed.
Print Assumptions C16_lut2.
Print Assumptions C16_lut3.

(** cmux_(v1, v0, ctrl) = if ctrl then v1 else v0 *)
Theorem C16_cmux : forall tpu pr d bnn knn ls rs bai bes BE kai kes KE sk x y z v1 v0 ctrl ea eb ec,
  key_setup tpu pr d bnn knn ls rs bai bes BE kai kes KE ->
  server_keys tpu (client_keys pr ls rs) pr bai bes kai kes = Some sk ->
  holds_bit ls x v1 ea -> holds_bit ls y v0 eb -> holds_bit ls z ctrl ec -> in_window pr d (4 * Z.abs ea + 2 * Z.abs eb + Z.abs ec) ->
  gate_result ls (gate_noise pr bnn knn BE KE) (cmux_ tpu x y z sk pr) (if ctrl then v1 else v0).
Proof.
  intros tpu pr d bnn knn ls rs bai bes BE kai kes KE sk x y z v1 v0 ctrl ea eb ec HS Hsk Hx Hy Hz He.
  destruct C18_cmux_table as (t & T1 & T2). unfold cmux_. rewrite T1, <- T2.
  apply (C16_lut3 tpu pr d bnn knn ls rs bai bes BE kai kes KE sk (truth_table t) z y x ctrl v0 v1 ec eb ea); try assumption.
  unfold in_window in *. lia.
Qed.
Print Assumptions C16_cmux.

(** gates without bootstrapping: exact noise *)
Theorem C16_constant : forall pr ls b, lwe_dimension (scheme pr) = List.length ls ->
  gate_result ls 0 (bool_constant b pr) b.
Proof.
  intros pr ls b Hn. exists (noiseless_embedding (if b then 2 ^ 28 else 0) (List.length ls)), 0.
  split. { unfold bool_constant, noiseless_true, noiseless_false, noiseless. rewrite Hn. destruct b; reflexivity. }
  split; [lia|]. unfold noiseless_embedding. split; [rewrite app_length, repeat_length; cbn; lia|].
  split. { apply Forall_app. split; [apply Forall_forall; intros z Hz; apply repeat_spec in Hz; subst; unfold word32; lia|].
           constructor; [|constructor]. destruct b; unfold word32; change W32 with (2 ^ 32); lia. }
  rewrite phase_app, dotZ_repeat0. apply eqm_eq. destruct b; reflexivity.
Qed.
Theorem C16_not : forall pr ls x a e, lwe_dimension (scheme pr) = List.length ls -> holds_bit ls x a e ->
  exists out, not_ x pr = Some out /\ holds_bit ls out (negb a) (- e).
Proof.
  intros pr ls x a e Hn (H1 & H2 & H3). destruct (C16_constant pr ls true Hn) as (t & v & T1 & T2 & T3 & T4 & T5).
  unfold bool_constant in T1. unfold not_. rewrite T1. eexists. split; [reflexivity|]. split; [apply vsub32_length; assumption|].
  split; [apply vsub32_word|]. change (2 ^ 32) with W32 in *. rewrite (phase_sub ls _ _ (List.length ls)) by assumption. rewrite T5, H3.
  assert (v = 0) by lia. subst. apply eqm_eq. destruct a; cbn [negb]; ring.
Qed.
(** one-input tables: row 0 is the entry for False; tables above 3 are rejected *)
Theorem C16_lut1 : forall pr ls x a e tb, lwe_dimension (scheme pr) = List.length ls -> holds_bit ls x a e ->
  if (0 <=? tb) && (tb <=? 3) then gate_result ls (Z.abs e) (lut1 x tb pr) (table_entry tb (row [a]))
  else lut1 x tb pr = None.
Proof.
  intros pr ls x a e tb Hn Hx.
  destruct (Z.leb_spec 0 tb), (Z.leb_spec tb 3); cbn [andb]; [| | |lia].
  2,3: unfold lut1; destruct (Z.eqb_spec tb 0), (Z.eqb_spec tb 3), (Z.eqb_spec tb 1), (Z.eqb_spec tb 2); cbn [orb]; try lia; reflexivity.
  assert (HC : forall b, gate_result ls (Z.abs e) (bool_constant b pr) b).
  { intros b. destruct (C16_constant pr ls b Hn) as (o & v & A1 & A2 & A3). exists o, v. split; [exact A1|]. split; [lia|exact A3]. }
  assert (HT : tb = 0 \/ tb = 1 \/ tb = 2 \/ tb = 3) by lia. destruct HT as [->|[->|[->| ->]]].
  - replace (table_entry 0 (row [a])) with false by (destruct a; reflexivity). apply HC.
  - replace (table_entry 1 (row [a])) with (negb a) by (destruct a; reflexivity).
    destruct (C16_not pr ls x a e Hn Hx) as (o & A1 & A2). exists o, (- e). split; [exact A1|]. split; [lia|exact A2].
  - replace (table_entry 2 (row [a])) with a by (destruct a; reflexivity). exists x, e. split; [reflexivity|]. split; [lia|exact Hx].
  - replace (table_entry 3 (row [a])) with true by (destruct a; reflexivity). apply HC.
Qed.
Print Assumptions C16_constant.
Print Assumptions C16_not.
Print Assumptions C16_lut1.
Theorem C16_server_keys_exist : forall tpu pr d bnn knn ls rs bai bes BE kai kes KE,
  key_setup tpu pr d bnn knn ls rs bai bes BE kai kes KE ->
  exists sk, server_keys tpu (client_keys pr ls rs) pr bai bes kai kes = Some sk.
Proof. intros tpu pr d bnn knn ls rs bai bes BE kai kes KE HS. exact (server_exists HS). Qed.
Print Assumptions C16_server_keys_exist.
