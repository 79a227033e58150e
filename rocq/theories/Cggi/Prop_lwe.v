(** Properties C01-C07: encoding, LWE encryption, modulus switching, key switching, decomposition. *)
From Coq Require Import ZArith List Lia Bool.
From Verif Require Import Base.ZSum Base.Modeq Base.Word Base.Bits.
From Verif Require Import Cggi.Model_encoding Cggi.Model_lwe Cggi.Model_decomposition Cggi.Model_key_switch Cggi.Spec_lwe.
From Verif Require Import Cggi.Proof_encoding Cggi.Proof_lwe Cggi.Proof_decomposition Cggi.Proof_key_switch.
Import ListNotations.
Local Open Scope Z_scope.

(** ** C01 *)
(** [t], [m], [pd] are the total, message and padding bit lengths; the error window has 2^(t-(m+pd)) values. The sum is
    reduced modulo any 2^M with t <= M <= 32 (the ciphertext modulus). *)
Theorem C01_decode_encode : forall t m pd p x e M,
  mk_enc_params t m pd = Some p -> t <= M <= 32 -> 0 <= x < 2 ^ m ->
  exists c, encode x p false = Some c /\ c = x * 2 ^ (t - (m + pd)) /\
    (- 2 ^ (t - (m + pd)) <= 2 * e < 2 ^ (t - (m + pd)) ->
       decode ((c + e) mod 2 ^ M) p = x /\ decode_without_removing_padding ((c + e) mod 2 ^ M) p = x).
Proof.
  intros t m pd p x e M Hp HM Hx. exists (x * 2 ^ (t - (m + pd))). split; [apply (encode_false_val t m pd p x Hp); lia|].
  split; [reflexivity|]. intros He. apply (decode_window t m pd p x e M Hp); lia.
Qed.
Example C01_decode_encode_ex :
  mk_enc_params 32 3 1 = Some {| total_bits := 32; message_bits := 3; padding_bits := 1 |} /\
  encode 5 {| total_bits := 32; message_bits := 3; padding_bits := 1 |} false = Some (5 * 2 ^ 28) /\
  decode (u32 (5 * 2 ^ 28 - 2 ^ 27)) {| total_bits := 32; message_bits := 3; padding_bits := 1 |} = 5 /\
  decode (u32 (5 * 2 ^ 28 + 2 ^ 27)) {| total_bits := 32; message_bits := 3; padding_bits := 1 |} = 6.
Proof. repeat split; reflexivity. Qed.
Print Assumptions C01_decode_encode.

(** EncodingParameters accepts exactly the admissible bit lengths. *)
Theorem C01_params_accepted : forall t m pd,
  (exists p, mk_enc_params t m pd = Some p) <-> 1 <= t /\ 1 <= m /\ 0 <= pd /\ m + pd <= t.
Proof.
  intros t m pd. split.
  - intros [p Hp]. destruct (mk_enc_params_inv _ _ _ _ Hp) as (_ & _ & _ & H). exact H.
  - intros H. unfold mk_enc_params. destruct (Z.ltb_spec t 1), (Z.ltb_spec m 1), (Z.ltb_spec pd 0), (Z.ltb_spec (t - (m + pd)) 0); try lia.
    eexists. reflexivity.
Qed.
Print Assumptions C01_params_accepted.

(** Every representable cleartext (an int32 or a uint32) is accepted exactly when it is in the message range. *)
Theorem C01_encode_accepts_exactly : forall t m pd p x,
  mk_enc_params t m pd = Some p -> t <= 32 -> m < 32 -> - 2 ^ 31 <= x < 2 ^ 32 ->
  ((exists c, encode x p false = Some c) <-> 0 <= x < 2 ^ m).
Proof. exact encode_dom. Qed.
Example C01_encode_accepts_ex :
  encode 7 {| total_bits := 32; message_bits := 3; padding_bits := 1 |} false = Some (7 * 2 ^ 28) /\
  encode 8 {| total_bits := 32; message_bits := 3; padding_bits := 1 |} false = None /\
  encode (-1) {| total_bits := 32; message_bits := 3; padding_bits := 1 |} false = None.
Proof. repeat split; reflexivity. Qed.
Print Assumptions C01_encode_accepts_exactly.

(** decode rounds to the nearest multiple of the error window (half up), for every plaintext word whatever. *)
Theorem C01_decode_rounds : forall t m pd p y,
  mk_enc_params t m pd = Some p -> t <= 32 -> 0 <= y < 2 ^ 32 ->
  exists r, - 2 ^ (t - (m + pd)) <= 2 * (y - r * 2 ^ (t - (m + pd))) < 2 ^ (t - (m + pd)) /\ decode y p = r mod 2 ^ m.
Proof.
  intros t m pd p y Hp Ht Hy. destruct (mk_enc_params_inv _ _ _ _ Hp) as (E1 & E2 & E3 & ? & ? & ? & ?).
  unfold decode, remove_noise, error_bits. rewrite E1, E2, E3. set (k := t - (m + pd)) in *.
  exists ((y + 2 ^ k / 2) / 2 ^ k). split.
  - assert (0 < 2 ^ k) by (apply pow2_pos; lia).
    pose proof (Z.div_mod (y + 2 ^ k / 2) (2 ^ k) ltac:(lia)). pose proof (Z.mod_pos_bound (y + 2 ^ k / 2) (2 ^ k) ltac:(lia)).
    destruct (Z.eq_dec k 0) as [E|Hk0].
    + rewrite E in *. change (2 ^ 0) with 1 in *. change (1 / 2) with 0 in *. lia.
    + pose proof (pow2_half k ltac:(lia)) as Hh. rewrite Hh in *. rewrite (Z.mul_comm 2), Z.div_mul in * by lia. lia.
  - apply decode_any; try assumption; lia.
Qed.
Example C01_decode_rounds_ex : decode (2 ^ 32 - 2 ^ 27) {| total_bits := 32; message_bits := 3; padding_bits := 1 |} = 0.
Proof. reflexivity. Qed.
Print Assumptions C01_decode_rounds.

(** Finding: with test_polynomial_encoding the bound 2^(padding+message) is inclusive, so the out-of-range value 16 of the
    library's own parameters (32, 3, 1) is accepted, and its encoding is that of 0. *)
Theorem C01_test_polynomial_range_refuted : exists p x,
  mk_enc_params 32 3 1 = Some p /\ ~ (0 <= x < 2 ^ (3 + 1)) /\ encode x p true = Some 0 /\ encode 0 p true = Some 0.
Proof.
  exists {| total_bits := 32; message_bits := 3; padding_bits := 1 |}, 16. repeat split; try reflexivity. lia.
Qed.
Print Assumptions C01_test_polynomial_range_refuted.

(** ** C02 *)
(** For every key (binary or not), mask and noise. *)
Theorem C02_decrypt_encrypt : forall c sk ai e,
  0 <= log_modulus sk <= 32 ->
  decrypt_without_denoising (lwe_encrypt c sk ai e) sk = (c + e) mod 2 ^ log_modulus sk.
Proof. exact encrypt_decrypt. Qed.
Example C02_decrypt_encrypt_ex :
  decrypt_without_denoising (lwe_encrypt (3 * 2 ^ 28) {| log_modulus := 32; key_data := [1;0;1] |} [4000000000;7;4294967295] 5)
    {| log_modulus := 32; key_data := [1;0;1] |} = 3 * 2 ^ 28 + 5.
Proof. reflexivity. Qed.
Print Assumptions C02_decrypt_encrypt.

Theorem C02_message_survives : forall t m pd p sk x e ai,
  mk_enc_params t m pd = Some p -> t <= log_modulus sk <= 32 -> 0 <= x < 2 ^ m ->
  - 2 ^ (t - (m + pd)) <= 2 * e < 2 ^ (t - (m + pd)) ->
  exists c, encode x p false = Some c /\ decode (lwe_decrypt (lwe_encrypt c sk ai e) sk p) p = x.
Proof. exact full_roundtrip. Qed.
Example C02_message_survives_ex :
  decode (lwe_decrypt (lwe_encrypt (3 * 2 ^ 28) {| log_modulus := 32; key_data := [1;0;1] |} [4000000000;7;4294967295] (2 ^ 32 - 2 ^ 27))
    {| log_modulus := 32; key_data := [1;0;1] |} {| total_bits := 32; message_bits := 3; padding_bits := 1 |})
    {| total_bits := 32; message_bits := 3; padding_bits := 1 |} = 3.
Proof. reflexivity. Qed.
Print Assumptions C02_message_survives.

Theorem C02_noiseless_embedding : forall c n sk,
  0 <= log_modulus sk <= 32 ->
  decrypt_without_denoising (noiseless_embedding c n) sk = c mod 2 ^ log_modulus sk.
Proof. exact embedding_decrypt. Qed.
Example C02_noiseless_embedding_ex : 
  decrypt_without_denoising (noiseless_embedding 77 3) {| log_modulus := 32; key_data := [1;1;1] |} = 77.
Proof. reflexivity. Qed.
Print Assumptions C02_noiseless_embedding.

(** ** C03 *)
Theorem C03_linear : forall sk cts n e,
  0 <= log_modulus sk <= 32 -> Forall (fun c => length c = S n) cts -> lin_leaves (length cts) e ->
  decrypt_without_denoising (lin_ct cts e) sk
  = lin_z (fun i => decrypt_without_denoising (nth i cts []) sk) e mod 2 ^ log_modulus sk.
Proof. exact lin_decrypt. Qed.
Print Assumptions C03_linear.

Theorem C03_noise_growth : forall sk cts n e (msg err bnd : nat -> Z),
  0 <= log_modulus sk <= 32 -> Forall (fun c => length c = S n) cts -> lin_leaves (length cts) e ->
  (forall i, Z.abs (err i) <= bnd i) ->
  (forall i, (i < length cts)%nat -> decrypt_without_denoising (nth i cts []) sk = (msg i + err i) mod 2 ^ log_modulus sk) ->
  exists E, Z.abs E <= lin_abs bnd e /\
            decrypt_without_denoising (lin_ct cts e) sk = (lin_z msg e + E) mod 2 ^ log_modulus sk.
Proof. exact lin_noise. Qed.
Example C03_ex :
  let sk := {| log_modulus := 32; key_data := [1;0;1] |} in
  let cts := [lwe_encrypt (2 ^ 28) sk [4000000000;7;4294967295] 5; lwe_encrypt 0 sk [1;2;3] (2 ^ 32 - 3)] in
  let e := Add (Scale 2 (Leaf 0)) (Leaf 1) in
  lin_leaves (length cts) e /\ Forall (fun c => length c = 4%nat) cts /\
  decrypt_without_denoising (lin_ct cts e) sk = 2 * 2 ^ 28 + 7 /\ lin_abs (fun i => 5) e = 15.
Proof. repeat split; cbn; repeat constructor. Qed.
Print Assumptions C03_noise_growth.

(** ** C04 *)
(** Scaled back to the large modulus, the phase moves by at most (n+1)/2 units of the small modulus. *)
Theorem C04_switch_modulus : forall a b ct s,
  Forall word32 ct -> binary s -> length ct = S (length s) ->
  0 <= b <= a -> a <= 32 -> a - b < 32 -> b < 32 ->
  Forall (fun x => 0 <= x < 2 ^ b) (switch_modulus ct a b) /\
  length (switch_modulus ct a b) = length ct /\
  exists k, 2 * Z.abs (2 ^ (a - b) * phase s (switch_modulus ct a b) - phase s ct - k * 2 ^ a)
            <= (1 + Z.of_nat (length s)) * 2 ^ (a - b).
Proof.
  intros. split; [apply switch_word; lia|]. split; [apply map_length|]. apply switch_phase_n; assumption.
Qed.
Example C04_ex : switch_modulus [2 ^ 31 + 2 ^ 21; 4294967295; 5] 32 10 = [513; 0; 0].
Proof. reflexivity. Qed.
Print Assumptions C04_switch_modulus.

(** the bound is sharp: with n = 3 the displacement is 2 = (3+1)/2 units up to one unit of the large modulus *)
Theorem C04_bound_is_tight : exists ct s, Forall word32 ct /\ binary s /\ length ct = S (length s) /\
  2 * Z.abs (2 ^ 22 * phase s (switch_modulus ct 32 10) - phase s ct) = (1 + Z.of_nat (length s)) * 2 ^ 22 - 2.
Proof.
  exists [2097152; 2097152; 2097152; 2097151], [1;1;1].
  split; [repeat constructor; unfold word32; lia|]. split; [apply Forall_forall; intros z Hz; cbn in Hz; lia|].
  split; vm_compute; reflexivity.
Qed.
Print Assumptions C04_bound_is_tight.

(** ** C05 *)
(** [nn] is the number of base-2^log_base digits of a 32-bit word.  The error is the truncation term (absent when all
    digits are kept) plus the key-switching noise term. *)
Theorem C05_key_switch : forall p in_key out_key ai es nn ct S E,
  1 <= log_base p < 32 -> Z.of_nat nn * log_base p = 32 -> (1 <= level_count p <= nn)%nat ->
  (1 <= length (key_data in_key))%nat -> 0 <= log_modulus out_key <= 32 ->
  length ai = length (key_data in_key) -> Forall (shape2 (level_count p) (length (key_data out_key))) ai ->
  shape2 (length (key_data in_key)) (level_count p) es ->
  length ct = Datatypes.S (length (key_data in_key)) ->
  0 <= E -> (forall i, (i < length (key_data in_key))%nat -> Z.abs (nth i (key_data in_key) 0) <= S) ->
  Forall (Forall (fun e => Z.abs (s32 e) <= E)) es ->
  exists v,
    Z.abs v <= Z.of_nat (length (key_data in_key)) *
       (S * (if Nat.eqb (level_count p) nn then 0 else 2 ^ (32 - Z.of_nat (level_count p) * log_base p))
        + Z.of_nat (level_count p) * (2 ^ log_base p * E)) /\
    decrypt_without_denoising (switch_key p (ksk_gen p in_key out_key ai es) ct) out_key
    = (phase (key_data in_key) ct + v) mod 2 ^ log_modulus out_key.
Proof.
  intros p ik ok ai es nn ct S E H1 H2 H3 H4 H5 H6 H7 H8 H9 H10 H11 H12.
  exists (ks_noise p ik es nn ct). split; [apply (ks_noise_bound p ik ok ai es nn); assumption|].
  rewrite decrypt_phase by assumption. apply eqm_mod_iff; [apply pow2_pos; lia|].
  apply (switch_key_phase p ik ok ai es nn); assumption.
Qed.
Example C05_ex :
  let p := {| log_base := 16; level_count := 2; decomp_total := 32 |} in
  let ik := {| log_modulus := 32; key_data := [1;0;1] |} in
  let ok := {| log_modulus := 32; key_data := [0;1] |} in
  let ai := [[[1;2];[3;4]];[[5;6];[7;8]];[[9;10];[11;12]]] in
  let es := [[0;1];[2;0];[0;0]] in
  let ct := lwe_encrypt (2 ^ 28) ik [70000;7;4294967295] 5 in
  decrypt_without_denoising (switch_key p (ksk_gen p ik ok ai es) ct) ok = 2 ^ 28 + 5 - 4464.
Proof. vm_compute. reflexivity. Qed.
Print Assumptions C05_key_switch.

(** ** C06 *)
Theorem C06_decompose : forall x b L t,
  1 <= b -> 0 <= t <= 32 -> Z.of_nat L * b <= t -> 0 <= x < 2 ^ t ->
  length (decompose x b L t) = L /\
  Forall (fun d => 0 <= d < 2 ^ b) (decompose x b L t) /\
  0 <= x - recompose (decompose x b L t) b t < 2 ^ (t - Z.of_nat L * b) /\
  (Z.of_nat L * b = t -> recompose (decompose x b L t) b t = x).
Proof.
  intros x b L t Hb Ht HL Hx.
  assert (E := decompose_error x b L t Hb Ht HL Hx). rewrite decompose_spec in * by lia.
  split; [rewrite map_length, seq_length; reflexivity|].
  split; [apply Forall_map, Forall_forall; intros i _; apply Z.mod_pos_bound, pow2_pos; lia|].
  split; [exact E|]. intros Heq. rewrite Heq, Z.sub_diag in E. change (2 ^ 0) with 1 in E. lia.
Qed.
Example C06_ex : decompose 3735928559 4 3 32 = [13; 14; 10] /\ recompose [13; 14; 10] 4 32 = 3735027712.
Proof. split; reflexivity. Qed.
Print Assumptions C06_decompose.

(** ** C07 *)
(** What holds: digits in [-B/2, B/2) or equal to B; the weighted sum is x up to a truncation error below one unit of the
    last kept level; exact when all levels are kept.  [nn] is the number of digits of a [t]-bit word, i.e. the base
    length divides [t]. *)
Theorem C07_signed_decomposition_partial : forall x b nn L,
  1 <= b < 31 -> Z.of_nat nn * b <= 32 -> (L <= nn)%nat ->
  let t := Z.of_nat nn * b in
  let ds := map s32 (signed_decomposition x b L t) in
  length ds = L /\
  Forall (fun d => - 2 ^ (b - 1) <= d < 2 ^ (b - 1) \/ d = 2 ^ b) ds /\
  exists err, - 2 ^ (t - Z.of_nat L * b) <= err < 2 ^ (t - Z.of_nat L * b) /\ (L = nn -> err = 0) /\
    zsum L (fun l => nth l ds 0 * 2 ^ (t - (1 + Z.of_nat l) * b)) == x - err [mod 2 ^ t].
Proof.
  intros x b nn L Hb Hnn HL t ds.
  assert (Hbb : 2 ^ b <= 2 ^ 30) by (apply pow2_le; lia). change (2 ^ 30) with 1073741824 in Hbb.
  assert (Eds : ds = map (fun l => sdig x b (nn - 1 - l)) (seq 0 L)).
  { unfold ds, t. rewrite signed_decomposition_spec by lia. rewrite map_map. apply map_ext. intros l. apply s32_u32.
    pose proof (sdig_range x b (nn - 1 - l) ltac:(lia)). pose proof (pow2_half b ltac:(lia)). lia. }
  rewrite Eds. split; [rewrite map_length, seq_length; reflexivity|].
  split; [apply Forall_map, Forall_forall; intros l _; apply sdig_range; lia|].
  exists (sdec_err x b (nn - L)). split; [|split].
  - pose proof (sdec_err_bound x b (nn - L) ltac:(lia)) as B.
    replace (Z.of_nat (nn - L) * b) with (t - Z.of_nat L * b) in B by (unfold t; rewrite Nat2Z.inj_sub by lia; ring). exact B.
  - intros ->. rewrite Nat.sub_diag. apply err0.
  - rewrite (zsum_ext L _ (fun l => sdig x b (nn - 1 - l) * 2 ^ (Z.of_nat nn * b - (1 + Z.of_nat l) * b))).
    2:{ intros l Hl. rewrite nth_map_seq by lia. reflexivity. }
    rewrite sdig_top_sum by lia. apply eqm_sub_mor; [|reflexivity]. apply sdec_err_full. lia.
Qed.
Example C07_ex : map s32 (signed_decomposition 3735928559 4 8 32) = [-2; -1; -5; -2; -4; -1; -1; -1].
Proof. reflexivity. Qed.
Print Assumptions C07_signed_decomposition_partial.

(** Findings: the digit range claimed in the docstring is false (0xff gives the digit 16 in base 16 with no carry), ... *)
Theorem C07_digit_range_refuted : exists x,
  0 <= x < 2 ^ 32 /\ ~ Forall (fun d => - 8 <= d < 8) (map s32 (signed_decomposition x 4 8 32)).
Proof.
  exists 255. split; [lia|]. intros H. rewrite Forall_forall in H.
  assert (In 16 (map s32 (signed_decomposition 255 4 8 32))) as Hin by (vm_compute; tauto).
  specialize (H 16 Hin). lia.
Qed.
Print Assumptions C07_digit_range_refuted.

(** ... the truncation error can exceed half a unit of the last kept level (almost a whole unit), ... *)
Theorem C07_half_unit_refuted : exists x,
  0 <= x < 2 ^ 32 /\
  let ds := map s32 (signed_decomposition x 4 6 32) in
  x - zsum 6 (fun l => nth l ds 0 * 2 ^ (32 - (1 + Z.of_nat l) * 4)) = 255 /\ 2 * 255 > 2 ^ (32 - 6 * 4).
Proof. exists 255. split; [lia|]. split; [vm_compute; reflexivity|vm_compute; reflexivity]. Qed.
Print Assumptions C07_half_unit_refuted.

(** ... and a base length that does not divide the word length gives digits that do not represent the word at all:
    base 2^3, all 10 digits of a 32-bit word, error larger than a quarter of the modulus. *)
Theorem C07_indivisible_base_refuted : exists x,
  0 <= x < 2 ^ 32 /\
  let ds := map s32 (signed_decomposition x 3 10 32) in
  zsum 10 (fun l => nth l ds 0 * 2 ^ (32 - (1 + Z.of_nat l) * 3)) = 4 * x /\ 4 * x - x > 2 ^ 30.
Proof. exists (3 * 2 ^ 27). split; [lia|]. split; vm_compute; reflexivity. Qed.
Print Assumptions C07_indivisible_base_refuted.
