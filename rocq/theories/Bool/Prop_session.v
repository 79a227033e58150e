(** Property C62: a whole session, from the random sources to the decrypted outputs. *)
From Coq Require Import ZArith List Bool Lia.
From Verif Require Import Base.Word Base.Lists Cggi.Model_encoding Cggi.Model_lwe Cggi.Model_decomposition Cggi.Model_key_switch Cggi.Model_rlwe Cggi.Model_test_polynomial Cggi.Model_bootstrap Cggi.Model_random_source.
From Verif Require Import Cggi.Spec_lwe Cggi.Spec_poly Cggi.Spec_rlwe Cggi.Spec_bootstrap Cggi.Spec_random_source Cggi.Prop_random_source.
From Verif Require Import Bool.Model_lut Bool.Model_bool Bool.Model_session Bool.Spec_bool Bool.Spec_gates Bool.Spec_circuit Bool.Spec_session Bool.Prop_gates Bool.Prop_circuit.
Import ListNotations.
Local Open Scope Z_scope.

(** *** reshaping *)
Lemma dims_valid l : valid_shape (dims l).
Proof. apply Forall_map. apply Forall_forall. intros; lia. Qed.
Lemma rows_P {A} (P : A -> Prop) s : forall c (l : list A), Forall P l -> Forall (Forall P) (rows c s l).
Proof.
  induction c as [|c IH]; intros l H; cbn [rows]; constructor.
  - apply Forall_forall. intros x Hx. rewrite Forall_forall in H. apply H. rewrite <- (firstn_skipn s l). apply in_or_app. left. exact Hx.
  - apply IH. apply Forall_forall. intros x Hx. rewrite Forall_forall in H. apply H. rewrite <- (firstn_skipn s l). apply in_or_app. right. exact Hx.
Qed.
Lemma reshape2_shape a b l : length l = (a * b)%nat -> rect a b (reshape2 a b l).
Proof. intros H. split; [apply rows_length | apply rows_Forall; exact H]. Qed.
Lemma reshape3_shape a b c l : length l = (a * (b * c))%nat -> cube a b c (reshape3 a b c l).
Proof.
  intros H. unfold reshape3. split; [rewrite map_length; apply rows_length |]. apply Forall_map. pose proof (rows_Forall (b * c) a l H) as F.
  eapply Forall_impl; [| exact F]. intros r Hr. apply reshape2_shape. exact Hr.
Qed.
Lemma reshape3_P (P : Z -> Prop) a b c l : Forall P l -> Forall (Forall (Forall P)) (reshape3 a b c l).
Proof. intros H. unfold reshape3. apply Forall_map. eapply Forall_impl; [| apply rows_P; exact H]. intros r Hr. apply rows_P. exact Hr. Qed.
Lemma reshape4_shape a b c d l : length l = (a * (b * (c * d)))%nat -> length (reshape4 a b c d l) = a /\ Forall (cube b c d) (reshape4 a b c d l).
Proof.
  intros H. unfold reshape4. split; [rewrite map_length; apply rows_length |]. apply Forall_map. eapply Forall_impl; [| apply (rows_Forall (b * (c * d)) a l H)]. intros r Hr. apply reshape3_shape. exact Hr.
Qed.
Lemma reshape5_shape a b c d e l : length l = (a * (b * (c * (d * e))))%nat ->
  length (reshape5 a b c d e l) = a /\ Forall (fun m => length m = b /\ Forall (cube c d e) m) (reshape5 a b c d e l).
Proof.
  intros H. unfold reshape5. split; [rewrite map_length; apply rows_length |]. apply Forall_map. eapply Forall_impl; [| apply (rows_Forall (b * (c * (d * e))) a l H)]. intros r Hr. apply reshape4_shape. exact Hr.
Qed.
(** a call with dimensions that are natural numbers *)
Lemma returns_dims {W} (call : list Z -> W -> option (list Z) * W) P l w : returns call P -> exists x w', call (dims l) w = (Some x, w') /\ length x = fold_right Nat.mul 1%nat l /\ Forall P x.
Proof.
  intros H. destruct (H (dims l) w (dims_valid l)) as (x & w' & E & L & F). exists x, w'. split; [exact E |]. split; [| exact F]. apply Nat2Z.inj. rewrite L. clear. induction l as [|n l IH]; [reflexivity |].
  cbn [dims map size fold_right]. fold (dims l). rewrite IH. rewrite Nat2Z.inj_mul. reflexivity.
Qed.

(** *** the session *)
Section Session.
Context {W : Type} {tpu : Z} {pr : bool_params} {d : Z} {bnn knn : nat} {BE KE M : Z}.
Context {client_lwe client_rlwe server_lwe server_rlwe enc : source W}.
Hypothesis A : admissible tpu pr d bnn knn.
Hypothesis K1 : returns (sk_uniform client_lwe) (fun v => v = 0 \/ v = 1).
Hypothesis K2 : returns (sk_uniform client_rlwe) (fun v => v = 0 \/ v = 1).
Hypothesis HL : honest KE server_lwe.
Hypothesis HR : honest BE server_rlwe.
Hypothesis HE : honest M enc.
Hypothesis B0 : 0 <= BE.
Hypothesis K0 : 0 <= KE.

Lemma client_ok w : exists ls rs w', new_client_keys pr client_lwe client_rlwe w = (Some (client_keys pr ls rs), w') /\ length ls = lwe_dimension (scheme pr) /\ binary ls /\
  is_key (modulus_degree (scheme pr)) (rlwe_dimension (scheme pr)) rs /\ Forall binary rs.
Proof.
  unfold new_client_keys, lwe_gen_key, rlwe_gen_key. destruct (returns_dims _ _ [lwe_dimension (scheme pr)] w K1) as (ls & w1 & E1 & L1 & F1). rewrite E1. cbn [andthen].
  destruct (returns_dims _ _ [rlwe_dimension (scheme pr); modulus_degree (scheme pr)] w1 K2) as (rl & w2 & E2 & L2 & F2). rewrite E2. cbn [andthen].
  cbn [fold_right] in L1, L2. rewrite Nat.mul_1_r in L1, L2.
  exists ls, (reshape2 (rlwe_dimension (scheme pr)) (modulus_degree (scheme pr)) rl), w2. split; [reflexivity |]. split; [exact L1 |]. split; [exact F1 |]. split; [apply reshape2_shape; exact L2 | apply rows_P; exact F2].
Qed.
Lemma concat_rect {X} n m (x : list (list X)) : rect n m x -> length (concat x) = (n * m)%nat.
Proof.
  intros [L F]. revert n L. induction F as [|r x Hr F IH]; intros n L; cbn [concat]; [subst n; reflexivity |]. destruct n as [|n]; [discriminate |]. injection L as L. rewrite app_length, Hr, (IH n L). reflexivity.
Qed.
Lemma server_ok ls rs w : length ls = lwe_dimension (scheme pr) -> binary ls -> is_key (modulus_degree (scheme pr)) (rlwe_dimension (scheme pr)) rs -> Forall binary rs ->
  exists bai bes kai kes sk w', new_server_keys tpu (client_keys pr ls rs) pr server_lwe server_rlwe w = (Some sk, w') /\
    key_setup tpu pr d bnn knn ls rs bai bes BE kai kes KE /\ server_keys tpu (client_keys pr ls rs) pr bai bes kai kes = Some sk.
Proof.
  intros L1 F1 L2 F2. destruct A as [A1 A2 A3 A4 A5 A6 A7]. pose proof (proj1 L2) as LK. pose proof (concat_rect _ _ _ L2) as LC.
  unfold new_server_keys. cbn [client_keys lwe_sk rlwe_sk key_data rk_data rk_degree flatten_key]. rewrite LK, LC, L1, A3. cbn [negb].
  change ((lwe_dimension (scheme pr) + lwe_dimension (scheme pr) / 2 + GEN_BSK_NUM_BATCHES - 1) / GEN_BSK_NUM_BATCHES * GEN_BSK_NUM_BATCHES)%nat with ((lwe_dimension (scheme pr) + lwe_dimension (scheme pr) / 2 + 20 - 1) / 20 * 20)%nat.
  replace ((lwe_dimension (scheme pr) + lwe_dimension (scheme pr) / 2 + 20 - 1) / 20 * 20)%nat with (bsk_count true (length ls)) by (unfold bsk_count; rewrite L1; f_equal; f_equal; lia).
  set (P := bsk_count true (length ls)). set (k := rlwe_dimension (scheme pr)) in *. set (N := modulus_degree (scheme pr)) in *. set (L := level_count (bs_decomp pr)). set (Lk := level_count (ks_decomp pr)). set (n := lwe_dimension (scheme pr)) in *.
  destruct (returns_dims _ _ [P; S k; L; k; N] w (honest_uniform _ _ HR)) as (ai & w1 & E1 & G1 & _). rewrite E1. cbn [andthen].
  destruct (returns_dims _ _ [P; S k; L] w1 (honest_normal _ _ HR)) as (es & w2 & E2 & G2 & Q2). rewrite E2. cbn [andthen].
  destruct (returns_dims _ _ [(k * N)%nat; Lk; n] w2 (honest_uniform _ _ HL)) as (kai & w3 & E3 & G3 & _). rewrite E3. cbn [andthen].
  destruct (returns_dims _ _ [(k * N)%nat; Lk] w3 (honest_normal _ _ HL)) as (kes & w4 & E4 & G4 & Q4). rewrite E4. cbn [andthen].
  unfold fold_right in G1, G2, G3, G4. rewrite Nat.mul_1_r in G1, G2, G3, G4.
  assert (HS : key_setup tpu pr d bnn knn ls rs (reshape5 P (S k) L k N ai) (reshape3 P (S k) L es) BE (reshape3 (k * N) Lk n kai) (reshape2 (k * N) Lk kes) KE).
  { constructor; try assumption.
    - split; [symmetry; exact L1 | rewrite L1; exact A3].
    - split; assumption.
    - split; [exact B0 |]. fold k N L P. destruct (reshape5_shape P (S k) L k N ai G1) as [S1 S2]. destruct (reshape3_shape P (S k) L es G2) as [S3 S4]. pose proof (reshape3_P _ P (S k) L es Q2) as S5.
      split; [exact S1 |]. split; [exact S3 |]. intros j Hj. rewrite Forall_forall in S2, S4, S5.
      assert (I1 : In (nth j (reshape5 P (S k) L k N ai) []) (reshape5 P (S k) L k N ai)) by (apply nth_In; rewrite S1; exact Hj).
      assert (I2 : In (nth j (reshape3 P (S k) L es) []) (reshape3 P (S k) L es)) by (apply nth_In; rewrite S3; exact Hj).
      destruct (S2 _ I1) as [T1 T2]. split; [exact T1 |]. split; [exact T2 |]. split; [exact (S4 _ I2) | exact (S5 _ I2)].
    - split; [exact K0 |]. rewrite L1. fold k N Lk n. destruct (reshape3_shape (k * N) Lk n kai G3) as [S1 S2]. split; [exact S1 |]. split; [exact S2 |]. split; [exact (reshape2_shape (k * N) Lk kes G4) | apply rows_P; exact Q4]. }
  destruct (C16_server_keys_exist _ _ _ _ _ _ _ _ _ _ _ _ _ HS) as (sk & SK).
  do 4 eexists. exists sk, w4. split; [| split; [exact HS | exact SK]]. f_equal. exact SK.
Qed.
Lemma encryptions_ok ls rs values : forall w, length ls = lwe_dimension (scheme pr) -> exists cts w', new_encryptions values (client_keys pr ls rs) enc w = (Some cts, w') /\
  Forall2 (fun ct b => exists e, Z.abs e <= M /\ holds_bit ls ct b e) cts values.
Proof.
  intros w L1. revert w. induction values as [|v values IH]; intros w; cbn [new_encryptions]; [exists [], w; split; [reflexivity | constructor] |].
  unfold new_encryption. cbn [client_keys lwe_sk key_data].
  destruct (returns_dims _ _ [length ls] w (honest_uniform _ _ HE)) as (ai & w1 & E1 & G1 & Q1). rewrite E1. cbn [andthen].
  destruct (returns_dims _ _ [1%nat] w1 (honest_normal _ _ HE)) as (e & w2 & E2 & G2 & Q2). change (dims [1%nat]) with [1] in E2. rewrite E2. cbn [andthen].
  unfold fold_right in G1, G2. rewrite Nat.mul_1_r in G1, G2.
  destruct (C16_encrypt pr ls rs v ai (nth 0 e 0) (ad_modulus _ _ _ _ _ A) G1 Q1) as (ct & C1 & C2). fold (client_keys pr ls rs). rewrite C1. cbn [andthen].
  destruct (IH w2) as (cts & w3 & -> & F). cbn [andthen]. exists (ct :: cts), w3. split; [reflexivity |]. constructor; [| exact F]. exists (s32 (nth 0 e 0)). split; [| exact C2].
  rewrite Forall_forall in Q2. apply Q2. apply nth_In. lia.
Qed.
Lemma session_ok c inputs values w : gate_noise pr bnn knn BE KE <= M -> in_window pr d (7 * M) -> eval_circuit c inputs = Some values ->
  exists w', session tpu pr client_lwe client_rlwe server_lwe server_rlwe enc c inputs w = (Some (map Some values), w').
Proof.
  intros G WN EV. unfold session. destruct (client_ok w) as (ls & rs & w1 & -> & L1 & F1 & L2 & F2). cbn [andthen].
  destruct (server_ok ls rs w1 L1 F1 L2 F2) as (bai & bes & kai & kes & sk & w2 & -> & HS & SK). cbn [andthen].
  destruct (encryptions_ok ls rs inputs w2 L1) as (cts & w3 & -> & F). cbn [andthen]. exists w3.
  destruct (C17_circuit tpu pr d bnn knn ls rs bai bes BE kai kes KE sk M c cts inputs values HS SK G WN F EV) as (out & -> & D). rewrite D. reflexivity.
Qed.
End Session.

(** For every parameter set, platform, choice of sources (one object in several roles or several objects), state of the sources, circuit
    and input bits: when the sources keep their contract and the noise bounds fit, the whole session runs without an exception and
    decrypts every wire to its cleartext value. *)
Theorem C62_session : forall (W : Type) tpu pr d bnn knn BE KE M (client_lwe client_rlwe server_lwe server_rlwe enc : source W) c inputs values w,
  admissible tpu pr d bnn knn -> 0 <= BE -> 0 <= KE ->
  returns (sk_uniform client_lwe) (fun v => v = 0 \/ v = 1) -> returns (sk_uniform client_rlwe) (fun v => v = 0 \/ v = 1) ->
  honest KE server_lwe -> honest BE server_rlwe -> honest M enc ->
  gate_noise pr bnn knn BE KE <= M -> in_window pr d (7 * M) ->
  eval_circuit c inputs = Some values ->
  exists w', session tpu pr client_lwe client_rlwe server_lwe server_rlwe enc c inputs w = (Some (map Some values), w').
Proof. intros. eapply session_ok; eassumption. Qed.
Print Assumptions C62_session.

(** the test parameters: any sources with noise of at most ten *)
Theorem C62_session_test : forall (W : Type) tpu (client_lwe client_rlwe server_lwe server_rlwe enc : source W) c inputs values w,
  honest 10 client_lwe -> honest 10 client_rlwe -> honest 10 server_lwe -> honest 10 server_rlwe -> honest 10 enc ->
  eval_circuit c inputs = Some values ->
  exists w', session tpu params_test client_lwe client_rlwe server_lwe server_rlwe enc c inputs w = (Some (map Some values), w').
Proof.
  intros W tpu cl cr sl sr en c inputs values w H1 H2 H3 H4 H5 EV.
  apply (C62_session W tpu params_test 9 8 8 10 10 17000000 cl cr sl sr en c inputs values w); try assumption; try lia.
  - constructor; cbn [scheme params_test modulus_degree plaintext_modulus lwe_dimension rlwe_dimension ks_decomp bs_decomp]; [split; [lia | reflexivity] | reflexivity | reflexivity | lia | unfold gadget; cbn; lia | unfold gadget; cbn; lia |].
    right. right. right. cbn [mk_decomp log_base]. split; [lia |]. vm_compute. reflexivity.
  - apply H1.
  - apply H2.
  - destruct H5 as [U N K]. constructor; try assumption. intros sh w0 V. destruct (N sh w0 V) as (l & w' & E & L & F). exists l, w'. split; [exact E |]. split; [exact L |]. eapply Forall_impl; [| exact F]. cbn beta. intros; lia.
  - vm_compute. discriminate.
  - vm_compute. reflexivity.
Qed.
Print Assumptions C62_session_test.

(** *** the sources of the library keep the contract *)
Lemma generator_returns {S} (gen : S -> Z * S) (P : Z -> Prop) : (forall s, P (fst (gen s) mod 2 ^ 32)) -> returns (fun sh => shape_generator gen sh uint32) P.
Proof.
  intros H sh w V. destruct (C57_unsigned_stream gen sh uint32 w V eq_refl ltac:(cbn; lia)) as (l & E & L & K). exists l. eexists. split; [exact E |]. split; [exact L |]. apply Forall_forall. intros x Hx. apply (In_nth _ _ 0) in Hx. destruct Hx as (k & Hk & <-). rewrite (K k Hk). apply H.
Qed.
Lemma constant_returns {S} c (P : Z -> Prop) : 0 <= c < 2 ^ 32 -> P c -> returns (fun sh (s : S) => (constant_uniform c sh uint32, s)) P.
Proof.
  intros R H sh w V. exists (repeat c (Z.to_nat (size sh))), w. split; [| split].
  - rewrite (C57_constant c sh uint32 V); [reflexivity |]. unfold in_range. cbn [unsigned uint32 bits]. apply andb_true_iff. split; [apply Z.leb_le | apply Z.ltb_lt]; lia.
  - rewrite repeat_length. clear - V. assert (0 <= size sh) by (induction V; cbn [size]; nia). lia.
  - apply Forall_forall. intros x Hx. apply repeat_spec in Hx. subst x. exact H.
Qed.
Lemma s32_normal v : - 2 ^ 31 <= v < 2 ^ 31 -> s32 (v mod 2 ^ 32) = v.
Proof.
  intros H. unfold s32, u32. change W32 with 4294967296. change (2 ^ 32) with 4294967296. change (2 ^ 31) with 2147483648 in H. rewrite Z.mod_mod by lia.
  destruct (Z_lt_le_dec v 0) as [C|C].
  - replace (v mod 4294967296) with (v + 4294967296) by (rewrite <- (Z_mod_plus_full v 1 4294967296); symmetry; apply Z.mod_small; lia). destruct (_ <? _) eqn:T; [apply Z.ltb_lt in T; lia | lia].
  - rewrite (Z.mod_small v) by lia. destruct (_ <? _) eqn:T; [reflexivity | apply Z.ltb_ge in T; lia].
Qed.
Lemma word_mod v : word32 (v mod 2 ^ 32).
Proof. unfold word32. change W32 with (2 ^ 32). apply Z.mod_pos_bound. lia. Qed.
(** Every source class of the library, whatever Python's generator does: [randint 0 1] draws a bit, [normal] draws at most B in absolute
    value.  The bounds of the uniform draws are arbitrary: (0, 2^32), which get_rng_for_test passes, is one too wide and still gives words. *)
Theorem C62_sources : forall (S : Type) (randint : Z -> Z -> S -> Z * S) (normal : Z -> S -> Z * S) bounds std c B,
  (forall s, fst (randint 0 1 s) = 0 \/ fst (randint 0 1 s) = 1) -> (forall s, Z.abs (fst (normal std s)) <= B) -> 0 <= B < 2 ^ 31 -> 0 <= c < 2 ^ 32 ->
  honest B (python_source randint normal bounds std) /\ honest B (normal_only_source randint normal std) /\ honest B (constant_uniform_source randint normal c std) /\
  honest B (@zero_source S) /\ (forall e, Z.abs e <= B -> honest B (cycle_source e)).
Proof.
  intros S randint normal bounds std c B R N HB HC.
  assert (UN : returns (fun sh => shape_generator (normal std) sh uint32) (fun e => Z.abs (s32 e) <= B)) by (apply generator_returns; intros s; specialize (N s); rewrite s32_normal by lia; exact N).
  assert (KEY : returns (fun sh => shape_generator (randint 0 1) sh uint32) (fun v => v = 0 \/ v = 1)) by (apply generator_returns; intros s; destruct (R s) as [-> | ->]; [left | right]; reflexivity).
  split; [| split; [| split; [| split]]].
  - constructor; [apply generator_returns; intros; apply word_mod | exact UN | exact KEY].
  - constructor; [apply constant_returns; [lia | split; [lia | reflexivity]] | exact UN | exact KEY].
  - constructor; [apply constant_returns; [lia | exact HC] | exact UN | exact KEY].
  - constructor; apply constant_returns; try lia; [split; [lia | reflexivity] |]. change (s32 0) with 0. lia.
  - intros e He. assert (BIT : forall k, nth (k mod length cycle_data) cycle_data 0 = 0 \/ nth (k mod length cycle_data) cycle_data 0 = 1).
    { intros k. destruct (nth_in_or_default (k mod length cycle_data) cycle_data 0) as [I | ->]; [| left; reflexivity].
      assert (BD : Forall (fun v => v = 0 \/ v = 1) cycle_data) by (unfold cycle_data, bin; destruct (13 ^ 39 ^ 2 / 53); [repeat constructor; lia | apply bin_digits_binary; constructor | repeat constructor; lia]). rewrite Forall_forall in BD. apply BD. exact I. }
    constructor.
    + apply generator_returns. intros s. apply word_mod.
    + apply generator_returns. intros s. cbn [fst]. rewrite s32_normal by lia. exact He.
    + apply generator_returns. intros s. unfold cycle_next. cbn [fst]. destruct (BIT s) as [-> | ->]; [left | right]; reflexivity.
Qed.
Print Assumptions C62_sources.

(** *** the draws of a session *)
Lemma record_eq {W} r k (f : list Z -> W -> option (list Z) * W) sh w log o w' : f sh w = (o, w') -> record r k f sh (w, log) = (o, (w', log ++ [(r, k, sh)])).
Proof. intros E. unfold record. cbn [fst snd]. rewrite E. reflexivity. Qed.
Lemma encryptions_calls {W} (enc : source W) pr ls rs values M : plaintext_modulus (scheme pr) = 2 ^ 32 -> honest M enc -> forall w log, exists cts w', new_encryptions values (client_keys pr ls rs) (recording Encryption enc) (w, log) =
  (Some cts, (w', log ++ concat (repeat [(Encryption, Mask, [Z.of_nat (length ls)]); (Encryption, Noise, [1])] (length values)))).
Proof.
  intros PM HE. induction values as [|v values IH]; intros w log; cbn [new_encryptions length repeat concat]; [exists [], w; rewrite app_nil_r; reflexivity |].
  unfold new_encryption. cbn [client_keys lwe_sk key_data recording uniform rounded_normal].
  destruct (returns_dims _ _ [length ls] w (honest_uniform _ _ HE)) as (ai & w1 & E1 & G1 & Q1). rewrite (record_eq _ _ _ _ _ log _ _ E1). cbn [andthen].
  destruct (returns_dims _ _ [1%nat] w1 (honest_normal _ _ HE)) as (e & w2 & E2 & G2 & Q2). change (dims [1%nat]) with [1] in E2. rewrite (record_eq _ _ _ _ _ _ _ _ E2). cbn [andthen].
  unfold fold_right in G1. rewrite Nat.mul_1_r in G1.
  destruct (C16_encrypt pr ls rs v ai (nth 0 e 0) PM G1 Q1) as (ct & C1 & C2). fold (client_keys pr ls rs). rewrite C1. cbn [andthen].
  destruct (IH w2 ((log ++ [(Encryption, Mask, dims [length ls])]) ++ [(Encryption, Noise, [1])])) as (cts & w3 & ->). cbn [andthen]. exists (ct :: cts), w3. f_equal. f_equal. rewrite <- !app_assoc. reflexivity.
Qed.
Lemma recording_returns {W} r k (f : list Z -> W -> option (list Z) * W) P : returns f P -> returns (record r k f) P.
Proof. intros H sh [w log] V. destruct (H sh w V) as (l & w' & E & R). exists l. eexists. split; [apply record_eq; exact E | exact R]. Qed.
Lemma recording_honest {W} B r (src : source W) : honest B src -> honest B (recording r src).
Proof. intros [U N K]. constructor; apply recording_returns; assumption. Qed.
(** Every array is drawn once, in this order and shape, from the source of its role; no draw is repeated, so no mask or noise is used twice. *)
Theorem C62_draws : forall (W : Type) tpu pr d bnn knn BE KE M (client_lwe client_rlwe server_lwe server_rlwe enc : source W) c inputs values w log,
  admissible tpu pr d bnn knn -> 0 <= BE -> 0 <= KE ->
  returns (sk_uniform client_lwe) (fun v => v = 0 \/ v = 1) -> returns (sk_uniform client_rlwe) (fun v => v = 0 \/ v = 1) ->
  honest KE server_lwe -> honest BE server_rlwe -> honest M enc ->
  gate_noise pr bnn knn BE KE <= M -> in_window pr d (7 * M) ->
  eval_circuit c inputs = Some values ->
  exists w', session tpu pr (recording ClientLwe client_lwe) (recording ClientRlwe client_rlwe) (recording ServerLwe server_lwe) (recording ServerRlwe server_rlwe) (recording Encryption enc) c inputs (w, log) =
    (Some (map Some values), (w', log ++ expected_calls pr (length inputs))).
Proof.
  intros W tpu pr d bnn knn BE KE M cl cr sl sr en c inputs values w log A B0 K0 K1 K2 HL HR HE G WN EV.
  destruct (C62_session (W * list call) tpu pr d bnn knn BE KE M (recording ClientLwe cl) (recording ClientRlwe cr) (recording ServerLwe sl) (recording ServerRlwe sr) (recording Encryption en) c inputs values (w, log) A B0 K0
    (recording_returns _ _ _ _ K1) (recording_returns _ _ _ _ K2) (recording_honest _ _ _ HL) (recording_honest _ _ _ HR) (recording_honest _ _ _ HE) G WN EV) as (st & RUN).
  enough (exists w', snd (session tpu pr (recording ClientLwe cl) (recording ClientRlwe cr) (recording ServerLwe sl) (recording ServerRlwe sr) (recording Encryption en) c inputs (w, log)) = (w', log ++ expected_calls pr (length inputs))) as (w' & Q) by (exists w'; rewrite RUN in Q |- *; cbn [snd] in Q; subst st; reflexivity).
  clear RUN st. destruct A as [A1 A2 A3 A4 A5 A6 A7]. unfold session, new_client_keys, lwe_gen_key, rlwe_gen_key. cbn [recording sk_uniform].
  destruct (returns_dims _ _ [lwe_dimension (scheme pr)] w K1) as (ls & w1 & E1 & L1 & F1). rewrite (record_eq _ _ _ _ _ log _ _ E1). cbn [andthen].
  destruct (returns_dims _ _ [rlwe_dimension (scheme pr); modulus_degree (scheme pr)] w1 K2) as (rl & w2 & E2 & L2 & F2). rewrite (record_eq _ _ _ _ _ _ _ _ E2). cbn [andthen].
  unfold fold_right in L1, L2. rewrite Nat.mul_1_r in L1, L2.
  set (rs := reshape2 (rlwe_dimension (scheme pr)) (modulus_degree (scheme pr)) rl) in *. assert (LR : is_key (modulus_degree (scheme pr)) (rlwe_dimension (scheme pr)) rs) by (apply reshape2_shape; exact L2).
  pose proof (proj1 LR) as LK. pose proof (concat_rect _ _ _ LR) as LC. assert (LS : length ls = lwe_dimension (scheme pr)) by exact L1.
  unfold new_server_keys. cbn [client_keys lwe_sk rlwe_sk key_data rk_data rk_degree flatten_key]. rewrite LK, LC, LS, A3. cbn [negb].
  change ((lwe_dimension (scheme pr) + lwe_dimension (scheme pr) / 2 + GEN_BSK_NUM_BATCHES - 1) / GEN_BSK_NUM_BATCHES * GEN_BSK_NUM_BATCHES)%nat with ((lwe_dimension (scheme pr) + lwe_dimension (scheme pr) / 2 + 20 - 1) / 20 * 20)%nat.
  replace ((lwe_dimension (scheme pr) + lwe_dimension (scheme pr) / 2 + 20 - 1) / 20 * 20)%nat with (bsk_count true (lwe_dimension (scheme pr))) by (unfold bsk_count; f_equal; f_equal; lia).
  unfold expected_calls. cbv zeta.
  set (P := bsk_count true (lwe_dimension (scheme pr))) in *. set (k := rlwe_dimension (scheme pr)) in *. set (N := modulus_degree (scheme pr)) in *. set (L := level_count (bs_decomp pr)). set (Lk := level_count (ks_decomp pr)). set (n := lwe_dimension (scheme pr)) in *.
  cbn [recording uniform rounded_normal].
  destruct (returns_dims _ _ [P; S k; L; k; N] w2 (honest_uniform _ _ HR)) as (ai & w3 & E3 & _). rewrite (record_eq _ _ _ _ _ _ _ _ E3). cbn [andthen].
  destruct (returns_dims _ _ [P; S k; L] w3 (honest_normal _ _ HR)) as (es & w4 & E4 & _). rewrite (record_eq _ _ _ _ _ _ _ _ E4). cbn [andthen].
  destruct (returns_dims _ _ [(k * N)%nat; Lk; n] w4 (honest_uniform _ _ HL)) as (kai & w5 & E5 & _). rewrite (record_eq _ _ _ _ _ _ _ _ E5). cbn [andthen].
  destruct (returns_dims _ _ [(k * N)%nat; Lk] w5 (honest_normal _ _ HL)) as (kes & w6 & E6 & _). rewrite (record_eq _ _ _ _ _ _ _ _ E6). cbn [andthen].
  fold (client_keys pr ls rs). destruct (server_keys _ _ _ _ _ _ _) as [sk|] eqn:SK; cbn [andthen].
  - match goal with |- context [new_encryptions _ _ _ (w6, ?lg)] => destruct (encryptions_calls en pr ls rs inputs M A2 HE w6 lg) as (cts & w7 & ->) end. cbn [andthen snd]. exists w7. f_equal. rewrite <- !app_assoc, LS. fold n. cbn [dims map app].
    rewrite Nat2Z.inj_mul. replace (Z.of_nat (S k)) with (Z.of_nat k + 1) by lia. reflexivity.
  - exfalso. revert SK. unfold server_keys, gen_bootstrapping_key. cbn [client_keys lwe_sk key_data rlwe_sk]. fold n in LS. rewrite LS, A3. cbn [negb]. discriminate.
Qed.
Print Assumptions C62_draws.

(** an odd LWE dimension raises before anything is drawn for the server keys *)
Theorem C62_odd_dimension : forall (W : Type) tpu pr ck (server_lwe server_rlwe : source W) w, Nat.odd (length (key_data (lwe_sk ck))) = true ->
  new_server_keys tpu ck pr server_lwe server_rlwe w = (None, w).
Proof. intros W tpu pr ck sl sr w H. unfold new_server_keys. unfold Nat.odd in H. rewrite H. reflexivity. Qed.
Print Assumptions C62_odd_dimension.

(** ** Example: one counting source in all five roles meets the hypotheses and the adder of C17 runs from end to end *)
Definition ex_source : source Z := python_source (fun lo hi s => (lo + s mod (hi - lo + 1), 5 * s + 3)) (fun std s => (s mod 7 - 3, 5 * s + 3)) (0, 2 ^ 32) 1.
Example C62_session_ex : honest 10 ex_source /\ exists w', session 6 params_test ex_source ex_source ex_source ex_source ex_source ex_adder [true; false; true] 1 =
  (Some (map Some [true; false; true; true; false; true; false; true; false; true; false]), w').
Proof.
  assert (H : honest 10 ex_source).
  { apply (C62_sources Z (fun lo hi s => (lo + s mod (hi - lo + 1), 5 * s + 3)) (fun std s => (s mod 7 - 3, 5 * s + 3)) (0, 2 ^ 32) 1 0 10); [| | lia | lia]; intros s; cbn [fst].
    - change (1 - 0 + 1) with 2. pose proof (Z.mod_pos_bound s 2). lia.
    - pose proof (Z.mod_pos_bound s 7). lia. }
  split; [exact H |]. apply C62_session_test; try exact H. reflexivity.
Qed.
Example C62_draws_ex : expected_calls params_test 1 = [(ClientLwe, Key, [4]); (ClientRlwe, Key, [1; 512]); (ServerRlwe, Mask, [20; 2; 8; 1; 512]); (ServerRlwe, Noise, [20; 2; 8]);
  (ServerLwe, Mask, [512; 8; 4]); (ServerLwe, Noise, [512; 8]); (Encryption, Mask, [4]); (Encryption, Noise, [1])].
Proof. reflexivity. Qed.
Example C62_keys_drawn : fst (new_client_keys params_test ex_source ex_source 1) <> None.
Proof. vm_compute. discriminate. Qed.
