(** C58: CKKS computes slot by slot on complex vectors, end to end: encode, encrypt, compute, decrypt, decode.
    [shows n sk scale ct x] says that decrypting and decoding ct returns the vector x. *)
From Coq Require Import Reals ZArith Znumtheory List Bool Lia Lra.
From Verif Require Import Base.Lists Base.Word Base.ZSum Base.Fermat Base.Crt Base.Cplx Base.Modeq Base.Nega Base.PrimeCheck.
From Verif Require Import Ckks.Model_rns_utils Ckks.Model_math Ckks.Model_barrett Ckks.Model_ntt_cpu Ckks.Model_encode Ckks.Model_fft Ckks.Model_scheme Ckks.Model_addmul Ckks.Model_rescale Ckks.Model_keyswitch Ckks.Model_mul Ckks.Model_auto Ckks.Model_plan Ckks.Model_basis.
From Verif Require Import Ckks.Spec_fft Ckks.Spec_slots Ckks.Spec_ntt Ckks.Spec_poly Ckks.Spec_barrett Ckks.Spec_keyswitch.
From Verif Require Import Ckks.Prop_crt Ckks.Proof_ntt_cpu Ckks.Prop_ntt_cpu Ckks.Proof_fft Ckks.Proof_transform Ckks.Proof_slots Ckks.Proof_encrypt Ckks.Prop_encrypt Ckks.Prop_addmul Ckks.Prop_ntt_accel Ckks.Prop_rescale Ckks.Prop_auto Ckks.Proof_auto Ckks.Prop_keyswitch Ckks.Proof_keyswitch Ckks.Proof_moddown Ckks.Prop_mul Ckks.Prop_fft Ckks.Proof_embed Ckks.Proof_embed2.
Import ListNotations.
Local Open Scope R_scope.

(** *** Congruent polynomials *)
Definition congruent (Q : Z) (a b : list Z) : Prop := length a = length b /\ forall i, (i < length a)%nat -> (co a i == co b i [mod Q])%Z.
Lemma congruent_lift Q a : (0 < Q)%Z -> congruent Q (lift Q a) a.
Proof. intros H. split; [apply lift_length |]. rewrite lift_length. intros i Hi. rewrite lift_co by exact Hi. apply centre_eqm. exact H. Qed.
Lemma congruent_sym Q a b : congruent Q a b -> congruent Q b a.
Proof. intros [L H]. split; [congruence |]. intros i Hi. rewrite (H i) by lia. reflexivity. Qed.
Lemma congruent_refl Q a : congruent Q a a.
Proof. split; [reflexivity |]. intros i Hi. reflexivity. Qed.
Lemma congruent_add Q a b a' b' : length a = length b -> congruent Q a a' -> congruent Q b b' -> congruent Q (poly_add a b) (poly_add a' b').
Proof. intros LB [L H] [L2 H2]. split; [rewrite !poly_add_length; exact L |]. rewrite poly_add_length. intros i Hi. rewrite !co_add by lia. rewrite (H i Hi), (H2 i) by lia. reflexivity. Qed.
Lemma congruent_mul Q a b a' b' : length a = length b -> congruent Q a a' -> congruent Q b b' -> congruent Q (poly_mul a b) (poly_mul a' b').
Proof.
  intros LB [L H] [L2 H2]. split; [rewrite !poly_mul_length; exact L |]. rewrite poly_mul_length. intros i Hi. rewrite !co_mul by lia. rewrite <- L. unfold nega_coeff. apply eqm_zsum. intros j Hj.
  destruct (j <=? i)%nat eqn:E; [apply Nat.leb_le in E | apply Nat.leb_gt in E]; rewrite (H j Hj), (H2 _) by lia; reflexivity.
Qed.
Lemma congruent_auto Q g a a' : congruent Q a a' -> congruent Q (poly_auto g a) (poly_auto g a').
Proof.
  intros [L H]. split; [rewrite !poly_auto_length; exact L |]. rewrite poly_auto_length. intros i Hi. rewrite !co_auto by lia. rewrite <- L. apply eqm_zsum. intros j Hj. cbv zeta. destruct (_ =? _)%Z; [apply H; exact Hj |]. destruct (_ =? _)%Z; [| reflexivity]. rewrite (H j Hj). reflexivity.
Qed.
Lemma congruent_residues moduli a b : coprime_moduli moduli -> congruent (lprod moduli) a b -> residue_array a moduli = residue_array b moduli.
Proof. intros C [L H]. apply residue_ext; [exact L | apply coprime_pos, C | exact H]. Qed.

(** *** Reading and producing slots *)
Lemma shows_reads L sk scale ct level X x : coprime_moduli level -> level <> [] -> length X = (2 * 2 ^ L)%nat -> 0 < scale ->
  decrypt sk ct = Some {| pt_data := residue_array X level; pt_moduli := level |} -> shows (2 ^ L) sk scale ct x ->
  length x = (2 ^ L)%nat /\ forall j, (j < 2 ^ L)%nat -> int_slot (lift (lprod level) X) j = cscale scale (nth j x c0).
Proof.
  intros C NE LX Hs D (p & Dp & E). rewrite D in Dp. injection Dp as <-. cbn [pt_data pt_moduli] in E. rewrite <- (lift_residues level X C) in E.
  destruct (decode_value L level scale (2 ^ L) (lift (lprod level) X)) as (ys & EY & LY & VY); [exact C | exact NE | rewrite lift_length; exact LX | apply lift_range, lprod_pos, C |].
  rewrite EY in E. injection E as <-. rewrite Nat.min_id in *. split; [exact LY |]. intros j Hj. rewrite VY by exact Hj. rewrite cscale_cscale, Rinv_r by lra. symmetry. apply cscale_1.
Qed.
Lemma shows_intro L sk scale ct level Y P M : coprime_moduli level -> level <> [] -> length P = (2 * 2 ^ L)%nat ->
  decrypt sk ct = Some {| pt_data := residue_array Y level; pt_moduli := level |} -> congruent (lprod level) P Y ->
  (forall j, (j < 2 ^ L)%nat -> cnorm (int_slot P j) <= M) -> 2 * M < IZR (lprod level) ->
  exists y, shows (2 ^ L) sk scale ct y /\ length y = (2 ^ L)%nat /\ forall j, (j < 2 ^ L)%nat -> nth j y c0 = cscale (/ scale) (int_slot P j).
Proof.
  intros C NE LP D CG HM HQ. destruct (decode_value L level scale (2 ^ L) P C NE LP) as (ys & EY & LY & VY); [apply (coeff_range L P M); assumption |]. rewrite Nat.min_id in *.
  exists ys. split; [| split; assumption]. eexists. split; [exact D |]. cbn [pt_data pt_moduli]. rewrite <- (congruent_residues level P Y C CG). exact EY.
Qed.
Lemma scaled_dist r x y : 0 < r -> cdist (cscale (/ r) x) y = cdist x (cscale r y) / r.
Proof.
  intros H. replace y with (cscale (/ r) (cscale r y)) at 1 by (rewrite cscale_cscale, Rinv_l by lra; apply cscale_1). rewrite cdist_scale. rewrite Rabs_right by (apply Rle_ge, Rlt_le, Rinv_0_lt_compat, H). unfold Rdiv. ring.
Qed.
Lemma cnorm_pscale r x : 0 < r -> cnorm (cscale r x) = r * cnorm x.
Proof. intros H. apply cnorm_scale. lra. Qed.

Lemma coprime_firstn k moduli : coprime_moduli moduli -> coprime_moduli (firstn k moduli).
Proof.
  intros [P F]. rewrite <- (firstn_skipn k moduli) in P, F. apply Forall_app in P. destruct P as [P _]. split; [exact P |]. clear P. revert F. generalize (skipn k moduli). induction (firstn k moduli) as [|q ms IH]; intros l F; [constructor |].
  cbn in F. inversion F as [|? ? H1 H2]; subst. apply Forall_app in H1. constructor; [apply H1 | apply (IH l), H2].
Qed.

(** *** Fresh keys and ciphertexts are in reduced evaluation form *)
Lemma valid_slots L ms ct a b : Forall (cpu_admissible L) ms -> ct_moduli ct = ms -> length (ct_data ct) = 2%nat -> slots L ms (nth 0 (ct_data ct) []) a -> slots L ms (nth 1 (ct_data ct) []) b -> valid_ct (2 ^ L) ms ct.
Proof.
  intros HA EM LD S0 S1. split; [exact EM |]. destruct (ct_data ct) as [|A [|B [|? ?]]]; try discriminate LD. exists A, B. split; [reflexivity |]. split; [exact (slots_uniform L ms A a HA S0) | exact (slots_uniform L ms B b HA S1)].
Qed.
Lemma fresh_valid L moduli k s a e m v e0 e1 pk sk pt ct : scheme_moduli L moduli -> (1 <= k <= length moduli)%nat -> uniform_sample (2 ^ L) moduli a ->
  Forall (fun p => length p = (2 ^ L)%nat) [s; e; m; v; e0; e1] -> keygen moduli (residue_array s moduli) a (residue_array e moduli) = Some (pk, sk) -> encode_plaintext m (firstn k moduli) = Some pt ->
  encrypt pk pt (residue_array v (firstn k moduli)) (residue_array e0 (firstn k moduli)) (residue_array e1 (firstn k moduli)) = Some ct ->
  sk_moduli sk = moduli /\ evaluation_form moduli s (sk_data sk) /\ valid_ct (2 ^ L) (firstn k moduli) ct.
Proof.
  intros HS Hk Ha HF EK EP ET. rewrite !Forall_cons_iff in HF. destruct HF as (Ls & Le & Lm & Lv & L0 & L1 & _). pose proof (scheme_firstn L moduli k HS Hk) as HS'.
  destruct (keygen_ok L moduli HS s a e Ls Ha Le) as (pk' & sk' & EK' & MP & MS & S1 & SS & S0). rewrite EK in EK'. injection EK' as <- <-.
  destruct (encode_ok L (firstn k moduli) m HS' Lm) as (pt' & EP' & MPt & SP). rewrite EP in EP'. injection EP' as <-. destruct (uniform_cols _ _ _ Ha) as [La Ca].
  destruct (encrypt_ok L moduli k pk pt s (fun i => nth i a []) e m v e0 e1) as (ct' & EC & MC & LD & SC0 & SC1); try assumption. rewrite ET in EC. injection EC as <-.
  split; [exact MS |]. split; [apply (evaluation_slots L moduli s _ (scheme_adm _ _ HS) Ls); exact SS |]. exact (valid_slots L _ ct _ _ (scheme_adm _ _ HS') MC LD SC0 SC1).
Qed.

(** *** C58: encode, encrypt, decrypt, decode returns the vector up to rounding and fresh noise. *)
Theorem C58_encrypt_decode : forall L moduli k s a e v e0 e1 scale z B Bz, let n := (2 * 2 ^ L)%nat in let level := firstn k moduli in
  0 < scale -> scheme_moduli (S L) moduli -> coprime_moduli moduli -> Forall (fun q => (q < 2 ^ 32)%Z) moduli -> (1 <= k <= length moduli)%nat ->
  uniform_sample n moduli a -> Forall (fun p => length p = n) [s; e; v; e0; e1] ->
  poly_bound 1 s -> poly_bound 1 v -> poly_bound B e -> poly_bound B e0 -> poly_bound B e1 ->
  (length z <= 2 ^ L)%nat -> 0 <= Bz -> Forall (fun x => cnorm x <= Bz) z ->
  let err := INR (2 ^ L) * sqrt (1 / 2) + INR n * IZR ((2 * Z.of_nat n + 1) * B) in
  2 * (scale * Bz + err) < IZR (lprod level) ->
  exists pk sk columns ct y,
    keygen moduli (residue_array s moduli) a (residue_array e moduli) = Some (pk, sk) /\
    encode n level scale z = Some columns /\
    encrypt pk {| pt_data := columns; pt_moduli := level |} (residue_array v level) (residue_array e0 level) (residue_array e1 level) = Some ct /\
    sk_moduli sk = moduli /\ evaluation_form moduli s (sk_data sk) /\ valid_ct n level ct /\ shows (2 ^ L) sk scale ct y /\ length y = (2 ^ L)%nat /\
    forall j, (j < 2 ^ L)%nat -> cdist (nth j y c0) (nth j z c0) <= err / scale.
Proof.
  intros L moduli k s a e v e0 e1 scale z B Bz n level Hsc HS HC HQ Hk Ha HF Bs Bv Be B0 B1 LZ HBz FZ err HB.
  assert (En : n = (2 ^ S L)%nat) by (unfold n; rewrite Nat.pow_succ_r'; reflexivity).
  destruct (encode_value L level scale z) as (columns & m & EC & EM & LM & DM); [exact Hsc | apply scheme_firstn; assumption | unfold level; rewrite <- (firstn_skipn k moduli) in HQ; apply Forall_app in HQ; apply HQ | exact LZ |].
  pose proof HF as HF'. rewrite !Forall_cons_iff in HF'. destruct HF' as (Ls & Le & Lv & L0 & L1 & _).
  destruct (C32_decrypt_encrypt (S L) moduli k s a e m v e0 e1) as (pk & sk & pt & ct & EK & EP & ET & MT & ED); [exact HS | exact Hk | rewrite <- En; exact Ha | rewrite <- En; repeat constructor; assumption |].
  fold level in EP, ET, MT, ED. rewrite EM in EP. injection EP as <-.
  pose proof (C32_noise_bound n s e v e0 e1 B HF Bs Bv Be B0 B1) as NB. set (noise := fresh_noise s e v e0 e1) in *.
  assert (LN : length noise = n) by (unfold noise, fresh_noise; rewrite !poly_add_length, poly_mul_length; exact Lv).
  assert (DZ : forall j, (j < 2 ^ L)%nat -> cdist (int_slot (poly_add m noise) j) (cscale scale (nth j z c0)) <= err).
  { intros j Hj. rewrite int_slot_add by (rewrite LM, LN; reflexivity). eapply Rle_trans; [apply (cdist_triangle _ (int_slot m j)) |]. rewrite Rplus_comm. apply Rplus_le_compat; [apply DM; exact Hj |].
    unfold cdist. replace (csub (cadd (int_slot m j) (int_slot noise j)) (int_slot m j)) with (int_slot noise j) by ring. rewrite <- LN at 1. apply int_slot_bound. exact NB. }
  assert (NZ : forall j, cnorm (nth j z c0) <= Bz).
  { intros j. destruct (Nat.lt_ge_cases j (length z)) as [Lt | Ge]; [rewrite Forall_forall in FZ; apply FZ, nth_In; exact Lt | rewrite nth_overflow by exact Ge; rewrite cnorm_0; exact HBz]. }
  destruct (shows_intro L sk scale ct level (poly_add m noise) (poly_add m noise) (scale * Bz + err)) as (y & SH & LY & VY); [apply coprime_firstn, HC | apply (proj1 (scheme_firstn _ _ _ HS Hk)) | rewrite poly_add_length; exact LM | exact ED | apply congruent_refl | | exact HB |].
  { intros j Hj. replace (int_slot (poly_add m noise) j) with (cadd (cscale scale (nth j z c0)) (csub (int_slot (poly_add m noise) j) (cscale scale (nth j z c0)))) by ring. eapply Rle_trans; [apply cnorm_add |].
    apply Rplus_le_compat; [rewrite cnorm_pscale by exact Hsc; apply Rmult_le_compat_l; [lra | apply NZ] | apply DZ; exact Hj]. }
  destruct (fresh_valid (S L) moduli k s a e m v e0 e1 pk sk {| pt_data := columns; pt_moduli := level |} ct) as (MS & EVS & VC); [exact HS | exact Hk | rewrite <- En; exact Ha | rewrite <- En; repeat constructor; assumption | exact EK | exact EM | exact ET |]. rewrite <- En in VC.
  exists pk, sk, columns, ct, y. do 3 (split; [assumption |]). split; [exact MS |]. split; [exact EVS |]. split; [exact VC |]. split; [exact SH |]. split; [exact LY |]. intros j Hj. rewrite VY by exact Hj. rewrite scaled_dist by exact Hsc. apply Rmult_le_compat_r; [apply Rlt_le, Rinv_0_lt_compat, Hsc | apply DZ; exact Hj].
Qed.
Print Assumptions C58_encrypt_decode.

(** *** Integer polynomials behind ciphertexts *)
Lemma crt_poly moduli n (rows : nat -> list Z) : coprime_moduli moduli -> moduli <> [] -> (forall i, (i < length moduli)%nat -> length (rows i) = n) ->
  exists P, length P = n /\ forall i, (i < length moduli)%nat -> poly_mod (nth i moduli 0%Z) P = poly_mod (nth i moduli 0%Z) (rows i).
Proof.
  intros C NE HR. destruct (C30_reconstruct moduli (map rows (seq 0 (length moduli))) n C NE) as (xs & _ & LX & V).
  - rewrite map_length. apply seq_length.
  - apply Forall_map, Forall_forall. intros i Hi. apply in_seq in Hi. apply HR. lia.
  - exists xs. split; [exact LX |]. intros i Hi. unfold poly_mod. apply (list_ext 0%Z); rewrite !map_length; [rewrite LX, HR by exact Hi; reflexivity |]. intros j Hj. rewrite !(nth_map_lt _ _ _ _ 0%Z) by (rewrite ?HR by exact Hi; lia).
    rewrite LX in Hj. destruct (V j Hj) as (_ & E & _). rewrite E by exact Hi. rewrite nth_map_seq by exact Hi. reflexivity.
Qed.
Lemma mod_rows moduli P (D : list (list Z)) : length D = length moduli -> (forall i, (i < length moduli)%nat -> nth i D [] = poly_mod (nth i moduli 0%Z) P) -> D = residue_array P moduli.
Proof.
  intros LD H. rewrite <- (residues_of_map moduli P). apply (list_ext []); [rewrite map_length, seq_length; exact LD |]. intros i Hi. rewrite nth_map_seq by lia. apply H. lia.
Qed.
(** what decryption returns is the residue array of an integer polynomial *)
Lemma decrypt_integer L moduli k sk ct : scheme_moduli L moduli -> coprime_moduli moduli -> (1 <= k <= length moduli)%nat -> let level := firstn k moduli in
  valid_sk (2 ^ L) moduli sk -> valid_ct (2 ^ L) level ct -> exists X, length X = (2 ^ L)%nat /\ decrypt sk ct = Some {| pt_data := residue_array X level; pt_moduli := level |}.
Proof.
  intros HS HC Hk level [EM SK] [EC (A & B & ED & UA & UB)]. pose proof (scheme_firstn L moduli k HS Hk) as HS'. fold level in HS'. pose proof (scheme_adm L level HS') as HA'.
  assert (Lk : length level = k) by (unfold level; rewrite firstn_length; lia).
  destruct (slots_exist L moduli _ (scheme_adm L moduli HS) SK) as (s & Ss). destruct (slots_exist L level A HA' UA) as (a & Sa), (slots_exist L level B HA' UB) as (b & Sb).
  rewrite (decrypt_gen L moduli k sk ct s a b HS Hk EM Ss EC); [| rewrite ED; apply slots_cslots; assumption | rewrite ED; apply slots_cslots; assumption]. fold level.
  destruct (crt_poly level (2 ^ L) (fun i => poly_add (a i) (poly_mul (b i) (s i)))) as (X & LX & V); [apply coprime_firstn, HC | apply HS' | intros i Hi; rewrite poly_add_length; apply Sa; exact Hi |].
  exists X. split; [exact LX |]. f_equal. f_equal. apply mod_rows; [rewrite map_length, seq_length; congruence |]. intros i Hi. rewrite nth_map_seq by lia. symmetry. apply V. exact Hi.
Qed.
Lemma poly_mod_idem q a : poly_mod q (poly_mod q a) = poly_mod q a.
Proof. unfold poly_mod. rewrite map_map. apply map_ext. intros x. apply Zmod_mod. Qed.
Lemma poly_mod_congr q a b : (0 < q)%Z -> congruent q a b -> poly_mod q a = poly_mod q b.
Proof.
  intros H [L E]. unfold poly_mod. apply (list_ext 0%Z); rewrite !map_length; [exact L |]. intros i Hi. rewrite !(nth_map_lt _ _ _ _ 0%Z) by lia. apply eqm_mod_iff; [lia | exact (E i Hi)].
Qed.
Lemma congruent_mod q a : congruent q (poly_mod q a) a.
Proof. split; [apply poly_mod_length |]. intros i Hi. rewrite co_mod. apply eqm_mod. Qed.
Lemma residue_row P moduli i : (i < length moduli)%nat -> nth i (residue_array P moduli) [] = poly_mod (nth i moduli 0%Z) P.
Proof. intros H. unfold residue_array. rewrite (nth_map_lt _ _ _ _ 0%Z) by exact H. reflexivity. Qed.
Lemma modulus_pos moduli i : coprime_moduli moduli -> (i < length moduli)%nat -> (0 < nth i moduli 0)%Z.
Proof. intros C H. pose proof (coprime_pos _ C) as P. rewrite Forall_forall in P. apply P, nth_In, H. Qed.

(** *** C58: adding ciphertexts adds the vectors they show, exactly. *)
Theorem C58_add : forall L moduli k sk ct ct' K bits scale x x' B, let n := (2 * 2 ^ L)%nat in let level := firstn k moduli in
  0 < scale -> scheme_moduli (S L) moduli -> coprime_moduli moduli -> (1 <= k <= length moduli)%nat -> Forall (fun q => (q < 2 ^ 31)%Z) level -> bits = 32%Z \/ bits = 64%Z ->
  valid_sk n moduli sk -> valid_ct n level ct -> valid_ct n level ct' ->
  In K [AddSimple; AddModularBarrett (Some (precompute_constants level)); AddModularSubtract level] ->
  shows (2 ^ L) sk scale ct x -> shows (2 ^ L) sk scale ct' x' ->
  (forall j, (j < 2 ^ L)%nat -> cnorm (cadd (nth j x c0) (nth j x' c0)) <= B) -> 2 * (scale * B) < IZR (lprod level) ->
  exists D y, add_arrays K bits (ct_data ct) (ct_data ct') = Some D /\ shows (2 ^ L) sk scale {| ct_data := D; ct_moduli := level |} y /\ length y = (2 ^ L)%nat /\
    forall j, (j < 2 ^ L)%nat -> nth j y c0 = cadd (nth j x c0) (nth j x' c0).
Proof.
  intros L moduli k sk ct ct' K bits scale x x' B n level Hsc HS HC Hk HQ Hb VS V V' HK SX SX' HB HM. assert (En : n = (2 ^ S L)%nat) by (unfold n; rewrite Nat.pow_succ_r'; reflexivity). rewrite En in VS, V, V'.
  pose proof (coprime_firstn k moduli HC) as C. fold level in C. pose proof (proj1 (scheme_firstn _ _ _ HS Hk)) as NE. fold level in NE.
  destruct (C33_add (S L) moduli k sk ct ct' K bits HS Hk HQ Hb VS V V' HK) as (p & p' & D & E1 & E2 & EA & E3). fold level in EA, E3.
  destruct (decrypt_integer (S L) moduli k sk ct HS HC Hk VS V) as (X & LX & DX). destruct (decrypt_integer (S L) moduli k sk ct' HS HC Hk VS V') as (X' & LX' & DX'). fold level in DX, DX'.
  rewrite DX in E1. injection E1 as <-. rewrite DX' in E2. injection E2 as <-. rewrite <- En in LX, LX'.
  destruct (shows_reads L sk scale ct level X x C NE LX Hsc DX SX) as [_ R]. destruct (shows_reads L sk scale ct' level X' x' C NE LX' Hsc DX' SX') as [_ R'].
  set (P := lift (lprod level) X) in *. set (P' := lift (lprod level) X') in *. assert (LP : length P = n) by (unfold P; rewrite lift_length; exact LX). assert (LP' : length P' = n) by (unfold P'; rewrite lift_length; exact LX').
  pose proof (lprod_pos _ (proj1 C)) as PQ. pose proof (congruent_lift _ X PQ) as CX. pose proof (congruent_lift _ X' PQ) as CX'. fold P in CX. fold P' in CX'.
  assert (ES : plaintext_sum level {| pt_data := residue_array X level; pt_moduli := level |} {| pt_data := residue_array X' level; pt_moduli := level |} = {| pt_data := residue_array (poly_add X X') level; pt_moduli := level |}).
  { unfold plaintext_sum. cbn [pt_data]. f_equal. apply mod_rows; [rewrite map_length; apply seq_length |]. intros i Hi. rewrite nth_map_seq by exact Hi. rewrite !residue_row by exact Hi. apply poly_mod_congr; [apply modulus_pos; assumption |].
    apply congruent_add; [rewrite !poly_mod_length; congruence | apply congruent_mod | apply congruent_mod]. }
  rewrite ES in E3.
  assert (SL : forall j, (j < 2 ^ L)%nat -> int_slot (poly_add P P') j = cscale scale (cadd (nth j x c0) (nth j x' c0))). { intros j Hj. rewrite int_slot_add by congruence. rewrite R, R' by exact Hj. symmetry. apply cscale_add. }
  destruct (shows_intro L sk scale {| ct_data := D; ct_moduli := level |} level (poly_add X X') (poly_add P P') (scale * B)) as (y & SH & LY & VY); [exact C | exact NE | rewrite poly_add_length; exact LP | exact E3 | apply congruent_add; [congruence | assumption | assumption] | | exact HM |].
  { intros j Hj. rewrite SL by exact Hj. rewrite cnorm_pscale by exact Hsc. apply Rmult_le_compat_l; [lra | apply HB; exact Hj]. }
  exists D, y. split; [exact EA |]. split; [exact SH |]. split; [exact LY |]. intros j Hj. rewrite VY, SL by exact Hj. rewrite cscale_cscale, Rinv_l by lra. apply cscale_1.
Qed.
Print Assumptions C58_add.

(** *** C58: multiplying by an encoded vector multiplies the slots; the scales multiply.  The only error is the rounding of the encoding. *)
Theorem C58_plain_mul : forall L moduli k sk ct scale scale' x z M, let n := (2 * 2 ^ L)%nat in let level := firstn k moduli in
  0 < scale -> 0 < scale' -> scheme_moduli (S L) moduli -> coprime_moduli moduli -> (1 <= k <= length moduli)%nat -> Forall (fun q => (q < 2 ^ 31)%Z /\ barrett_exact q) level ->
  valid_sk n moduli sk -> valid_ct n level ct -> shows (2 ^ L) sk scale ct x -> (length z <= 2 ^ L)%nat ->
  let err := INR (2 ^ L) * sqrt (1 / 2) / scale' in
  (forall j, (j < 2 ^ L)%nat -> cnorm (cmul (nth j x c0) (nth j z c0)) + cnorm (nth j x c0) * err <= M) -> 2 * (scale * scale' * M) < IZR (lprod level) ->
  exists columns ct' y, encode n level scale' z = Some columns /\
    mul_plain_barrett (Some (precompute_constants level)) ct {| pt_data := columns; pt_moduli := level |} = Some ct' /\ ct_moduli ct' = level /\
    shows (2 ^ L) sk (scale * scale') ct' y /\ length y = (2 ^ L)%nat /\
    forall j, (j < 2 ^ L)%nat -> cdist (nth j y c0) (cmul (nth j x c0) (nth j z c0)) <= cnorm (nth j x c0) * err.
Proof.
  intros L moduli k sk ct scale scale' x z M n level Hsc Hsc' HS HC Hk HQ VS V SX LZ err HM HQM. assert (En : n = (2 ^ S L)%nat) by (unfold n; rewrite Nat.pow_succ_r'; reflexivity). rewrite En in VS, V.
  pose proof (coprime_firstn k moduli HC) as C. fold level in C. pose proof (scheme_firstn _ _ _ HS Hk) as HS'. fold level in HS'. pose proof (proj1 HS') as NE.
  destruct (encode_value L level scale' z) as (columns & m & EC & EM & LM & DM); [exact Hsc' | exact HS' | eapply Forall_impl; [| exact HQ]; cbv beta; intros q [Hq _]; lia | exact LZ |].
  destruct (C33_plain_mul_barrett_partial (S L) moduli k sk ct m HS Hk HQ VS V) as (p & pt & ct' & E1 & EP & EA & MC & E3); [rewrite <- En; exact LM |]. fold level in EP, EA, MC, E3. rewrite EM in EP. injection EP as <-.
  destruct (decrypt_integer (S L) moduli k sk ct HS HC Hk VS V) as (X & LX & DX). fold level in DX. rewrite DX in E1. injection E1 as <-. rewrite <- En in LX.
  destruct (shows_reads L sk scale ct level X x C NE LX Hsc DX SX) as [_ R]. set (P := lift (lprod level) X) in *. assert (LP : length P = n) by (unfold P; rewrite lift_length; exact LX).
  pose proof (lprod_pos _ (proj1 C)) as PQ. pose proof (congruent_lift _ X PQ) as CX. fold P in CX.
  assert (ES : plaintext_times level {| pt_data := residue_array X level; pt_moduli := level |} m = {| pt_data := residue_array (poly_mul X m) level; pt_moduli := level |}).
  { unfold plaintext_times. cbn [pt_data]. f_equal. apply mod_rows; [rewrite map_length; apply seq_length |]. intros i Hi. rewrite nth_map_seq by exact Hi. rewrite !residue_row by exact Hi. apply poly_mod_congr; [apply modulus_pos; assumption |].
    apply congruent_mul; [rewrite !poly_mod_length, LM; exact LX | apply congruent_mod | apply congruent_refl]. }
  rewrite ES in E3. assert (Pss : 0 < scale * scale') by (apply Rmult_lt_0_compat; assumption). pose proof (pow2_pos L) as P2.
  assert (DP : forall j, (j < 2 ^ L)%nat -> cdist (int_slot (poly_mul P m) j) (cscale (scale * scale') (cmul (nth j x c0) (nth j z c0))) <= scale * scale' * (cnorm (nth j x c0) * err)).
  { intros j Hj. rewrite int_slot_mul by (rewrite ?LM, ?LP; unfold n; lia). rewrite R by exact Hj. unfold cdist.
    replace (csub (cmul (cscale scale (nth j x c0)) (int_slot m j)) (cscale (scale * scale') (cmul (nth j x c0) (nth j z c0)))) with (cmul (cscale scale (nth j x c0)) (csub (int_slot m j) (cscale scale' (nth j z c0)))) by (apply cplx_eq; cbn; ring).
    rewrite cnorm_mul, cnorm_pscale by exact Hsc. specialize (DM j Hj). unfold cdist in DM. replace (scale * scale' * (cnorm (nth j x c0) * err)) with (scale * cnorm (nth j x c0) * (INR (2 ^ L) * sqrt (1 / 2))) by (unfold err; field; lra).
    apply Rmult_le_compat_l; [apply Rmult_le_pos; [lra | apply cnorm_pos] | exact DM]. }
  destruct (shows_intro L sk (scale * scale') ct' level (poly_mul X m) (poly_mul P m) (scale * scale' * M)) as (y & SH & LY & VY); [exact C | exact NE | rewrite poly_mul_length; exact LP | exact E3 | apply congruent_mul; [rewrite LM; exact LP | exact CX | apply congruent_refl] | | exact HQM |].
  { intros j Hj. set (t := cscale (scale * scale') (cmul (nth j x c0) (nth j z c0))). replace (int_slot (poly_mul P m) j) with (cadd t (csub (int_slot (poly_mul P m) j) t)) by ring. eapply Rle_trans; [apply cnorm_add |].
    eapply Rle_trans; [apply Rplus_le_compat_l, DP; exact Hj |]. unfold t. rewrite cnorm_pscale by exact Pss. rewrite <- Rmult_plus_distr_l. apply Rmult_le_compat_l; [lra | apply HM; exact Hj]. }
  exists columns, ct', y. do 3 (split; [assumption |]). split; [exact SH |]. split; [exact LY |]. intros j Hj. rewrite VY by exact Hj. rewrite scaled_dist by exact Pss. specialize (DP j Hj).
  apply (Rmult_le_reg_l (scale * scale')); [exact Pss |]. eapply Rle_trans; [| exact DP]. right. field. split; lra.
Qed.
Print Assumptions C58_plain_mul.

(** *** Integer polynomials behind arrays in evaluation form *)
Lemma evaluation_exists L moduli A : Forall (cpu_admissible L) moduli -> coprime_moduli moduli -> moduli <> [] -> uniform_sample (2 ^ L) moduli A -> exists a, length a = (2 ^ L)%nat /\ evaluation_form moduli a A.
Proof.
  intros HA C NE U. destruct (slots_exist L moduli A HA U) as (a & LA & S). destruct (crt_poly moduli (2 ^ L) a C NE) as (P & LP & V); [intros i Hi; apply S; exact Hi |]. exists P. split; [exact LP |]. apply (evaluation_slots L moduli P A HA LP).
  split; [exact LA |]. intros i Hi. split; [exact LP |]. destruct (S i Hi) as [_ ->]. pose proof (adm L moduli HA i Hi) as Ai. rewrite <- (T_mod L _ P Ai), <- (T_mod L _ (a i) Ai). rewrite V by exact Hi. reflexivity.
Qed.
Lemma valid_evaluation L moduli ct : Forall (cpu_admissible L) moduli -> coprime_moduli moduli -> moduli <> [] -> valid_ct (2 ^ L) moduli ct ->
  exists a b, length a = (2 ^ L)%nat /\ length b = (2 ^ L)%nat /\ Forall2 (evaluation_form moduli) [a; b] (ct_data ct).
Proof.
  intros HA C NE [_ (A & B & ED & UA & UB)]. destruct (evaluation_exists L moduli A HA C NE UA) as (a & La & Ea). destruct (evaluation_exists L moduli B HA C NE UB) as (b & Lb & Eb). exists a, b. rewrite ED. repeat split; try assumption. repeat constructor; assumption.
Qed.
Lemma int_slot_rbound r p j : Forall (fun x => Rabs (IZR x) <= r) p -> cnorm (int_slot p j) <= INR (length p) * r.
Proof.
  intros H. rewrite int_slot_zval. unfold zval. eapply Rle_trans; [apply cnorm_sum |]. rewrite <- rsum_const. apply rsum_le. intros i Hi. rewrite cnorm_rscale, cnorm_zeta, Rmult_1_r. rewrite Forall_forall in H. apply (H (co p i)). apply nth_In. exact Hi.
Qed.
Lemma scaled_error P E err : (0 < P)%Z -> Forall (fun x => (P * Z.abs x <= E)%Z) err -> Forall (fun x => Rabs (IZR x) <= IZR E / IZR P) err.
Proof.
  intros HP H. eapply Forall_impl; [| exact H]. cbv beta. intros x Hx. apply IZR_le in Hx. rewrite mult_IZR in Hx. rewrite <- abs_IZR. apply IZR_lt in HP. apply (Rmult_le_reg_l (IZR P)); [exact HP |]. replace (IZR P * (IZR E / IZR P)) with (IZR E) by (field; lra). exact Hx.
Qed.
(** a value plus an error, seen through a scale *)
Lemma shows_near L sk scale ct level Y P (t : nat -> cplx) err M : 0 < scale -> coprime_moduli level -> level <> [] -> length P = (2 * 2 ^ L)%nat ->
  decrypt sk ct = Some {| pt_data := residue_array Y level; pt_moduli := level |} -> congruent (lprod level) P Y ->
  (forall j, (j < 2 ^ L)%nat -> cdist (int_slot P j) (cscale scale (t j)) <= err) -> (forall j, (j < 2 ^ L)%nat -> cnorm (t j) <= M) -> 2 * (scale * M + err) < IZR (lprod level) ->
  exists y, shows (2 ^ L) sk scale ct y /\ length y = (2 ^ L)%nat /\ forall j, (j < 2 ^ L)%nat -> cdist (nth j y c0) (t j) <= err / scale.
Proof.
  intros Hsc C NE LP D CG DP HM HQ. destruct (shows_intro L sk scale ct level Y P (scale * M + err)) as (y & SH & LY & VY); [exact C | exact NE | exact LP | exact D | exact CG | | exact HQ |].
  { intros j Hj. replace (int_slot P j) with (cadd (cscale scale (t j)) (csub (int_slot P j) (cscale scale (t j)))) by ring. eapply Rle_trans; [apply cnorm_add |].
    apply Rplus_le_compat; [rewrite cnorm_pscale by exact Hsc; apply Rmult_le_compat_l; [lra | apply HM; exact Hj] | apply DP; exact Hj]. }
  exists y. split; [exact SH |]. split; [exact LY |]. intros j Hj. rewrite VY by exact Hj. rewrite scaled_dist by exact Hsc. apply Rmult_le_compat_r; [apply Rlt_le, Rinv_0_lt_compat, Hsc | apply DP; exact Hj].
Qed.

Lemma multiply_valid lr lc q p dnum original cd sk s draws e B S ct1 ct2 a0 a1 b0 b1 evk K ct3 ct' : let n := (2 ^ (lr + lc))%nat in
  mul_setting lr lc q p dnum -> (0 < cd)%nat -> firstn (length original - cd) original = q ->
  length s = n -> Forall (fun c => (0 <= c < nth 0 q 0)%Z) s -> poly_bound S s -> (0 <= S)%Z -> sk_moduli sk = q -> evaluation_form q s (sk_data sk) ->
  (0 <= B)%Z -> (forall t, (t < dnum)%nat -> uniform_sample n (q ++ p) (fst (draws t)) /\ snd (draws t) = residue_array (e t) (q ++ p) /\ length (e t) = n /\ poly_bound B (e t)) ->
  Forall (fun a => length a = n) [a0; a1; b0; b1] -> ct_moduli ct1 = q -> ct_moduli ct2 = q ->
  Forall2 (evaluation_form q) [a0; a1] (ct_data ct1) -> Forall2 (evaluation_form q) [b0; b1] (ct_data ct2) ->
  gen_evaluation_key sk q p dnum draws = Some evk -> mul_precompute original p dnum (2 ^ lr) (2 ^ lc) cd = Some K -> tensor_multiply (Some K) ct1 ct2 = Some ct3 -> relinearize (Some K) ct3 evk = Some ct' ->
  valid_ct n q ct'.
Proof.
  intros n HS HCD HO Ls Hr BS HS0 MD ED HB HD LL EM1 EM2 HE1 HE2 EG EK ET ER. rewrite !Forall_cons_iff in LL. destruct LL as (La0 & La1 & Lb0 & Lb1 & _).
  pose proof HS as (NQ & NP & Hd & HM & HC & _). pose proof (q_scheme lr lc q p HM NQ) as HQ. pose proof (scheme_adm _ _ HQ) as HA.
  assert (DC : forall c0 c1 ct, Forall2 (evaluation_form q) [c0; c1] (ct_data ct) -> exists C0 C1, ct_data ct = [C0; C1] /\ evaluation_form q c0 C0 /\ evaluation_form q c1 C1).
  { clear. intros c0 c1 ct HE. inversion HE as [|? C0 ? ? X1 X2 X3 X4]; subst. inversion X2 as [|? C1 ? ? Y1 Y2 Y3 Y4]; subst. inversion Y2; subst. exists C0, C1. repeat split; assumption. }
  destruct (DC _ _ _ HE1) as (A0 & A1 & EA & F0 & F1). destruct (DC _ _ _ HE2) as (B0 & B1 & EB & G0 & G1). clear DC.
  apply (evaluation_slots _ _ _ _ HA Ls) in ED. apply (evaluation_slots _ _ _ _ HA La0) in F0. apply (evaluation_slots _ _ _ _ HA La1) in F1. apply (evaluation_slots _ _ _ _ HA Lb0) in G0. apply (evaluation_slots _ _ _ _ HA Lb1) in G1.
  destruct (tensor_ok (lr + lc) q K ct1 ct2 a0 a1 b0 b1 A0 A1 B0 B1 HQ) as (ct3' & ET' & M3 & L3 & X0 & X1 & X2); try assumption.
  { apply Forall_forall. intros m Hm. apply (In_nth _ _ 0%Z) in Hm. destruct Hm as (i & Hi & <-). destruct (qp_range lr lc q p HM i) as [X _]; [rewrite app_length; lia |]. rewrite app_nth1 in X by exact Hi. apply X. }
  rewrite ET in ET'. injection ET' as <-.
  destruct (relin_core lr lc q p dnum original cd HS HCD HO sk s draws e B S K ct3 _ _ _ Ls Hr BS HS0 MD ED HB HD EK M3 L3 X0 X1 X2) as (evk' & ct'' & y0 & y1 & err & EEK & ER' & MR & Y0 & Y1 & _). rewrite EG in EEK. injection EEK as <-. rewrite ER in ER'. injection ER' as <-.
  refine (valid_slots (lr + lc) q ct' _ _ HA MR _ Y0 Y1).
  revert ER. unfold relinearize. destruct (ct_data ct3) as [|? [|? [|? ?]]]; try discriminate. destruct (_ || _); [discriminate |]. destruct (mul_key_switch _ _ _ _ _ _) as [[? ?]|]; [| discriminate]. destruct (approx_mod_down _ _ _); [| discriminate]. destruct (approx_mod_down _ _ _); [| discriminate]. intros X. injection X as <-. reflexivity.
Qed.

(** *** C58: multiplying two ciphertexts multiplies the vectors they show, up to the relinearisation error. *)
Theorem C58_multiply : forall L lr lc q p dnum original cd sk s draws e B S ct1 ct2 scale1 scale2 x1 x2 M,
  let n := (2 ^ (lr + lc))%nat in (lr + lc = Datatypes.S L)%nat ->
  mul_setting lr lc q p dnum -> (0 < cd)%nat -> firstn (length original - cd) original = q ->
  length s = n -> Forall (fun c => (0 <= c < nth 0 q 0)%Z) s -> poly_bound S s -> (0 <= S)%Z -> sk_moduli sk = q -> evaluation_form q s (sk_data sk) ->
  (0 <= B)%Z -> (forall t, (t < dnum)%nat -> uniform_sample n (q ++ p) (fst (draws t)) /\ snd (draws t) = residue_array (e t) (q ++ p) /\ length (e t) = n /\ poly_bound B (e t)) ->
  valid_ct n q ct1 -> valid_ct n q ct2 -> 0 < scale1 -> 0 < scale2 -> shows (2 ^ L) sk scale1 ct1 x1 -> shows (2 ^ L) sk scale2 ct2 x2 ->
  let err := INR n * (IZR (switch_noise n q dnum B + Z.of_nat (length p) * lprod p * (1 + Z.of_nat n * S)) / IZR (lprod p)) in
  (forall j, (j < 2 ^ L)%nat -> cnorm (cmul (nth j x1 c0) (nth j x2 c0)) <= M) -> 2 * (scale1 * scale2 * M + err) < IZR (lprod q) ->
  exists evk K ct3 ct' y,
    gen_evaluation_key sk q p dnum draws = Some evk /\ mul_precompute original p dnum (2 ^ lr) (2 ^ lc) cd = Some K /\
    tensor_multiply (Some K) ct1 ct2 = Some ct3 /\ relinearize (Some K) ct3 evk = Some ct' /\
    valid_ct n q ct' /\ shows (2 ^ L) sk (scale1 * scale2) ct' y /\ length y = (2 ^ L)%nat /\
    forall j, (j < 2 ^ L)%nat -> cdist (nth j y c0) (cmul (nth j x1 c0) (nth j x2 c0)) <= err / (scale1 * scale2).
Proof.
  intros L lr lc q p dnum original cd sk s draws e B S ct1 ct2 scale1 scale2 x1 x2 M n EL HS Hcd HO Ls Hs BS S0 MS ES HB HD V1 V2 Hs1 Hs2 SX1 SX2 err HM HQ.
  assert (En : n = (2 * 2 ^ L)%nat) by (unfold n; rewrite EL; apply Nat.pow_succ_r'). pose proof (pow2_pos L) as P2.
  pose proof HS as (NQ & NP & _ & HMod & HCop & _). pose proof (q_scheme lr lc q p HMod NQ) as HSq. pose proof (scheme_adm _ _ HSq) as HA.
  assert (C : coprime_moduli q). { pose proof (coprime_firstn (length q) (q ++ p) HCop) as X. rewrite firstn_app, Nat.sub_diag, firstn_all in X. cbn [firstn] in X. rewrite app_nil_r in X. exact X. }
  assert (PP : (0 < lprod p)%Z). { apply lprod_pos. destruct HCop as [F _]. apply Forall_app in F. apply F. }
  destruct (valid_evaluation (lr + lc) q ct1 HA C NQ V1) as (a0 & a1 & La0 & La1 & EV1). destruct (valid_evaluation (lr + lc) q ct2 HA C NQ V2) as (b0 & b1 & Lb0 & Lb1 & EV2).
  destruct (C36_multiply_partial lr lc q p dnum original cd sk s draws e B S ct1 ct2 a0 a1 b0 b1 HS Hcd HO Ls Hs BS S0 MS ES HB HD) as (evk & K & ct3 & ct' & er & E1 & E2 & D1 & D2 & E3 & E4 & D3 & LE & HE); [repeat constructor; assumption | apply V1 | apply V2 | exact EV1 | exact EV2 |].
  fold n in La0, La1, Lb0, Lb1, LE. set (X1 := poly_add a0 (poly_mul a1 s)) in *. set (X2 := poly_add b0 (poly_mul b1 s)) in *. assert (LX1 : length X1 = n) by (unfold X1; rewrite poly_add_length; exact La0). assert (LX2 : length X2 = n) by (unfold X2; rewrite poly_add_length; exact Lb0).
  destruct (shows_reads L sk scale1 ct1 q X1 x1 C NQ ltac:(congruence) Hs1 D1 SX1) as [_ R1]. destruct (shows_reads L sk scale2 ct2 q X2 x2 C NQ ltac:(congruence) Hs2 D2 SX2) as [_ R2].
  pose proof (lprod_pos _ (proj1 C)) as PQ. pose proof (congruent_lift _ X1 PQ) as C1. pose proof (congruent_lift _ X2 PQ) as C2. set (P1 := lift (lprod q) X1) in *. set (P2' := lift (lprod q) X2) in *.
  assert (L1 : length P1 = n) by (unfold P1; rewrite lift_length; exact LX1). assert (L2 : length P2' = n) by (unfold P2'; rewrite lift_length; exact LX2).
  assert (Pss : 0 < scale1 * scale2) by (apply Rmult_lt_0_compat; assumption).
  destruct (shows_near L sk (scale1 * scale2) ct' q (poly_add (poly_mul X1 X2) er) (poly_add (poly_mul P1 P2') er) (fun j => cmul (nth j x1 c0) (nth j x2 c0)) err M) as (y & SH & LY & VY); [exact Pss | exact C | exact NQ | rewrite poly_add_length, poly_mul_length; congruence | exact D3 | | | exact HM | exact HQ |].
  - apply congruent_add; [rewrite poly_mul_length; congruence | apply congruent_mul; [congruence | assumption | assumption] | apply congruent_refl].
  - intros j Hj. rewrite int_slot_add by (rewrite poly_mul_length; congruence). rewrite int_slot_mul by (rewrite ?L1, ?L2; lia). rewrite R1, R2 by exact Hj. unfold cdist.
    replace (csub _ _) with (int_slot er j) by (apply cplx_eq; cbn; ring). unfold err. rewrite <- LE at 1. apply int_slot_rbound. apply scaled_error; [exact PP | exact HE].
  - exists evk, K, ct3, ct', y. do 4 (split; [assumption |]). split; [eapply (multiply_valid lr lc q p dnum original cd sk s draws e B S ct1 ct2 a0 a1 b0 b1); try eassumption; [repeat constructor; assumption | apply V1 | apply V2] |]. split; [exact SH |]. split; [exact LY | exact VY].
Qed.
Print Assumptions C58_multiply.

(** *** C58: rescaling by the last modulus keeps the vector and divides the scale by that modulus. *)
Theorem C58_rescale : forall L lr lc kept q s ct sk scale x M,
  let moduli := kept ++ [q] in let n := (2 ^ (lr + lc))%nat in (lr + lc = S L)%nat ->
  kept <> [] -> Forall (accel_modulus lr lc) moduli -> coprime_moduli moduli -> ForallOrdPairs (fun q later => (later <= 2 * q + 1)%Z) moduli ->
  length s = n -> poly_bound 1 s -> sk_moduli sk = moduli -> evaluation_form moduli s (sk_data sk) -> valid_ct n moduli ct ->
  0 < scale -> shows (2 ^ L) sk scale ct x ->
  let err := INR n * IZR ((1 + Z.of_nat n) * (q / 2)) / scale in
  (forall j, (j < 2 ^ L)%nat -> cnorm (nth j x c0) <= M) -> 2 * (scale / IZR q * (M + err)) < IZR (lprod kept) ->
  exists kernel ct' y, rescale_precompute moduli 1 (2 ^ lr) (2 ^ lc) = Some kernel /\ rescale (Some kernel) ct = Some ct' /\
    shows (2 ^ L) sk (scale / IZR q) ct' y /\ length y = (2 ^ L)%nat /\ forall j, (j < 2 ^ L)%nat -> cdist (nth j y c0) (nth j x c0) <= err.
Proof.
  intros L lr lc kept q s ct sk scale x M moduli n EL NK HMod C HO Ls Bs MS ES V Hsc SX err HM HQ.
  assert (En : n = (2 * 2 ^ L)%nat) by (unfold n; rewrite EL; apply Nat.pow_succ_r'). pose proof (pow2_pos L) as P2.
  assert (NE : moduli <> []) by (unfold moduli; destruct kept; discriminate). pose proof (q_scheme lr lc moduli [] ltac:(rewrite app_nil_r; exact HMod) NE) as HSq. pose proof (scheme_adm _ _ HSq) as HA.
  destruct (valid_evaluation (lr + lc) moduli ct HA C NE V) as (a0 & a1 & La0 & La1 & EV). fold n in La0, La1.
  destruct (C35_decrypts_partial lr lc kept q a0 a1 s ct sk NK HMod C HO) as (kernel & ct' & d & er & E1 & E2 & D2 & Ld & Le & HD & BE); [repeat constructor; assumption | exact Bs | exact EV | exact MS | exact ES |]. fold n in Ld, Le, HD, BE.
  set (X := poly_add a0 (poly_mul a1 s)) in *. assert (LX : length X = n) by (unfold X; rewrite poly_add_length; exact La0).
  assert (D1 : decrypt sk ct = Some {| pt_data := residue_array X moduli; pt_moduli := moduli |}).
  { inversion EV as [|? C0 ? ? F0 F1 G1 G2]. inversion F1 as [|? C1 ? ? F2 F3 G3 G4]. inversion F3; subst. apply (evaluation_slots _ _ _ _ HA La0) in F0. apply (evaluation_slots _ _ _ _ HA La1) in F2. apply (evaluation_slots _ _ _ _ HA Ls) in ES.
    assert (EF : firstn (length moduli) moduli = moduli) by apply firstn_all. rewrite (decrypt_ok (lr + lc) moduli (length moduli) sk ct s (fun _ => a0) (fun _ => a1)); try assumption; rewrite ?EF; try apply V; try (rewrite <- G2; assumption).
    - unfold X. rewrite residues_of_map. reflexivity.
    - unfold moduli. rewrite app_length. cbn. lia. }
  destruct (shows_reads L sk scale ct moduli X x C NE ltac:(congruence) Hsc D1 SX) as [_ R]. pose proof (lprod_pos _ (proj1 C)) as PQ. set (P := lift (lprod moduli) X) in *. assert (LP : length P = n) by (unfold P; rewrite lift_length; exact LX).
  assert (CK : coprime_moduli kept). { pose proof (coprime_firstn (length kept) moduli C) as Y. unfold moduli in Y. rewrite firstn_app, Nat.sub_diag, firstn_all in Y. cbn [firstn] in Y. rewrite app_nil_r in Y. exact Y. }
  assert (Q0 : (0 < q)%Z). { destruct C as [F _]. unfold moduli in F. apply Forall_app in F. destruct F as [_ F]. inversion F. assumption. }
  assert (EQ : lprod moduli = (lprod kept * q)%Z) by (unfold moduli; rewrite lprod_app; cbn [lprod fold_right]; ring).
  (* the quotient of the centred polynomial *)
  set (d' := map (fun i => (co d i + lprod kept * ((co P i - co X i) / lprod moduli))%Z) (seq 0 n)). assert (Ld' : length d' = n) by (unfold d'; rewrite map_length; apply seq_length).
  assert (CD : forall i, (i < n)%nat -> (q * co d' i = co P i - co er i)%Z).
  { intros i Hi. unfold d', co at 1. rewrite nth_map_seq by exact Hi. rewrite Z.mul_add_distr_l, HD by exact Hi. destruct (congruent_lift _ X PQ) as [_ CX]. fold P in CX. destruct (CX i ltac:(lia)) as (k & E).
    replace (co P i - co X i)%Z with (k * lprod moduli)%Z by lia. rewrite Z.div_mul by lia. rewrite EQ in E. lia. }
  assert (SD : forall j, cscale (IZR q) (int_slot d' j) = csub (int_slot P j) (int_slot er j)).
  { intros j. rewrite <- int_slot_scale, <- int_slot_sub by congruence. f_equal. apply (list_ext 0%Z); [rewrite poly_scale_length, poly_sub_length; congruence |]. intros i Hi. rewrite poly_scale_length, Ld' in Hi. fold (co (poly_scale q d') i) (co (poly_sub P er) i). rewrite co_scale, co_sub by lia. apply CD. exact Hi. }
  assert (Q1 : 0 < IZR q) by (apply (IZR_lt 0); exact Q0). assert (Psq : 0 < scale / IZR q) by (apply Rdiv_lt_0_compat; assumption).
  destruct (shows_near L sk (scale / IZR q) ct' kept d d' (fun j => nth j x c0) (scale / IZR q * err) M) as (y & SH & LY & VY); [exact Psq | exact CK | exact NK | congruence | exact D2 | | | exact HM | rewrite <- Rmult_plus_distr_l; exact HQ |].
  - split; [congruence |]. rewrite Ld'. intros i Hi. unfold d', co at 1. rewrite nth_map_seq by exact Hi. eexists. rewrite Z.mul_comm. ring_simplify. reflexivity.
  - intros j Hj. replace (int_slot d' j) with (cscale (/ IZR q) (csub (int_slot P j) (int_slot er j))) by (rewrite <- SD, cscale_cscale, Rinv_l by lra; apply cscale_1). rewrite R by exact Hj. unfold cdist.
    replace (csub _ _) with (cscale (- / IZR q) (int_slot er j)) by (apply cplx_eq; cbn; field; lra). rewrite cnorm_rscale, Rabs_Ropp, Rabs_right by (apply Rle_ge, Rlt_le, Rinv_0_lt_compat, Q1).
    pose proof (int_slot_bound _ er j BE) as X1. rewrite Le in X1. replace (scale / IZR q * err) with (/ IZR q * (INR n * IZR ((1 + Z.of_nat n) * (q / 2)))) by (unfold err; field; lra). apply Rmult_le_compat_l; [apply Rlt_le, Rinv_0_lt_compat, Q1 | exact X1].
  - exists kernel, ct', y. do 2 (split; [assumption |]). split; [exact SH |]. split; [exact LY |]. intros j Hj. eapply Rle_trans; [apply VY; exact Hj |]. right. field. lra.
Qed.
Print Assumptions C58_rescale.

(** *** C58: conjugating a ciphertext conjugates every slot, up to the key-switching error. *)
Theorem C58_conjugate : forall L lr lc q p dnum sk s draws e B S plans bc start ct scale x M,
  let n := (2 ^ (lr + lc))%nat in (lr + lc = Datatypes.S L)%nat ->
  switch_setting lr lc q p dnum -> ForallOrdPairs (fun q later => (later <= 2 * q + 1)%Z) (q ++ p) ->
  length s = n -> Forall (fun c => (0 <= c < nth 0 q 0)%Z) s -> poly_bound S s -> (0 <= S)%Z -> sk_moduli sk = q -> evaluation_form q s (sk_data sk) ->
  (0 <= B)%Z -> (forall t, (t < dnum)%nat -> uniform_sample n (q ++ p) (fst (draws t)) /\ snd (draws t) = residue_array (e t) (q ++ p) /\ length (e t) = n /\ poly_bound B (e t)) ->
  basis_precompute_constants (q ++ p) plans = Some bc -> firstn dnum (skipn start plans) = switch_plans (length q) (length p) dnum ->
  valid_ct n q ct -> 0 < scale -> shows (2 ^ L) sk scale ct x ->
  let err := INR n * (IZR (switch_noise n q dnum B + (lprod p - 1) * (1 + Z.of_nat n * S)) / IZR (lprod p)) in
  (forall j, (j < 2 ^ L)%nat -> cnorm (nth j x c0) <= M) -> 2 * (scale * M + err) < IZR (lprod q) ->
  exists key sw kernel ct' y,
    gen_conjugate_key sk q p dnum draws = Some key /\ key_switcher_precompute q p dnum (2 ^ lr) (2 ^ lc) = Some sw /\
    rescale_precompute (q ++ p) (length p) (2 ^ lr) (2 ^ lc) = Some kernel /\
    conjugate sw ct key p bc (Some (precompute_constants (q ++ p))) (Some kernel) start = Some ct' /\
    shows (2 ^ L) sk scale ct' y /\ length y = (2 ^ L)%nat /\ forall j, (j < 2 ^ L)%nat -> cdist (nth j y c0) (cconj (nth j x c0)) <= err / scale.
Proof.
  intros L lr lc q p dnum sk s draws e B S plans bc start ct scale x M n EL HS HO Ls Hs BS S0 MS ES HB HD EB EP V Hsc SX err HM HQ.
  assert (En : n = (2 * 2 ^ L)%nat) by (unfold n; rewrite EL; apply Nat.pow_succ_r'). pose proof (pow2_pos L) as P2.
  pose proof HS as (NQ & NP & _ & _ & HMod & HCop & _). pose proof (q_scheme lr lc q p HMod NQ) as HSq. pose proof (scheme_adm _ _ HSq) as HA.
  assert (C : coprime_moduli q). { pose proof (coprime_firstn (length q) (q ++ p) HCop) as X. rewrite firstn_app, Nat.sub_diag, firstn_all in X. cbn [firstn] in X. rewrite app_nil_r in X. exact X. }
  assert (PP : (0 < lprod p)%Z). { apply lprod_pos. destruct HCop as [F _]. apply Forall_app in F. apply F. }
  destruct (valid_evaluation (lr + lc) q ct HA C NQ V) as (a0 & a1 & La0 & La1 & EV). fold n in La0, La1.
  destruct (C36_conjugate_partial lr lc q p dnum sk s draws e B S plans bc start ct a0 a1 HS HO Ls Hs BS S0 MS ES HB HD EB EP La0 La1 (proj1 V) EV) as (key & sw & kernel & ct' & er & E1 & E2 & E3 & D1 & E4 & D2 & LE & HE).
  fold n in LE. set (X := poly_add a0 (poly_mul a1 s)) in *. assert (LX : length X = n) by (unfold X; rewrite poly_add_length; exact La0).
  destruct (shows_reads L sk scale ct q X x C NQ ltac:(congruence) Hsc D1 SX) as [_ R]. pose proof (lprod_pos _ (proj1 C)) as PQ. pose proof (congruent_lift _ X PQ) as CX. set (P := lift (lprod q) X) in *. assert (LP : length P = n) by (unfold P; rewrite lift_length; exact LX).
  destruct (shows_near L sk scale ct' q (poly_add (poly_auto (-1) X) er) (poly_add (poly_auto (-1) P) er) (fun j => cconj (nth j x c0)) err M) as (y & SH & LY & VY); [exact Hsc | exact C | exact NQ | rewrite poly_add_length, poly_auto_length; congruence | exact D2 | | | | exact HQ |].
  - apply congruent_add; [rewrite poly_auto_length; congruence | apply congruent_auto; exact CX | apply congruent_refl].
  - intros j Hj. rewrite int_slot_add by (rewrite poly_auto_length; congruence). rewrite int_slot_conj by (rewrite LP; lia). rewrite R by exact Hj. unfold cdist. replace (csub _ _) with (int_slot er j) by (apply cplx_eq; cbn; ring). unfold err. rewrite <- LE at 1. apply int_slot_rbound. apply scaled_error; [exact PP | exact HE].
  - intros j Hj. rewrite cnorm_conj. apply HM. exact Hj.
  - exists key, sw, kernel, ct', y. do 4 (split; [assumption |]). split; [exact SH |]. split; [exact LY | exact VY].
Qed.
Print Assumptions C58_conjugate.

(** *** C58: the automorphism X -> X^(5^r) of a plaintext in evaluation form rotates its slots by r places. *)
Lemma evaluation_inverse L moduli P A : Forall (cpu_admissible L) moduli -> length P = (2 ^ L)%nat -> evaluation_form moduli P A -> intt_negacyclic_poly A moduli = Some (residue_array P moduli).
Proof.
  intros HA LP E. destruct (C27_poly_roundtrip L (residue_array P moduli) moduli) as (out & E1 & E2).
  { unfold residue_array. clear - HA LP. induction HA as [|q ms Hq _ IH]; cbn [map]; constructor; [| exact IH]. split; [exact Hq |]. split; [rewrite map_length; exact LP |]. apply map_mod_reduced. pose proof (admissible_gt1 L q Hq). lia. }
  unfold evaluation_form in E. rewrite E1 in E. injection E as <-. exact E2.
Qed.
Lemma decode_slot_form L moduli P A scale k : Forall (cpu_admissible L) moduli -> moduli <> [] -> length P = (2 ^ L)%nat -> evaluation_form moduli P A -> decode scale k A moduli true = decode scale k (residue_array P moduli) moduli false.
Proof.
  intros HA NE LP E. unfold decode. rewrite (evaluation_inverse L moduli P A HA LP E). assert (LD : length (nth 0 A []) = length (nth 0 (residue_array P moduli) [])).
  { apply (evaluation_slots L moduli P A HA LP) in E. destruct E as [LA S]. assert (H0 : (0 < length moduli)%nat) by (destruct moduli; [contradiction NE; reflexivity | cbn; lia]). destruct (S 0%nat H0) as [_ ->]. rewrite T_length, residue_row, poly_mod_length by exact H0. symmetry. exact LP. }
  rewrite LD. reflexivity.
Qed.
Theorem C58_rotate_plain : forall L moduli columns r scale x M, let n := (2 * 2 ^ L)%nat in
  0 < scale -> (L < 31)%nat -> scheme_moduli (S L) moduli -> coprime_moduli moduli -> uniform_sample n moduli columns ->
  decode scale (2 ^ L) columns moduli true = Some x -> (forall j, (j < 2 ^ L)%nat -> cnorm (nth j x c0) <= M) -> 2 * (scale * M) < IZR (lprod moduli) ->
  exists rotated y, apply_automorphism_ntt columns ((5 ^ Z.of_nat r) mod (2 * Z.of_nat n)) = Some rotated /\ decode scale (2 ^ L) rotated moduli true = Some y /\ length y = (2 ^ L)%nat /\
    forall j, (j < 2 ^ L)%nat -> nth j y c0 = nth ((j + r) mod 2 ^ L) x c0.
Proof.
  intros L moduli columns r scale x M n Hsc HL HS C U EX HM HQ. assert (En : n = (2 ^ S L)%nat) by (unfold n; rewrite Nat.pow_succ_r'; reflexivity). pose proof (pow2_pos L) as P2. pose proof (scheme_adm _ _ HS) as HA. pose proof (proj1 HS) as NE.
  rewrite En in U. destruct (evaluation_exists (S L) moduli columns HA C NE U) as (X & LX & EV). pose proof (lprod_pos _ (proj1 C)) as PQ. pose proof (congruent_lift _ X PQ) as CX. set (P := lift (lprod moduli) X) in *.
  assert (LP : length P = (2 ^ S L)%nat) by (unfold P; rewrite lift_length; exact LX). assert (EVP : evaluation_form moduli P columns) by (unfold evaluation_form; rewrite (congruent_residues moduli P X C CX); exact EV).
  assert (LP' : length P = (2 * 2 ^ L)%nat) by (rewrite LP; apply Nat.pow_succ_r').
  rewrite (decode_slot_form (S L) moduli P columns scale (2 ^ L) HA NE LP EVP) in EX.
  destruct (decode_value L moduli scale (2 ^ L) P C NE LP') as (ys & EY & LY & VY); [apply lift_range; exact PQ |]. rewrite EY in EX. injection EX as <-. rewrite Nat.min_id in *.
  assert (BP : forall j, (j < 2 ^ L)%nat -> cnorm (int_slot P j) <= scale * M).
  { intros j Hj. specialize (HM j Hj). rewrite VY in HM by exact Hj. replace (int_slot P j) with (cscale scale (cscale (/ scale) (int_slot P j))) by (rewrite cscale_cscale, Rinv_r by lra; apply cscale_1). rewrite cnorm_pscale by exact Hsc. apply Rmult_le_compat_l; [lra | exact HM]. }
  set (g := ((5 ^ Z.of_nat r) mod (2 * Z.of_nat n))%Z).
  assert (G0 : (0 <= g < 2 * Z.of_nat n)%Z) by (apply Z.mod_pos_bound; unfold n; lia). assert (G1 : (2 * Z.of_nat n <= 2 ^ 32)%Z). { rewrite En, Nat2Z.inj_pow. change (Z.of_nat 2) with 2%Z. rewrite <- Z.pow_succ_r by lia. apply Z.pow_le_mono_r; lia. }
  assert (G2 : (g mod 2 = 1)%Z).
  { unfold g. rewrite Z.rem_mul_r by (unfold n; lia). rewrite (Z.mul_comm 2), Z.mod_add by lia. rewrite Zmod_mod. destruct (five_odd r) as (k & O). replace (5 ^ Z.of_nat r)%Z with (Z.of_nat (5 ^ r)) by (rewrite Nat2Z.inj_pow; reflexivity). rewrite O. replace (Z.of_nat (2 * k + 1)) with (1 + Z.of_nat k * 2)%Z by lia. rewrite Z.mod_add by lia. reflexivity. }
  pose proof EVP as SP. apply (evaluation_slots (S L) moduli P columns HA LP) in SP. destruct (auto_slots (S L) moduli columns _ g ltac:(lia) HA SP ltac:(lia) G2) as (rotated & ER & SR).
  assert (EA : poly_auto g P = poly_auto (5 ^ Z.of_nat r) P). { apply poly_auto_period. rewrite LP, <- En. unfold g. apply eqm_mod. }
  cbv beta in SR. rewrite EA in SR. set (P' := poly_auto (5 ^ Z.of_nat r) P) in *. assert (LQ : length P' = (2 ^ S L)%nat) by (unfold P'; rewrite poly_auto_length; exact LP).
  pose proof (proj2 (evaluation_slots (S L) moduli P' rotated HA LQ) SR) as EVR.
  assert (SL : forall j, (j < 2 ^ L)%nat -> int_slot P' j = int_slot P ((j + r) mod 2 ^ L)). { intros j Hj. unfold P'. rewrite int_slot_rotate by (rewrite LP'; lia). symmetry. apply int_slot_period. exact LP'. }
  assert (MB : forall j, ((j + r) mod 2 ^ L < 2 ^ L)%nat) by (intros j; apply Nat.mod_upper_bound; lia).
  destruct (decode_value L moduli scale (2 ^ L) P' C NE) as (y & EY' & LY' & VY'); [rewrite LQ; apply Nat.pow_succ_r' | apply (coeff_range L P' (scale * M)); [rewrite LQ; apply Nat.pow_succ_r' | intros j Hj; rewrite SL by exact Hj; apply BP, MB | exact HQ] |]. rewrite Nat.min_id in *.
  exists rotated, y. split; [exact ER |]. rewrite (decode_slot_form (S L) moduli P' rotated scale (2 ^ L) HA NE LQ EVR). split; [exact EY' |]. split; [exact LY' |]. intros j Hj. rewrite VY', SL by exact Hj. rewrite VY by apply MB. reflexivity.
Qed.
Print Assumptions C58_rotate_plain.

(** *** C58, end to end: encrypt two vectors, multiply, relinearise, rescale by the last modulus, decrypt and decode: the products of the
    slots, with an explicit error made of encoding rounding, fresh noise, relinearisation and rescaling. *)
Theorem C58_product : forall L lr lc kept ql p dnum original cd s a e draws ed B z1 v1 e01 e11 z2 v2 e02 e12 scale Bz,
  let q := kept ++ [ql] in let n := (2 ^ (lr + lc))%nat in (lr + lc = S L)%nat ->
  mul_setting lr lc q p dnum -> (0 < cd)%nat -> firstn (length original - cd) original = q -> kept <> [] -> ForallOrdPairs (fun q later => (later <= 2 * q + 1)%Z) q ->
  0 < scale -> (0 <= B)%Z -> Forall (fun c => (0 <= c <= 1)%Z) s -> uniform_sample n q a ->
  Forall (fun p => length p = n) [s; e; v1; e01; e11; v2; e02; e12] -> Forall (poly_bound 1) [v1; v2] -> Forall (poly_bound B) [e; e01; e11; e02; e12] ->
  (forall t, (t < dnum)%nat -> uniform_sample n (q ++ p) (fst (draws t)) /\ snd (draws t) = residue_array (ed t) (q ++ p) /\ length (ed t) = n /\ poly_bound B (ed t)) ->
  length z1 = (2 ^ L)%nat -> length z2 = (2 ^ L)%nat -> 0 <= Bz -> Forall (fun x => cnorm x <= Bz) z1 -> Forall (fun x => cnorm x <= Bz) z2 ->
  let fresh := INR (2 ^ L) * sqrt (1 / 2) + INR n * IZR ((2 * Z.of_nat n + 1) * B) in
  let relin := INR n * (IZR (switch_noise n q dnum B + Z.of_nat (length p) * lprod p * (1 + Z.of_nat n * 1)) / IZR (lprod p)) in
  let round := INR n * IZR ((1 + Z.of_nat n) * (ql / 2)) in
  let bound := (Bz + fresh / scale) * (Bz + fresh / scale) in
  2 * (scale * Bz + fresh) < IZR (lprod q) -> 2 * (scale * scale * bound + relin) < IZR (lprod q) ->
  2 * (scale * scale / IZR ql * (bound + (relin + round) / (scale * scale))) < IZR (lprod kept) ->
  exists pk sk evk K kernel cols1 cols2 ct1 ct2 ct3 ct4 ct y,
    keygen q (residue_array s q) a (residue_array e q) = Some (pk, sk) /\ gen_evaluation_key sk q p dnum draws = Some evk /\
    mul_precompute original p dnum (2 ^ lr) (2 ^ lc) cd = Some K /\ rescale_precompute q 1 (2 ^ lr) (2 ^ lc) = Some kernel /\
    encode n q scale z1 = Some cols1 /\ encode n q scale z2 = Some cols2 /\
    encrypt pk {| pt_data := cols1; pt_moduli := q |} (residue_array v1 q) (residue_array e01 q) (residue_array e11 q) = Some ct1 /\
    encrypt pk {| pt_data := cols2; pt_moduli := q |} (residue_array v2 q) (residue_array e02 q) (residue_array e12 q) = Some ct2 /\
    tensor_multiply (Some K) ct1 ct2 = Some ct3 /\ relinearize (Some K) ct3 evk = Some ct4 /\ rescale (Some kernel) ct4 = Some ct /\
    shows (2 ^ L) sk (scale * scale / IZR ql) ct y /\ length y = (2 ^ L)%nat /\
    forall j, (j < 2 ^ L)%nat -> cdist (nth j y c0) (cmul (nth j z1 c0) (nth j z2 c0)) <= 2 * Bz * (fresh / scale) + fresh / scale * (fresh / scale) + (relin + round) / (scale * scale).
Proof.
  intros L lr lc kept ql p dnum original cd s a e draws ed B z1 v1 e01 e11 z2 v2 e02 e12 scale Bz q n EL HS Hcd HO NK HOrd Hsc HB0 Hs Ha HF HV HE HD LZ1 LZ2 HBz FZ1 FZ2 fresh relin round bound H1 H2 H3.
  assert (En : n = (2 * 2 ^ L)%nat) by (unfold n; rewrite EL; apply Nat.pow_succ_r'). pose proof HS as (NQ & NP & _ & HMod & HCop & _). pose proof (q_scheme lr lc q p HMod NQ) as HSq. rewrite EL in HSq.
  assert (C : coprime_moduli q). { pose proof (coprime_firstn (length q) (q ++ p) HCop) as X. rewrite firstn_app, Nat.sub_diag, firstn_all in X. cbn [firstn] in X. rewrite app_nil_r in X. exact X. }
  assert (HMq : Forall (accel_modulus lr lc) q) by (apply Forall_app in HMod; apply HMod). assert (Hq31 : Forall (fun q => (q < 2 ^ 32)%Z) q). { eapply Forall_impl; [| exact HMq]. cbv beta. intros m Hm. destruct (accel_admissible lr lc m Hm) as (_ & X & _). lia. }
  assert (Hlen : (1 <= length q <= length q)%nat) by (split; [destruct q; [contradiction NQ; reflexivity | cbn; lia] | lia]).
  rewrite !Forall_cons_iff in HF. destruct HF as (Ls & Le & Lv1 & L01 & L11 & Lv2 & L02 & L12 & _). rewrite !Forall_cons_iff in HV. destruct HV as (Bv1 & Bv2 & _). rewrite !Forall_cons_iff in HE. destruct HE as (Be & B01 & B11 & B02 & B12 & _).
  assert (Bs : poly_bound 1 s) by (eapply Forall_impl; [| exact Hs]; cbv beta; intros c Hc; lia).
  assert (Hs' : Forall (fun c => (0 <= c < nth 0 q 0)%Z) s). { eapply Forall_impl; [| exact Hs]. cbv beta. intros c Hc. assert (X := nth_In q 0%Z (proj1 Hlen)). rewrite Forall_forall in HMq. destruct (accel_admissible lr lc _ (HMq _ X)) as (_ & Y & _). lia. }
  assert (EFQ : firstn (length q) q = q) by apply firstn_all.
  pose proof (C58_encrypt_decode L q (length q) s a e v1 e01 e11 scale z1 B Bz) as T1. pose proof (C58_encrypt_decode L q (length q) s a e v2 e02 e12 scale z2 B Bz) as T2. cbv zeta in T1, T2. rewrite EFQ, <- En in T1, T2. fold fresh in T1, T2.
  destruct T1 as (pk & sk & cols1 & ct1 & y1 & K1 & C1 & X1 & M1 & V1 & W1 & S1 & LY1 & D1); try assumption; [repeat constructor; assumption | lia |].
  destruct T2 as (pk' & sk' & cols2 & ct2 & y2 & K2 & C2 & X2 & M2 & V2 & W2 & S2 & LY2 & D2); try assumption; [repeat constructor; assumption | lia |]. rewrite K1 in K2. injection K2 as <- <-.
  set (ef := fresh / scale) in *.
  assert (N1 : forall z j, Forall (fun x => cnorm x <= Bz) z -> cnorm (nth j z c0) <= Bz). { intros z j F. destruct (Nat.lt_ge_cases j (length z)) as [Lt | Ge]; [rewrite Forall_forall in F; apply F, nth_In; exact Lt | rewrite nth_overflow by exact Ge; rewrite cnorm_0; exact HBz]. }
  assert (NY : forall y z, (forall j, (j < 2 ^ L)%nat -> cdist (nth j y c0) (nth j z c0) <= ef) -> Forall (fun x => cnorm x <= Bz) z -> forall j, (j < 2 ^ L)%nat -> cnorm (nth j y c0) <= Bz + ef).
  { intros y z D F j Hj. replace (nth j y c0) with (cadd (nth j z c0) (csub (nth j y c0) (nth j z c0))) by ring. eapply Rle_trans; [apply cnorm_add |]. apply Rplus_le_compat; [apply N1; exact F | apply D; exact Hj]. }
  pose proof (NY y1 z1 D1 FZ1) as NY1. pose proof (NY y2 z2 D2 FZ2) as NY2.
  assert (BM : forall j, (j < 2 ^ L)%nat -> cnorm (cmul (nth j y1 c0) (nth j y2 c0)) <= bound). { intros j Hj. rewrite cnorm_mul. unfold bound. fold ef. apply Rmult_le_compat; [apply cnorm_pos | apply cnorm_pos | apply NY1; exact Hj | apply NY2; exact Hj]. }
  destruct (C58_multiply L lr lc q p dnum original cd sk s draws ed B 1 ct1 ct2 scale scale y1 y2 bound EL HS Hcd HO Ls Hs' Bs ltac:(lia) M1 V1 HB0 HD W1 W2 Hsc Hsc S1 S2 BM H2) as (evk & K & ct3 & ct4 & y3 & EE & EK & ET & ER & W4 & S4 & LY4 & D4). fold n in D4. fold relin in D4.
  assert (Pss : 0 < scale * scale) by (apply Rmult_lt_0_compat; assumption).
  assert (BM2 : forall j, (j < 2 ^ L)%nat -> cnorm (nth j y3 c0) <= bound + relin / (scale * scale)). { intros j Hj. replace (nth j y3 c0) with (cadd (cmul (nth j y1 c0) (nth j y2 c0)) (csub (nth j y3 c0) (cmul (nth j y1 c0) (nth j y2 c0)))) by ring. eapply Rle_trans; [apply cnorm_add |]. apply Rplus_le_compat; [apply BM; exact Hj | apply D4; exact Hj]. }
  destruct (C58_rescale L lr lc kept ql s ct4 sk (scale * scale) y3 (bound + relin / (scale * scale)) EL NK HMq C HOrd Ls Bs M1 V1 W4 Pss S4 BM2) as (kernel & ct & y & EKe & ERe & S5 & LY5 & D5).
  { fold n. fold round. replace (bound + relin / (scale * scale) + round / (scale * scale)) with (bound + (relin + round) / (scale * scale)) by (field; lra). exact H3. }
  fold n in D5. fold round in D5. exists pk, sk, evk, K, kernel, cols1, cols2, ct1, ct2, ct3, ct4, ct, y. do 11 (split; [assumption |]). split; [exact S5 |]. split; [exact LY5 |]. intros j Hj.
  eapply Rle_trans; [apply (cdist_triangle _ (nth j y3 c0)) |]. eapply Rle_trans; [apply Rplus_le_compat; [apply D5; exact Hj | apply (cdist_triangle _ (cmul (nth j y1 c0) (nth j y2 c0)))] |].
  pose proof (D4 j Hj) as Q4. pose proof (cdist_mul _ _ _ _ ef ef (D1 j Hj) (D2 j Hj)) as QM. pose proof (N1 z1 j FZ1) as Q1. pose proof (N1 z2 j FZ2) as Q2. pose proof (cnorm_pos (csub (nth j y1 c0) (nth j z1 c0))) as Q3. specialize (D1 j Hj). unfold cdist in D1.
  replace ((relin + round) / (scale * scale)) with (relin / (scale * scale) + round / (scale * scale)) by (field; lra). assert (0 <= ef) by lra. assert (cnorm (nth j z1 c0) * ef <= Bz * ef) by (apply Rmult_le_compat_r; lra). assert (ef * cnorm (nth j z2 c0) <= ef * Bz) by (apply Rmult_le_compat_l; lra). lra.
Qed.
Print Assumptions C58_product.

(** *** Concrete cases meeting the hypotheses *)
Lemma sqrt_half_le : 0 <= sqrt (1 / 2) <= 1.
Proof. split; [apply sqrt_pos |]. rewrite <- sqrt_1 at 2. apply sqrt_le_1_alt. lra. Qed.
Lemma cnorm_small (x y B : R) : 0 <= B -> x * x + y * y <= B * B -> cnorm (x, y) <= B.
Proof. intros HB H. unfold cnorm. cbn [fst snd]. rewrite <- (sqrt_square B HB). apply sqrt_le_1_alt. exact H. Qed.

(** ring degree 4, two primes: the vector (1 + 2i, 3 - i) at scale 1000 comes back within 0.04 of itself, and added to itself doubled *)
Example C58_encrypt_decode_example : let z := [(1, 2); (3, -1)] in exists pk sk columns ct y,
  keygen [97; 193]%Z (residue_array [0; 1; 1; 0]%Z [97; 193]%Z) [[1; 2; 3; 96]; [0; 192; 7; 5]]%Z (residue_array [1; -1; 0; 1]%Z [97; 193]%Z) = Some (pk, sk) /\
  encode 4 [97; 193]%Z 1000 z = Some columns /\
  encrypt pk {| pt_data := columns; pt_moduli := [97; 193]%Z |} (residue_array [1; 0; -1; 1]%Z [97; 193]%Z) (residue_array [0; -1; 0; 0]%Z [97; 193]%Z) (residue_array [0; 0; 1; 0]%Z [97; 193]%Z) = Some ct /\
  valid_sk 4 [97; 193]%Z sk /\ valid_ct 4 [97; 193]%Z ct /\ shows 2 sk 1000 ct y /\ length y = 2%nat /\ forall j, (j < 2)%nat -> cdist (nth j y c0) (nth j z c0) <= 4 / 100.
Proof.
  intros z. destruct C32_example_moduli as (X1 & X2 & X3). pose proof sqrt_half_le as SH.
  destruct (C58_encrypt_decode 1 [97; 193]%Z 2 [0; 1; 1; 0]%Z [[1; 2; 3; 96]; [0; 192; 7; 5]]%Z [1; -1; 0; 1]%Z [1; 0; -1; 1]%Z [0; -1; 0; 0]%Z [0; 0; 1; 0]%Z 1000 z 1 4) as (pk & sk & columns & ct & y & E1 & E2 & E3 & MS & EV & V & S1 & LY & D).
  - lra.
  - exact X1.
  - exact X2.
  - repeat constructor.
  - cbn; lia.
  - exact X3.
  - repeat constructor.
  - repeat (constructor; [lia |]); constructor.
  - repeat (constructor; [lia |]); constructor.
  - repeat (constructor; [lia |]); constructor.
  - repeat (constructor; [lia |]); constructor.
  - repeat (constructor; [lia |]); constructor.
  - cbn; lia.
  - lra.
  - repeat (constructor; [apply cnorm_small; lra |]); constructor.
  - change (lprod (firstn 2 [97; 193]%Z)) with 18721%Z. cbn [Nat.pow Nat.mul Nat.add INR]. change ((2 * Z.of_nat 4 + 1) * 1)%Z with 9%Z. lra.
  - exists pk, sk, columns, ct, y. do 3 (split; [assumption |]). split; [split; [exact MS |]; apply (evaluation_slots 2 [97; 193]%Z [0; 1; 1; 0]%Z (sk_data sk) (scheme_adm _ _ X1) eq_refl) in EV; exact (slots_uniform 2 _ _ _ (scheme_adm _ _ X1) EV) |]. do 3 (split; [assumption |]).
    intros j Hj. eapply Rle_trans; [apply D; exact Hj |]. cbn [Nat.pow Nat.mul Nat.add INR]. change ((2 * Z.of_nat 4 + 1) * 1)%Z with 9%Z. lra.
Qed.
Example C58_add_example : let z := [(1, 2); (3, -1)] in exists sk ct D y, valid_sk 4 [97; 193]%Z sk /\ valid_ct 4 [97; 193]%Z ct /\ add_arrays (AddModularSubtract [97; 193]%Z) 64 (ct_data ct) (ct_data ct) = Some D /\
  shows 2 sk 1000 {| ct_data := D; ct_moduli := [97; 193]%Z |} y /\ forall j, (j < 2)%nat -> cdist (nth j y c0) (cadd (nth j z c0) (nth j z c0)) <= 8 / 100.
Proof.
  intros z. destruct C58_encrypt_decode_example as (pk & sk & columns & ct & x & _ & _ & _ & VS & V & SX & LX & DX). destruct C32_example_moduli as (X1 & X2 & X3). fold z in DX.
  destruct (C58_add 1 [97; 193]%Z 2 sk ct ct (AddModularSubtract [97; 193]%Z) 64 1000 x x 9) as (D & y & EA & SY & LY & VY).
  - lra.
  - exact X1.
  - exact X2.
  - cbn; lia.
  - repeat constructor.
  - right; reflexivity.
  - exact VS.
  - exact V.
  - exact V.
  - right; right; left; reflexivity.
  - exact SX.
  - exact SX.
  - intros j Hj. eapply Rle_trans; [apply cnorm_add |]. assert (N : cnorm (nth j x c0) <= 4 + 4 / 100); [| lra]. specialize (DX j Hj). replace (nth j x c0) with (cadd (nth j z c0) (csub (nth j x c0) (nth j z c0))) by ring. eapply Rle_trans; [apply cnorm_add |]. apply Rplus_le_compat; [| exact DX].
    destruct j as [|[|j]]; [apply cnorm_small; lra | apply cnorm_small; lra |]. change (2 ^ 1)%nat with 2%nat in Hj. lia.
  - change (lprod (firstn 2 [97; 193]%Z)) with 18721%Z. lra.
  - exists sk, ct, D, y. do 4 (split; [assumption |]). intros j Hj. rewrite VY by exact Hj. specialize (DX j Hj). eapply Rle_trans; [apply cdist_add |]; lra.
Qed.

(** ring degree 2, modulus chain 12289 * 2053 with the auxiliary prime 2081: (1 + i/2) * (-i) at scale 2000 *)
Example C58_product_example : let z1 := [(1, 1 / 2)] in let z2 := [(0, -1)] in exists pk sk evk K kernel cols1 cols2 ct1 ct2 ct3 ct4 ct y,
  keygen ex_q (residue_array [1; 1]%Z ex_q) [[5000; 77]; [1; 2000]]%Z (residue_array [1; -1]%Z ex_q) = Some (pk, sk) /\ gen_evaluation_key sk ex_q ex_p 2 ex_draws = Some evk /\
  mul_precompute (ex_q ++ [7681]%Z) ex_p 2 1 2 1 = Some K /\ rescale_precompute ex_q 1 1 2 = Some kernel /\ encode 2 ex_q 2000 z1 = Some cols1 /\ encode 2 ex_q 2000 z2 = Some cols2 /\
  encrypt pk {| pt_data := cols1; pt_moduli := ex_q |} (residue_array [1; 0]%Z ex_q) (residue_array [0; 1]%Z ex_q) (residue_array [-1; 1]%Z ex_q) = Some ct1 /\
  encrypt pk {| pt_data := cols2; pt_moduli := ex_q |} (residue_array [1; -1]%Z ex_q) (residue_array [1; 0]%Z ex_q) (residue_array [0; 1]%Z ex_q) = Some ct2 /\
  tensor_multiply (Some K) ct1 ct2 = Some ct3 /\ relinearize (Some K) ct3 evk = Some ct4 /\ rescale (Some kernel) ct4 = Some ct /\
  shows 1 sk (2000 * 2000 / 2053) ct y /\ length y = 1%nat /\ cdist (nth 0 y c0) (1 / 2, -1) <= 2 / 100.
Proof.
  intros z1 z2. destruct C36_example_setting as (_ & X2 & X3). pose proof sqrt_half_le as SH. assert (RL : lprod ex_q = 25229317%Z) by reflexivity. assert (RP : lprod ex_p = 2081%Z) by reflexivity.
  assert (SN : switch_noise (2 ^ (0 + 1)) ex_q 2 1 = 28684%Z) by reflexivity.
  pose proof (C58_product 0 0 1 [12289]%Z 2053%Z ex_p 2 (ex_q ++ [7681]%Z) 1 [1; 1]%Z [[5000; 77]; [1; 2000]]%Z [1; -1]%Z ex_draws (fun t => match t with O => [1; -1]%Z | _ => [0; 1]%Z end) 1
    z1 [1; 0]%Z [0; 1]%Z [-1; 1]%Z z2 [1; -1]%Z [1; 0]%Z [0; 1]%Z 2000 (3 / 2)) as T. cbv zeta in T. change ([12289; 2053]%Z) with ex_q in T. change ([12289]%Z ++ [2053]%Z) with ex_q in T. rewrite RL, RP, SN in T. cbn [Nat.pow Nat.mul Nat.add INR] in T.
  change (lprod [12289]%Z) with 12289%Z in T. change (length ex_p) with 1%nat in T. change ((1 + Z.of_nat 2) * (2053 / 2))%Z with 3078%Z in T. change ((2 * Z.of_nat 2 + 1) * 1)%Z with 5%Z in T. change (28684 + Z.of_nat 1 * 2081 * (1 + Z.of_nat 2 * 1))%Z with 34927%Z in T.
  destruct T as (pk & sk & evk & K & kernel & cols1 & cols2 & ct1 & ct2 & ct3 & ct4 & ct & y & T1 & T2 & T3 & T4 & T5 & T6 & T7 & T8 & T9 & T10 & T11 & T12 & T13 & T14).
  - reflexivity.
  - exact C36_multiply_setting.
  - lia.
  - reflexivity.
  - discriminate.
  - repeat (constructor; [repeat (constructor; [lia |]); constructor |]). constructor.
  - lra.
  - lia.
  - repeat (constructor; [lia |]); constructor.
  - repeat (constructor; [split; [reflexivity |]; repeat (constructor; [lia |]); constructor |]); constructor.
  - repeat constructor.
  - repeat (constructor; [repeat (constructor; [lia |]); constructor |]); constructor.
  - repeat (constructor; [repeat (constructor; [lia |]); constructor |]); constructor.
  - intros t Ht. destruct (X3 t Ht) as (Y1 & Y2 & Y3). split; [exact Y1 |]. split; [exact Y3 |]. split; [destruct t; reflexivity | exact Y2].
  - reflexivity.
  - reflexivity.
  - lra.
  - repeat (constructor; [apply cnorm_small; lra |]); constructor.
  - repeat (constructor; [apply cnorm_small; lra |]); constructor.
  - lra.
  - nra.
  - nra.
  - exists pk, sk, evk, K, kernel, cols1, cols2, ct1, ct2, ct3, ct4, ct, y. do 13 (split; [assumption |]). specialize (T14 0%nat ltac:(cbn; lia)).
    assert (EZ : cmul (nth 0 z1 c0) (nth 0 z2 c0) = (1 / 2, -1)) by (unfold z1, z2, cmul; cbn [nth fst snd]; f_equal; lra). eapply Rle_trans; [rewrite <- EZ; exact T14 |]. nra.
Qed.

Lemma near_norm x z e B : cdist x z <= e -> cnorm z <= B -> cnorm x <= B + e.
Proof. intros D N. replace x with (cadd z (csub x z)) by ring. eapply Rle_trans; [apply cnorm_add |]. unfold cdist in D. lra. Qed.
(** ring degree 4: rotating the encoded (1 + 2i, 3 - i) by one place shows (3 - i, 1 + 2i) up to the encoding error *)
Example C58_rotate_plain_example : let z := [(1, 2); (3, -1)] in exists columns rotated y, encode 4 [97; 193]%Z 1000 z = Some columns /\ apply_automorphism_ntt columns 5 = Some rotated /\
  decode 1000 2 rotated [97; 193]%Z true = Some y /\ forall j, (j < 2)%nat -> cdist (nth j y c0) (nth ((j + 1) mod 2) z c0) <= 2 / 1000.
Proof.
  intros z. destruct C32_example_moduli as (X1 & X2 & X3). pose proof sqrt_half_le as SH.
  assert (FZ : Forall (fun x => cnorm x <= 4) z) by (repeat (constructor; [apply cnorm_small; lra |]); constructor). assert (NE : [97; 193]%Z <> []) by discriminate. assert (H32 : Forall (fun q => (q < 2 ^ 32)%Z) [97; 193]%Z) by repeat constructor.
  destruct (C39_encode_decode 1 [97; 193]%Z 1000 z 4) as (columns & x & EC & ED & LX & DX); [lra | exact NE | exact X2 | apply Forall_and; [exact (scheme_adm _ _ X1) | exact H32] | cbn; lia | exact FZ | lra | change (lprod [97; 193]%Z) with 18721%Z; lra |].
  destruct (encode_value 1 [97; 193]%Z 1000 z) as (columns' & m & EC' & EM & LM & _); [lra | exact X1 | exact H32 | cbn; lia |]. rewrite EC in EC'. injection EC' as <-.
  assert (U : uniform_sample 4 [97; 193]%Z columns). { destruct (encode_ok 2 [97; 193]%Z m X1 LM) as (pt & EP & MP & SP). rewrite EM in EP. injection EP as <-. exact (slots_uniform 2 _ _ _ (scheme_adm _ _ X1) SP). }
  destruct (C58_rotate_plain 1 [97; 193]%Z columns 1 1000 x 5) as (rotated & y & E1 & E2 & LY & VY); [lra | lia | exact X1 | exact X2 | exact U | exact ED | | change (lprod [97; 193]%Z) with 18721%Z; lra |].
  - intros j Hj. specialize (DX j Hj). refine (Rle_trans _ _ _ (near_norm _ _ _ 4 DX _) _); [rewrite Forall_forall in FZ; apply FZ, nth_In; exact Hj |]. cbn [Nat.pow Nat.mul Nat.add INR]. lra.
  - exists columns, rotated, y. split; [exact EC |]. split; [exact E1 |]. split; [exact E2 |]. intros j Hj. rewrite VY by exact Hj. eapply Rle_trans; [apply DX; apply Nat.mod_upper_bound; discriminate |]. cbn [Nat.pow Nat.mul Nat.add INR]. lra.
Qed.

(** ring degree 2: a fresh encryption of 1 + i/2 at scale 2000, multiplied by the plaintext -i at scale 100, and conjugated *)
Lemma fresh_example : exists sk ct x, sk_moduli sk = ex_q /\ evaluation_form ex_q [1; 1]%Z (sk_data sk) /\ valid_ct 2 ex_q ct /\ shows 1 sk 2000 ct x /\ cdist (nth 0 x c0) (1, 1 / 2) <= 1 / 100.
Proof.
  destruct C36_example_setting as ((_ & _ & _ & _ & X5 & X6 & _) & _ & _). pose proof sqrt_half_le as SH. assert (NQ : ex_q <> []) by discriminate. pose proof (q_scheme 0 1 ex_q ex_p X5 NQ) as HQ.
  assert (C : coprime_moduli ex_q) by (exact (coprime_firstn 2 (ex_q ++ ex_p) X6)).
  destruct (C58_encrypt_decode 0 ex_q 2 [1; 1]%Z [[5000; 77]; [1; 2000]]%Z [1; -1]%Z [1; 0]%Z [0; 1]%Z [-1; 1]%Z 2000 [(1, 1 / 2)] 1 2) as (pk & sk & columns & ct & y & _ & _ & _ & MS & EV & V & S1 & LY & D).
  - lra.
  - exact HQ.
  - exact C.
  - repeat constructor.
  - cbn; lia.
  - repeat (constructor; [split; [reflexivity |]; repeat (constructor; [lia |]); constructor |]); constructor.
  - repeat constructor.
  - repeat (constructor; [lia |]); constructor.
  - repeat (constructor; [lia |]); constructor.
  - repeat (constructor; [lia |]); constructor.
  - repeat (constructor; [lia |]); constructor.
  - repeat (constructor; [lia |]); constructor.
  - cbn; lia.
  - lra.
  - repeat (constructor; [apply cnorm_small; lra |]); constructor.
  - change (lprod (firstn 2 ex_q)) with 25229317%Z. cbn [Nat.pow Nat.mul Nat.add INR]. change ((2 * Z.of_nat 2 + 1) * 1)%Z with 5%Z. lra.
  - exists sk, ct, y. do 4 (split; [assumption |]). eapply Rle_trans; [apply (D 0%nat); cbn; lia |]. cbn [Nat.pow Nat.mul Nat.add INR]. change ((2 * Z.of_nat 2 + 1) * 1)%Z with 5%Z. lra.
Qed.
Example C58_plain_mul_example : exists sk ct columns ct' y, encode 2 ex_q 100 [(0, -1)] = Some columns /\ mul_plain_barrett (Some (precompute_constants ex_q)) ct {| pt_data := columns; pt_moduli := ex_q |} = Some ct' /\
  shows 1 sk (2000 * 100) ct' y /\ cdist (nth 0 y c0) (1 / 2, -1) <= 1 / 20.
Proof.
  destruct fresh_example as (sk & ct & x & MS & EV & V & SX & DX). destruct C36_example_setting as ((_ & _ & _ & _ & X5 & X6 & _) & _ & _). pose proof sqrt_half_le as SH. assert (NQ : ex_q <> []) by discriminate. pose proof (q_scheme 0 1 ex_q ex_p X5 NQ) as HQ.
  assert (C : coprime_moduli ex_q) by (exact (coprime_firstn 2 (ex_q ++ ex_p) X6)). pose proof (near_norm _ _ _ (3 / 2) DX ltac:(apply cnorm_small; lra)) as N.
  destruct (C58_plain_mul 0 ex_q 2 sk ct 2000 100 x [(0, -1)] 2) as (columns & ct' & y & EC & EM & _ & SY & LY & DY).
  - lra.
  - lra.
  - exact HQ.
  - exact C.
  - cbn; lia.
  - apply Forall_app in X5. destruct X5 as [X5 _]. change (firstn 2 ex_q) with ex_q. eapply Forall_impl; [| exact X5]. cbv beta. intros q Hq. destruct (accel_admissible 0 1 q Hq) as (_ & Y1 & Y2 & _). split; [lia | exact Y2].
  - split; [exact MS |]. apply (evaluation_slots 1 ex_q [1; 1]%Z (sk_data sk) (scheme_adm _ _ HQ) eq_refl) in EV. exact (slots_uniform 1 _ _ _ (scheme_adm _ _ HQ) EV).
  - exact V.
  - exact SX.
  - cbn; lia.
  - intros j Hj. destruct j; [| cbn in Hj; lia]. cbn [Nat.pow INR]. rewrite cnorm_mul. apply (Rle_trans _ (151 / 100 * 1 + 151 / 100 * (49 / 151))); [| lra]. apply Rplus_le_compat; apply Rmult_le_compat; try apply cnorm_pos; try lra; try (apply cnorm_small; lra); refine (Rle_trans _ _ _ N _); lra.
  - change (lprod (firstn 2 ex_q)) with 25229317%Z. lra.
  - exists sk, ct, columns, ct', y. split; [exact EC |]. split; [exact EM |]. split; [exact SY |]. specialize (DY 0%nat ltac:(cbn; lia)). cbn [Nat.pow INR] in DY.
    eapply Rle_trans; [apply (cdist_triangle _ (cmul (nth 0 x c0) (0, -1))) |]. assert (E : cdist (cmul (nth 0 x c0) (0, -1)) (1 / 2, -1) <= 1 / 100).
    { replace ((1 / 2, -1) : cplx) with (cmul (1, 1 / 2) (0, -1)) by (unfold cmul; cbn [fst snd]; f_equal; lra). replace (1 / 100) with (1 / 100 * 1) by ring. unfold cdist in *. replace (csub (cmul (nth 0 x c0) (0, -1)) (cmul (1, 1 / 2) (0, -1))) with (cmul (csub (nth 0 x c0) (1, 1 / 2)) (0, -1)) by ring. rewrite cnorm_mul. apply Rmult_le_compat; [apply cnorm_pos | apply cnorm_pos | exact DX | apply cnorm_small; lra]. }
    assert (cnorm (nth 0 x c0) * (1 * sqrt (1 / 2) / 100) <= (3 / 2 + 1 / 100) * (1 / 100)); [apply Rmult_le_compat; [apply cnorm_pos | lra | exact N | lra] |]. refine (Rle_trans _ _ _ (Rplus_le_compat _ _ _ _ DY E) _). lra.
Qed.
Example C58_conjugate_example : exists sk ct key sw kernel bc ct' y,
  gen_conjugate_key sk ex_q ex_p 2 ex_draws = Some key /\ key_switcher_precompute ex_q ex_p 2 1 2 = Some sw /\ rescale_precompute (ex_q ++ ex_p) 1 1 2 = Some kernel /\
  conjugate sw ct key ex_p bc (Some (precompute_constants (ex_q ++ ex_p))) (Some kernel) 0 = Some ct' /\ shows 1 sk 2000 ct' y /\ cdist (nth 0 y c0) (1, - (1 / 2)) <= 1 / 20.
Proof.
  destruct fresh_example as (sk & ct & x & MS & EV & V & SX & DX). destruct C36_example_setting as (X & X' & X''). pose proof (near_norm _ _ _ (3 / 2) DX ltac:(apply cnorm_small; lra)) as N.
  destruct (basis_precompute_constants (ex_q ++ ex_p) (switch_plans 2 1 2)) as [bc|] eqn:EB; [| vm_compute in EB; discriminate].
  assert (EN : (INR 2 * (IZR (switch_noise 2 ex_q 2 1 + (lprod ex_p - 1) * (1 + Z.of_nat 2 * 1)) / IZR (lprod ex_p))) = 69848 / 2081). { change (switch_noise 2 ex_q 2 1 + (lprod ex_p - 1) * (1 + Z.of_nat 2 * 1))%Z with 34924%Z. change (lprod ex_p) with 2081%Z. cbn [INR]. field. }
  destruct (C58_conjugate 0 0 1 ex_q ex_p 2 sk [1; 1]%Z ex_draws (fun t => match t with O => [1; -1]%Z | _ => [0; 1]%Z end) 1 1 (switch_plans 2 1 2) bc 0 ct 2000 x 2) as (key & sw & kernel & ct' & y & E1 & E2 & E3 & E4 & SY & LY & DY).
  - reflexivity.
  - exact X.
  - exact X'.
  - reflexivity.
  - repeat (constructor; [change (nth 0 ex_q 0%Z) with 12289%Z; lia |]); constructor.
  - repeat (constructor; [lia |]); constructor.
  - lia.
  - exact MS.
  - exact EV.
  - lia.
  - intros t Ht. destruct (X'' t Ht) as (Y1 & Y2 & Y3). split; [exact Y1 |]. split; [exact Y3 |]. split; [destruct t; reflexivity | exact Y2].
  - exact EB.
  - reflexivity.
  - exact V.
  - lra.
  - exact SX.
  - intros j Hj. destruct j; [| cbn in Hj; lia]. lra.
  - change (2 ^ (0 + 1))%nat with 2%nat. rewrite EN. change (lprod ex_q) with 25229317%Z. lra.
  - exists sk, ct, key, sw, kernel, bc, ct', y. do 5 (split; [assumption |]). specialize (DY 0%nat ltac:(cbn; lia)). change (2 ^ (0 + 1))%nat with 2%nat in DY. rewrite EN in DY. eapply Rle_trans; [apply (cdist_triangle _ (cconj (nth 0 x c0))) |]. pose proof (cdist_conj (nth 0 x c0) (1, 1 / 2)) as CC. change (cconj (1, 1 / 2)) with ((1, - (1 / 2)) : cplx) in CC. rewrite CC. lra.
Qed.
