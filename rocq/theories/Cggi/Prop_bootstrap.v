(** Properties C12-C15: blind rotation, sample extraction, test polynomials, programmable bootstrapping. *)
From Coq Require Import ZArith List Lia Bool Setoid Morphisms Ring.
From Verif Require Import Base.ZSum Base.Modeq Base.Nega Base.Word Base.Bits.
From Verif Require Import Cggi.Model_encoding Cggi.Model_lwe Cggi.Model_decomposition Cggi.Model_key_switch Cggi.Model_matrix_utils Cggi.Model_polymul.
From Verif Require Import Cggi.Model_rlwe Cggi.Model_rgsw Cggi.Model_test_polynomial Cggi.Model_bootstrap.
From Verif Require Import Cggi.Spec_lwe Cggi.Spec_poly Cggi.Spec_rlwe Cggi.Spec_bootstrap.
From Verif Require Import Cggi.Proof_encoding Cggi.Proof_lwe Cggi.Proof_decomposition Cggi.Proof_key_switch Cggi.Proof_matrix_utils Cggi.Proof_poly Cggi.Proof_polymul.
From Verif Require Import Cggi.Proof_rlwe Cggi.Proof_rgsw Cggi.Proof_blind_rotate Cggi.Proof_test_polynomial Cggi.Proof_bootstrap Cggi.Prop_poly Cggi.Prop_rlwe.
Import ListNotations.
Local Open Scope Z_scope.

(** the platform and key layouts for which the polynomial kernel is exact (C08) *)
Definition platform_ok (tpu : Z) (N k : nat) (p : decomp_params) (use_bmmp use_bat : bool) (ai : list (list (list (list (list Z))))) : Prop :=
  if negb use_bmmp && use_bat then bat_exact tpu N ((k + 1) * level_count p) /\ Forall (Forall (Forall (Forall (Forall word32)))) ai
  else kernel_exact tpu N k (log_base p).

Lemma nth_bsk_plain tpu ls sk p ai es b j : (j < length (bsk_inputs b ls))%nat ->
  nth j (bsk_plain tpu ls sk p ai es b) [] =
  rgsw_jit_encrypt tpu (rk_degree sk) (nth j (bsk_inputs b ls) 0) (rk_data sk) (nth j ai []) (nth j es []) p (length (rk_data sk)) (rk_log sk).
Proof. intros H. unfold bsk_plain. rewrite nth_map_seq by exact H. reflexivity. Qed.

Lemma rotate_peq tpu N (HN : (0 < N)%nat) k s ls p nn ai es KS E use_bmmp use_bat rot ct :
  is_key N k s -> Forall (Forall (fun z => Z.abs z <= KS)) s -> 0 <= KS -> binary ls -> Nat.even (length ls) = true -> (2 * Z.of_nat N | 2 ^ 32) -> gadget p nn -> 0 <= E ->
  bsk_draws N k (level_count p) E (bsk_count use_bmmp (length ls)) ai es -> platform_ok tpu N k p use_bmmp use_bat ai ->
  is_rlwe N k rot -> length ct = S (length ls) ->
  exists bsk out, gen_bootstrapping_key tpu ls {| rk_log := 32; rk_degree := N; rk_data := s |} p ai es use_bmmp use_bat = Some bsk /\
    jit_blind_rotate tpu rot ct (bsk_bits bsk) 32 p (bsk_use_bmmp bsk) (bsk_use_bat bsk) = Some out /\ is_rlwe N k out /\
    exists err, pbnd N (rotation_noise_gen use_bmmp (length ls) N k p nn KS E) err /\
      peq N W32 (rph N HN s out) (padd N (pmul N (pmono N HN (- phase ls ct)) (rph N HN s rot)) err).
Proof.
  intros Hs Hbs HKS Hls Hev Hdiv (Hb & Hnn & Ht & HL) HE (D1 & D2 & D3) Hplat Hrot Hct.
  pose proof (proj1 Hs) as Hk. subst k. unfold is_key, is_rlwe in *.
  set (sk := {| rk_log := 32; rk_degree := N; rk_data := s |}).
  rewrite (gen_bsk_value tpu ls sk p ai es use_bmmp use_bat Hev D1 D2). cbv zeta.
  set (Cs := bsk_plain tpu ls sk p ai es use_bmmp).
  assert (HCl : length Cs = length (bsk_inputs use_bmmp ls)) by (unfold Cs, bsk_plain; rewrite map_length, seq_length; reflexivity).
  pose proof (bsk_inputs_length use_bmmp ls Hev) as HI. pose proof (bsk_count_ge use_bmmp (length ls)) as HG.
  assert (HKb : forall i, (i < length s)%nat -> pbnd N KS (pl N HN (nth i s []))) by (intros i _; apply key_bound; assumption).
  assert (Hok : forall j, (j < length Cs)%nat -> rgsw_ok N HN s p (pconst N HN (nth j (bsk_inputs use_bmmp ls) 0)) E (nth j Cs [])).
  { intros j Hj. unfold Cs. rewrite nth_bsk_plain by lia. cbn [rk_degree rk_data rk_log sk].
    destruct (D3 j ltac:(lia)) as (F1 & F2 & F3 & F4).
    apply (rgsw_encrypt_ok N HN s Hs p nn Hb Hnn HL tpu _ _ _ (conj F1 F2) F3 E HE F4). }
  assert (Hlq : ~ (0 < 32 < 32)) by lia.
  destruct use_bmmp.
  - cbn [platform_ok negb andb] in Hplat. unfold platform_ok in Hplat. cbn [negb andb] in Hplat.
    eexists. destruct (blind_rotate_bmmp N HN s p nn Hb Hnn Ht HL KS HKb tpu ls Cs E Hls Hdiv 32 Hlq rot ct Hev Hplat) as (out & H1 & H2 & err & H3 & H4); auto.
    { rewrite HCl. cbn [bsk_inputs]. apply bmmp_inputs_length. exact Hev. }
    exists out. split; [reflexivity|]. cbn [bsk_bits bsk_use_bmmp bsk_use_bat]. split; [exact H1|]. split; [exact H2|].
    exists err. split; [|exact H4]. rewrite ext_noise_eq in H3 by lia. exact H3.
  - cbn [bsk_inputs] in *.
    assert (HX : exists ds, Some (if use_bat then {| bsk_bits := map (fun m => Bat (bat_offline_compile_cggi m)) Cs; bsk_use_bmmp := false; bsk_use_bat := true |}
          else {| bsk_bits := map Plain Cs; bsk_use_bmmp := false; bsk_use_bat := false |}) = Some {| bsk_bits := ds; bsk_use_bmmp := false; bsk_use_bat := use_bat |} /\
          length ds = length ls /\ forall j, (j < length ls)%nat -> entry N s p tpu use_bat (nth j ds (Plain [])) (nth j Cs [])).
    { unfold platform_ok in Hplat. cbn [negb andb] in Hplat. destruct use_bat.
      - destruct Hplat as [P1 P2]. eexists. split; [reflexivity|]. split; [rewrite map_length; lia|]. intros j Hj.
        rewrite (nth_map_lt _ _ _ _ []) by lia. right. repeat split; auto.
        + unfold Cs. rewrite nth_bsk_plain by (cbn [bsk_inputs]; lia). cbn [rk_log sk]. apply rgsw_words.
          apply Forall_nth_default; [constructor|exact P2].
        + replace (S (length s) * level_count p)%nat with ((length s + 1) * level_count p)%nat by lia. exact P1.
      - eexists. split; [reflexivity|]. split; [rewrite map_length; lia|]. intros j Hj.
        rewrite (nth_map_lt _ _ _ _ []) by lia. left. repeat split; auto. }
    destruct HX as (ds & HX & Hdl & Hent). rewrite HX. eexists.
    destruct (blind_rotate_plain N HN s p nn Hb Hnn Ht HL KS HKb tpu ls Cs E Hls Hdiv 32 Hlq rot ct use_bat ds) as (out & H1 & H2 & err & H3 & H4); auto; try lia.
    { intros j Hj. split; [apply Hok; lia|apply Hent; exact Hj]. }
    exists out. split; [reflexivity|]. cbn [bsk_bits bsk_use_bmmp bsk_use_bat]. split; [exact H1|]. split; [exact H2|].
    exists err. split; [|exact H4]. rewrite ext_noise_eq in H3 by lia. exact H3.
Qed.

(** ** C12 *)
(** [rot] is any RLWE ciphertext whose phase is the polynomial [tp] modulo 2^32 (e.g. a trivial encryption). *)
Theorem C12_blind_rotate : forall tpu N k s ls p nn ai es E use_bmmp use_bat rot tp ct,
  (0 < N)%nat -> (2 * Z.of_nat N | 2 ^ 32) -> is_key N k s -> Forall binary s -> binary ls -> Nat.even (length ls) = true ->
  gadget p nn -> 0 <= E -> bsk_draws N k (level_count p) E (bsk_count use_bmmp (length ls)) ai es ->
  platform_ok tpu N k p use_bmmp use_bat ai ->
  is_rlwe N k rot -> length tp = N -> (forall j, (j < N)%nat -> rlwe_phase N s rot j == coeff tp j [mod 2 ^ 32]) ->
  length ct = S (length ls) ->
  exists bsk out,
    gen_bootstrapping_key tpu ls {| rk_log := 32; rk_degree := N; rk_data := s |} p ai es use_bmmp use_bat = Some bsk /\
    blind_rotate tpu {| rc_log := 32; rc_degree := N; rc_message := rot |} ct bsk p = Some out /\
    is_rlwe N k (rc_message out) /\ rc_log out = 32 /\ rc_degree out = N /\
    rlwe_near N (2 ^ 32) s (rc_message out) (fun j => coeff (mulXpow (- phase ls ct) tp) j)
      (rotation_noise use_bmmp (length ls) N k p nn E).
Proof.
  intros tpu N k s ls p nn ai es E ub ut rot tp ct HN Hdiv Hs Hbs Hls Hev Hg HE HD Hpl Hrot Htp Hph Hct.
  destruct (rotate_peq tpu N HN k s ls p nn ai es 1 E ub ut rot ct Hs (binary_bound N HN s Hbs) ltac:(lia) Hls Hev Hdiv Hg HE HD Hpl Hrot Hct) as (bsk & out & H1 & H2 & H3 & err & H4 & H5).
  exists bsk. eexists. split; [exact H1|]. unfold blind_rotate. cbn [rc_message rc_log rc_degree]. rewrite H2. split; [reflexivity|].
  cbn [rc_message rc_log rc_degree]. split; [exact H3|]. split; [reflexivity|]. split; [reflexivity|].
  eapply near_of_peq; [|exact H4|exact H5]. intros j Hj.
  assert (HP : peq N W32 (rph N HN s rot) (pl N HN tp)).
  { symmetry. apply pl_peq_fn. intros i Hi. rewrite (rph_coeff N HN s rot i Hi). symmetry. apply (Hph i Hi). }
  assert (HM : peq N W32 (pmul N (pmono N HN (- phase ls ct)) (rph N HN s rot)) (pmul N (pmono N HN (- phase ls ct)) (pl N HN tp))) by (apply pmul_mor; [reflexivity|exact HP]).
  rewrite (HM (Z.of_nat j)). rewrite pmono_mul. rewrite mulXpow_nth by lia. rewrite Htp. reflexivity.
Qed.
Print Assumptions C12_blind_rotate.

Theorem C12_odd_dimension_rejected : forall tpu ls sk p ai es use_bmmp use_bat,
  Nat.odd (length ls) = true -> gen_bootstrapping_key tpu ls sk p ai es use_bmmp use_bat = None.
Proof. intros. unfold gen_bootstrapping_key. rewrite <- Nat.negb_odd, H. reflexivity. Qed.
Print Assumptions C12_odd_dimension_rejected.

(** ** C13 *)
Theorem C13_sample_extract : forall N k s ct,
  (0 < N)%nat -> is_key N k s -> is_rlwe N k ct ->
  length (jit_sample_extract ct N) = S (k * N) /\
  phase (key_data (flatten_key {| rk_log := 32; rk_degree := N; rk_data := s |})) (jit_sample_extract ct N) == rlwe_phase N s ct 0 [mod 2 ^ 32].
Proof.
  intros N k s ct HN Hs Hct. pose proof (proj1 Hs) as Hk. subst k. unfold is_key, is_rlwe in *.
  destruct (sample_extract_phase N HN s Hs ct Hct) as [H1 H2]. split; [exact H2|].
  cbn [flatten_key key_data rk_data]. change (2 ^ 32) with W32. rewrite H1. change 0 with (Z.of_nat 0). apply rph_coeff. exact HN.
Qed.
Example C13_ex :
  let s := [[1;0;1;1];[0;1;1;0]] in let ct := [[1;2;3;4];[5;6;7;4294967295];[100;101;102;103]] in
  phase (concat s) (jit_sample_extract ct 4) mod 2 ^ 32 = rlwe_phase 4 s ct 0 mod 2 ^ 32 /\ rlwe_phase 4 s ct 0 = 4294967406.
Proof. split; vm_compute; reflexivity. Qed.
Print Assumptions C13_sample_extract.

(** ** C14 *)
(** [w] is the block width N / 2^msg; a phase J is read modulo 2N, [delta] is its distance to the centre of block m *)
Theorem C14_test_polynomial : forall t msg pd p sp f w,
  mk_enc_params t msg pd = Some p -> t <= 32 -> msg + pd < 32 ->
  Z.of_nat (length f) = 2 ^ msg -> modulus_degree sp = (length f * w)%nat -> (1 <= w)%nat ->
  Forall (fun c => 0 <= c <= 2 ^ (msg + pd)) f ->
  exists tp, gen_test_polynomial f p sp = Some tp /\ length tp = modulus_degree sp /\ Forall word32 tp /\
    forall m J delta k, (m < length f)%nat -> J = Z.of_nat m * Z.of_nat w + delta + k * (2 * Z.of_nat (modulus_degree sp)) ->
      - Z.of_nat (w / 2) <= delta < Z.of_nat w - Z.of_nat (w / 2) ->
      coeff (mulXpow (- J) tp) 0 == nth m f 0 * 2 ^ (t - (msg + pd)) [mod 2 ^ t].
Proof.
  intros t msg pd p sp f w Hp Ht Hm Hl HN Hw Hf.
  destruct (test_polynomial_spec t msg pd p sp f w Hp Ht Hm Hl HN Hw Hf) as (tp & H1 & H2 & H3 & H4).
  exists tp. split; [exact H1|]. split; [exact H2|]. split; [exact H3|]. intros m J delta k Hmf HJ Hd.
  assert (HNp : (0 < modulus_degree sp)%nat) by (rewrite HN; nia).
  rewrite mulXpow_nth by lia. rewrite H2. replace (Z.of_nat 0 - - J) with J by lia. apply (H4 m J delta k); assumption.
Qed.
Example C14_ex :
  let p := {| total_bits := 32; message_bits := 2; padding_bits := 1 |} in
  let sp := {| lwe_dimension := 4; plaintext_modulus := 2 ^ 32; rlwe_dimension := 1; modulus_degree := 16 |} in
  option_map (fun tp => map (fun c => c / 2 ^ 29) tp) (gen_test_polynomial [1;0;3;2] p sp) = Some [1;1;0;0;0;0;3;3;3;3;2;2;2;2;7;7] /\
  option_map (fun tp => map (fun J => coeff (mulXpow (- J) tp) 0 mod 2 ^ 32 / 2 ^ 29) [-2;-1;0;1;2;5;6;9;10;13;30;31]) (gen_test_polynomial [1;0;3;2] p sp)
    = Some [1;1;1;1;0;0;3;3;2;2;1;1].
Proof. split; vm_compute; reflexivity. Qed.
Print Assumptions C14_test_polynomial.

(** ValueErrors: more coefficients than the degree, or a number of coefficients other than 2^message_bits *)
Theorem C14_wrong_length_rejected : forall f p sp,
  (modulus_degree sp < length f)%nat \/ Z.of_nat (length f) <> 2 ^ message_bits p -> gen_test_polynomial f p sp = None.
Proof.
  intros f p sp H. unfold gen_test_polynomial. destruct (Nat.ltb_spec (modulus_degree sp) (length f)); [reflexivity|].
  destruct (Z.eqb_spec (Z.of_nat (length f)) (2 ^ message_bits p)); [lia|reflexivity].
Qed.
Print Assumptions C14_wrong_length_rejected.

(** ** C15 *)
Definition params32 (n k N : nat) : scheme_params :=
  {| lwe_dimension := n; plaintext_modulus := 2 ^ 32; rlwe_dimension := k; modulus_degree := N |}.

(** the same with an arbitrary bound KS on the RLWE key coefficients *)
Lemma bootstrap_block_gen : forall KS tpu d msg p f w k s ls bp bnn bai bes BE kp knn kai kes KE use_bmmp use_bat ct m delta j,
  mk_enc_params 32 msg 1 = Some p -> msg + 1 < 32 ->
  (0 <= d <= 30) -> let N := Z.to_nat (2 ^ d) in
  Z.of_nat (length f) = 2 ^ msg -> N = (length f * w)%nat -> Forall (fun c => 0 <= c <= 2 ^ (msg + 1)) f ->
  (1 <= k)%nat -> is_key N k s -> Forall (Forall (fun z => Z.abs z <= KS)) s -> 0 <= KS -> binary ls -> Nat.even (length ls) = true ->
  gadget bp bnn -> 0 <= BE -> bsk_draws N k (level_count bp) BE (bsk_count use_bmmp (length ls)) bai bes ->
  platform_ok tpu N k bp use_bmmp use_bat bai ->
  gadget kp knn -> 0 <= KE -> ksk_draws (k * N) (length ls) (level_count kp) KE kai kes ->
  length ct = S (length ls) -> (m < length f)%nat ->
  phase ls (switch_modulus ct 32 (d + 1)) = Z.of_nat m * Z.of_nat w + delta + j * (2 * Z.of_nat N) ->
  - Z.of_nat (w / 2) <= delta < Z.of_nat w - Z.of_nat (w / 2) ->
  exists bsk tp out,
    gen_bootstrapping_key tpu ls {| rk_log := 32; rk_degree := N; rk_data := s |} bp bai bes use_bmmp use_bat = Some bsk /\
    gen_and_encrypt tpu f p (params32 (length ls) k N) = Some tp /\
    bootstrap tpu ct tp bsk
      (ksk_gen kp (flatten_key {| rk_log := 32; rk_degree := N; rk_data := s |}) {| log_modulus := 32; key_data := ls |} kai kes)
      kp bp (params32 (length ls) k N) = Some out /\
    length out = S (length ls) /\ Forall word32 out /\
    exists v, Z.abs v <= rotation_noise_gen use_bmmp (length ls) N k bp bnn KS BE + key_switch_noise_gen (k * N) kp knn KS KE /\
      phase ls out == nth m f 0 * 2 ^ (32 - (msg + 1)) + v [mod 2 ^ 32].
Proof.
  intros KS tpu d msg p f w k s ls bp bnn bai bes BE kp knn kai kes KE ub ut ct m delta j.
  intros Hp Hmsg Hd N Hf HNw Hfr Hk1 Hs Hbs HKS Hls Hev Hbg HBE HBD Hpl (Kb & Knn & Kt & KL) HKE (K1 & K2 & K3 & K4) Hct Hm HJ Hdel.
  assert (HNZ : Z.of_nat N = 2 ^ d) by (unfold N; rewrite Z2Nat.id; [reflexivity|apply Z.lt_le_incl, pow2_pos; lia]).
  assert (HN : (0 < N)%nat) by (pose proof (pow2_pos d ltac:(lia)); lia).
  assert (Hw : (1 <= w)%nat) by (destruct w; [lia|lia]).
  assert (Hdiv : (2 * Z.of_nat N | 2 ^ 32)).
  { rewrite HNZ. exists (2 ^ (31 - d)). rewrite Z.mul_assoc, (Z.mul_comm _ 2), <- Z.mul_assoc, <- Z.pow_add_r by lia. replace (31 - d + d) with 31 by lia. reflexivity. }
  set (sp := params32 (length ls) k N).
  destruct (test_polynomial_spec 32 msg 1 p sp f w Hp ltac:(lia) Hmsg Hf HNw Hw Hfr) as (tp & T1 & T2 & T3 & T4).
  change (modulus_degree sp) with N in *.
  assert (Hlp : log_plaintext_modulus sp = 32) by (apply (log2_round_pow2 32); lia).
  assert (Hld : log_mod_degree sp = d) by (unfold log_mod_degree; change (modulus_degree sp) with N; rewrite HNZ; apply log2_round_pow2; lia).
  set (rot := trivial_encryption tpu tp sp).
  assert (Hrot : is_rlwe N k rot) by (apply (trivial_rect tpu tp sp); assumption).
  set (ct' := switch_modulus ct 32 (d + 1)) in *.
  assert (Hct' : length ct' = S (length ls)) by (unfold ct', switch_modulus; rewrite map_length; exact Hct).
  destruct (rotate_peq tpu N HN k s ls bp bnn bai bes KS BE ub ut rot ct' Hs Hbs HKS Hls Hev Hdiv Hbg HBE HBD Hpl Hrot Hct') as (bsk & out & H1 & H2 & H3 & err & H4 & H5).
  set (ksk := ksk_gen kp _ _ kai kes).
  exists bsk, rot, (jit_switch_key ksk (jit_sample_extract out N) (level_count kp) (log_base kp)).
  split; [exact H1|]. split; [unfold gen_and_encrypt; rewrite T1; reflexivity|].
  split. { unfold bootstrap. rewrite Hlp, Hld. fold ct'. rewrite H2. reflexivity. }
  pose proof (proj1 Hs) as Hks. subst k. unfold is_key in Hs.
  destruct (sample_extract_phase N HN s Hs out H3) as [X1 X2].
  set (ik := flatten_key {| rk_log := 32; rk_degree := N; rk_data := s |}) in *.
  set (okk := {| log_modulus := 32; key_data := ls |}) in *.
  assert (Hikl : length (key_data ik) = (length s * N)%nat) by (cbn; rewrite (concat_const_length _ N (rect_Forall _ _ _ Hs)); reflexivity).
  rewrite <- Hikl in K1, K3, X2.
  assert (Hn1 : (1 <= length (key_data ik))%nat) by (rewrite Hikl; nia).
  change (jit_switch_key ksk (jit_sample_extract out N) (level_count kp) (log_base kp)) with (switch_key kp ksk (jit_sample_extract out N)).
  assert (HO : length (switch_key kp ksk (jit_sample_extract out N)) = S (length ls)).
  { apply (switch_out_length kp ik okk kai kes knn); auto. }
  split; [exact HO|]. split.
  { unfold switch_key, jit_switch_key. cbv zeta. unfold vsub32. generalize (repeat 0 (length (nth 0 (nth 0 ksk []) []) - 1) ++ [last (jit_sample_extract out N) 0]).
    intros l. match goal with |- Forall _ (map2 _ l ?r) => generalize r end. induction l as [|x l IH]; intros [|y r]; cbn [map2]; constructor; [apply u32_word|apply IH]. }
  exists (fn err 0 + ks_noise kp ik kes knn (jit_sample_extract out N)). split.
  - pose proof (H4 0) as B1.
    assert (B2 : Z.abs (ks_noise kp ik kes knn (jit_sample_extract out N)) <= key_switch_noise_gen (length s * N) kp knn KS KE).
    { unfold key_switch_noise_gen, gadget_trunc. rewrite <- Hikl.
      pose proof (ks_noise_bound kp ik okk kai kes knn Kb Knn KL Hn1 ltac:(cbn; lia) K1 K2 K3 (jit_sample_extract out N) X2 KS KE HKE) as B.
      apply B; [|exact K4]. intros i Hi. cbn [key_data ik flatten_key rk_data].
      assert (HBB : Forall (fun z => Z.abs z <= KS) (concat s)) by (apply Forall_concat'; exact Hbs).
      apply (Forall_nth_default (fun z => Z.abs z <= KS)); [cbn; lia|exact HBB]. }
    lia.
  - pose proof (switch_key_phase kp ik okk kai kes knn Kb Knn KL Hn1 ltac:(cbn; lia) K1 K2 K3 (jit_sample_extract out N) X2) as PH.
    cbn [log_modulus okk key_data] in PH. fold ksk in PH. rewrite PH.
    change (2 ^ 32) with W32. change (key_data ik) with (concat s). rewrite X1. rewrite (H5 0). cbn [fn padd]. rewrite pmono_mul.
    pose proof (trivial_phase N HN s tpu tp (length ls) T2) as TP.
    unfold log_plaintext_modulus in TP. cbn [plaintext_modulus] in TP. rewrite log2_round_pow2 in TP by lia. change (2 ^ 32) with W32 in TP.
    change (trivial_encryption tpu tp {| lwe_dimension := length ls; plaintext_modulus := W32; rlwe_dimension := length s; modulus_degree := N |}) with rot in TP.
    rewrite (TP (0 - - phase ls ct')). cbn [fn pl]. replace (0 - - phase ls ct') with (phase ls ct') by lia.
    pose proof (T4 m (phase ls ct') delta j Hm HJ Hdel) as TT. change (2 ^ 32) with W32 in TT. rewrite TT. apply eqm_eq. ring.
Qed.

(** Per ciphertext: if the phase of the ciphertext, scaled and rounded to Z_2N, falls in the block of message m, then
    bootstrapping succeeds and its output is an LWE ciphertext under the same key of f[m], with an error bounded by a
    constant that does not depend on the ciphertext. *)
Theorem C15_bootstrap_block : forall tpu d msg p f w k s ls bp bnn bai bes BE kp knn kai kes KE use_bmmp use_bat ct m delta j,
  mk_enc_params 32 msg 1 = Some p -> msg + 1 < 32 ->
  (0 <= d <= 30) -> let N := Z.to_nat (2 ^ d) in
  Z.of_nat (length f) = 2 ^ msg -> N = (length f * w)%nat -> Forall (fun c => 0 <= c <= 2 ^ (msg + 1)) f ->
  (1 <= k)%nat -> is_key N k s -> Forall binary s -> binary ls -> Nat.even (length ls) = true ->
  gadget bp bnn -> 0 <= BE -> bsk_draws N k (level_count bp) BE (bsk_count use_bmmp (length ls)) bai bes ->
  platform_ok tpu N k bp use_bmmp use_bat bai ->
  gadget kp knn -> 0 <= KE -> ksk_draws (k * N) (length ls) (level_count kp) KE kai kes ->
  length ct = S (length ls) -> (m < length f)%nat ->
  phase ls (switch_modulus ct 32 (d + 1)) = Z.of_nat m * Z.of_nat w + delta + j * (2 * Z.of_nat N) ->
  - Z.of_nat (w / 2) <= delta < Z.of_nat w - Z.of_nat (w / 2) ->
  exists bsk tp out,
    gen_bootstrapping_key tpu ls {| rk_log := 32; rk_degree := N; rk_data := s |} bp bai bes use_bmmp use_bat = Some bsk /\
    gen_and_encrypt tpu f p (params32 (length ls) k N) = Some tp /\
    bootstrap tpu ct tp bsk
      (ksk_gen kp (flatten_key {| rk_log := 32; rk_degree := N; rk_data := s |}) {| log_modulus := 32; key_data := ls |} kai kes)
      kp bp (params32 (length ls) k N) = Some out /\
    length out = S (length ls) /\ Forall word32 out /\
    exists v, Z.abs v <= rotation_noise use_bmmp (length ls) N k bp bnn BE + key_switch_noise (k * N) kp knn KE /\
      phase ls out == nth m f 0 * 2 ^ (32 - (msg + 1)) + v [mod 2 ^ 32].
Proof.
  intros tpu d msg p f w k s ls bp bnn bai bes BE kp knn kai kes KE ub ut ct m delta j.
  intros Hp Hmsg Hd N Hf HNw Hfr Hk1 Hs Hbs.
  apply (bootstrap_block_gen 1 tpu d msg p f w k s ls bp bnn bai bes BE kp knn kai kes KE ub ut ct m delta j Hp Hmsg Hd Hf HNw Hfr Hk1 Hs); [|lia].
  eapply Forall_impl; [|exact Hbs]. intros r Hr. eapply Forall_impl; [|exact Hr]. intros z Hz. cbn beta in Hz. lia.
Qed.
Print Assumptions C15_bootstrap_block.

(** In terms of the phase of the input: within the window 2^(32-msg-1)/2 minus the modulus-switching error (n+1)/2 units
    of 2^(31-d), every ciphertext is bootstrapped to the table entry of its message. *)
Theorem C15_bootstrap : forall tpu d msg p f k s ls bp bnn bai bes BE kp knn kai kes KE use_bmmp use_bat ct m e,
  mk_enc_params 32 msg 1 = Some p -> msg + 1 < 32 ->
  (0 <= d <= 30) -> let N := Z.to_nat (2 ^ d) in
  Z.of_nat (length f) = 2 ^ msg -> msg <= d -> Forall (fun c => 0 <= c <= 2 ^ (msg + 1)) f ->
  (1 <= k)%nat -> is_key N k s -> Forall binary s -> binary ls -> Nat.even (length ls) = true ->
  gadget bp bnn -> 0 <= BE -> bsk_draws N k (level_count bp) BE (bsk_count use_bmmp (length ls)) bai bes ->
  platform_ok tpu N k bp use_bmmp use_bat bai ->
  gadget kp knn -> 0 <= KE -> ksk_draws (k * N) (length ls) (level_count kp) KE kai kes ->
  Forall word32 ct -> length ct = S (length ls) -> (m < length f)%nat ->
  phase ls ct == Z.of_nat m * 2 ^ (32 - (msg + 1)) + e [mod 2 ^ 32] ->
  2 * Z.abs e + (1 + Z.of_nat (length ls)) * 2 ^ (31 - d) < 2 ^ (32 - (msg + 1)) ->
  exists bsk tp out,
    gen_bootstrapping_key tpu ls {| rk_log := 32; rk_degree := N; rk_data := s |} bp bai bes use_bmmp use_bat = Some bsk /\
    gen_and_encrypt tpu f p (params32 (length ls) k N) = Some tp /\
    bootstrap tpu ct tp bsk
      (ksk_gen kp (flatten_key {| rk_log := 32; rk_degree := N; rk_data := s |}) {| log_modulus := 32; key_data := ls |} kai kes)
      kp bp (params32 (length ls) k N) = Some out /\
    length out = S (length ls) /\ Forall word32 out /\
    exists v, Z.abs v <= rotation_noise use_bmmp (length ls) N k bp bnn BE + key_switch_noise (k * N) kp knn KE /\
      phase ls out == nth m f 0 * 2 ^ (32 - (msg + 1)) + v [mod 2 ^ 32].
Proof.
  intros tpu d msg p f k s ls bp bnn bai bes BE kp knn kai kes KE ub ut ct m e.
  intros Hp Hmsg Hd N Hf Hmd Hfr Hk1 Hs Hbs Hls Hev Hbg HBE HBD Hpl HKG HKE HKD Hcw Hct Hm Hph Hwin.
  destruct (mk_enc_params_inv _ _ _ _ Hp) as (_ & _ & _ & _ & Hmsg1 & _ & _).
  set (w := Z.to_nat (2 ^ (d - msg))).
  assert (HwZ : Z.of_nat w = 2 ^ (d - msg)) by (unfold w; rewrite Z2Nat.id; [reflexivity|apply Z.lt_le_incl, pow2_pos; lia]).
  assert (HNZ : Z.of_nat N = 2 ^ d) by (unfold N; rewrite Z2Nat.id; [reflexivity|apply Z.lt_le_incl, pow2_pos; lia]).
  assert (HNw : N = (length f * w)%nat).
  { apply Nat2Z.inj. rewrite Nat2Z.inj_mul, HNZ, Hf, HwZ, <- Z.pow_add_r by lia. f_equal. lia. }
  destruct (switch_phase_n 32 (d + 1) ct ls Hcw Hls Hct ltac:(lia) ltac:(lia) ltac:(lia) ltac:(lia)) as (kk & Hkk).
  replace (32 - (d + 1)) with (31 - d) in Hkk by lia.
  set (J := phase ls (switch_modulus ct 32 (d + 1))) in *.
  apply eqm_ex in Hph. destruct Hph as (k2 & Hph).
  set (u := 2 ^ (31 - d)) in *. assert (Hu : 0 < u) by (apply pow2_pos; lia).
  assert (HD : 2 ^ (32 - (msg + 1)) = u * Z.of_nat w) by (rewrite HwZ; unfold u; rewrite <- Z.pow_add_r by lia; f_equal; lia).
  assert (HM : 2 ^ 32 = u * (2 * Z.of_nat N)).
  { rewrite HNZ. unfold u. replace (2 * 2 ^ d) with (2 ^ (d + 1)) by (rewrite Z.pow_add_r by lia; ring). rewrite <- Z.pow_add_r by lia. f_equal. lia. }
  rewrite HM, HD in *.
  set (delta := J - Z.of_nat m * Z.of_nat w - (kk + k2) * (2 * Z.of_nat N)).
  assert (Hdel : 2 * Z.abs delta < Z.of_nat w).
  { assert (Habs : 2 * Z.abs (u * delta) < u * Z.of_nat w).
    { replace (u * delta) with (u * J - phase ls ct - kk * (u * (2 * Z.of_nat N)) + e) by (rewrite Hph; unfold delta; ring). lia. }
    rewrite Z.abs_mul, (Z.abs_eq u) in Habs by lia. nia. }
  assert (Hw2 : 2 * Z.of_nat (w / 2) <= Z.of_nat w <= 2 * Z.of_nat (w / 2) + 1).
  { pose proof (Nat.div_mod w 2 ltac:(lia)). pose proof (Nat.mod_upper_bound w 2 ltac:(lia)). lia. }
  rewrite <- HM, <- HD in *.
  apply (C15_bootstrap_block tpu d msg p f w k s ls bp bnn bai bes BE kp knn kai kes KE ub ut ct m delta (kk + k2)); auto.
  - unfold delta, J, N. lia.
  - lia.
Qed.
Print Assumptions C15_bootstrap.

(** *** a concrete instance of all hypotheses (degree 8, dimension 2, noise 1), and the computation itself *)
Definition ex_ls := [1;0].
Definition ex_rs := [[1;0;1;1;0;0;1;0]].
Definition ex_gp := {| log_base := 16; level_count := 2; decomp_total := 32 |}.
Definition ex_bai1 := repeat (repeat [[17;4000000000;3;99999;123456789;0;4294967295;42]] 2) 2.
Definition ex_bes1 := repeat (repeat 1 2) 2.
Definition ex_bai := repeat ex_bai1 20.
Definition ex_bes := repeat ex_bes1 20.
Definition ex_kai := repeat (repeat [5;4000000000] 2) 8.
Definition ex_kes := repeat (repeat 4294967295 2) 8.
Definition ex_ct := jit_encrypt (1 * 2 ^ 30) ex_ls [3123456789; 77] 1000 32.

Lemma Forall_repeat' {A} (Q : A -> Prop) x n : Q x -> Forall Q (repeat x n).
Proof. intros H. induction n; cbn [repeat]; constructor; auto. Qed.

Example C15_hyps_ex :
  mk_enc_params 32 1 1 = Some {| total_bits := 32; message_bits := 1; padding_bits := 1 |} /\
  is_key 8 1 ex_rs /\ Forall binary ex_rs /\ binary ex_ls /\ gadget ex_gp 2 /\
  bsk_draws 8 1 2 1 (bsk_count true 2) ex_bai ex_bes /\ platform_ok 6 8 1 ex_gp true false ex_bai /\
  ksk_draws (1 * 8) 2 2 1 ex_kai ex_kes /\ Forall word32 ex_ct /\
  phase ex_ls ex_ct == Z.of_nat 1 * 2 ^ (32 - (1 + 1)) + 1000 [mod 2 ^ 32] /\
  2 * Z.abs 1000 + (1 + Z.of_nat 2) * 2 ^ (31 - 3) < 2 ^ (32 - (1 + 1)).
Proof.
  assert (A1 : Z.abs (s32 1) <= 1) by (vm_compute; discriminate).
  assert (A2 : Z.abs (s32 4294967295) <= 1) by (vm_compute; discriminate).
  split; [reflexivity|]. split; [split; repeat constructor|]. split; [apply Forall_forall; intros r [<-|[]]; apply Forall_forall; intros z Hz; cbn in Hz; lia|].
  split; [apply Forall_forall; intros z Hz; cbn in Hz; lia|].
  split; [unfold gadget; cbn; lia|].
  split. { split; [reflexivity|]. split; [reflexivity|]. intros j Hj. unfold ex_bai, ex_bes. change (bsk_count true 2) with 20%nat in Hj.
           rewrite !nth_repeat_lt by exact Hj.
           split; [reflexivity|]. split; [|split].
           - apply Forall_repeat'. split; [reflexivity|]. apply Forall_repeat'. split; [reflexivity|]. apply Forall_repeat' with (n := 1%nat). reflexivity.
           - split; [reflexivity|]. apply Forall_repeat'. reflexivity.
           - apply Forall_repeat', Forall_repeat'. exact A1. }
  split; [left; vm_compute; discriminate|].
  split. { split; [reflexivity|]. split; [|split].
           - apply Forall_repeat'. split; [reflexivity|]. apply Forall_repeat'. reflexivity.
           - split; [reflexivity|]. apply Forall_repeat'. reflexivity.
           - apply Forall_repeat', Forall_repeat'. exact A2. }
  split. { unfold ex_ct. apply Forall_forall. intros z Hz. vm_compute in Hz. unfold word32. lia. }
  split; [|vm_compute; reflexivity].
  exists 0. vm_compute. reflexivity.
Qed.
Example C15_ex :
  match gen_bootstrapping_key 6 ex_ls {| rk_log := 32; rk_degree := 8; rk_data := ex_rs |} ex_gp ex_bai ex_bes true false,
        gen_and_encrypt 6 [3;2] {| total_bits := 32; message_bits := 1; padding_bits := 1 |} (params32 2 1 8) with
  | Some bsk, Some tp =>
      option_map (fun out => s32 (u32 (phase ex_ls out - 2 * 2 ^ 30)))
        (bootstrap 6 ex_ct tp bsk (ksk_gen ex_gp (flatten_key {| rk_log := 32; rk_degree := 8; rk_data := ex_rs |}) {| log_modulus := 32; key_data := ex_ls |} ex_kai ex_kes)
           ex_gp ex_gp (params32 2 1 8))
  | _, _ => None
  end = Some (-644808).
Proof. vm_compute. reflexivity. Qed.

(** Finding: the encoding parameters accept any number of padding bits, but the test polynomial assumes exactly one.
    With (32, 2, 2), a noiseless encryption of 2 and noiseless keys, bootstrapping the identity returns 1. *)
Theorem C15_two_padding_bits_refuted : exists p tp bsk out,
  mk_enc_params 32 2 2 = Some p /\ gen_and_encrypt 6 [0;1;2;3] p (params32 2 1 8) = Some tp /\
  gen_bootstrapping_key 6 [0;0] {| rk_log := 32; rk_degree := 8; rk_data := [[0;0;0;0;0;0;0;0]] |} ex_gp
    (repeat (repeat (repeat [[0;0;0;0;0;0;0;0]] 2) 2) 20) (repeat (repeat (repeat 0 2) 2) 20) true false = Some bsk /\
  bootstrap 6 (noiseless_embedding (2 * 2 ^ 28) 2) tp bsk (repeat (repeat [0;0;0] 2) 8) ex_gp ex_gp (params32 2 1 8) = Some out /\
  decode (lwe_decrypt (noiseless_embedding (2 * 2 ^ 28) 2) {| log_modulus := 32; key_data := [0;0] |} p) p = 2 /\
  decode (lwe_decrypt out {| log_modulus := 32; key_data := [0;0] |} p) p = 1.
Proof. do 4 eexists. do 4 (split; [vm_compute; reflexivity|]). split; vm_compute; reflexivity. Qed.
Print Assumptions C15_two_padding_bits_refuted.
