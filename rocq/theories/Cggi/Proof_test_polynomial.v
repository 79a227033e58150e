(** Test polynomials and trivial encryption. *)
From Coq Require Import ZArith List Lia Bool.
From Verif Require Import Base.ZSum Base.Modeq Base.Nega Base.Word Base.Bits.
From Verif Require Import Cggi.Model_encoding Cggi.Model_rlwe Cggi.Model_test_polynomial Cggi.Spec_poly.
From Verif Require Import Cggi.Proof_encoding Cggi.Proof_poly Cggi.Proof_rlwe Cggi.Proof_rgsw.
Import ListNotations.
Local Open Scope Z_scope.

Lemma log2_round_pow2 k : 0 <= k -> log2_round (2 ^ k) = k.
Proof.
  intros Hk. unfold log2_round. rewrite Z.log2_pow2 by exact Hk. rewrite <- Z.pow_add_r by lia.
  destruct (Z.ltb_spec (2 ^ (k + k)) (2 ^ (2 * k + 1))) as [H|H]; [reflexivity|].
  exfalso. apply Z.pow_le_mono_r_iff in H; lia.
Qed.

Lemma encode_list_map l p tp : Forall (fun x => encode x p tp = Some (shl32 x (error_bits p))) l ->
  encode_list l p tp = Some (map (fun x => shl32 x (error_bits p)) l).
Proof. induction 1 as [|x l Hx Hl IH]; cbn [encode_list map]; [reflexivity|]. rewrite Hx, IH. reflexivity. Qed.

Lemma encode_true_val p x : padding_bits p + message_bits p < 32 -> 0 <= padding_bits p + message_bits p ->
  0 <= x <= 2 ^ (padding_bits p + message_bits p) -> encode x p true = Some (shl32 x (error_bits p)).
Proof.
  intros H H0 Hx. unfold encode. assert (Hp : 2 ^ (padding_bits p + message_bits p) <= 2 ^ 31) by (apply pow2_le; lia).
  change (2 ^ 31) with 2147483648 in Hp. rewrite (u32_id x) by (unfold word32; lia).
  destruct (Z.leb_spec W32 (2 ^ (padding_bits p + message_bits p))); [lia|].
  destruct (Z.ltb_spec (2 ^ (padding_bits p + message_bits p)) x); [lia|]. destruct (Z.ltb_spec x 0); [lia|]. reflexivity.
Qed.

Lemma flat_map_repeat_length {A} (f : list A) w : length (flat_map (fun c => repeat c w) f) = (length f * w)%nat.
Proof. induction f as [|a f IH]; cbn [flat_map length Nat.mul]; [reflexivity|]. rewrite app_length, repeat_length, IH. lia. Qed.

Lemma flat_map_repeat_nth (f : list Z) w i r : (i < length f)%nat -> (r < w)%nat ->
  nth (i * w + r) (flat_map (fun c => repeat c w) f) 0 = nth i f 0.
Proof.
  revert i. induction f as [|a f IH]; intros i Hi Hr; cbn [length] in Hi; [lia|]. cbn [flat_map].
  destruct i as [|i].
  - rewrite app_nth1 by (rewrite repeat_length; lia). cbn [Nat.mul Nat.add nth]. apply nth_repeat_lt. exact Hr.
  - rewrite app_nth2 by (rewrite repeat_length; lia). rewrite repeat_length. replace (S i * w + r - w)%nat with (i * w + r)%nat by lia.
    cbn [nth]. apply IH; lia.
Qed.

Lemma nth_skipn' {A} n i (l : list A) d : nth i (skipn n l) d = nth (n + i) l d.
Proof. revert l. induction n as [|n IH]; intros [|x l]; cbn [skipn Nat.add nth]; auto; destruct i; reflexivity. Qed.

Section TP.
  Variables (f : list Z) (w : nat).
  Hypothesis Hw : (1 <= w)%nat.
  Hypothesis Hf : (1 <= length f)%nat.
  Let N := (length f * w)%nat.
  Let h := (w / 2)%nat.
  Variable q : Z.

  Let blocks := flat_map (fun c => repeat c w) f.
  Lemma h_lt : (h < w)%nat. Proof. apply Nat.div_lt; lia. Qed.
  Lemma blocks_len : length blocks = N. Proof. apply flat_map_repeat_length. Qed.

  Lemma pad_unfold : pad_for_error f N q = skipn h blocks ++ map (fun c => u32 (- c) mod q) (firstn h blocks).
  Proof.
    unfold pad_for_error. cbv zeta. replace (N / length f)%nat with w; [reflexivity|]. unfold N. rewrite Nat.mul_comm, Nat.div_mul; lia.
  Qed.
  Lemma pad_length : length (pad_for_error f N q) = N.
  Proof.
    rewrite pad_unfold, app_length, skipn_length, map_length, firstn_length, blocks_len. pose proof h_lt. unfold N in *. nia.
  Qed.
  Lemma pad_nth_main m r : (m < length f)%nat -> (r < w)%nat -> (h <= m * w + r)%nat ->
    nth (m * w + r - h) (pad_for_error f N q) 0 = nth m f 0.
  Proof.
    intros Hm Hr Hh. rewrite pad_unfold. rewrite app_nth1 by (rewrite skipn_length, blocks_len; unfold N; pose proof h_lt; nia).
    rewrite nth_skipn'. replace (h + (m * w + r - h))%nat with (m * w + r)%nat by lia. apply flat_map_repeat_nth; assumption.
  Qed.
  Lemma pad_nth_tail r : (r < h)%nat -> nth (N - h + r) (pad_for_error f N q) 0 = u32 (- nth 0 f 0) mod q.
  Proof.
    intros Hr. pose proof h_lt. assert (HhN : (h < N)%nat) by (unfold N; nia).
    rewrite pad_unfold. rewrite app_nth2 by (rewrite skipn_length, blocks_len; lia).
    rewrite skipn_length, blocks_len. replace (N - h + r - (N - h))%nat with r by lia.
    rewrite (nth_map_lt _ _ _ _ 0) by (rewrite firstn_length, blocks_len; lia). f_equal. f_equal. f_equal.
    rewrite nth_firstn_lt by exact Hr. change r with (0 * w + r)%nat. apply flat_map_repeat_nth; lia.
  Qed.
  Lemma pad_In x : In x (pad_for_error f N q) -> In x f \/ exists c, In c f /\ x = u32 (- c) mod q.
  Proof.
    assert (HB : forall y, In y blocks -> In y f).
    { intros y Hy. apply in_flat_map in Hy. destruct Hy as (c & Hc & Hy). apply repeat_spec in Hy. subst. exact Hc. }
    rewrite pad_unfold, in_app_iff. intros [H|H].
    - left. apply HB. rewrite <- (firstn_skipn h blocks). apply in_app_iff. right. exact H.
    - right. apply in_map_iff in H. destruct H as (c & Hc & H). exists c. split; [|congruence].
      apply HB. rewrite <- (firstn_skipn h blocks). apply in_app_iff. left. exact H.
  Qed.
End TP.

Theorem test_polynomial_spec t msg pd p sp f w :
  mk_enc_params t msg pd = Some p -> t <= 32 -> msg + pd < 32 ->
  Z.of_nat (length f) = 2 ^ msg -> modulus_degree sp = (length f * w)%nat -> (1 <= w)%nat ->
  Forall (fun c => 0 <= c <= 2 ^ (msg + pd)) f ->
  exists tp, gen_test_polynomial f p sp = Some tp /\ length tp = modulus_degree sp /\ Forall word32 tp /\
    forall m J delta k, (m < length f)%nat -> J = Z.of_nat m * Z.of_nat w + delta + k * (2 * Z.of_nat (modulus_degree sp)) ->
      - Z.of_nat (w / 2) <= delta < Z.of_nat w - Z.of_nat (w / 2) ->
      ext (modulus_degree sp) tp J == nth m f 0 * 2 ^ (t - (msg + pd)) [mod 2 ^ t].
Proof.
  intros Hp Ht Hmp Hlen HN Hw Hf.
  destruct (mk_enc_params_inv _ _ _ _ Hp) as (E1 & E2 & E3 & ? & ? & ? & ?).
  assert (Hf1 : (1 <= length f)%nat) by (pose proof (pow2_pos msg ltac:(lia)); lia).
  set (N := modulus_degree sp) in *.
  set (q := 2 ^ (padding_bits p + message_bits p)).
  assert (Hq : q = 2 ^ (msg + pd)) by (unfold q; rewrite E2, E3; f_equal; lia).
  assert (Hq0 : 0 < q) by (rewrite Hq; apply pow2_pos; lia).
  assert (Hok : Forall (fun x => encode x p true = Some (shl32 x (error_bits p))) (pad_for_error f N q)).
  { apply Forall_forall. intros x Hx. apply encode_true_val; [lia|lia|]. fold q. rewrite HN in Hx. apply pad_In in Hx; [|assumption..].
    rewrite Forall_forall in Hf. destruct Hx as [Hx|(c & Hc & ->)]; [apply Hf in Hx; lia|].
    pose proof (Z.mod_pos_bound (u32 (- c)) q Hq0). lia. }
  exists (map (fun x => shl32 x (error_bits p)) (pad_for_error f N q)).
  assert (HNf : (length f <= N)%nat) by nia.
  assert (Heb : error_bits p = t - (msg + pd)) by (unfold error_bits; lia).
  assert (Hpl : length (pad_for_error f N q) = N) by (rewrite HN at 1; rewrite pad_length by assumption; lia).
  assert (HshE : forall x, shl32 x (error_bits p) == x * 2 ^ (t - (msg + pd)) [mod 2 ^ t]).
  { intros x. apply (eqm_weaken W32); [apply pow2_div_W32; lia|]. rewrite Heb. apply shl32_eqm. lia. }
  split; [|split; [|split]].
  - unfold gen_test_polynomial. fold N. destruct (Nat.ltb_spec N (length f)); [lia|]. rewrite E2, Hlen, Z.eqb_refl. cbn [negb].
    rewrite <- E2. fold q. apply encode_list_map. exact Hok.
  - rewrite map_length. exact Hpl.
  - apply Forall_map, Forall_forall. intros x _. unfold shl32. destruct (_ && _); [apply u32_word|unfold word32; lia].
  - intros m J delta k Hm HJ Hd.
    assert (Hh : (w / 2 < w)%nat) by (apply Nat.div_lt; lia).
    assert (HNpos : (0 < N)%nat) by lia.
    subst J. replace (Z.of_nat m * Z.of_nat w + delta + k * (2 * Z.of_nat N)) with (Z.of_nat m * Z.of_nat w + delta + (2 * k) * Z.of_nat N) by ring.
    assert (HE : forall z, ext N (map (fun x => shl32 x (error_bits p)) (pad_for_error f N q)) (z + 2 * k * Z.of_nat N) =
                           ext N (map (fun x => shl32 x (error_bits p)) (pad_for_error f N q)) z).
    { intros z. unfold ext. rewrite Z.mod_add, Z.div_add by lia. rewrite Z.even_add, Z.even_mul. cbn [Z.even orb].
      destruct (Z.even (z / Z.of_nat N)); reflexivity. }
    rewrite HE. set (z := Z.of_nat m * Z.of_nat w + delta).
    destruct (Z.lt_ge_cases z 0) as [Hz|Hz].
    + assert (Hm0 : m = 0%nat) by (unfold z in Hz; destruct m; [reflexivity|nia]). subst m.
      assert (Hzd : z = delta) by (unfold z; lia).
      assert (HR : exists r, (r < w / 2)%nat /\ z + Z.of_nat N = Z.of_nat (N - w / 2 + r)).
      { exists (Z.to_nat (delta + Z.of_nat (w / 2))). assert ((w / 2 < N)%nat) by nia. lia. }
      destruct HR as (r & Hr & HzN).
      replace z with (Z.of_nat (N - w / 2 + r) + (-1) * Z.of_nat N) by lia.
      unfold ext. rewrite Z.mod_add, Z.div_add by lia.
      assert (Hlt : (N - w / 2 + r < N)%nat) by (assert ((w / 2 < N)%nat) by nia; lia).
      rewrite Z.mod_small, Z.div_small by lia. change (Z.even (0 + -1)) with false. cbv iota. rewrite Nat2Z.id.
      rewrite (nth_map_lt _ _ _ _ 0) by lia. rewrite HshE.
      rewrite HN at 1 2. rewrite pad_nth_tail by assumption.
      assert (EQ : u32 (- nth 0 f 0) mod q == - nth 0 f 0 [mod q]).
      { rewrite eqm_mod. apply (eqm_weaken W32); [rewrite Hq; apply pow2_div_W32; lia|apply u32_eqm]. }
      assert (ES := eqm_scale q (2 ^ (t - (msg + pd))) _ _ EQ).
      replace (2 ^ (t - (msg + pd)) * q) with (2 ^ t) in ES by (rewrite Hq, <- Z.pow_add_r by lia; f_equal; lia).
      rewrite (Z.mul_comm (u32 _ mod q)). rewrite ES. apply eqm_eq. ring.
    + assert (HR : exists r, (r < w)%nat /\ (w / 2 <= m * w + r)%nat /\ z = Z.of_nat (m * w + r - w / 2)).
      { exists (Z.to_nat (delta + Z.of_nat (w / 2))). unfold z in *. split; [lia|]. split; lia. }
      destruct HR as (r & Hr & Hge & Hzz). rewrite Hzz. rewrite ext_nat by nia.
      rewrite (nth_map_lt _ _ _ _ 0) by nia. rewrite HshE.
      rewrite HN. rewrite pad_nth_main by assumption. reflexivity.
Qed.

(** *** trivial encryption *)
Lemma zeros_rect k N : rect k N (repeat (repeat 0 N) k).
Proof. split; [apply repeat_length|]. apply Forall_forall. intros r Hr. apply repeat_spec in Hr. subst. apply repeat_length. Qed.

Lemma trivial_rect tpu tp sp : (0 < modulus_degree sp)%nat -> length tp = modulus_degree sp ->
  rect (S (rlwe_dimension sp)) (modulus_degree sp) (trivial_encryption tpu tp sp).
Proof.
  intros HN Htp. pose proof (zeros_rect (rlwe_dimension sp) (modulus_degree sp)) as Hz.
  unfold trivial_encryption, rlwe_encrypt. cbn [rk_degree rk_data rk_log].
  pose proof (rlwe_encrypt_rect (modulus_degree sp) HN (repeat (repeat 0 (modulus_degree sp)) (rlwe_dimension sp))) as H.
  rewrite repeat_length in H. apply H; auto. apply repeat_length.
Qed.

Section Trivial.
  Variables (N : nat) (HN : (0 < N)%nat) (s : list (list Z)).
  Let k := length s.
  Local Notation P := (pl N HN).
  Add Ring PolyRing4 : (poly_ring N W32 HN).
  Lemma pl_zero_peq q : peq N q (P (repeat 0 N)) (pzero N).
  Proof. apply pl_peq_fn. intros i Hi. rewrite nth_repeat. reflexivity. Qed.

  Lemma trivial_phase tpu tp d : length tp = N ->
    peq N (2 ^ log_plaintext_modulus {| lwe_dimension := d; plaintext_modulus := 2 ^ 32; rlwe_dimension := k; modulus_degree := N |})
      (rph N HN s (trivial_encryption tpu tp {| lwe_dimension := d; plaintext_modulus := 2 ^ 32; rlwe_dimension := k; modulus_degree := N |}))
      (P tp).
  Proof.
    intros Htp. set (sp := {| lwe_dimension := d; plaintext_modulus := 2 ^ 32; rlwe_dimension := k; modulus_degree := N |}).
    assert (HL : log_plaintext_modulus sp = 32) by (unfold log_plaintext_modulus; cbn [plaintext_modulus sp]; apply log2_round_pow2; lia).
    unfold trivial_encryption, rlwe_encrypt. cbn [rk_degree rk_data rk_log]. rewrite HL.
    cbn [ modulus_degree rlwe_dimension sp]. change (2 ^ 32) with W32.
    pose proof (zeros_rect k N) as Hz. set (zs := repeat (repeat 0 N) k) in *.
    assert (Hlz : length zs = k) by apply repeat_length.
    rewrite (rph_unfold N HN s). fold k.
    pose proof (rlwe_encrypt_b N HN zs) as HB. rewrite Hlz in HB. specialize (HB Hz tpu tp zs (repeat 0 N) 32 Hz Htp (repeat_length _ _) ltac:(lia)).
    change (2 ^ 32) with W32 in HB. rewrite HB.
    assert (Hpz : forall i g, peq N W32 (pmul N (P (nth i zs [])) g) (pzero N)).
    { intros i g. assert (E : peq N W32 (P (nth i zs [])) (pzero N)).
      { apply pl_peq_fn. intros j Hj. cbn [fn pzero]. unfold zs. destruct (Nat.lt_ge_cases i k) as [Hi|Hi].
        - rewrite nth_repeat_lt by exact Hi. rewrite nth_repeat. reflexivity.
        - rewrite nth_overflow with (n := i) by (rewrite repeat_length; exact Hi). destruct j; reflexivity. }
      rewrite E. ring. }
    assert (Hps : forall n g, (forall i, (i < n)%nat -> peq N W32 (g i) (pzero N)) -> peq N W32 (psum N n g) (pzero N)).
    { intros n g Hg i. rewrite psum_fn. rewrite <- (zsum_0 n) at 1. apply eqm_zsum. intros j Hj. apply (Hg j Hj i). }
    rewrite (Hps k (fun i => pmul N (P (nth i zs [])) (P (nth i zs [])))) by (intros; apply Hpz).
    rewrite (Hps k).
    - rewrite pl_zero_peq. ring.
    - intros i Hi. pose proof (rlwe_encrypt_nth_lt N zs) as HX. rewrite Hlz in HX. rewrite HX by assumption. apply Hpz.
  Qed.
End Trivial.
