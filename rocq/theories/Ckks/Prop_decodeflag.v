(** C39, the default argument of decode: is_slot_form is False unless given, but encode always returns slot form. *)
From Coq Require Import Reals ZArith List Bool Lia Lra.
From Verif Require Import Base.Lists Base.Word Base.Cplx Base.Crt Base.PrimeCheck Ckks.Model_rns_utils Ckks.Model_ntt_cpu Ckks.Model_encode Ckks.Model_fft Ckks.Spec_fft Ckks.Spec_ntt Ckks.Proof_ntt_cpu Ckks.Prop_fft.
Import ListNotations.
Local Open Scope R_scope.

Lemma single_slot x : fft_special_inv [x] 4 = Some [x].
Proof. unfold fft_special_inv. cbn. unfold bit_reversal_array. cbn. do 2 f_equal. replace (1 / 1) with 1 by field. apply cscale_1. Qed.
Lemma single_value x : fft_special [x] 4 = Some [x].
Proof. unfold fft_special. cbn. reflexivity. Qed.

(** FINDING: at degree two, with the modulus 97 and scale 40, the slot 1 comes back within 1/40 when is_slot_form is True,
    and as 1 + i, at distance 1, with the default *)
Theorem C39_default_flag_refuted : exists columns ys zs, encode 2 [97%Z] 40 [(1, 0)] = Some columns /\
  decode 40 1 columns [97%Z] true = Some ys /\ cdist (nth 0 ys c0) (1, 0) <= 1 / 40 /\
  decode 40 1 columns [97%Z] false = Some zs /\ cdist (nth 0 zs c0) (1, 0) = 1.
Proof.
  destruct (C39_encode_decode 0 [97%Z] 40 [(1, 0)] 1) as (columns & ys & E & D & _ & V).
  - lra.
  - discriminate.
  - split; repeat constructor; lia.
  - constructor; [| constructor]. split; [| reflexivity]. split; [lia |]. split; [apply prime_check_sound; vm_compute; reflexivity |]. split; [exists 24%Z; reflexivity | vm_compute; discriminate].
  - cbn. lia.
  - constructor; [| constructor]. unfold cnorm. cbn [fst snd]. replace (1 * 1 + 0 * 0) with 1 by ring. rewrite sqrt_1. lra.
  - lra.
  - cbn. lra.
  - change (2 * 2 ^ 0)%nat with 2%nat in E. exists columns, ys, [(1, 1)]. split; [exact E |]. split; [exact D |]. split.
    + specialize (V 0%nat ltac:(cbn; lia)). cbn [nth length] in V. eapply Rle_trans; [exact V |]. change (INR (2 ^ 0)) with 1. assert (sqrt (1 / 2) <= 1) by (apply Rle_trans with (sqrt 1); [apply sqrt_le_1_alt; lra | rewrite sqrt_1; lra]). lra.
    + unfold encode in E. change (2 / 2)%nat with 1%nat in E. cbn [length] in E. change (1 <? 1)%nat with false in E. cbv beta iota zeta in E. change (2 * 2)%nat with 4%nat in E. rewrite single_slot in E. cbn [map fst snd app] in E.
      assert (R0 : np_round (0 * 40) = 0%Z) by (replace (0 * 40) with (IZR 0) by ring; apply np_round_IZR). assert (R1 : np_round (1 * 40) = 40%Z) by (replace (1 * 40) with (IZR 40) by ring; apply np_round_IZR). rewrite R0, R1 in E.
      assert (N : ntt_negacyclic_poly (encode_residues [40%Z; 0%Z] [97%Z]) [97%Z] = Some [[40%Z; 40%Z]]) by (vm_compute; reflexivity). change (forallb _ [97%Z]) with true in E. cbv iota in E. rewrite N in E. injection E as <-.
      unfold decode. cbn [nth length]. assert (I : decode_integers [[40%Z; 40%Z]] [97%Z] = Some [40%Z; 40%Z]) by (vm_compute; reflexivity). rewrite I. cbn [map]. change (2 / 2)%nat with 1%nat. cbn [skipn firstn length Nat.eqb combine]. change (2 * 2)%nat with 4%nat. rewrite single_value. cbn [firstn nth].
      replace (40 / 40) with 1 by field. split; [reflexivity |]. unfold cdist, csub, cnorm. cbn. replace ((1 - 0) * (1 - 0)) with 1 by ring. replace ((1 - 1) * (1 - 1) + 1) with 1 by ring. apply sqrt_1.
Qed.
Print Assumptions C39_default_flag_refuted.
