From Coq Require Import ZArith List Lia Bool.
From Verif Require Import Base.ZSum Base.Modeq Base.Word Base.Bits.
From Verif Require Import Cggi.Model_lwe Cggi.Model_decomposition Cggi.Model_key_switch Cggi.Spec_lwe Cggi.Proof_lwe Cggi.Proof_decomposition.
Import ListNotations.
Local Open Scope Z_scope.

(** the phase as a linear functional *)
Definition wt (t : list Z) : list Z := map Z.opp t ++ [1].

Lemma wt_length t : length (wt t) = S (length t).
Proof. unfold wt. rewrite app_length, map_length. cbn. lia. Qed.

Lemma dotZ_opp a t : dotZ a (map Z.opp t) = - dotZ a t.
Proof. revert t. induction a as [|x a IH]; intros [|z t]; cbn [map]; rewrite ?dotZ_nil_r; try reflexivity.
  rewrite !dotZ_cons, IH. ring. Qed.

Lemma phase_wt t v : length v = S (length t) -> phase t v = zsum (S (length t)) (fun j => nth j v 0 * nth j (wt t) 0).
Proof.
  intros H. destruct (list_split_last _ _ H) as (a & b & -> & Ha). rewrite phase_app.
  rewrite <- H. rewrite <- dotZ_zsum by (rewrite wt_length; exact H).
  unfold wt. rewrite dotZ_app by (rewrite map_length; assumption). rewrite dotZ_opp.
  change (dotZ [b] [1]) with (b * 1 + 0). ring.
Qed.

Lemma removelast_nth (l : list Z) n i : length l = S n -> (i < n)%nat -> nth i (removelast l) 0 = nth i l 0.
Proof.
  intros H Hi. destruct (list_split_last _ _ H) as (a & b & -> & Ha). rewrite removelast_last.
  rewrite app_nth1 by lia. reflexivity.
Qed.

Lemma removelast_length (l : list Z) n : length l = S n -> length (removelast l) = n.
Proof. intros H. destruct (list_split_last _ _ H) as (a & b & -> & Ha). rewrite removelast_last. assumption. Qed.

Lemma jit_encrypt_length m t a e L : length (jit_encrypt m t a e L) = S (length a).
Proof. unfold jit_encrypt. rewrite app_length. cbn. lia. Qed.

Lemma shape2_nth n m x i : shape2 n m x -> (i < n)%nat -> length (nth i x []) = m.
Proof. intros [H1 H2] Hi. rewrite Forall_forall in H2. apply H2, nth_In. lia. Qed.

Lemma nth_combine_lt {A B} (a : list A) (b : list B) i da db : (i < length a)%nat -> (i < length b)%nat ->
  nth i (combine a b) (da, db) = (nth i a da, nth i b db).
Proof.
  revert b i. induction a as [|x a IH]; intros [|y b] [|i]; cbn; intros; try lia; auto. apply IH; lia.
Qed.

Section KeySwitch.
  Variables (p : decomp_params) (in_key out_key : lwe_key).
  Variables (ai : list (list (list Z))) (es : list (list Z)).
  Let s := key_data in_key.
  Let t := key_data out_key.
  Let n := length s.
  Let m := length t.
  Let L := level_count p.
  Let b := log_base p.
  Let LO := log_modulus out_key.
  Variable nn : nat.
  Hypothesis Hb : 1 <= b < 32.
  Hypothesis Hnn : Z.of_nat nn * b = 32.
  Hypothesis HL : (1 <= L <= nn)%nat.
  Hypothesis Hn : (1 <= n)%nat.
  Hypothesis HLO : 0 <= LO <= 32.
  Hypothesis Hai : length ai = n.
  Hypothesis Hai2 : Forall (shape2 L m) ai.
  Hypothesis Hes : shape2 n L es.

  Lemma ksk_row i l : (i < n)%nat -> (l < L)%nat ->
    nth l (nth i (ksk_gen p in_key out_key ai es) []) [] =
    jit_encrypt (shl32 (nth i s 0) (32 - (1 + Z.of_nat l) * b)) t (nth l (nth i ai []) []) (nth l (nth i es []) 0) LO.
  Proof.
    intros Hi Hl. destruct Hes as [He1 He2].
    assert (A1 : shape2 L m (nth i ai [])) by (rewrite Forall_forall in Hai2; apply Hai2, nth_In; lia).
    assert (A2 : length (nth i es []) = L) by (apply (shape2_nth n L es i Hes Hi)).
    unfold ksk_gen. fold s.
    rewrite (nth_map2 _ _ _ _ 0 ([], [])) by (rewrite ?combine_length; fold n; lia).
    rewrite nth_combine_lt by lia. cbn [fst snd].
    unfold decompose_and_encrypt, recomposition_summands. fold L b t LO. destruct A1 as [A1 A1'].
    rewrite (nth_map2 _ _ _ _ 0 ([], 0)) by (rewrite ?combine_length, ?map_length, ?seq_length; lia).
    rewrite nth_combine_lt by lia. cbn [fst snd]. rewrite nth_map_seq by lia. reflexivity.
  Qed.

  Lemma ksk_row_length i l : (i < n)%nat -> (l < L)%nat ->
    length (nth l (nth i (ksk_gen p in_key out_key ai es) []) []) = S m.
  Proof.
    intros Hi Hl. rewrite ksk_row by assumption. rewrite jit_encrypt_length. f_equal.
    assert (A1 : shape2 L m (nth i ai [])) by (rewrite Forall_forall in Hai2; apply Hai2, nth_In; lia).
    apply (shape2_nth L m _ l A1 Hl).
  Qed.

  Lemma ksk_length : length (ksk_gen p in_key out_key ai es) = n.
  Proof. destruct Hes as [He1 _]. unfold ksk_gen. rewrite map2_length, combine_length. fold s n. lia. Qed.

  Lemma ksk_i_length i : (i < n)%nat -> length (nth i (ksk_gen p in_key out_key ai es) []) = L.
  Proof.
    intros Hi. destruct Hes as [He1 He2].
    assert (A1 : shape2 L m (nth i ai [])) by (rewrite Forall_forall in Hai2; apply Hai2, nth_In; lia).
    assert (A2 : length (nth i es []) = L) by (apply (shape2_nth n L es i Hes Hi)).
    unfold ksk_gen. rewrite (nth_map2 _ _ _ _ 0 ([], [])) by (rewrite ?combine_length; fold s n; lia).
    rewrite nth_combine_lt by lia. cbn [fst snd].
    unfold decompose_and_encrypt, recomposition_summands. fold L. destruct A1 as [A1 A1'].
    rewrite map2_length, map_length, seq_length, combine_length. lia.
  Qed.

  Variable ct : list Z.
  Hypothesis Hct : length ct = S n.

  Let ksk := ksk_gen p in_key out_key ai es.
  Let K i l j := nth j (nth l (nth i ksk []) []) 0.
  Let dg i l := sdig (nth i ct 0) b (nn - 1 - l).

  Lemma width_eq : length (nth 0 (nth 0 ksk []) []) = S m.
  Proof. apply ksk_row_length; lia. Qed.

  Lemma switch_out_length : length (switch_key p ksk ct) = S m.
  Proof.
    unfold switch_key, jit_switch_key. rewrite width_eq. unfold vsub32.
    rewrite map2_length, app_length, repeat_length, map_length, seq_length. cbn [length]. lia.
  Qed.

  Lemma switch_out_nth j : (j < S m)%nat ->
    nth j (switch_key p ksk ct) 0 ==
    (if Nat.eqb j m then last ct 0 else 0) - zsum n (fun i => zsum L (fun l => dg i l * K i l j)) [mod W32].
  Proof.
    intros Hj. unfold switch_key, jit_switch_key. rewrite width_eq. fold L b.
    unfold vsub32. rewrite (nth_map2 _ _ _ _ 0 0).
    2:{ rewrite app_length, repeat_length. cbn. lia. }
    2:{ rewrite map_length, seq_length. lia. }
    rewrite sub32_eqm. rewrite nth_map_seq by lia. rewrite u32_eqm.
    replace (nth j (repeat 0 (S m - 1) ++ [last ct 0]) 0) with (if Nat.eqb j m then last ct 0 else 0).
    2:{ destruct (Nat.eqb_spec j m) as [->|Hne].
        - rewrite app_nth2 by (rewrite repeat_length; lia). rewrite repeat_length. replace (m - (S m - 1))%nat with O by lia. reflexivity.
        - rewrite app_nth1 by (rewrite repeat_length; lia). symmetry. apply nth_repeat. }
    apply eqm_sub_mor; [reflexivity|].
    rewrite lsum_nth. rewrite !map_length, map2_length, (removelast_length ct n Hct). unfold ksk at 1. rewrite ksk_length, Nat.min_id.
    apply eqm_zsum. intros i Hi.
    rewrite (nth_map_lt _ _ _ 0 []).
    2:{ rewrite map2_length, (removelast_length ct n Hct). unfold ksk. rewrite ksk_length. lia. }
    rewrite (nth_map2 _ _ _ _ [] 0).
    2:{ unfold ksk. rewrite ksk_length. lia. }
    2:{ rewrite (removelast_length ct n Hct). lia. }
    rewrite (removelast_nth ct n i Hct Hi).
    unfold vecmat32. rewrite nth_map_seq by lia. unfold dot32. rewrite u32_eqm.
    rewrite <- Hnn at 1. rewrite signed_decomposition_spec by lia.
    rewrite dotZ_zsum.
    2:{ rewrite !map_length, seq_length. unfold ksk. rewrite ksk_i_length by assumption. reflexivity. }
    rewrite map_length, seq_length. apply eqm_zsum. intros l Hl.
    rewrite nth_map_seq by lia. rewrite u32_eqm.
    rewrite (nth_map_lt _ _ _ 0 []) by (unfold ksk; rewrite ksk_i_length by assumption; lia).
    reflexivity.
  Qed.

  Lemma ksk_phase i l : (i < n)%nat -> (l < L)%nat ->
    phase t (nth l (nth i ksk []) []) == nth i s 0 * 2 ^ (32 - (1 + Z.of_nat l) * b) + s32 (nth l (nth i es []) 0) [mod 2 ^ LO].
  Proof.
    intros Hi Hl. unfold ksk. rewrite ksk_row by assumption. rewrite jit_encrypt_phase by assumption.
    assert (D : (2 ^ LO | W32)) by (apply pow2_div_W32; lia).
    apply eqm_add_mor; [|symmetry; apply (eqm_weaken W32); [exact D|apply s32_eqm]].
    apply (eqm_weaken W32); [exact D|]. apply shl32_eqm. nia.
  Qed.

  Definition ks_noise : Z :=
    zsum n (fun i => nth i s 0 * sdec_err (nth i ct 0) b (nn - L)) - zsum n (fun i => zsum L (fun l => dg i l * s32 (nth l (nth i es []) 0))).

  Lemma switch_key_phase : phase t (switch_key p ksk ct) == phase s ct + ks_noise [mod 2 ^ LO].
  Proof.
    assert (D : (2 ^ LO | W32)) by (apply pow2_div_W32; lia).
    rewrite phase_wt by apply switch_out_length. fold m.
    assert (E1 : zsum (S m) (fun j => nth j (switch_key p ksk ct) 0 * nth j (wt t) 0) ==
       zsum (S m) (fun j => (if Nat.eqb j m then last ct 0 else 0) * nth j (wt t) 0)
        - zsum n (fun i => zsum L (fun l => dg i l * phase t (nth l (nth i ksk []) []))) [mod W32]).
    { transitivity (zsum (S m) (fun j => ((if Nat.eqb j m then last ct 0 else 0) - zsum n (fun i => zsum L (fun l => dg i l * K i l j))) * nth j (wt t) 0)).
      - apply eqm_zsum. intros j Hj. rewrite switch_out_nth by assumption. reflexivity.
      - apply eqm_eq. rewrite (zsum_ext _ _ (fun j => (if Nat.eqb j m then last ct 0 else 0) * nth j (wt t) 0
             - zsum n (fun i => zsum L (fun l => dg i l * (K i l j * nth j (wt t) 0))))).
        2:{ intros j Hj. rewrite Z.mul_sub_distr_r. f_equal. rewrite <- zsum_mul_r. apply zsum_ext. intros i Hi.
            rewrite <- zsum_mul_r. apply zsum_ext. intros l Hl. ring. }
        rewrite zsum_sub. f_equal. rewrite zsum_swap. apply zsum_ext. intros i Hi. rewrite zsum_swap. apply zsum_ext. intros l Hl.
        rewrite zsum_mul_l. f_equal. symmetry. rewrite phase_wt by (apply ksk_row_length; assumption). reflexivity. }
    apply (eqm_weaken _ _ _ _ D) in E1. rewrite E1. clear E1.
    assert (E2 : zsum (S m) (fun j => (if Nat.eqb j m then last ct 0 else 0) * nth j (wt t) 0) = last ct 0).
    { rewrite (zsum_single _ m).
      - rewrite Nat.eqb_refl. unfold wt. rewrite app_nth2 by (rewrite map_length; unfold m; lia). rewrite map_length. fold m. rewrite Nat.sub_diag. cbn. ring.
      - lia.
      - intros j Hj Hne. destruct (Nat.eqb_spec j m); [contradiction|]. ring. }
    rewrite E2. clear E2.
    assert (E3 : zsum n (fun i => zsum L (fun l => dg i l * phase t (nth l (nth i ksk []) []))) ==
       zsum n (fun i => nth i s 0 * (nth i ct 0 - sdec_err (nth i ct 0) b (nn - L))) + zsum n (fun i => zsum L (fun l => dg i l * s32 (nth l (nth i es []) 0))) [mod 2 ^ LO]).
    { rewrite <- zsum_add. apply eqm_zsum. intros i Hi.
      transitivity (zsum L (fun l => nth i s 0 * (dg i l * 2 ^ (32 - (1 + Z.of_nat l) * b)) + dg i l * s32 (nth l (nth i es []) 0))).
      - apply eqm_zsum. intros l Hl. rewrite ksk_phase by assumption. apply eqm_eq. ring.
      - rewrite zsum_add. apply eqm_add_mor; [|reflexivity]. rewrite zsum_mul_l. apply eqm_mul_mor; [reflexivity|].
        unfold dg. rewrite <- Hnn. rewrite sdig_top_sum by lia. apply eqm_sub_mor; [|reflexivity].
        apply (eqm_weaken W32); [exact D|]. change W32 with (2 ^ 32). rewrite <- Hnn. apply sdec_err_full. lia. }
    rewrite E3. clear E3. unfold ks_noise, phase. rewrite dotZ_zsum by (apply removelast_length; exact Hct).
    rewrite (removelast_length ct n Hct). apply eqm_eq.
    rewrite (zsum_ext n _ (fun i => nth i (removelast ct) 0 * nth i s 0 - nth i s 0 * sdec_err (nth i ct 0) b (nn - L))).
    2:{ intros i Hi. rewrite (removelast_nth ct n i Hct Hi). ring. }
    rewrite zsum_sub. ring.
  Qed.

  Lemma ks_noise_bound S E : 0 <= E -> (forall i, (i < n)%nat -> Z.abs (nth i s 0) <= S) ->
    Forall (Forall (fun e => Z.abs (s32 e) <= E)) es ->
    Z.abs ks_noise <= Z.of_nat n * (S * (if Nat.eqb L nn then 0 else 2 ^ (32 - Z.of_nat L * b)) + Z.of_nat L * (2 ^ b * E)).
  Proof.
    intros HE HS HEs. unfold ks_noise. set (T := if Nat.eqb L nn then 0 else 2 ^ (32 - Z.of_nat L * b)).
    assert (HT : forall i, (i < n)%nat -> Z.abs (sdec_err (nth i ct 0) b (nn - L)) <= T).
    { intros i Hi. unfold T. destruct (Nat.eqb_spec L nn) as [->|Hne].
      - rewrite Nat.sub_diag, err0. cbn. lia.
      - pose proof (sdec_err_bound (nth i ct 0) b (nn - L) ltac:(lia)) as B.
        replace (Z.of_nat (nn - L) * b) with (32 - Z.of_nat L * b) in B by (rewrite Nat2Z.inj_sub by lia; nia). lia. }
    assert (B1 : Z.abs (zsum n (fun i => nth i s 0 * sdec_err (nth i ct 0) b (nn - L))) <= Z.of_nat n * (S * T)).
    { apply zsum_abs_bound. intros i Hi. rewrite Z.abs_mul. specialize (HT i Hi). specialize (HS i Hi). nia. }
    assert (B2 : Z.abs (zsum n (fun i => zsum L (fun l => dg i l * s32 (nth l (nth i es []) 0)))) <= Z.of_nat n * (Z.of_nat L * (2 ^ b * E))).
    { apply zsum_abs_bound. intros i Hi. apply zsum_abs_bound. intros l Hl. rewrite Z.abs_mul.
      assert (Z.abs (dg i l) <= 2 ^ b).
      { unfold dg. pose proof (sdig_range (nth i ct 0) b (nn - 1 - l) ltac:(lia)). pose proof (pow2_half b ltac:(lia)). lia. }
      assert (Z.abs (s32 (nth l (nth i es []) 0)) <= E).
      { destruct Hes as [He1 He2]. rewrite Forall_forall in HEs. specialize (HEs (nth i es []) ltac:(apply nth_In; lia)).
        rewrite Forall_forall in HEs. apply HEs. apply nth_In. rewrite (shape2_nth n L es i Hes Hi). lia. }
      assert (0 < 2 ^ b) by (apply pow2_pos; lia). nia. }
    lia.
  Qed.
End KeySwitch.
