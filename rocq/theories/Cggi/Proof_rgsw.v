(** RGSW rows, gadget recomposition and the external product. *)
From Coq Require Import ZArith List Lia Bool Setoid Morphisms Ring.
From Verif Require Import Base.ZSum Base.Modeq Base.Nega Base.Word Base.Bits.
From Verif Require Import Cggi.Model_encoding Cggi.Model_lwe Cggi.Model_decomposition Cggi.Model_matrix_utils Cggi.Model_polymul.
From Verif Require Import Cggi.Model_rlwe Cggi.Model_rgsw Cggi.Model_bootstrap Cggi.Spec_lwe Cggi.Spec_poly Cggi.Spec_rlwe.
From Verif Require Import Cggi.Proof_decomposition Cggi.Proof_matrix_utils Cggi.Proof_poly Cggi.Proof_polymul Cggi.Proof_key_switch Cggi.Proof_rlwe.
Import ListNotations.
Local Open Scope Z_scope.

Lemma set_nth_length {A} i (v : A) l : length (set_nth i v l) = length l.
Proof. revert i. induction l as [|x l IH]; intros [|i]; cbn; auto. Qed.
Lemma set_nth_eq {A} i (v : A) l d : (i < length l)%nat -> nth i (set_nth i v l) d = v.
Proof. revert i. induction l as [|x l IH]; intros [|i] H; cbn in *; try lia; auto. apply IH. lia. Qed.
Lemma set_nth_neq {A} i j (v : A) l d : i <> j -> nth j (set_nth i v l) d = nth j l d.
Proof. revert i j. induction l as [|x l IH]; intros [|i] [|j] H; cbn; auto; congruence. Qed.
Lemma set_nth_rect {A} n m i (v : list A) l : rect n m l -> length v = m -> rect n m (set_nth i v l).
Proof.
  intros [H1 H2] Hv. split; [rewrite set_nth_length; exact H1|]. clear H1. revert i. induction H2 as [|x l Hx H2 IH]; intros [|i]; cbn; constructor; auto.
Qed.

Lemma nth_repeat_lt {A} (x : A) n i d : (i < n)%nat -> nth i (repeat x n) d = x.
Proof. revert i. induction n as [|n IH]; intros [|i] H; cbn; try lia; auto. apply IH. lia. Qed.

Lemma map_seq_length {A} (f : nat -> A) n : length (map f (seq 0 n)) = n.
Proof. rewrite map_length, seq_length. reflexivity. Qed.

Lemma concat_const_length {A} (l : list (list A)) m : Forall (fun r => length r = m) l -> length (concat l) = (length l * m)%nat.
Proof. intros H. induction H as [|x l Hx H IH]; cbn; [reflexivity|]. rewrite app_length, IH, Hx. reflexivity. Qed.
Lemma nth_concat_const {A} (l : list (list A)) m i j d : Forall (fun r => length r = m) l -> (j < m)%nat -> (i < length l)%nat ->
  nth (i * m + j) (concat l) d = nth j (nth i l []) d.
Proof.
  intros H. revert i. induction H as [|x l Hx H IH]; intros i Hj Hi; cbn [length concat] in *; [lia|].
  destruct i as [|i]; cbn [nth].
  - rewrite app_nth1 by lia. f_equal.
  - rewrite app_nth2 by lia. replace (S i * m + j - length x)%nat with (i * m + j)%nat by lia. apply IH; lia.
Qed.

Lemma rect_intro {A} n m (x : list (list A)) : length x = n -> (forall i, (i < n)%nat -> length (nth i x []) = m) -> rect n m x.
Proof.
  intros H1 H2. split; [exact H1|]. apply Forall_forall. intros r Hr. apply (In_nth _ _ []) in Hr. destruct Hr as (i & Hi & <-). apply H2. lia.
Qed.
Lemma cube_intro n m l x : length x = n -> (forall i, (i < n)%nat -> rect m l (nth i x [])) -> cube n m l x.
Proof.
  intros H1 H2. split; [exact H1|]. apply Forall_forall. intros r Hr. apply (In_nth _ _ []) in Hr. destruct Hr as (i & Hi & <-). apply H2. lia.
Qed.

(** *** decomposition of an RLWE ciphertext *)
Section Decomp.
  Variable N : nat.
  Hypothesis HN : (0 < N)%nat.
  Variable p : decomp_params.
  Local Notation b := (log_base p).
  Local Notation L := (level_count p).
  Variable nn : nat.
  Hypothesis Hb : 1 <= b < 32.
  Hypothesis Hnn : Z.of_nat nn * b = 32.
  Hypothesis Htot : decomp_total p = 32.
  Hypothesis HL : (L <= nn)%nat.
  Local Notation P := (pl N HN).
  Local Notation "a ≡ b" := (peq N W32 a b) (at level 70).
  Local Notation "a ⊕ b" := (padd N a b) (at level 50, left associativity).
  Local Notation "a ⊖ b" := (psub N a b) (at level 50, left associativity).
  Local Notation "a ⊗ b" := (pmul N a b) (at level 40, left associativity).
  Add Ring PolyRing : (poly_ring N W32 HN).

  Lemma decompose_poly_rect x : length x = N -> rect L N (decompose_poly x p).
  Proof.
    intros Hx. unfold decompose_poly. apply rect_intro; [apply map_seq_length|]. intros i Hi.
    rewrite nth_map_seq by assumption. rewrite !map_length. exact Hx.
  Qed.

  Lemma decompose_poly_nth x l i : (l < L)%nat -> (i < length x)%nat ->
    nth i (nth l (decompose_poly x p) []) 0 = u32 (sdig (nth i x 0) b (nn - 1 - l)).
  Proof.
    intros Hl Hi. unfold decompose_poly. rewrite nth_map_seq by assumption.
    rewrite (nth_map_lt _ _ _ _ []) by (rewrite map_length; assumption).
    rewrite (nth_map_lt _ _ _ _ 0) by assumption.
    rewrite Htot, <- Hnn. rewrite signed_decomposition_spec by lia. rewrite nth_map_seq by assumption. reflexivity.
  Qed.

  Definition dpoly (x : list Z) (l : nat) : list Z := map (fun c => sdig c b (nn - 1 - l)) x.
  Definition epoly (x : list Z) : list Z := map (fun c => sdec_err c b (nn - L)) x.

  Lemma sdig_abs x j : Z.abs (sdig x b j) <= 2 ^ b.
  Proof.
    pose proof (sdig_range x b j ltac:(lia)). pose proof (pow2_half b ltac:(lia)). pose proof (pow2_pos (b - 1) ltac:(lia)). lia.
  Qed.

  Lemma pl_dpoly x l : length x = N -> (l < L)%nat -> P (nth l (decompose_poly x p) []) ≡ P (dpoly x l).
  Proof.
    intros Hx Hl. apply pl_peq. intros i Hi. rewrite decompose_poly_nth by lia. unfold dpoly.
    rewrite (nth_map_lt _ _ _ _ 0) by lia. apply u32_eqm.
  Qed.

  Lemma dpoly_bnd x l : length x = N -> pbnd N (2 ^ b) (P (dpoly x l)).
  Proof.
    intros Hx. apply pbnd_window; [exact HN|apply Z.lt_le_incl, pow2_pos; lia|]. intros i Hi. cbn [fn pl]. rewrite ext_nat by assumption.
    unfold dpoly. rewrite (nth_map_lt _ _ _ _ 0) by lia. apply sdig_abs.
  Qed.

  (** the magnitude of the truncation error: zero when all levels are kept *)
  Definition trunc : Z := if Nat.eqb L nn then 0 else 2 ^ (32 - Z.of_nat L * b).

  Lemma trunc_nonneg : 0 <= trunc.
  Proof. unfold trunc. destruct (Nat.eqb_spec L nn); [lia|]. apply Z.lt_le_incl, pow2_pos. nia. Qed.

  Lemma epoly_bnd x : length x = N -> pbnd N trunc (P (epoly x)).
  Proof.
    intros Hx. apply pbnd_window; [exact HN|apply trunc_nonneg|]. intros i Hi. cbn [fn pl]. rewrite ext_nat by assumption.
    unfold epoly. rewrite (nth_map_lt _ _ _ _ 0) by lia. unfold trunc. destruct (Nat.eqb_spec L nn) as [E|E].
    - rewrite E, Nat.sub_diag, err0. lia.
    - pose proof (sdec_err_bound (nth i x 0) b (nn - L) ltac:(lia)) as H.
      replace (Z.of_nat (nn - L) * b) with (32 - Z.of_nat L * b) in H by (rewrite Nat2Z.inj_sub by lia; lia). lia.
  Qed.

  Lemma gadget_recompose x : length x = N ->
    psum N L (fun l => P (dpoly x l) ⊗ pconst N HN (2 ^ (32 - (1 + Z.of_nat l) * b))) ≡ P x ⊖ P (epoly x).
  Proof.
    intros Hx. apply peq_window; [exact HN|]. intros i Hi. rewrite psum_fn. cbn [fn psub].
    transitivity (sdec_err (nth i x 0) b nn - sdec_err (nth i x 0) b (nn - L)).
    - rewrite <- sdig_top_sum by lia. apply eqm_zsum. intros l Hl.
      assert (E : P (dpoly x l) ⊗ pconst N HN (2 ^ (32 - (1 + Z.of_nat l) * b)) ≡ pconst N HN (2 ^ (32 - (1 + Z.of_nat l) * b)) ⊗ P (dpoly x l)) by ring.
      rewrite (E _). rewrite pconst_mul. cbn [fn pscale pl]. rewrite ext_nat by assumption. unfold dpoly.
      rewrite (nth_map_lt _ _ _ _ 0) by lia. rewrite Hnn. apply eqm_eq. ring.
    - cbn [fn pl]. rewrite !ext_nat by assumption. unfold epoly. rewrite (nth_map_lt _ _ _ _ 0) by lia.
      pose proof (sdec_err_full (nth i x 0) b nn ltac:(lia)) as H. rewrite Hnn in H. change (2 ^ 32) with W32 in H.
      rewrite H. reflexivity.
  Qed.

  Lemma flat_map_concat {A B} (f : A -> list B) l : flat_map f l = concat (map f l).
  Proof. induction l as [|x l IH]; cbn; [reflexivity|]. rewrite IH. reflexivity. Qed.

  Lemma decompose_rlwe_nth ct m i l : rect m N ct -> (i < m)%nat -> (l < L)%nat ->
    nth (i * L + l) (decompose_rlwe_ciphertext ct p) [] = nth l (decompose_poly (nth i ct []) p) [].
  Proof.
    intros Hc Hi Hl. unfold decompose_rlwe_ciphertext. rewrite flat_map_concat. rewrite nth_concat_const with (m := L).
    - f_equal. rewrite (nth_map_lt _ _ _ _ []) by (rewrite (rect_length _ _ _ Hc); lia). reflexivity.
    - apply Forall_map, Forall_forall. intros x Hx. unfold decompose_poly. apply map_seq_length.
    - exact Hl.
    - rewrite map_length, (rect_length _ _ _ Hc). exact Hi.
  Qed.

  Lemma decompose_rlwe_rect ct m : rect m N ct -> rect (m * L) N (decompose_rlwe_ciphertext ct p).
  Proof.
    intros Hc. unfold decompose_rlwe_ciphertext. rewrite flat_map_concat. split.
    - rewrite concat_const_length with (m := L); [rewrite map_length, (rect_length _ _ _ Hc); reflexivity|].
      apply Forall_map, Forall_forall. intros x Hx. unfold decompose_poly. apply map_seq_length.
    - apply Forall_concat, Forall_map. eapply Forall_impl; [|apply (rect_Forall _ _ _ Hc)]. intros x Hx.
      apply (rect_Forall L). apply decompose_poly_rect. exact Hx.
  Qed.

  Lemma decompose_rlwe_small ct m : rect m N ct ->
    Forall (Forall (fun v => Z.abs (s32 v) <= 2 ^ b)) (decompose_rlwe_ciphertext ct p).
  Proof.
    intros Hc. unfold decompose_rlwe_ciphertext. rewrite flat_map_concat. apply Forall_concat, Forall_map.
    eapply Forall_impl; [|apply (rect_Forall _ _ _ Hc)]. intros x Hx. cbn beta in Hx.
    apply Forall_forall. intros r Hr. apply (In_nth _ _ []) in Hr. destruct Hr as (l & Hl & <-).
    pose proof (decompose_poly_rect x Hx) as Hrect. rewrite (rect_length _ _ _ Hrect) in Hl.
    apply Forall_forall. intros v Hv. apply (In_nth _ _ 0) in Hv. destruct Hv as (i & Hi & <-).
    rewrite (rect_nth L N) in Hi by assumption. rewrite decompose_poly_nth by lia.
    pose proof (sdig_range (nth i x 0) b (nn - 1 - l) ltac:(lia)) as Hd.
    pose proof (pow2_half b ltac:(lia)). pose proof (pow2_pos (b - 1) ltac:(lia)).
    assert (Hb31 : b < 31 \/ b = 31) by lia.
    assert (2 ^ b <= 2147483648) by (change 2147483648 with (2 ^ 31); apply Z.pow_le_mono_r; lia).
    destruct (Z.eq_dec (sdig (nth i x 0) b (nn - 1 - l)) 2147483648) as [E|E].
    - rewrite E. change (s32 (u32 2147483648)) with (- 2147483648). lia.
    - rewrite s32_u32 by lia. lia.
  Qed.
End Decomp.

Section Rgsw.
  Variable N : nat.
  Hypothesis HN : (0 < N)%nat.
  Variable s : list (list Z).
  Let k := length s.
  Hypothesis Hs : rect k N s.
  Variable p : decomp_params.
  Local Notation b := (log_base p).
  Local Notation L := (level_count p).
  Variable nn : nat.
  Hypothesis Hb : 1 <= b < 32.
  Hypothesis Hnn : Z.of_nat nn * b = 32.
  Hypothesis Htot : decomp_total p = 32.
  Hypothesis HL : (1 <= L <= nn)%nat.
  Local Notation P := (pl N HN).
  Local Notation "a ≡ b" := (peq N W32 a b) (at level 70).
  Local Notation "a ⊕ b" := (padd N a b) (at level 50, left associativity).
  Local Notation "a ⊖ b" := (psub N a b) (at level 50, left associativity).
  Local Notation "a ⊗ b" := (pmul N a b) (at level 40, left associativity).
  Local Notation rph := (rph N HN s).
  Local Notation sigma := (sigma N HN s).
  Add Ring PolyRing2 : (poly_ring N W32 HN).

  Definition gw (l : nat) : apoly N := pconst N HN (2 ^ (32 - (1 + Z.of_nat l) * b)).

  (** the matrix C encrypts the polynomial M with row errors bounded by E *)
  Definition rgsw_ok (M : apoly N) (E : Z) (C : list (list (list Z))) : Prop :=
    cube (S k * L) (S k) N C /\
    exists e : nat -> nat -> apoly N, (forall i l, (i <= k)%nat -> (l < L)%nat -> pbnd N E (e i l)) /\
      forall i l, (i <= k)%nat -> (l < L)%nat -> rph (nth (i * L + l) C []) ≡ M ⊗ gw l ⊗ sigma i ⊕ e i l.

  (** *** the ciphertexts of rgsw.encrypt *)
  Section Enc.
    Variables (tpu m : Z) (ai : list (list (list (list Z)))) (es : list (list Z)).
    Hypothesis Hai : length ai = S k /\ Forall (fun blk => cube L k N blk) ai.
    Hypothesis Hes : shape2 (S k) L es.

    Lemma ai_rect i l : (i <= k)%nat -> (l < L)%nat -> rect k N (nth l (nth i ai []) []).
    Proof.
      intros Hi Hl. destruct Hai as [H1 H2]. rewrite Forall_forall in H2. apply (cube_nth L).
      - apply H2, nth_In. lia.
      - exact Hl.
    Qed.

    Lemma rgsw_nth i l : (i <= k)%nat -> (l < L)%nat ->
      nth (i * L + l) (rgsw_jit_encrypt tpu N m s ai es p k 32) [] =
      encrypt_and_modify_one_row tpu N s p 32 (nth l (nth i ai []) []) (nth l (nth i es []) 0) (S l) i m.
    Proof.
      intros Hi Hl. unfold rgsw_jit_encrypt. rewrite nth_concat_const with (m := L).
      - rewrite nth_map_seq by lia. unfold encrypt_block. rewrite nth_map_seq by lia. reflexivity.
      - apply Forall_map, Forall_forall. intros x _. unfold encrypt_block. apply map_seq_length.
      - exact Hl.
      - rewrite map_seq_length. lia.
    Qed.

    Lemma rgsw_length : length (rgsw_jit_encrypt tpu N m s ai es p k 32) = (S k * L)%nat.
    Proof.
      unfold rgsw_jit_encrypt. rewrite concat_const_length with (m := L); [rewrite map_seq_length; reflexivity|].
      apply Forall_map, Forall_forall. intros x _. unfold encrypt_block. apply map_seq_length.
    Qed.

    Lemma row_rect a e l blk : rect k N a -> (blk <= k)%nat ->
      rect (S k) N (encrypt_and_modify_one_row tpu N s p 32 a e (S l) blk m).
    Proof.
      intros Ha Hblk. unfold encrypt_and_modify_one_row.
      assert (H : rect (S k) N (rlwe_jit_encrypt tpu N (repeat 0 N) s a (repeat e N) 32)) by (apply (rlwe_encrypt_rect N HN s Hs); rewrite ?repeat_length; auto).
      apply set_nth_rect; [exact H|]. rewrite set_nth_length. apply (rect_nth (S k)); [exact H|lia].
    Qed.

    Lemma row_phase a e l blk : rect k N a -> (blk <= k)%nat -> (l < L)%nat ->
      rph (encrypt_and_modify_one_row tpu N s p 32 a e (S l) blk m) ≡
      pconst N HN m ⊗ gw l ⊗ sigma blk ⊕ P (repeat (s32 e) N).
    Proof.
      intros Ha Hblk Hl. unfold encrypt_and_modify_one_row.
      set (z := rlwe_jit_encrypt tpu N (repeat 0 N) s a (repeat e N) 32).
      assert (Hz : rect (S k) N z) by (apply (rlwe_encrypt_rect N HN s Hs); rewrite ?repeat_length; auto).
      set (d := shl32 m (32 - b * Z.of_nat (S l))).
      set (z' := set_nth blk (set_nth 0 (add32 (nth 0 (nth blk z []) 0) d) (nth blk z [])) z).
      assert (Hrow : forall i, (i <= k)%nat -> P (nth i z' []) ≡ P (nth i z []) ⊕ (if Nat.eqb i blk then pconst N HN m ⊗ gw l else pzero N)).
      { intros i Hi. unfold z'. destruct (Nat.eqb_spec i blk) as [->|E].
        - rewrite set_nth_eq by (rewrite (rect_length _ _ _ Hz); lia). apply pl_peq_fn. intros j Hj.
          assert (Hlen : length (nth blk z []) = N) by (apply (rect_nth (S k)); [exact Hz|lia]).
          cbn [fn padd pl]. rewrite ext_nat by assumption. rewrite pconst_mul. cbn [fn pscale gw pconst pone pmono]. unfold monof.
          destruct j as [|j].
          + rewrite set_nth_eq by lia. rewrite add32_eqm. unfold d.
            assert (0 <= 32 - b * Z.of_nat (S l) < 32) by nia.
            rewrite shl32_eqm by assumption. replace (Z.of_nat 0 - 0) with (Z.of_nat 0) by lia. rewrite ext_nat by assumption. cbn [nth].
            apply eqm_eq. f_equal. rewrite Z.mul_1_r. f_equal. f_equal. lia.
          + rewrite set_nth_neq by lia. replace (Z.of_nat (S j) - 0) with (Z.of_nat (S j)) by lia. rewrite ext_nat by assumption.
            replace (nth (S j) [1] 0) with 0 by (destruct j; reflexivity). apply eqm_eq. ring.
        - rewrite set_nth_neq by congruence. ring. }
      unfold Proof_rlwe.rph at 1. fold k.
      rewrite (psum_ext N W32 (S k) _ (fun i => P (nth i z []) ⊗ sigma i ⊕ (if Nat.eqb i blk then pconst N HN m ⊗ gw l ⊗ sigma blk else pzero N))).
      2:{ intros i Hi. rewrite Hrow by lia. destruct (Nat.eqb_spec i blk) as [->|E]; ring. }
      rewrite psum_add. fold (rph z).
      assert (Hz0 : rph z ≡ P (repeat 0 N) ⊕ P (repeat e N)).
      { change W32 with (2 ^ 32). unfold z. apply (rlwe_encrypt_phase N HN s Hs); rewrite ?repeat_length; auto; lia. }
      change (psum N (S k) (fun j => P (nth j z []) ⊗ sigma j)) with (rph z). rewrite Hz0.
      assert (Hsum : psum N (S k) (fun i => if Nat.eqb i blk then pconst N HN m ⊗ gw l ⊗ sigma blk else pzero N) ≡ pconst N HN m ⊗ gw l ⊗ sigma blk).
      { intros i. rewrite psum_fn. rewrite (zsum_single (S k) blk); [rewrite Nat.eqb_refl; reflexivity|lia|].
        intros j Hj Hne. replace (Nat.eqb j blk) with false by (symmetry; apply Nat.eqb_neq; exact Hne). reflexivity. }
      rewrite Hsum.
      assert (H0 : P (repeat 0 N) ≡ pzero N).
      { apply pl_peq_fn. intros i Hi. rewrite nth_repeat. reflexivity. }
      assert (He : P (repeat e N) ≡ P (repeat (s32 e) N)).
      { apply pl_peq. intros i Hi. rewrite !nth_repeat_lt by assumption. rewrite s32_eqm. reflexivity. }
      rewrite H0, He. ring.
    Qed.

    Lemma rgsw_encrypt_ok E : 0 <= E -> Forall (Forall (fun e => Z.abs (s32 e) <= E)) es ->
      rgsw_ok (pconst N HN m) E (rgsw_jit_encrypt tpu N m s ai es p k 32).
    Proof.
      intros HE HEs. split.
      - apply cube_intro; [apply rgsw_length|]. intros r Hr.
        assert (HL0 : L <> O) by lia.
        pose proof (Nat.div_mod r L HL0) as Hdm. pose proof (Nat.mod_upper_bound r L HL0) as Hm.
        assert (Hq : (r / L < S k)%nat) by (apply Nat.div_lt_upper_bound; lia).
        rewrite Hdm, Nat.mul_comm. rewrite rgsw_nth by lia. apply row_rect; [apply ai_rect; lia|lia].
      - exists (fun i l => P (repeat (s32 (nth l (nth i es []) 0)) N)). split.
        + intros i l Hi Hl. apply pbnd_window; [exact HN|exact HE|]. intros j Hj. cbn [fn pl]. rewrite ext_nat by assumption.
          rewrite nth_repeat_lt by assumption. destruct Hes as [H1 H2].
          rewrite Forall_forall in HEs. assert (HIn : In (nth i es []) es) by (apply nth_In; lia).
          specialize (HEs _ HIn). rewrite Forall_forall in HEs. apply HEs. rewrite Forall_forall in H2. specialize (H2 _ HIn).
          apply nth_In. lia.
        + intros i l Hi Hl. rewrite rgsw_nth by assumption. apply row_phase; [apply ai_rect; assumption|assumption|assumption].
    Qed.
  End Enc.

  (** *** vector-matrix product *)
  Lemma pl_vecmat m v mat B j : rect B N v -> (j < m)%nat ->
    P (nth j (nega_vecmat N m v mat) []) ≡ psum N B (fun i => P (nth i v []) ⊗ P (nth j (nth i mat []) [])).
  Proof.
    intros Hv Hj. apply pl_peq_fn. intros i Hi. unfold nega_vecmat. rewrite nth_map_seq by assumption.
    rewrite nth_map_seq by assumption. rewrite psum_fn. change (2 ^ 32) with W32. rewrite eqm_mod. rewrite (rect_length _ _ _ Hv).
    apply eqm_eq, zsum_ext. intros t Ht. cbn [fn pmul pl]. rewrite conv_nega_coeff by assumption. reflexivity.
  Qed.

  Lemma nega_vecmat_rect m v mat : rect m N (nega_vecmat N m v mat).
  Proof.
    unfold nega_vecmat. apply rect_intro; [apply map_seq_length|]. intros i Hi. rewrite nth_map_seq by assumption. apply map_seq_length.
  Qed.

  Lemma rph_vecmat v mat B : rect B N v ->
    rph (nega_vecmat N (S k) v mat) ≡ psum N B (fun r => P (nth r v []) ⊗ rph (nth r mat [])).
  Proof.
    intros Hv. unfold Proof_rlwe.rph. fold k.
    rewrite (psum_ext N W32 (S k) _ (fun i => psum N B (fun r => P (nth r v []) ⊗ (P (nth i (nth r mat []) []) ⊗ sigma i)))).
    - rewrite psum_swap. apply psum_ext. intros r Hr. rewrite psum_mul_l by exact HN. reflexivity.
    - intros i Hi. rewrite (pl_vecmat (S k) v mat B) by assumption. rewrite <- psum_mul_r by exact HN. apply psum_ext. intros r Hr. ring.
  Qed.

  (** M maps B-bounded polynomials to A*B-bounded ones *)
  Definition amp (A : Z) (M : apoly N) : Prop := forall B a, pbnd N B a -> pbnd N (A * B) (M ⊗ a).

  Lemma amp_const m : amp (Z.abs m) (pconst N HN m).
  Proof. intros B a Ha i. rewrite pconst_mul. apply pbnd_scale; assumption. Qed.
  Lemma amp_mono_minus_1 e : amp 2 (pmono N HN e ⊖ pone N HN).
  Proof.
    intros B a Ha i.
    assert (E : fn ((pmono N HN e ⊖ pone N HN) ⊗ a) i = fn (pmono N HN e ⊗ a ⊖ pmono N HN 0 ⊗ a) i).
    { cbn [fn pmul psub]. unfold conv. rewrite <- zsum_sub. apply zsum_ext. intros j Hj. cbn [fn psub pone]. unfold pone. ring. }
    rewrite E. replace (2 * B) with (B + B) by ring. apply (pbnd_sub N HN); try apply pbnd_mono_mul; assumption.
  Qed.

  (** bound on the key polynomials, used only for the truncation term *)
  Variable KS : Z.
  Hypothesis HKS : 0 <= KS.
  Hypothesis HKb : forall i, (i < k)%nat -> pbnd N KS (P (nth i s [])).

  Definition trunc_noise : Z := trunc p nn * (1 + Z.of_nat k * (Z.of_nat N * KS)).
  Definition ext_noise (A E : Z) : Z := A * trunc_noise + Z.of_nat (S k * L) * (Z.of_nat N * (2 ^ b * E)).

  Lemma trunc_sum_bnd ct : rect (S k) N ct ->
    pbnd N trunc_noise (psum N (S k) (fun i => P (epoly p nn (nth i ct [])) ⊗ sigma i)).
  Proof.
    intros Hc. cbn [psum].
    replace trunc_noise with (Z.of_nat k * (Z.of_nat N * (trunc p nn * KS)) + trunc p nn) by (unfold trunc_noise; ring).
    apply (pbnd_add N HN).
    - apply psum_bnd. intros i Hi. apply (pbnd_mul N HN).
      + apply epoly_bnd; try assumption; try lia. apply (rect_nth (S k)); [exact Hc|lia].
      + unfold Proof_rlwe.sigma. fold k. replace (i <? k)%nat with true by (symmetry; apply Nat.ltb_lt; exact Hi).
        apply (pbnd_opp N HN). apply HKb. exact Hi.
    - unfold Proof_rlwe.sigma. fold k. rewrite Nat.ltb_irrefl.
      intros i. set (e := P (epoly p nn (nth k ct []))).
      assert (Hx : fn (e ⊗ pone N HN) i = fn e i).
      { cbn [fn pmul]. rewrite conv_comm by (assumption || apply fn_anti). change (conv N (fn (pone N HN)) (fn e) i) with (fn (pmul N (pmono N HN 0) e) i).
        rewrite pmono_mul. f_equal. lia. }
      rewrite Hx. apply epoly_bnd; try assumption; try lia. apply (rect_nth (S k)); [exact Hc|lia].
  Qed.

  Theorem external_product_phase M A E C ct : rgsw_ok M E C -> amp A M -> rect (S k) N ct ->
    exists err, pbnd N (ext_noise A E) err /\
      rph (nega_vecmat N (S k) (decompose_rlwe_ciphertext ct p) C) ≡ M ⊗ rph ct ⊕ err.
  Proof.
    intros [HC (e & He & Hph)] HA Hc.
    exists (psum N (S k * L) (fun r => P (dpoly p nn (nth (r / L) ct []) (r mod L)) ⊗ e (r / L)%nat (r mod L)%nat)
            ⊖ M ⊗ psum N (S k) (fun i => P (epoly p nn (nth i ct [])) ⊗ sigma i)).
    assert (HL0 : L <> O) by lia.
    assert (Hidx : forall r, (r < S k * L)%nat -> (r / L <= k)%nat /\ (r mod L < L)%nat).
    { intros r Hr. split; [|apply Nat.mod_upper_bound; exact HL0].
      assert (r / L < S k)%nat by (apply Nat.div_lt_upper_bound; lia). lia. }
    split.
    - unfold ext_noise. rewrite Z.add_comm. apply (pbnd_sub N HN).
      + apply psum_bnd. intros r Hr. destruct (Hidx r Hr). apply (pbnd_mul N HN).
        * apply dpoly_bnd; try assumption; try lia. apply (rect_nth (S k)); [exact Hc|lia].
        * apply He; assumption.
      + apply HA, trunc_sum_bnd. exact Hc.
    - rewrite (rph_vecmat _ C (S k * L)) by (apply decompose_rlwe_rect; exact Hc).
      set (D := fun i l => P (dpoly p nn (nth i ct []) l)).
      set (X := psum N (S k) (fun i => P (epoly p nn (nth i ct [])) ⊗ sigma i)).
      assert (Hsplit : forall r, (r < S k * L)%nat ->
        P (nth r (decompose_rlwe_ciphertext ct p) []) ⊗ rph (nth r C []) ≡
        M ⊗ (D (r / L)%nat (r mod L)%nat ⊗ gw (r mod L)) ⊗ sigma (r / L) ⊕ D (r / L)%nat (r mod L)%nat ⊗ e (r / L)%nat (r mod L)%nat).
      { intros r Hr. destruct (Hidx r Hr) as [H1 H2]. pose proof (Nat.div_mod r L HL0) as Hdm. rewrite (Nat.mul_comm L) in Hdm.
        rewrite Hdm at 1 2. rewrite decompose_rlwe_nth with (N := N) (m := S k) (nn := nn) by (assumption || lia).
        rewrite pl_dpoly with (nn := nn) by (assumption || lia || (apply (rect_nth (S k)); [exact Hc|lia])).
        rewrite Hph by assumption. unfold D. ring. }
      rewrite (psum_ext N W32 _ _ _ Hsplit). rewrite psum_add.
      apply (transitivity (y := M ⊗ rph ct ⊖ M ⊗ X ⊕ psum N (S k * L) (fun r => D (r / L)%nat (r mod L)%nat ⊗ e (r / L)%nat (r mod L)%nat))); [|unfold D; ring].
      apply padd_mor; [|reflexivity]. rewrite psum_block.
      rewrite (psum_ext N W32 (S k) _ (fun i => M ⊗ ((P (nth i ct []) ⊖ P (epoly p nn (nth i ct []))) ⊗ sigma i))).
      + rewrite psum_mul_l by exact HN.
        rewrite (psum_ext N W32 (S k) _ (fun i => P (nth i ct []) ⊗ sigma i ⊖ P (epoly p nn (nth i ct [])) ⊗ sigma i)) by (intros; ring).
        rewrite psum_sub by exact HN. fold X. change (psum N (S k) (fun i => P (nth i ct []) ⊗ sigma i)) with (rph ct). ring.
      + intros i Hi. rewrite (psum_ext N W32 L _ (fun l => M ⊗ sigma i ⊗ (D i l ⊗ gw l))).
        * rewrite psum_mul_l by exact HN. unfold D, gw. rewrite gadget_recompose by (assumption || lia || (apply (rect_nth (S k)); [exact Hc|lia])). ring.
        * intros l Hl. replace ((i * L + l) / L)%nat with i by (rewrite Nat.div_add_l by exact HL0; rewrite Nat.div_small by exact Hl; lia).
          replace ((i * L + l) mod L)%nat with l by (rewrite Nat.add_comm, Nat.mod_add by exact HL0; rewrite Nat.mod_small by exact Hl; reflexivity). ring.
  Qed.
End Rgsw.
