(** Blind rotation, sample extraction. *)
From Coq Require Import ZArith List Lia Bool Setoid Morphisms Ring.
From Verif Require Import Base.ZSum Base.Modeq Base.Nega Base.Word Base.Bits.
From Verif Require Import Cggi.Model_encoding Cggi.Model_lwe Cggi.Model_decomposition Cggi.Model_matrix_utils Cggi.Model_polymul.
From Verif Require Import Cggi.Model_rlwe Cggi.Model_rgsw Cggi.Model_bootstrap Cggi.Spec_lwe Cggi.Spec_poly Cggi.Spec_rlwe.
From Verif Require Import Cggi.Proof_decomposition Cggi.Proof_matrix_utils Cggi.Proof_poly Cggi.Proof_polymul Cggi.Proof_key_switch Cggi.Proof_rlwe Cggi.Proof_rgsw.
Import ListNotations.
Local Open Scope Z_scope.

Lemma batch_nth {A} bs i r (l : list A) d : (r < bs)%nat -> nth r (batch bs i l) d = nth (i * bs + r) l d.
Proof.
  intros Hr. unfold batch. rewrite nth_firstn_lt by exact Hr.
  revert l. generalize (i * bs)%nat as t. induction t as [|t IH]; intros l; [reflexivity|].
  destruct l as [|x l]; cbn [skipn Nat.add nth]; [destruct r; reflexivity|]. apply IH.
Qed.
Lemma batch_length {A} bs i nb (l : list A) : length l = (bs * nb)%nat -> (i < nb)%nat -> length (batch bs i l) = bs.
Proof. intros Hl Hi. unfold batch. rewrite firstn_length, skipn_length, Hl. nia. Qed.

Lemma skipn_skipn' {A} a b (l : list A) : skipn a (skipn b l) = skipn (b + a) l.
Proof. revert l. induction b as [|b IH]; intros l; [reflexivity|]. destruct l as [|x l]; [destruct a; reflexivity|]. cbn [skipn Nat.add]. apply IH. Qed.

Lemma batched_map2 {A B C} (f : A -> B -> C) bs nb (x : list A) (y : list B) :
  length x = (bs * nb)%nat -> length y = (bs * nb)%nat ->
  concat (map (fun i => map2 f (batch bs i x) (batch bs i y)) (seq 0 nb)) = map2 f x y.
Proof.
  revert x y. induction nb as [|nb IH]; intros x y Hx Hy.
  - rewrite Nat.mul_0_r in Hx. apply length_zero_iff_nil in Hx. subst. reflexivity.
  - cbn [seq map concat]. rewrite <- seq_shift, map_map.
    replace (map2 f x y) with (map2 f (firstn bs x ++ skipn bs x) (firstn bs y ++ skipn bs y)) by (rewrite !firstn_skipn; reflexivity).
    rewrite map2_app by (rewrite !firstn_length; lia). unfold batch at 1 2. cbn [Nat.mul skipn]. f_equal.
    rewrite <- (IH (skipn bs x) (skipn bs y)) by (rewrite skipn_length; lia). f_equal. apply map_ext. intros i. unfold batch.
    rewrite !skipn_skipn'. reflexivity.
Qed.

Lemma batch_combine {A B} bs i (x : list A) (y : list B) : combine (batch bs i x) (batch bs i y) = batch bs i (combine x y).
Proof.
  unfold batch. rewrite <- combine_firstn. f_equal. revert x y. generalize (i * bs)%nat as t. induction t as [|t IH]; intros [|a x] [|c y]; cbn; auto.
  destruct (skipn t x); reflexivity.
Qed.

Section Ring.
  Variable N : nat.
  Hypothesis HN : (0 < N)%nat.
  Local Notation "a ≡ b" := (peq N W32 a b) (at level 70).
  Lemma pmono_period e k : pmono N HN (e + k * (2 * Z.of_nat N)) ≡ pmono N HN e.
  Proof.
    apply pexact_peq. intros i. cbn [fn pmono]. unfold monof, ext.
    replace (i - (e + k * (2 * Z.of_nat N))) with (i - e + (- (2 * k)) * Z.of_nat N) by ring.
    rewrite Z.mod_add, Z.div_add by lia. rewrite Z.even_add, Z.even_opp, Z.even_mul. cbn [Z.even orb]. destruct (Z.even ((i - e) / Z.of_nat N)); reflexivity.
  Qed.
  Lemma pmono_congr e f : (2 * Z.of_nat N | e - f) -> pmono N HN e ≡ pmono N HN f.
  Proof. intros [k Hk]. replace e with (f + k * (2 * Z.of_nat N)) by lia. apply pmono_period. Qed.
  Lemma pconst_1 : pconst N HN 1 ≡ pone N HN.
  Proof. apply pexact_peq. intros i. cbn [fn pconst]. ring. Qed.
  Lemma pconst_0 : pconst N HN 0 ≡ pzero N.
  Proof. apply pexact_peq. intros i. cbn [fn pconst pzero]. ring. Qed.
End Ring.

Lemma madd3_cube n m l a b : cube n m l a -> cube n m l b -> cube n m l (madd3 a b).
Proof.
  intros Ha Hb. pose proof (proj1 Ha) as La. pose proof (proj1 Hb) as Lb. apply cube_intro.
  - unfold madd3. rewrite map2_length. lia.
  - intros i Hi. unfold madd3. rewrite (nth_map2 _ _ _ _ [] []) by lia. apply madd32_rect; apply (cube_nth n); assumption.
Qed.
Lemma scale_rect n m d L a : rect n m a -> rect n m (map (fun row => scale_row d row L) a).
Proof.
  intros [H1 H2]. split; [rewrite map_length; exact H1|]. apply Forall_map. eapply Forall_impl; [|exact H2]. intros r Hr. cbn beta. rewrite scale_row_length. exact Hr.
Qed.
Lemma scale_cube n m l d L a : cube n m l a -> cube n m l (scale_by_x_power_n_minus_1 d a L).
Proof.
  intros [H1 H2]. split; unfold scale_by_x_power_n_minus_1; [rewrite map_length; exact H1|]. apply Forall_map. eapply Forall_impl; [|exact H2].
  intros r Hr. apply scale_rect. exact Hr.
Qed.

Lemma bmmp_inputs_length s : Nat.even (length s) = true -> length (bmmp_inputs s) = (3 * (length s / 2))%nat.
Proof.
  intros H. apply Nat.even_spec in H. destruct H as [h Hh]. revert s Hh. induction h as [|h IH]; intros s Hs.
  - apply length_zero_iff_nil in Hs. subst. reflexivity.
  - destruct s as [|a [|b s]]; cbn [length] in *; try lia. cbn [bmmp_inputs length]. rewrite IH by lia.
    replace (S (S (length s))) with (length s + 1 * 2)%nat by lia. rewrite Nat.div_add by lia. lia.
Qed.
Lemma bmmp_inputs_nth s j : (2 * j + 1 < length s)%nat ->
  nth (3 * j) (bmmp_inputs s) 0 = mul32 (nth (2 * j) s 0) (nth (2 * j + 1) s 0) /\
  nth (3 * j + 1) (bmmp_inputs s) 0 = mul32 (nth (2 * j) s 0) (sub32 1 (nth (2 * j + 1) s 0)) /\
  nth (3 * j + 2) (bmmp_inputs s) 0 = mul32 (sub32 1 (nth (2 * j) s 0)) (nth (2 * j + 1) s 0).
Proof.
  revert s. induction j as [|j IH]; intros s Hs.
  - destruct s as [|a [|b s]]; cbn [length] in Hs; try lia. repeat split.
  - destruct s as [|a [|b s]]; cbn [length] in Hs; try lia. destruct (IH s ltac:(lia)) as (E1 & E2 & E3).
    replace (2 * S j)%nat with (S (S (2 * j))) by lia. replace (3 * S j)%nat with (S (S (S (3 * j)))) by lia.
    cbn [bmmp_inputs]. cbn [Nat.add]. cbn [nth]. auto.
Qed.

Section Rotate.
  Variable N : nat.
  Hypothesis HN : (0 < N)%nat.
  Variable s : list (list Z).
  Let k := length s.
  Hypothesis Hs : rect k N s.
  Variable p : decomp_params.
  Local Notation b := (log_base p).
  Local Notation L := (level_count p).
  Variable nn : nat.
  Hypothesis Hb : 1 <= b < 32.
  Hypothesis Hnn : Z.of_nat nn * b = 32.
  Hypothesis Htot : decomp_total p = 32.
  Hypothesis HL : (1 <= L <= nn)%nat.
  Variable KS : Z.
  Hypothesis HKS : 0 <= KS.
  Hypothesis HKb : forall i, (i < k)%nat -> pbnd N KS (pl N HN (nth i s [])).
  Variable tpu : Z.
  Local Notation P := (pl N HN).
  Local Notation "a ≡ b" := (peq N W32 a b) (at level 70).
  Local Notation "a ⊕ b" := (padd N a b) (at level 50, left associativity).
  Local Notation "a ⊖ b" := (psub N a b) (at level 50, left associativity).
  Local Notation "a ⊗ b" := (pmul N a b) (at level 40, left associativity).
  Local Notation rph := (rph N HN s).
  Local Notation sigma := (sigma N HN s).
  Local Notation mono := (pmono N HN).
  Local Notation rok := (rgsw_ok N HN s p).
  Local Notation enoise := (ext_noise N s p nn KS).
  Add Ring PolyRing3 : (poly_ring N W32 HN).

  Lemma rok_peq M M' E C : M ≡ M' -> rok M E C -> rok M' E C.
  Proof.
    intros H [H1 (e & H2 & H3)]. split; [exact H1|]. exists e. split; [exact H2|]. intros i l Hi Hl. rewrite H3 by assumption. rewrite H. reflexivity.
  Qed.
  Lemma rok_add M M' E E' C C' : rok M E C -> rok M' E' C' -> rok (M ⊕ M') (E + E') (madd3 C C').
  Proof.
    intros [H1 (e & H2 & H3)] [H1' (e' & H2' & H3')]. split; [apply madd3_cube; assumption|].
    exists (fun i l => e i l ⊕ e' i l). split; [intros; apply (pbnd_add N HN); auto|]. intros i l Hi Hl.
    assert (Hr : (i * L + l < S (length s) * L)%nat) by (fold k; nia).
    unfold madd3. rewrite (nth_map2 _ _ _ _ [] []) by (rewrite ?(proj1 H1), ?(proj1 H1'); exact Hr).
    rewrite (rph_madd N HN s) by (eapply cube_nth; eassumption).
    rewrite H3, H3' by assumption. ring.
  Qed.
  Lemma rok_scale M E C d lq : ~ (0 < lq < 32) -> rok M E C -> rok ((mono d ⊖ pone N HN) ⊗ M) (2 * E) (scale_by_x_power_n_minus_1 d C lq).
  Proof.
    intros Hlq [H1 (e & H2 & H3)]. split; [apply scale_cube; exact H1|].
    exists (fun i l => (mono d ⊖ pone N HN) ⊗ e i l). split; [intros; apply amp_mono_minus_1; auto|]. intros i l Hi Hl.
    assert (Hr : (i * L + l < S (length s) * L)%nat) by (fold k; nia).
    unfold scale_by_x_power_n_minus_1. rewrite (nth_map_lt _ _ _ _ []) by (rewrite (proj1 H1); exact Hr).
    rewrite (rph_scale N HN s) by (assumption || (eapply cube_nth; eassumption)).
    rewrite H3 by assumption. ring.
  Qed.

  (** an entry of the bootstrapping key that the external product treats as the matrix C *)
  Definition entry (use_bat : bool) (d : rgsw_data) (C : list (list (list Z))) : Prop :=
    (use_bat = false /\ d = Plain C /\ kernel_exact tpu N k b) \/
    (use_bat = true /\ d = Bat (bat_offline_compile_cggi C) /\ Forall (Forall (Forall word32)) C /\ bat_exact tpu N (S k * L)).

  Lemma ext_value use_bat d C ct : entry use_bat d C -> cube (S k * L) (S k) N C -> rect (S k) N ct ->
    jit_external_product tpu d ct p use_bat = Some (nega_vecmat N (S k) (decompose_rlwe_ciphertext ct p) C).
  Proof.
    intros He HC Hc. pose proof (decompose_rlwe_rect N p ct (S k) Hc) as Hd.
    destruct He as [(-> & -> & Hk) | (-> & -> & Hw & Hk)]; unfold jit_external_product.
    - assert (Hfb : (N mod 128 <> 0)%nat \/ tpu < 5 \/ 8 <= b \/ (b < 8 /\ (S k <= 4)%nat /\ Z.of_nat N * (255 * 2 ^ b) < 2 ^ 24)).
      { unfold kernel_exact in Hk. destruct Hk as [H|[H|[H|H]]]; auto. destruct (Z.lt_ge_cases b 8); auto 6. }
      destruct Hfb as [H|[H|[H|(H & H' & H'')]]].
      1,2,3: apply (vecmat_spec_fallback tpu b (S k * L)); auto; nia.
      apply (vecmat_spec tpu b (S k * L) (S k) N (2 ^ b)); auto; try lia.
      + split; [apply Z.lt_le_incl, pow2_pos; lia|]. apply (Z.pow_lt_mono_r 2 b 8); lia.
      + apply (decompose_rlwe_small N HN p nn) with (m := S k); auto; lia.
    - apply (bat_spec tpu (S k * L)); auto; try lia.
  Qed.

  Lemma step_bmmp M E C acc : rok (M ⊖ pone N HN) E C -> amp N 2 (M ⊖ pone N HN) -> kernel_exact tpu N k b -> rect (S k) N acc ->
    exists acc', match jit_external_product tpu (Plain C) acc p false with None => None | Some x => Some (madd32 acc x) end = Some acc' /\
      rect (S k) N acc' /\ exists err, pbnd N (enoise 2 E) err /\ rph acc' ≡ M ⊗ rph acc ⊕ err.
  Proof.
    intros HC HA Hk Hacc. rewrite (ext_value false (Plain C) C acc); [|left; auto|exact (proj1 HC)|exact Hacc].
    pose proof (nega_vecmat_rect N (S k) (decompose_rlwe_ciphertext acc p) C) as Hr.
    eexists. split; [reflexivity|]. split; [apply madd32_rect; assumption|].
    destruct (external_product_phase N HN s p nn Hb Hnn Htot HL KS HKb _ 2 E C acc HC HA Hacc) as (err & He & Hph).
    exists err. split; [exact He|]. rewrite (rph_madd N HN s) by assumption. fold k in Hph. fold k. rewrite Hph. ring.
  Qed.

  Lemma step_cmux m use_bat d E C a lq acc : m = 0 \/ m = 1 -> rok (pconst N HN m) E C -> entry use_bat d C -> rect (S k) N acc -> ~ (0 < lq < 32) ->
    exists acc', jit_cmux tpu d acc (monomial_mul_list acc a lq) p use_bat = Some acc' /\
      rect (S k) N acc' /\ exists err, pbnd N (enoise 1 E) err /\ rph acc' ≡ mono (a * m) ⊗ rph acc ⊕ err.
  Proof.
    intros Hm HC Hent Hacc Hlq. unfold jit_cmux.
    assert (Hmm : rect (S k) N (monomial_mul_list acc a lq)) by (apply monomial_mul_list_rect; exact Hacc).
    pose proof (msub32_rect _ _ _ _ Hmm Hacc) as Hsub.
    rewrite (ext_value use_bat d C) by (assumption || exact (proj1 HC)).
    pose proof (nega_vecmat_rect N (S k) (decompose_rlwe_ciphertext (msub32 (monomial_mul_list acc a lq) acc) p) C) as Hr.
    eexists. split; [reflexivity|]. split; [apply madd32_rect; assumption|].
    assert (HA : amp N 1 (pconst N HN m)).
    { intros B x Hx. apply (pbnd_le N HN (Z.abs m * B)); [|apply amp_const; exact Hx].
      pose proof (Hx 0) as H0. destruct Hm; subst m; cbn [Z.abs]; lia. }
    destruct (external_product_phase N HN s p nn Hb Hnn Htot HL KS HKb _ 1 E C _ HC HA Hsub) as (err & He & Hph).
    exists err. split; [exact He|]. rewrite (rph_madd N HN s) by assumption. fold k in Hph. fold k. rewrite Hph.
    rewrite (rph_msub N HN s) by assumption. rewrite (rph_monomial N HN s) by assumption.
    destruct Hm; subst m.
    - rewrite pconst_0, Z.mul_0_r. change (mono 0) with (pone N HN). ring.
    - rewrite pconst_1, Z.mul_1_r. ring.
  Qed.

  Lemma loop_phase body (ex : nat -> Z) B n :
    (forall j acc, (j < n)%nat -> rect (S k) N acc ->
       exists acc', body j acc = Some acc' /\ rect (S k) N acc' /\ exists e, pbnd N B e /\ rph acc' ≡ mono (ex j) ⊗ rph acc ⊕ e) ->
    forall init, rect (S k) N init ->
    exists acc, fori n body init = Some acc /\ rect (S k) N acc /\
      exists err, pbnd N (Z.of_nat n * B) err /\ rph acc ≡ mono (zsum n ex) ⊗ rph init ⊕ err.
  Proof.
    intros Hbody init Hinit. induction n as [|n IH].
    - exists init. split; [reflexivity|]. split; [exact Hinit|]. exists (pzero N). split; [apply (pbnd_zero N HN); lia|].
      cbn [zsum]. change (mono 0) with (pone N HN). ring.
    - destruct IH as (acc & H1 & H2 & err & H3 & H4); [intros; apply Hbody; [lia|assumption]|].
      destruct (Hbody n acc ltac:(lia) H2) as (acc' & G1 & G2 & e & G3 & G4).
      exists acc'. cbn [fori]. rewrite H1. split; [exact G1|]. split; [exact G2|].
      exists (mono (ex n) ⊗ err ⊕ e). split.
      + replace (Z.of_nat (S n) * B) with (Z.of_nat n * B + B) by lia. apply (pbnd_add N HN); [apply pbnd_mono_mul; exact H3|exact G3].
      + rewrite G4, H4. cbn [zsum].
        assert (E : mono (zsum n ex + ex n) ≡ mono (zsum n ex) ⊗ mono (ex n)) by (symmetry; apply pexact_peq, pmono_mono).
        rewrite E. ring.
  Qed.

  (** *** the combined BMMP factor *)
  Lemma bmmp_ok (x y a c E lq : Z) C1 C2 C3 : x = 0 \/ x = 1 -> y = 0 \/ y = 1 -> ~ (0 < lq < 32) -> (2 * Z.of_nat N | W32) ->
    rok (pconst N HN (mul32 x y)) E C1 -> rok (pconst N HN (mul32 x (sub32 1 y))) E C2 -> rok (pconst N HN (mul32 (sub32 1 x) y)) E C3 ->
    rok (mono (a * x + c * y) ⊖ pone N HN) (6 * E)
      (madd3 (madd3 (scale_by_x_power_n_minus_1 (add32 a c) C1 lq) (scale_by_x_power_n_minus_1 a C2 lq)) (scale_by_x_power_n_minus_1 c C3 lq)).
  Proof.
    intros Hx Hy Hlq Hdiv H1 H2 H3.
    assert (Hm : mono (add32 a c) ≡ mono (a + c)).
    { apply pmono_congr. apply (Z.divide_trans _ W32); [exact Hdiv|]. apply add32_eqm. }
    replace (6 * E) with (2 * E + 2 * E + 2 * E) by ring.
    eapply rok_peq; [|apply rok_add; [apply rok_add|]; apply rok_scale; eassumption].
    destruct Hx as [->| ->]; destruct Hy as [->| ->];
      change (mul32 0 0) with 0; change (mul32 0 1) with 0; change (mul32 1 0) with 0; change (mul32 1 1) with 1;
      change (sub32 1 1) with 0; change (sub32 1 0) with 1; change (mul32 0 0) with 0; change (mul32 0 1) with 0; change (mul32 1 0) with 0; change (mul32 1 1) with 1;
      rewrite ?pconst_0, ?pconst_1, ?Z.mul_0_r, ?Z.mul_1_r, ?Z.add_0_r, ?Z.add_0_l; rewrite ?Hm.
    - change (mono 0) with (pone N HN). ring.
    - ring.
    - ring.
    - ring.
  Qed.

  Lemma amp_mono1 e : amp N 2 (mono e ⊖ pone N HN).
  Proof. apply amp_mono_minus_1. Qed.

  (** *** blind rotation *)
  Section Bsk.
    Variables (ls : list Z) (Cs : list (list (list (list Z)))) (E : Z).
    Hypothesis Hbin : binary ls.
    Hypothesis Hdiv : (2 * Z.of_nat N | W32).
    Variable lq : Z.
    Hypothesis Hlq : ~ (0 < lq < 32).

    Lemma binary_nth i : nth i ls 0 = 0 \/ nth i ls 0 = 1.
    Proof.
      destruct (Nat.lt_ge_cases i (length ls)) as [H|H]; [|left; apply nth_overflow; exact H].
      unfold binary in Hbin. rewrite Forall_forall in Hbin. apply Hbin, nth_In. exact H.
    Qed.

    Lemma rotate_start rot v : rect (S k) N rot -> rph (monomial_mul_list rot (u32 (- v)) lq) ≡ mono (- v) ⊗ rph rot.
    Proof.
      intros Hrot. rewrite (rph_monomial N HN s) by assumption. apply pmul_mor; [|reflexivity].
      apply pmono_congr. apply (Z.divide_trans _ W32); [exact Hdiv|]. apply u32_eqm.
    Qed.

    Lemma zsum_pairs f h : zsum h (fun j => f (2 * j)%nat + f (2 * j + 1)%nat) = zsum (2 * h) f.
    Proof.
      induction h as [|h IH]; [reflexivity|]. replace (2 * S h)%nat with (S (S (2 * h))) by lia. cbn [zsum]. rewrite IH.
      replace (2 * h + 1)%nat with (S (2 * h)) by lia. lia.
    Qed.

    Lemma phase_split ct : length ct = S (length ls) ->
      - phase ls ct = - nth (length ct - 1) ct 0 + zsum (length ls) (fun i => nth i ct 0 * nth i ls 0).
    Proof.
      intros Hc. unfold phase. rewrite (last_nth _ _ (length ls)) by exact Hc.
      replace (length ct - 1)%nat with (length ls) by lia.
      rewrite (removelast_firstn _ (length ls)) by exact Hc.
      rewrite dotZ_zsum by (rewrite firstn_length; lia). rewrite firstn_length. replace (Nat.min (length ls) (length ct)) with (length ls) by lia.
      rewrite (zsum_ext _ (fun i => nth i (firstn (length ls) ct) 0 * nth i ls 0) (fun i => nth i ct 0 * nth i ls 0)); [ring|].
      intros i Hi. rewrite nth_firstn_lt by exact Hi. reflexivity.
    Qed.

    Theorem blind_rotate_bmmp rot ct : Nat.even (length ls) = true -> kernel_exact tpu N k b ->
      length Cs = (3 * (length ls / 2))%nat ->
      (forall j, (j < length Cs)%nat -> rok (pconst N HN (nth j (bmmp_inputs ls) 0)) E (nth j Cs [])) ->
      rect (S k) N rot -> length ct = S (length ls) ->
      exists out, jit_blind_rotate tpu rot ct (map Plain Cs) lq p true false = Some out /\ rect (S k) N out /\
        exists err, pbnd N (Z.of_nat (length ls / 2) * enoise 2 (6 * E)) err /\ rph out ≡ mono (- phase ls ct) ⊗ rph rot ⊕ err.
    Proof.
      intros Hev Hk HCs HC Hrot Hct. unfold jit_blind_rotate. cbv zeta.
      replace ((length ct - 1) / 2)%nat with (length ls / 2)%nat by (f_equal; lia).
      set (h := (length ls / 2)%nat) in *.
      assert (Hh : length ls = (2 * h)%nat). { apply Nat.even_spec in Hev. destruct Hev as [x Hx]. unfold h. rewrite Hx. rewrite Nat.mul_comm, Nat.div_mul by lia. lia. }
      destruct (loop_phase (one_external_product tpu ct (map Plain Cs) lq p true false)
                  (fun j => nth (2 * j) ct 0 * nth (2 * j) ls 0 + nth (2 * j + 1) ct 0 * nth (2 * j + 1) ls 0) (enoise 2 (6 * E)) h)
        with (init := monomial_mul_list rot (u32 (- nth (length ct - 1) ct 0)) lq) as (out & H1 & H2 & err & H3 & H4).
      - intros j acc Hj Hacc. unfold one_external_product. rewrite map_map. cbn [plain_of]. rewrite map_id.
        apply step_bmmp; auto; [|apply amp_mono1]. unfold bmmp_factor. cbv zeta.
        destruct (bmmp_inputs_nth ls j ltac:(lia)) as (E1 & E2 & E3).
        apply bmmp_ok; auto using binary_nth.
        + rewrite <- E1. apply HC. lia.
        + rewrite <- E2. apply HC. lia.
        + rewrite <- E3. apply HC. lia.
      - apply monomial_mul_list_rect. exact Hrot.
      - exists out. split; [exact H1|]. split; [exact H2|]. exists err. split; [exact H3|].
        rewrite H4, rotate_start by exact Hrot. rewrite (phase_split ct Hct). rewrite Hh.
        rewrite (zsum_pairs (fun i => nth i ct 0 * nth i ls 0)).
        set (u := zsum _ _). set (w := - nth (length ct - 1) ct 0).
        assert (Em : mono (w + u) ≡ mono w ⊗ mono u) by (symmetry; apply pexact_peq, pmono_mono).
        rewrite Em. ring.
    Qed.

    Theorem blind_rotate_plain rot ct use_bat ds : length Cs = length ls -> length ds = length ls ->
      (forall j, (j < length ls)%nat -> rok (pconst N HN (nth j ls 0)) E (nth j Cs []) /\ entry use_bat (nth j ds (Plain [])) (nth j Cs [])) ->
      rect (S k) N rot -> length ct = S (length ls) ->
      exists out, jit_blind_rotate tpu rot ct ds lq p false use_bat = Some out /\ rect (S k) N out /\
        exists err, pbnd N (Z.of_nat (length ls) * enoise 1 E) err /\ rph out ≡ mono (- phase ls ct) ⊗ rph rot ⊕ err.
    Proof.
      intros HCs Hds HC Hrot Hct. unfold jit_blind_rotate. cbv zeta.
      replace (length ct - 1)%nat with (length ls) by lia.
      destruct (loop_phase (one_external_product tpu ct ds lq p false use_bat)
                  (fun j => nth j ct 0 * nth j ls 0) (enoise 1 E) (length ls))
        with (init := monomial_mul_list rot (u32 (- nth (length ls) ct 0)) lq) as (out & H1 & H2 & err & H3 & H4).
      - intros j acc Hj Hacc. unfold one_external_product. destruct (HC j Hj) as [G1 G2].
        apply (step_cmux (nth j ls 0) use_bat _ E (nth j Cs [])); auto using binary_nth.
      - apply monomial_mul_list_rect. exact Hrot.
      - exists out. split; [exact H1|]. split; [exact H2|]. exists err. split; [exact H3|].
        rewrite H4, rotate_start by exact Hrot. rewrite (phase_split ct Hct). replace (length ct - 1)%nat with (length ls) by lia.
        set (u := zsum _ _). set (w := - nth (length ls) ct 0).
        assert (Em : mono (w + u) ≡ mono w ⊗ mono u) by (symmetry; apply pexact_peq, pmono_mono).
        rewrite Em. ring.
    Qed.
  End Bsk.

  (** *** sample extraction *)
  Lemma extract_row row : length row = N ->
    let ex := map2 (fun c v => u32 (c * v)) (map (fun i => if (0 <? i)%nat then -1 else 1) (seq 0 N)) (rev (roll (-1) row)) in
    length ex = N /\ forall t, (t < N)%nat -> nth t ex 0 == ext N row (- Z.of_nat t) [mod W32].
  Proof.
    clear - HN. intros Hr ex. assert (Hl : length ex = N).
    { unfold ex. rewrite map2_length, map_seq_length, rev_length, roll_length. lia. }
    split; [exact Hl|]. intros t Ht. unfold ex.
    rewrite (nth_map2 _ _ _ _ 0 0) by (rewrite ?map_seq_length, ?rev_length, ?roll_length; lia).
    rewrite nth_map_seq by exact Ht. rewrite rev_nth by (rewrite roll_length; lia). rewrite roll_length, Hr.
    rewrite roll_nth by lia. rewrite Hr, u32_eqm. unfold ext. apply eqm_eq.
    replace (Z.of_nat (N - S t) - -1) with (Z.of_nat N - Z.of_nat t) by lia.
    replace (- Z.of_nat t) with (Z.of_nat N - Z.of_nat t + (-1) * Z.of_nat N) by lia. rewrite Z.mod_add, Z.div_add by lia.
    destruct t as [|t].
    - cbn [Nat.ltb Nat.leb]. change (Z.of_nat 0) with 0. rewrite Z.sub_0_r, Z_div_same_full by lia. change (Z.even (1 + -1)) with true. cbv iota. ring.
    - replace (0 <? S t)%nat with true by reflexivity. rewrite Z.div_small by lia. change (Z.even (0 + -1)) with false. cbv iota. ring.
  Qed.

  Theorem sample_extract_phase ct : rect (S k) N ct ->
    phase (concat s) (jit_sample_extract ct N) == fn (rph ct) 0 [mod W32] /\ length (jit_sample_extract ct N) = S (k * N).
  Proof.
    clear - HN Hs k. intros Hc. unfold jit_sample_extract. cbv zeta.
    set (g := fun row => map2 (fun c v => u32 (c * v)) (map (fun i => if (0 <? i)%nat then -1 else 1) (seq 0 N)) (rev (roll (-1) row))).
    pose proof (rect_length _ _ _ Hc) as Hlc.
    assert (HF : Forall (fun r => length r = N) (map g (removelast ct))).
    { apply Forall_map. rewrite (removelast_firstn _ k) by exact Hlc. eapply Forall_impl; [|apply Forall_firstn, (rect_Forall _ _ _ Hc)].
      intros r Hr. apply (extract_row r Hr). }
    assert (HR : length (removelast ct) = k) by (rewrite (removelast_firstn _ k) by exact Hlc; rewrite firstn_length; lia).
    assert (HLc : length (concat (map g (removelast ct))) = (k * N)%nat).
    { rewrite (concat_const_length _ N HF), map_length, HR. reflexivity. }
    split; [|rewrite app_length, HLc; cbn [length]; lia].
    unfold phase. rewrite last_last, removelast_last.
    assert (HLs : length (concat s) = (k * N)%nat) by (rewrite (concat_const_length _ N (rect_Forall _ _ _ Hs)); reflexivity).
    rewrite dotZ_zsum by lia. rewrite HLc, zsum_block.
    rewrite (rph_unfold N HN s ct 0). fold k. cbn [fn psub pl]. rewrite psum_fn.
    replace 0 with (Z.of_nat 0) at 7 by reflexivity.
    rewrite (last_nth _ _ k) by exact Hlc.
    assert (E0 : ext N (nth k ct []) 0 = nth 0 (nth k ct []) 0) by (change 0 with (Z.of_nat 0) at 1; apply ext_nat; exact HN).
    rewrite E0. match goal with |- ?u - ?v == _ - ?w [mod _] => assert (EE : v == w [mod W32]); [|rewrite EE; reflexivity] end. apply eqm_zsum. intros i Hi.
    cbn [fn pmul pl]. rewrite conv_comm by (apply ext_antiper; exact HN). unfold conv. apply eqm_zsum. intros t Ht.
    rewrite (nth_concat_const _ N) by (assumption || (rewrite map_length; lia)).
    rewrite (nth_map_lt _ _ _ _ []) by lia.
    rewrite (removelast_firstn _ k) by exact Hlc. rewrite nth_firstn_lt by exact Hi.
    rewrite (nth_concat_const s N) by (assumption || lia || apply (rect_Forall _ _ _ Hs)).
    destruct (extract_row (nth i ct []) (rect_nth (S k) N ct i Hc ltac:(lia))) as [_ Hx].
    unfold g. rewrite (Hx t Ht). rewrite ext_nat by exact Ht. apply eqm_eq. change (0 - Z.of_nat t) with (- Z.of_nat t). ring.
  Qed.
End Rotate.
