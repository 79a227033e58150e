(** C36: switching a ciphertext to another key; relinearisation is in Prop_mul.v. *)
From Coq Require Import ZArith Znumtheory List Bool Lia Permutation.
From Verif Require Import Base.ZSum Base.Modeq Base.Nega Base.Powm Base.Lists Base.Word Base.Fermat Base.Crt Base.PrimeCheck.
From Verif Require Import Ckks.Model_rns_utils Ckks.Model_ntt_cpu Ckks.Model_barrett Ckks.Spec_barrett Ckks.Model_scheme Ckks.Model_ntt Ckks.Model_auto Ckks.Model_addmul Ckks.Model_basis Ckks.Model_rescale Ckks.Model_plan Ckks.Model_keyswitch Ckks.Spec_ntt Ckks.Spec_poly Ckks.Spec_keyswitch.
From Verif Require Import Ckks.Proof_ntt_cpu Ckks.Proof_transform Ckks.Prop_crt Ckks.Prop_barrett Ckks.Prop_ntt_cpu Ckks.Proof_slots Ckks.Proof_ntt_accel Ckks.Prop_ntt_accel Ckks.Proof_basis Ckks.Prop_basis Ckks.Proof_encrypt Ckks.Prop_plan Ckks.Prop_keys Ckks.Prop_auto Ckks.Prop_rescale Ckks.Proof_keyswitch Ckks.Proof_moddown Ckks.Proof_ksk Ckks.Proof_auto Ckks.Proof_autohom.
Import ListNotations.
Local Open Scope Z_scope.

Lemma extend_ok L ms tgt sk s : scheme_moduli L ms -> scheme_moduli L tgt -> firstn (length ms) tgt = ms -> length s = (2 ^ L)%nat ->
  Forall (fun c => 0 <= c < nth 0 ms 0) s -> sk_moduli sk = ms -> slots L ms (sk_data sk) (fun _ => s) ->
  exists ext, extend_secret_key sk tgt = Some ext /\ sk_moduli ext = tgt /\ slots L tgt (sk_data ext) (fun _ => s).
Proof.
  intros HS HT HP Hs Hr MS SS. pose proof (scheme_adm L ms HS) as HA. pose proof (scheme_adm L tgt HT) as HAT.
  unfold extend_secret_key. rewrite MS, HP, list_eqb_refl. cbn [negb]. rewrite (intt_poly_slots L ms HA _ _ SS).
  assert (N : (0 < length ms)%nat) by (destruct HS as [N _]; destruct ms; [contradiction | cbn; lia]).
  assert (E0 : nth_error (map (fun i => poly_mod (nth i ms 0) s) (seq 0 (length ms))) 0 = Some s).
  { destruct (length ms) as [|k] eqn:EL; [lia |]. cbn [seq map nth_error]. f_equal. apply poly_mod_small. exact Hr. }
  rewrite E0. destruct (ntt_poly_slots L tgt HAT (map (fun _ => s) tgt)) as (X & EX & SX).
  - apply map_length.
  - intros i Hi. rewrite (nth_map_lt _ _ _ _ 0) by exact Hi. exact Hs.
  - rewrite EX. eexists. split; [reflexivity |]. cbn [sk_moduli sk_data]. split; [reflexivity |].
    eapply slots_ext; [| exact SX]. intros i Hi. cbn beta. rewrite (nth_map_lt _ _ _ _ 0) by exact Hi. reflexivity.
Qed.

Lemma group_pick q p dnum t : (0 < dnum)%nat -> pick 0 (q ++ p) (part_indices (length q) dnum t) = digit_group q dnum t.
Proof.
  intros Hd. unfold digit_group, part_indices. set (alpha := ceil_div (length q) dnum). set (s := (t * alpha)%nat).
  replace (Nat.min ((t + 1) * alpha) (length q) - s)%nat with (Nat.min alpha (length q - s)) by (unfold s; nia).
  assert (G : forall k s', (s' + k <= length q)%nat -> map (fun i => nth i (q ++ p) 0) (seq s' k) = firstn k (skipn s' q)).
  { induction k as [|k IH]; intros s' H; [reflexivity |]. cbn [seq map]. rewrite IH by lia. rewrite app_nth1 by lia.
    assert (ES : skipn s' q = nth s' q 0 :: skipn (S s') q).
    { clear - H. revert s' H. induction q as [|x l IHl]; intros s' H; [cbn in H; lia |]. destruct s' as [|s']; [reflexivity |]. cbn [skipn nth]. apply IHl. cbn in H. lia. }
    rewrite ES. reflexivity. }
  unfold pick. destruct (Nat.le_gt_cases s (length q)) as [C | C].
  - rewrite G by lia. rewrite <- (firstn_all (skipn s q)) at 2. rewrite skipn_length, firstn_firstn. reflexivity.
  - replace (length q - s)%nat with 0%nat by lia. rewrite Nat.min_0_r. rewrite skipn_all2 by lia. rewrite firstn_nil. reflexivity.
Qed.
Lemma group_length q dnum t : (0 < dnum)%nat -> length (part_indices (length q) dnum t) = length (digit_group q dnum t).
Proof. intros Hd. rewrite <- (group_pick q [] dnum t Hd). unfold pick. rewrite map_length. reflexivity. Qed.
Lemma setting_nonempty q dnum : (0 < dnum)%nat -> (forall t, (t < dnum)%nat -> digit_group q dnum t <> []) -> ((dnum - 1) * ceil_div (length q) dnum < length q)%nat.
Proof.
  intros Hd H. specialize (H (dnum - 1)%nat ltac:(lia)). destruct (Nat.le_gt_cases (length q) ((dnum - 1) * ceil_div (length q) dnum)) as [C | C]; [| exact C].
  exfalso. apply H. unfold digit_group. rewrite skipn_all2 by exact C. apply firstn_nil.
Qed.

Lemma plans_constants ms plans bc start k (src tgt : nat -> list nat) : basis_precompute_constants ms plans = Some bc ->
  firstn k (skipn start plans) = map (fun t => (src t, tgt t)) (seq 0 k) -> (forall t, (t < k)%nat -> Forall (fun i => (i < length ms)%nat) (src t) /\ Forall (fun i => (i < length ms)%nat) (tgt t)) ->
  forall t, (t < k)%nat -> exists c, nth_error bc (start + t) = Some c /\ basis_precompute (pick 0 ms (src t)) (pick 0 ms (tgt t)) = Some c.
Proof.
  intros EB EP HR t Ht. unfold basis_precompute_constants in EB.
  assert (LS : (start + t < length plans)%nat).
  { assert (X : length (firstn k (skipn start plans)) = k) by (rewrite EP, map_length, seq_length; reflexivity). rewrite firstn_length, skipn_length in X. lia. }
  assert (EN : nth (start + t) plans ([], []) = (src t, tgt t)).
  { assert (X : nth t (firstn k (skipn start plans)) ([], []) = (src t, tgt t)) by (rewrite EP, nth_map_seq by exact Ht; reflexivity).
    rewrite <- X. rewrite nth_firstn_lt by exact Ht. rewrite nth_skipn. reflexivity. }
  destruct (sequence_opt_nth _ _ {| bs_q_hat_inv_mod_q := []; bs_q_hat_mod_p_bat := []; bs_origin_barrett := []; bs_target_barrett := [] |} EB) as [LN HN].
  rewrite map_length in LN, HN. specialize (HN _ LS). rewrite (nth_map_lt _ _ _ _ ([], [])) in HN by exact LS. rewrite EN in HN. cbn [fst snd] in HN. destruct (HR t Ht) as [R1 R2].
  rewrite !select_total in HN by assumption. eexists. split; [apply nth_error_nth'; lia | exact HN].
Qed.

Section Core.
  Variables (lr lc : nat) (q p : list Z) (dnum : nat).
  Let QP := q ++ p.
  Let L := (lr + lc)%nat.
  Let n := (2 ^ L)%nat.
  Hypothesis HS : switch_setting lr lc q p dnum.

  Lemma core_q_moduli : scheme_moduli L q /\ scheme_moduli L QP.
  Proof. destruct HS as (NQ & NP & Hd & HG & HM & HC & HK & HT). split; [apply (q_scheme lr lc q p HM NQ) | apply (qp_scheme lr lc q p HM HC NQ)]. Qed.

  Lemma switcher_exists : exists sw, key_switcher_precompute q p dnum (2 ^ lr) (2 ^ lc) = Some sw.
  Proof.
    destruct HS as (NQ & NP & Hd & HG & HM & HC & HK & HT). unfold key_switcher_precompute. destruct (Nat.eqb_spec dnum 0); [lia |]. fold QP.
    assert (K : forall idx, idx <> [] -> Forall (fun i => (i < length QP)%nat) idx -> ntt_kernel (pick 0 QP idx) (2 ^ lr) (2 ^ lc) <> None).
    { intros idx NE F. destruct idx as [|i idx]; [contradiction |]. cbn [pick map]. unfold ntt_kernel.
      destruct (kernel_exists lr lc (pick 0 QP (i :: idx))) as (k & EK); [apply pick_Forall; [exact HM | exact F] |]. cbn [pick map] in EK. unfold pick. rewrite EK. discriminate. }
    assert (LQP : length QP = (length q + length p)%nat) by (unfold QP; apply app_length).
    destruct (sequence_opt_total (map (fun i => ntt_kernel (pick 0 QP (part_indices (length q) dnum i)) (2 ^ lr) (2 ^ lc)) (seq 0 dnum))) as (kq & ->).
    { intros o Ho. apply in_map_iff in Ho. destruct Ho as (t & <- & Ht). apply in_seq in Ht. apply K.
      - intros X. apply (HG t ltac:(lia)). rewrite <- (group_pick q [] dnum t Hd), X. reflexivity.
      - eapply Forall_impl; [| apply (ins_range lr lc); exact Hd]. cbv beta. intros z Hz. lia. }
    destruct (sequence_opt_total (map (fun i => ntt_kernel (pick 0 QP (not_in (length QP) (part_indices (length q) dnum i))) (2 ^ lr) (2 ^ lc)) (seq 0 dnum))) as (ko & ->).
    { intros o Ho. apply in_map_iff in Ho. destruct Ho as (t & <- & Ht). apply in_seq in Ht. apply K.
      - assert (I : In (length q) (not_in (length QP) (part_indices (length q) dnum t))).
        { unfold not_in. apply filter_In. split; [apply in_seq; destruct p; [contradiction | cbn in LQP; lia] |]. rewrite (ins_outside lr lc) by lia. reflexivity. }
        intros X. rewrite X in I. contradiction.
      - apply Forall_forall. intros i Hi. unfold not_in in Hi. apply filter_In in Hi. destruct Hi as [Hi _]. apply in_seq in Hi. lia. }
    eexists. reflexivity.
  Qed.

  Lemma switch_core source dest s' s draws e B plans bc start ct c0 c1 :
    length s' = n -> slots L q (sk_data source) (fun _ => s') ->
    length s = n -> Forall (fun c => 0 <= c < nth 0 q 0) s -> sk_moduli dest = q -> slots L q (sk_data dest) (fun _ => s) ->
    0 <= B -> (forall t, (t < dnum)%nat -> uniform_sample n QP (fst (draws t)) /\ snd (draws t) = residue_array (e t) QP /\ length (e t) = n /\ poly_bound B (e t)) ->
    basis_precompute_constants QP plans = Some bc -> firstn dnum (skipn start plans) = switch_plans (length q) (length p) dnum ->
    ct_moduli ct = q -> length (ct_data ct) = 2%nat -> slots L q (nth 0 (ct_data ct) []) (fun _ => c0) -> slots L q (nth 1 (ct_data ct) []) (fun _ => c1) ->
    exists ext ksk sw ct' f0 f1 noise, extend_secret_key dest QP = Some ext /\ sk_moduli ext = QP /\ slots L QP (sk_data ext) (fun _ => s) /\
      gen_key_switching_key source dest q p dnum draws None = Some ksk /\ key_switcher_precompute q p dnum (2 ^ lr) (2 ^ lc) = Some sw /\
      key_switch sw ct ksk p bc (Some (precompute_constants QP)) start = Some ct' /\ ct_moduli ct' = QP /\ length (ct_data ct') = 2%nat /\
      slots L QP (nth 0 (ct_data ct') []) f0 /\ slots L QP (nth 1 (ct_data ct') []) f1 /\ length noise = n /\ poly_bound (switch_noise n q dnum B) noise /\
      forall i, (i < length QP)%nat -> poly_mod (nth i QP 0) (poly_add (f0 i) (poly_mul (f1 i) s)) =
        poly_mod (nth i QP 0) (poly_add (poly_scale (lprod p) (poly_add c0 (poly_mul c1 s'))) noise).
  Proof.
    intros Ls' SS Ls Hr MD SD HB HD EB EP EM LD S0 S1. destruct core_q_moduli as [HQ HQP]. pose proof HS as (NQ & NP & Hd & HG & HM & HC & HK & HT).
    assert (Lq : (0 < length q)%nat) by (destruct q; [contradiction | cbn; lia]). assert (LQP : length QP = (length q + length p)%nat) by (unfold QP; apply app_length).
    assert (L0 : length c0 = n) by (apply (proj2 S0 0%nat Lq)). assert (L1 : length c1 = n) by (apply (proj2 S1 0%nat Lq)).
    destruct (extend_ok L q QP dest s HQ HQP) as (ext & EX & MX & SX); try assumption. { unfold QP. apply firstn_app_exact. }
    destruct (gen_ksk_ok lr lc q p HM HC NQ dnum Hd source dest ext s' s draws e None SS EX SX) as (ksk & EK & _ & LA & LB & HKS).
    { intros t Ht. destruct (HD t Ht) as (X1 & X2 & X3 & _). split; [exact X1 | split; assumption]. }
    destruct switcher_exists as (sw & ESW).
    assert (DC : exists C0 C1, ct_data ct = [C0; C1]) by (destruct (ct_data ct) as [|C0 [|C1 [|]]]; try discriminate; eauto). destruct DC as (C0 & C1 & EC). rewrite EC in S0, S1. cbn [nth] in S0, S1.
    pose proof (plans_constants QP plans bc start dnum (part_indices (length q) dnum) (fun t => not_in (length QP) (part_indices (length q) dnum t)) EB) as BC.
    destruct (key_switch_ok lr lc q p HM HC NQ dnum Hd (setting_nonempty q dnum Hd HG) HK HT sw bc start ksk ct C0 C1 c0 c1 (fun t i => nth i (fst (draws t)) [])
      (fun t i => poly_sub (poly_add (e t) (poly_scale (if existsb (Nat.eqb i) (part_indices (length q) dnum t) then lprod p else 0) s')) (poly_mul (nth i (fst (draws t)) []) s)) ESW) as (ct' & D & ES & HDg & EM' & LD' & T0 & T1); try assumption.
    { apply BC.
      - rewrite EP. unfold switch_plans. apply map_ext. intros t. rewrite LQP. reflexivity.
      - intros t Ht. split.
        + eapply Forall_impl; [| apply (ins_range lr lc); exact Hd]. cbv beta. intros z Hz. lia.
        + apply Forall_forall. intros i Hi. unfold not_in in Hi. apply filter_In in Hi. destruct Hi as [Hi _]. apply in_seq in Hi. lia. }
    exists ext, ksk, sw, ct'. eexists _, _. exists (poly_sum n dnum (fun t => poly_mul (D t) (e t))).
    split; [exact EX |]. split; [exact MX |]. split; [exact SX |]. split; [exact EK |]. split; [exact ESW |]. split; [exact ES |]. split; [exact EM' |]. split; [exact LD' |].
    split; [exact T0 |]. split; [exact T1 |]. split; [apply poly_sum_length |]. split.
    - unfold switch_noise. apply poly_sum_bound. intros t Ht. destruct (HDg t Ht) as [LDt _]. split; [rewrite poly_mul_length; lia |].
      destruct (HD t Ht) as (_ & _ & Let & Bt). rewrite <- (group_pick q p dnum t Hd).
      replace (Z.of_nat n) with (Z.of_nat (length (D t))) by (rewrite LDt; lia). unfold pick at 1. rewrite map_length.
      apply poly_bound_mul; [lia | | exact Bt]. apply (digit_bound _ _ c1); [| apply (HDg t Ht)]. apply lprod_pos.
      apply pick_Forall; [apply HC |]. eapply Forall_impl; [| apply (ins_range lr lc); exact Hd]. cbv beta. intros z Hz. fold QP. lia.
    - intros i Hi. apply (switch_equation lr lc q p HM HC NQ dnum Hd dnum (fun t i => nth i (fst (draws t)) [])); try assumption.
      { intros x Hx. apply (owner_lt lr lc q p HM HC NQ dnum Hd x Hx). }
      intros t Ht. destruct (HD t Ht) as (U & _ & Let & _). split; [exact Let |]. destruct (uniform_cols _ _ _ U) as [_ CU]. apply CU. exact Hi.
  Qed.
End Core.

(** C36.  Key switching, in terms of polynomials with integer coefficients.  [evaluation_form moduli a A]: the stored array A
    is the transform of the residues of a.  For every ciphertext (c0, c1) over the primes q, source secret s', destination
    secret s, randomness (uniform masks, errors of size at most B) and number of digits, the key can be generated and the
    switched ciphertext decrypts under the destination secret, over all primes q and p, to P*(c0 + c1*s') plus a noise of size
    at most switch_noise.  Partial: [switch_setting] restricts the primes and the number of digits (below: with an empty
    digit the switcher cannot be built, C36_empty_digit_rejected) and the destination secret must have coefficients in
    [0, q_0), what the two key generators produce (C38). *)
Theorem C36_key_switch_partial : forall lr lc q p dnum source dest s' s draws e B plans bc start ct c0 c1,
  let n := (2 ^ (lr + lc))%nat in
  switch_setting lr lc q p dnum ->
  length s' = n -> evaluation_form q s' (sk_data source) ->
  length s = n -> Forall (fun c => 0 <= c < nth 0 q 0) s -> sk_moduli dest = q -> evaluation_form q s (sk_data dest) ->
  0 <= B -> (forall t, (t < dnum)%nat -> uniform_sample n (q ++ p) (fst (draws t)) /\ snd (draws t) = residue_array (e t) (q ++ p) /\ length (e t) = n /\ poly_bound B (e t)) ->
  basis_precompute_constants (q ++ p) plans = Some bc -> firstn dnum (skipn start plans) = switch_plans (length q) (length p) dnum ->
  length c0 = n -> length c1 = n -> ct_moduli ct = q -> Forall2 (evaluation_form q) [c0; c1] (ct_data ct) ->
  exists ext ksk sw ct' noise,
    extend_secret_key dest (q ++ p) = Some ext /\ gen_key_switching_key source dest q p dnum draws None = Some ksk /\
    key_switcher_precompute q p dnum (2 ^ lr) (2 ^ lc) = Some sw /\
    key_switch sw ct ksk p bc (Some (precompute_constants (q ++ p))) start = Some ct' /\
    decrypt ext ct' = Some {| pt_data := residue_array (poly_add (poly_scale (lprod p) (poly_add c0 (poly_mul c1 s'))) noise) (q ++ p); pt_moduli := q ++ p |} /\
    length noise = n /\ poly_bound (switch_noise n q dnum B) noise.
Proof.
  intros lr lc q p dnum source dest s' s draws e B plans bc start ct c0 c1 n HS Ls' ES' Ls Hr MD ED HB HD EB EP L0 L1 EM HE.
  destruct (core_q_moduli lr lc q p dnum HS) as [HQ HQP]. pose proof (scheme_adm _ _ HQ) as HA.
  assert (DC : exists C0 C1, ct_data ct = [C0; C1] /\ evaluation_form q c0 C0 /\ evaluation_form q c1 C1).
  { clear - HE. inversion HE as [|? C0 ? ? X1 X2 X3 X4]; subst. inversion X2 as [|? C1 ? ? Y1 Y2 Y3 Y4]; subst. inversion Y2; subst. exists C0, C1. repeat split; assumption. }
  destruct DC as (C0 & C1 & EC & E0 & E1). apply (evaluation_slots _ _ _ _ HA Ls') in ES'. apply (evaluation_slots _ _ _ _ HA Ls) in ED.
  apply (evaluation_slots _ _ _ _ HA L0) in E0. apply (evaluation_slots _ _ _ _ HA L1) in E1.
  destruct (switch_core lr lc q p dnum HS source dest s' s draws e B plans bc start ct c0 c1) as (ext & ksk & sw & ct' & f0 & f1 & noise & X1 & X2 & X3 & X4 & X5 & X6 & X7 & X8 & X9 & X10 & X11 & X12 & X13); try assumption.
  { rewrite EC. reflexivity. } { rewrite EC. exact E0. } { rewrite EC. exact E1. }
  exists ext, ksk, sw, ct', noise. split; [exact X1 |]. split; [exact X4 |]. split; [exact X5 |]. split; [exact X6 |]. split; [| split; assumption].
  assert (LP : (0 < length (q ++ p))%nat) by (destruct HQP as [N _]; destruct (q ++ p); [contradiction | cbn; lia]).
  assert (EF : firstn (length (q ++ p)) (q ++ p) = q ++ p) by apply firstn_all.
  rewrite (decrypt_ok (lr + lc) (q ++ p) (length (q ++ p)) ext ct' s f0 f1); try assumption; try lia.
  - rewrite EF. f_equal. f_equal. rewrite <- residues_of_map. apply map_ext_in. intros i Hi. apply in_seq in Hi. apply X13. lia.
  - rewrite EF. exact X7.
  - rewrite EF. exact X9.
  - rewrite EF. exact X10.
Qed.
Print Assumptions C36_key_switch_partial.

(** the noise left by a key switch followed by the division by P *)
Definition switched_error (n : nat) (q p : list Z) (dnum : nat) (B S : Z) (err : list Z) : Prop :=
  length err = n /\ Forall (fun x => lprod p * Z.abs x <= switch_noise n q dnum B + (lprod p - 1) * (1 + Z.of_nat n * S)) err.

Lemma switch_and_rescale lr lc q p dnum source dest s' s draws e B S plans bc start ct c0 c1 :
  let n := (2 ^ (lr + lc))%nat in
  switch_setting lr lc q p dnum -> ForallOrdPairs (fun q later => later <= 2 * q + 1) (q ++ p) ->
  length s' = n -> slots (lr + lc) q (sk_data source) (fun _ => s') ->
  length s = n -> Forall (fun c => 0 <= c < nth 0 q 0) s -> poly_bound S s -> 0 <= S -> sk_moduli dest = q -> slots (lr + lc) q (sk_data dest) (fun _ => s) ->
  0 <= B -> (forall t, (t < dnum)%nat -> uniform_sample n (q ++ p) (fst (draws t)) /\ snd (draws t) = residue_array (e t) (q ++ p) /\ length (e t) = n /\ poly_bound B (e t)) ->
  basis_precompute_constants (q ++ p) plans = Some bc -> firstn dnum (skipn start plans) = switch_plans (length q) (length p) dnum ->
  ct_moduli ct = q -> length (ct_data ct) = 2%nat -> slots (lr + lc) q (nth 0 (ct_data ct) []) (fun _ => c0) -> slots (lr + lc) q (nth 1 (ct_data ct) []) (fun _ => c1) ->
  exists ksk sw kernel mid ct' err,
    gen_key_switching_key source dest q p dnum draws None = Some ksk /\ key_switcher_precompute q p dnum (2 ^ lr) (2 ^ lc) = Some sw /\
    rescale_precompute (q ++ p) (length p) (2 ^ lr) (2 ^ lc) = Some kernel /\
    key_switch sw ct ksk p bc (Some (precompute_constants (q ++ p))) start = Some mid /\ rescale (Some kernel) mid = Some ct' /\
    decrypt dest ct' = Some {| pt_data := residue_array (poly_add (poly_add c0 (poly_mul c1 s')) err) q; pt_moduli := q |} /\ switched_error n q p dnum B S err.
Proof.
  intros n HS HR Ls' ES' Ls Hr BS HS0 MD ED HB HD EB EP EM LD S0 S1. destruct (core_q_moduli lr lc q p dnum HS) as [HQ HQP]. pose proof HS as (NQ & NP & Hd & HG & HM & HC & HK & HT).
  assert (Lq : (0 < length q)%nat) by (destruct q; [contradiction | cbn; lia]). assert (L0 : length c0 = n) by (apply (proj2 S0 0%nat Lq)).
  destruct (switch_core lr lc q p dnum HS source dest s' s draws e B plans bc start ct c0 c1) as (ext & ksk & sw & mid & f0 & f1 & noise & X1 & X2 & X3 & X4 & X5 & X6 & X7 & X8 & X9 & X10 & X11 & X12 & X13); try assumption.
  assert (EQP : q ++ rev (rev p) = q ++ p) by (rewrite rev_involutive; reflexivity).
  destruct (C35_rescale_partial lr lc q (rev p) [] {| ct_data := []; ct_moduli := [] |}) as (kernel & _ & EK & _).
  { exact NQ. } { intros X. apply (f_equal (@rev Z)) in X. rewrite rev_involutive in X. cbn in X. contradiction. }
  { rewrite EQP. exact HM. } { rewrite EQP. exact HC. } { rewrite EQP. exact HR. } { constructor. }
  rewrite EQP, rev_length in EK. set (m := poly_add c0 (poly_mul c1 s')) in *. assert (Lm : length m = n) by (unfold m; rewrite poly_add_length; exact L0).
  destruct (mod_down_ok lr lc q p HM HC NQ NP HR kernel mid f0 f1 s m noise S) as (ct' & y0 & y1 & err & Y1 & Y2 & Y3 & Y4 & Y5 & Y6 & Y7 & Y8); try assumption.
  exists ksk, sw, kernel, mid, ct', err. split; [exact X4 |]. split; [exact X5 |]. split; [exact EK |]. split; [exact X6 |]. split; [exact Y1 |]. split.
  - assert (EF : firstn (length q) q = q) by apply firstn_all.
    rewrite (decrypt_ok (lr + lc) q (length q) dest ct' s (fun _ => y0) (fun _ => y1)); try assumption; try lia.
    + rewrite EF. f_equal. f_equal. rewrite <- residues_of_map. apply map_ext_in. intros i Hi. apply in_seq in Hi. apply Y7. lia.
    + rewrite EF. exact Y2.
    + rewrite EF. exact Y4.
    + rewrite EF. exact Y5.
  - split; [exact Y6 |]. apply Forall_forall. intros x Hx. apply (In_nth _ _ 0) in Hx. destruct Hx as (j & Hj & <-). change (nth j err 0) with (co err j).
    change (length err = n) in Y6. rewrite Y6 in Hj. specialize (Y8 j Hj). pose proof (poly_bound_co _ noise j X12) as BN. change (length noise = n) in X11. rewrite X11 in BN. specialize (BN Hj).
    assert (PP : 0 < lprod p) by (apply lprod_pos; destruct HC as [X _]; rewrite Forall_app in X; apply X).
    fold n in BN. change (2 ^ (lr + lc))%nat with n in Y8. rewrite <- (Z.abs_eq (lprod p)) at 1 by lia. rewrite <- Z.abs_mul. lia.
Qed.

(** C36, over the original primes: key switching followed by the division by P (rescale with one step per auxiliary prime)
    decrypts under the destination key itself to c0 + c1*s' plus an error of size about switch_noise/P + 1 + n*S.  Partial:
    as above, and the later primes must not exceed 2q + 1 for an earlier prime q (C35). *)
Theorem C36_switch_partial : forall lr lc q p dnum source dest s' s draws e B S plans bc start ct c0 c1,
  let n := (2 ^ (lr + lc))%nat in
  switch_setting lr lc q p dnum -> ForallOrdPairs (fun q later => later <= 2 * q + 1) (q ++ p) ->
  length s' = n -> evaluation_form q s' (sk_data source) ->
  length s = n -> Forall (fun c => 0 <= c < nth 0 q 0) s -> poly_bound S s -> 0 <= S -> sk_moduli dest = q -> evaluation_form q s (sk_data dest) ->
  0 <= B -> (forall t, (t < dnum)%nat -> uniform_sample n (q ++ p) (fst (draws t)) /\ snd (draws t) = residue_array (e t) (q ++ p) /\ length (e t) = n /\ poly_bound B (e t)) ->
  basis_precompute_constants (q ++ p) plans = Some bc -> firstn dnum (skipn start plans) = switch_plans (length q) (length p) dnum ->
  length c0 = n -> length c1 = n -> ct_moduli ct = q -> Forall2 (evaluation_form q) [c0; c1] (ct_data ct) ->
  exists ksk sw kernel mid ct' err,
    gen_key_switching_key source dest q p dnum draws None = Some ksk /\ key_switcher_precompute q p dnum (2 ^ lr) (2 ^ lc) = Some sw /\
    rescale_precompute (q ++ p) (length p) (2 ^ lr) (2 ^ lc) = Some kernel /\
    key_switch sw ct ksk p bc (Some (precompute_constants (q ++ p))) start = Some mid /\ rescale (Some kernel) mid = Some ct' /\
    decrypt dest ct' = Some {| pt_data := residue_array (poly_add (poly_add c0 (poly_mul c1 s')) err) q; pt_moduli := q |} /\ switched_error n q p dnum B S err.
Proof.
  intros lr lc q p dnum source dest s' s draws e B S plans bc start ct c0 c1 n HS HR Ls' ES' Ls Hr BS HS0 MD ED HB HD EB EP L0 L1 EM HE.
  destruct (core_q_moduli lr lc q p dnum HS) as [HQ HQP]. pose proof (scheme_adm _ _ HQ) as HA.
  assert (DC : exists C0 C1, ct_data ct = [C0; C1] /\ evaluation_form q c0 C0 /\ evaluation_form q c1 C1).
  { clear - HE. inversion HE as [|? C0 ? ? X1 X2 X3 X4]; subst. inversion X2 as [|? C1 ? ? Y1 Y2 Y3 Y4]; subst. inversion Y2; subst. exists C0, C1. repeat split; assumption. }
  destruct DC as (C0 & C1 & EC & E0 & E1). apply (evaluation_slots _ _ _ _ HA Ls') in ES'. apply (evaluation_slots _ _ _ _ HA Ls) in ED.
  apply (evaluation_slots _ _ _ _ HA L0) in E0. apply (evaluation_slots _ _ _ _ HA L1) in E1.
  apply (switch_and_rescale lr lc q p dnum source dest s' s draws e B S plans bc start ct c0 c1); try assumption.
  { rewrite EC. reflexivity. } { rewrite EC. exact E0. } { rewrite EC. exact E1. }
Qed.
Print Assumptions C36_switch_partial.

(** C36 for conjugation: with a conjugation key of the secret s, conjugating a ciphertext that decrypts to m = c0 + c1*s gives
    one that decrypts, under the same key, to m(X^-1) plus an error as above *)
Theorem C36_conjugate_partial : forall lr lc q p dnum sk s draws e B S plans bc start ct c0 c1,
  let n := (2 ^ (lr + lc))%nat in
  switch_setting lr lc q p dnum -> ForallOrdPairs (fun q later => later <= 2 * q + 1) (q ++ p) ->
  length s = n -> Forall (fun c => 0 <= c < nth 0 q 0) s -> poly_bound S s -> 0 <= S -> sk_moduli sk = q -> evaluation_form q s (sk_data sk) ->
  0 <= B -> (forall t, (t < dnum)%nat -> uniform_sample n (q ++ p) (fst (draws t)) /\ snd (draws t) = residue_array (e t) (q ++ p) /\ length (e t) = n /\ poly_bound B (e t)) ->
  basis_precompute_constants (q ++ p) plans = Some bc -> firstn dnum (skipn start plans) = switch_plans (length q) (length p) dnum ->
  length c0 = n -> length c1 = n -> ct_moduli ct = q -> Forall2 (evaluation_form q) [c0; c1] (ct_data ct) ->
  exists key sw kernel ct' err,
    gen_conjugate_key sk q p dnum draws = Some key /\ key_switcher_precompute q p dnum (2 ^ lr) (2 ^ lc) = Some sw /\
    rescale_precompute (q ++ p) (length p) (2 ^ lr) (2 ^ lc) = Some kernel /\
    decrypt sk ct = Some {| pt_data := residue_array (poly_add c0 (poly_mul c1 s)) q; pt_moduli := q |} /\
    conjugate sw ct key p bc (Some (precompute_constants (q ++ p))) (Some kernel) start = Some ct' /\
    decrypt sk ct' = Some {| pt_data := residue_array (poly_add (poly_auto (-1) (poly_add c0 (poly_mul c1 s))) err) q; pt_moduli := q |} /\
    switched_error n q p dnum B S err.
Proof.
  intros lr lc q p dnum sk s draws e B S plans bc start ct c0 c1 n HS HR Ls Hr BS HS0 MD ED HB HD EB EP L0 L1 EM HE.
  destruct (core_q_moduli lr lc q p dnum HS) as [HQ HQP]. pose proof (scheme_adm _ _ HQ) as HA.
  assert (DC : exists C0 C1, ct_data ct = [C0; C1] /\ evaluation_form q c0 C0 /\ evaluation_form q c1 C1).
  { clear - HE. inversion HE as [|? C0 ? ? X1 X2 X3 X4]; subst. inversion X2 as [|? C1 ? ? Y1 Y2 Y3 Y4]; subst. inversion Y2; subst. exists C0, C1. repeat split; assumption. }
  destruct DC as (C0 & C1 & EC & E0 & E1). apply (evaluation_slots _ _ _ _ HA Ls) in ED. apply (evaluation_slots _ _ _ _ HA L0) in E0. apply (evaluation_slots _ _ _ _ HA L1) in E1.
  assert (EF : firstn (length q) q = q) by apply firstn_all. assert (Lq : (0 < length q)%nat) by (destruct HQ as [N _]; destruct q; [contradiction | cbn; lia]).
  assert (DEC : decrypt sk ct = Some {| pt_data := residue_array (poly_add c0 (poly_mul c1 s)) q; pt_moduli := q |}).
  { rewrite (decrypt_ok (lr + lc) q (length q) sk ct s (fun _ => c0) (fun _ => c1)); try assumption; try lia; rewrite ?EF, ?EC; try assumption. rewrite residues_of_map. reflexivity. }
  destruct (switch_and_rescale lr lc q p dnum {| sk_data := flip (sk_data sk); sk_moduli := sk_moduli sk |} sk (poly_auto (-1) s) s draws e B S plans bc start
    {| ct_data := map flip (ct_data ct); ct_moduli := ct_moduli ct |} (poly_auto (-1) c0) (poly_auto (-1) c1)) as (ksk & sw & kernel & mid & ct' & err & X1 & X2 & X3 & X4 & X5 & X6 & X7); try assumption.
  { rewrite poly_auto_length. exact Ls. } { cbn [sk_data]. apply (flip_slots (lr + lc) q (sk_data sk) (fun _ => s) HA ED). }
  { cbn [ct_data]. rewrite EC. reflexivity. }
  { cbn [ct_data]. rewrite EC. cbn [map nth]. apply (flip_slots (lr + lc) q C0 (fun _ => c0) HA E0). } { cbn [ct_data]. rewrite EC. cbn [map nth]. apply (flip_slots (lr + lc) q C1 (fun _ => c1) HA E1). }
  exists ksk, sw, kernel, ct', err. split; [exact X1 |]. split; [exact X2 |]. split; [exact X3 |]. split; [exact DEC |]. split; [unfold conjugate; rewrite X4; exact X5 |]. split; [| exact X7].
  rewrite X6. f_equal. f_equal. rewrite <- !residues_of_map. apply map_ext_in. intros i Hi. apply in_seq in Hi. destruct X7 as [Le _].
  pose proof (adm (lr + lc) q HA i ltac:(lia)) as Ai. pose proof (admissible_gt1 _ _ Ai) as Qi. pose proof (auto_linear (lr + lc) (nth i q 0) (-1) c0 c1 s Ai eq_refl L0 L1 Ls) as AL.
  apply poly_mod_eqm in AL; [| lia]. apply poly_mod_eqm; [lia |]. destruct AL as [AL1 AL2]. rewrite !poly_add_length, !poly_auto_length in *. split; [rewrite poly_add_length; reflexivity |].
  intros j Hj. specialize (AL2 j Hj). rewrite !(co_add _ err) by (rewrite ?poly_add_length, ?poly_auto_length, ?poly_add_length; lia). rewrite AL2. reflexivity.
Qed.
Print Assumptions C36_conjugate_partial.

(** the conversion constants exist, for every list of plans whose source moduli are distinct indices of the chain *)
Theorem C36_constants_exist : forall q p dnum, coprime_moduli (q ++ p) -> (0 < dnum)%nat ->
  exists bc, basis_precompute_constants (q ++ p) (switch_plans (length q) (length p) dnum) = Some bc.
Proof.
  intros q p dnum HC Hd. apply sequence_opt_total. intros o Ho. apply in_map_iff in Ho. destruct Ho as (pl & <- & Hp). unfold switch_plans in Hp. apply in_map_iff in Hp. destruct Hp as (t & <- & Ht). cbn [fst snd].
  assert (LQP : length (q ++ p) = (length q + length p)%nat) by apply app_length.
  assert (R1 : Forall (fun i => (i < length (q ++ p))%nat) (part_indices (length q) dnum t)) by (eapply Forall_impl; [| apply (ins_range 0 0); exact Hd]; cbv beta; intros z Hz; lia).
  rewrite !select_total; [| | exact R1].
  - destruct (basis_precompute_ok (pick 0 (q ++ p) (part_indices (length q) dnum t)) (map (fun i => nth i (q ++ p) 0) (not_in (length q + length p) (part_indices (length q) dnum t)))) as (c & E).
    + apply coprime_pick; [exact HC | apply ins_NoDup | exact R1].
    + unfold pick in E. rewrite E. discriminate.
  - apply Forall_forall. intros i Hi. unfold not_in in Hi. apply filter_In in Hi. destruct Hi as [Hi _]. apply in_seq in Hi. lia.
Qed.
Print Assumptions C36_constants_exist.

(** FINDING.  A number of digits that leaves a digit empty (five moduli in four digits: groups of two) is accepted by key
    generation but no key switcher can be built for it. *)
Theorem C36_empty_digit_rejected : forall q p dnum r c t, (t < dnum)%nat -> digit_group q dnum t = [] -> key_switcher_precompute q p dnum r c = None.
Proof.
  intros q p dnum r c t Ht HG. unfold key_switcher_precompute. destruct (Nat.eqb_spec dnum 0); [reflexivity |].
  destruct (sequence_opt _) as [kq |] eqn:E1; [| reflexivity]. exfalso. destruct (sequence_opt_nth _ _ [] E1) as [L1 N1]. rewrite map_length, seq_length in N1. specialize (N1 t Ht).
  rewrite (nth_map_seq (fun i => ntt_kernel (pick 0 (q ++ p) (part_indices (length q) dnum i)) r c)) in N1 by exact Ht. rewrite group_pick in N1 by lia. rewrite HG in N1. discriminate.
Qed.
Print Assumptions C36_empty_digit_rejected.
Example C36_empty_digit_example : digit_group [12289; 2053; 2069; 2081; 2089] 4 3 = [] /\ digit_group [12289; 2053; 2069; 2081; 2089] 4 2 = [2089].
Proof. split; reflexivity. Qed.

(** a concrete case: degree 2, two digits, one auxiliary prime *)
Definition ex_q : list Z := [12289; 2053].
Definition ex_p : list Z := [2081].
Definition ex_draws (t : nat) : array * array :=
  match t with
  | O => ([[5000; 77]; [1; 2000]; [3; 2080]], residue_array [1; -1] (ex_q ++ ex_p))
  | _ => ([[0; 12288]; [1000; 1]; [31; 41]], residue_array [0; 1] (ex_q ++ ex_p))
  end.
Example C36_example_setting : switch_setting 0 1 ex_q ex_p 2 /\ ForallOrdPairs (fun q later => later <= 2 * q + 1) (ex_q ++ ex_p) /\
  forall t, (t < 2)%nat -> uniform_sample 2 (ex_q ++ ex_p) (fst (ex_draws t)) /\ poly_bound 1 (match t with O => [1; -1] | _ => [0; 1] end) /\
    snd (ex_draws t) = residue_array (match t with O => [1; -1] | _ => [0; 1] end) (ex_q ++ ex_p).
Proof.
  split; [| split].
  - split; [discriminate |]. split; [discriminate |]. split; [lia |]. split; [intros [|[|t]] Ht; [discriminate | discriminate | lia] |]. split; [| split; [split |]].
    + cbn [ex_q ex_p app]. repeat (constructor; [apply accel_small; try lia; vm_compute; reflexivity |]). constructor.
    + repeat (constructor; [lia |]). constructor.
    + repeat (constructor; [repeat (constructor; [reflexivity |]); constructor |]). constructor.
    + split; [vm_compute; discriminate |]. change (Forall (fun m => 1020 * 1 <= m) [12289; 2053; 2081]). repeat (constructor; [lia |]). constructor.
  - cbn [ex_q ex_p app]. repeat (constructor; [repeat (constructor; [lia |]); constructor |]). constructor.
  - intros [|[|t]] Ht; [| | lia]; (split; [repeat (constructor; [split; [reflexivity |]; repeat (constructor; [lia |]); constructor |]); constructor |]); (split; [repeat (constructor; [lia |]); constructor | reflexivity]).
Qed.
Definition ex_eval (a : list Z) : array := match ntt_negacyclic_poly (residue_array a ex_q) ex_q with Some A => A | None => [] end.
Example C36_example :
  let source := {| sk_data := ex_eval [0; 1]; sk_moduli := ex_q |} in
  let dest := {| sk_data := ex_eval [1; 1]; sk_moduli := ex_q |} in
  let ct := {| ct_data := [ex_eval [100000; 7]; ex_eval [3; -2000]]; ct_moduli := ex_q |} in
  match gen_key_switching_key source dest ex_q ex_p 2 ex_draws None, key_switcher_precompute ex_q ex_p 2 1 2, rescale_precompute (ex_q ++ ex_p) 1 1 2,
        basis_precompute_constants (ex_q ++ ex_p) (switch_plans 2 1 2) with
  | Some ksk, Some sw, Some kernel, Some bc =>
      match key_switch sw ct ksk ex_p bc (Some (precompute_constants (ex_q ++ ex_p))) 0 with
      | Some mid =>
          match rescale (Some kernel) mid with
          | Some ct' => (* c0 + c1*s' = 102000 + 10X; the error is 5 + 5X *)
              decrypt dest ct' = Some {| pt_data := residue_array (poly_add (poly_add [100000; 7] (poly_mul [3; -2000] [0; 1])) [5; 5]) ex_q; pt_moduli := ex_q |}
          | None => False
          end
      | None => False
      end
  | _, _, _, _ => False
  end.
Proof. vm_compute. reflexivity. Qed.
