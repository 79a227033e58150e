From Coq Require Import ZArith Znumtheory List Bool Lia Permutation Zpow_facts.
From Verif Require Import Base.ZSum Base.Modeq Base.Nega Base.Powm Base.Lists Base.Word Base.Fermat Base.Crt Base.Egcd Base.Bitrev.
From Verif Require Import Ckks.Model_rns_utils Ckks.Model_ntt_cpu Ckks.Model_barrett Ckks.Spec_barrett Ckks.Model_scheme Ckks.Model_ntt Ckks.Model_auto Ckks.Model_addmul Ckks.Model_basis Ckks.Model_rescale Ckks.Model_plan Ckks.Model_keyswitch Ckks.Model_blindrot Ckks.Spec_ntt Ckks.Spec_poly Ckks.Spec_keyswitch Ckks.Spec_blindrot.
From Verif Require Import Ckks.Proof_ntt_cpu Ckks.Proof_transform Ckks.Prop_crt Ckks.Prop_barrett Ckks.Prop_ntt_cpu Ckks.Proof_slots Ckks.Proof_ntt_accel Ckks.Prop_ntt_accel Ckks.Proof_basis Ckks.Prop_basis Ckks.Proof_encrypt Ckks.Prop_plan Ckks.Prop_rescale Ckks.Proof_keyswitch Ckks.Proof_moddown Ckks.Proof_ksk Ckks.Prop_keyswitch Ckks.Proof_mul Ckks.Proof_auto Ckks.Prop_auto Ckks.Proof_autohom Ckks.Proof_autocomp.
Import ListNotations.
Local Open Scope Z_scope.

Local Notation u64 := Model_scheme.u64.
Local Notation u32 := Model_scheme.u32.

Lemma rotation_exponent_ok L j : exists g, rotation_exponent j (2 ^ L) = Some g /\ 0 <= g < 2 * Z.of_nat (2 ^ L) /\ g mod 2 = 1 /\ rotates (2 ^ L) j g.
Proof.
  pose proof (pow2_ge1 L) as P1. set (m := 2 * Z.of_nat (2 ^ L)). assert (Hm : 0 < m) by lia.
  assert (Em : m = 2 ^ Z.of_nat (S L)) by (unfold m; rewrite (Nat2Z.inj_succ L), Z.pow_succ_r, Nat2Z.inj_pow by lia; reflexivity).
  assert (ODD : forall x y, (x * y) mod m = 1 mod m -> x mod 2 = 1 -> y mod 2 = 1).
  { intros x y E Hx. destruct (Z.mod_pos_bound y 2 ltac:(lia)) as [B1 B2]. assert (y mod 2 = 0 \/ y mod 2 = 1) as [Hy | Hy] by lia; [| exact Hy]. exfalso.
    apply Z.mod_divide in Hy; [| lia]. destruct Hy as [w ->]. apply eqm_mod_iff in E; [| exact Hm]. apply eqm_ex in E. destruct E as [z E]. unfold m in E. lia. }
  assert (P5 : forall e, 0 <= e -> (5 ^ e) mod 2 = 1) by (intros e He; rewrite Zpower_mod by lia; change (5 mod 2) with 1; rewrite Z.pow_1_l by lia; reflexivity).
  assert (M2 : forall x, (x mod m) mod 2 = x mod 2) by (intros x; symmetry; apply Zmod_div_mod; [lia | exact Hm | exists (Z.of_nat (2 ^ L)); unfold m; ring]).
  unfold rotation_exponent. fold m. destruct (Z.ltb_spec 0 j) as [Hj | Hj].
  - destruct (inverse_total 5 m Hm) as (v & Ev). { rewrite Z.gcd_comm, Em. apply odd_gcd_pow2. reflexivity. } rewrite Ev. destruct (inverse_some 5 m v Hm Ev) as [Bv Hv].
    exists (Zpow_mod v j m). rewrite Zpow_mod_correct by lia. split; [reflexivity |]. split; [apply Z.mod_pos_bound; exact Hm |].
    assert (R : 5 ^ j * v ^ j == 1 [mod m]).
    { rewrite <- Z.pow_mul_l. apply eqm_mod_iff; [exact Hm |]. rewrite Zpower_mod by exact Hm. apply eqm_mod_iff in Hv; [| exact Hm]. rewrite Hv. rewrite <- Zpower_mod by exact Hm. rewrite Z.pow_1_l by lia. reflexivity. }
    split; [rewrite M2; apply (ODD (5 ^ j)); [apply eqm_mod_iff; assumption | apply P5; lia] |]. unfold rotates. fold m. rewrite Z.max_l, (Z.max_r (- j)) by lia. rewrite eqm_mod. exact R.
  - exists (Zpow_mod 5 (- j) m). rewrite Zpow_mod_correct by lia. split; [reflexivity |]. split; [apply Z.mod_pos_bound; exact Hm |]. split; [rewrite M2; apply P5; lia |].
    unfold rotates. fold m. rewrite Z.max_r, (Z.max_l (- j)) by lia. rewrite eqm_mod. apply eqm_eq. ring.
Qed.

(** the constant polynomial *)
Definition poly_const (n : nat) (c : Z) : list Z := map (fun i => if (i =? 0)%nat then c else 0) (seq 0 n).
Lemma poly_const_length n c : length (poly_const n c) = n.
Proof. unfold poly_const. rewrite map_length, seq_length. reflexivity. Qed.
Lemma slot_const L q c j : cpu_admissible L q -> (j < 2 ^ L)%nat -> nth j (T L q (poly_const (2 ^ L) c)) 0 == c [mod q].
Proof.
  intros A Hj. unfold T. rewrite slot_eval by exact Hj. rewrite eval_co, poly_const_length. unfold evalf. apply eqm_eq. rewrite (zsum_single _ 0).
  - unfold co, poly_const. rewrite nth_map_seq by lia. cbn. ring.
  - lia.
  - intros i Hi NE. unfold co, poly_const. rewrite nth_map_seq by exact Hi. destruct (Nat.eqb_spec i 0); [contradiction | ring].
Qed.

Section Hmux.
  Variables (lr lc : nat) (q p : list Z).
  Let QP := q ++ p.
  Let L := (lr + lc)%nat.
  Let n := (2 ^ L)%nat.
  Hypothesis HS : switch_setting lr lc q p 1.
  Hypothesis HR : ForallOrdPairs (fun m later => later <= 2 * m + 1) QP.
  Hypothesis HL : (L <= 31)%nat.
  Variables (sk : secret_key) (s : list Z) (S B : Z).
  Hypothesis (Ls : length s = n) (Hr : Forall (fun c => 0 <= c < nth 0 q 0) s) (BS : poly_bound S s) (HS0 : 0 <= S) (MS : sk_moduli sk = q) (SS : slots L q (sk_data sk) (fun _ => s)) (HB : 0 <= B).

  Definition good_draw (d : array * array) (e : list Z) : Prop := uniform_sample n QP (fst d) /\ snd d = residue_array e QP /\ length e = n /\ poly_bound B e.

  Let ins := part_indices (length q) 1 0.
  Lemma ins_all : ins = seq 0 (length q).
  Proof.
    unfold ins, part_indices. replace (ceil_div (length q) 1) with (length q) by (unfold ceil_div; rewrite Nat.div_1_r; lia). cbn [Nat.mul]. f_equal. lia.
  Qed.

  (** a key switch of (0, c) with a given one-part key *)
  Lemma switch_zero sw bc ksk a e s' C c : length s' = n ->
    key_switcher_precompute q p 1 (2 ^ lr) (2 ^ lc) = Some sw -> basis_precompute_constants QP (switch_plans (length q) (length p) 1) = Some bc ->
    ek_a ksk = [fst a] -> ek_b ksk = [snd a] -> length e = n -> poly_bound B e -> forall u, uniform_sample n QP u -> slots L QP (fst a) (fun i => nth i u []) ->
    slots L QP (snd a) (fun i => poly_sub (poly_add e (poly_scale (if existsb (Nat.eqb i) ins then lprod p else 0) s')) (poly_mul (nth i u []) s)) ->
    slots L q C (fun _ => c) ->
    exists ct' f0 f1 noise, key_switch sw {| ct_data := [tab (length C) (degree_of C) (fun _ _ => 0); C]; ct_moduli := q |} ksk p bc (Some (precompute_constants QP)) 0 = Some ct' /\ ct_moduli ct' = QP /\ length (ct_data ct') = 2%nat /\
      slots L QP (nth 0 (ct_data ct') []) f0 /\ slots L QP (nth 1 (ct_data ct') []) f1 /\ length noise = n /\ poly_bound (switch_noise n q 1 B) noise /\
      forall i, (i < length QP)%nat -> poly_mod (nth i QP 0) (poly_add (f0 i) (poly_mul (f1 i) s)) = poly_mod (nth i QP 0) (poly_add (poly_scale (lprod p) (poly_mul c s')) noise).
  Proof.
    intros Ls' ESW EB EA EBk Le Be u U SA SB SC. destruct (core_q_moduli lr lc q p 1 HS) as [HQ HQP]. pose proof HS as (NQ & NP & Hd & HG & HM & HC & HK & HT). pose proof (scheme_adm _ _ HQ) as HAq. pose proof (scheme_adm _ _ HQP) as HAQP.
    assert (Lq : (0 < length q)%nat) by (clear - NQ; destruct q; [contradiction | cbn; lia]). assert (LQP : length QP = (length q + length p)%nat) by (unfold QP; apply app_length).
    assert (Lc : length c = n) by (apply (proj2 SC 0%nat Lq)).
    pose proof (plans_constants QP (switch_plans (length q) (length p) 1) bc 0 1 (part_indices (length q) 1) (fun t => not_in (length QP) (part_indices (length q) 1 t)) EB) as BC.
    set (z := poly_scale 0 c). assert (Lz : length z = n) by (unfold z; rewrite poly_scale_length; exact Lc).
    assert (SZ : slots L q (tab (length C) (degree_of C) (fun _ _ => 0)) (fun _ => z)).
    { rewrite (proj1 SC), (deg_slots L q _ _ Lq SC). apply slots_tab; [exact HAq | intros; exact Lz |]. intros i j Hi Hj. pose proof (admissible_gt1 _ _ (adm L q HAq i Hi)). split; [lia |]. unfold T, z. rewrite slot_scale by exact Hj. apply eqm_eq. ring. }
    destruct (key_switch_ok lr lc q p HM HC NQ 1 Hd (setting_nonempty q 1 Hd HG) HK HT sw bc 0 ksk {| ct_data := [tab (length C) (degree_of C) (fun _ _ => 0); C]; ct_moduli := q |} (tab (length C) (degree_of C) (fun _ _ => 0)) C z c (fun t i => nth i u [])
      (fun t i => poly_sub (poly_add e (poly_scale (if existsb (Nat.eqb i) (part_indices (length q) 1 t) then lprod p else 0) s')) (poly_mul (nth i u []) s)) ESW) as (ct' & D & ES & HDg & EM' & LD' & T0 & T1);
      [ | rewrite EA; reflexivity | rewrite EBk; reflexivity | | reflexivity | reflexivity | exact SZ | exact SC |].
    { apply BC.
      - unfold switch_plans. cbn [skipn]. rewrite firstn_all2 by (rewrite map_length, seq_length; lia). apply map_ext. intros t. rewrite LQP. reflexivity.
      - intros t Ht. split.
        + eapply Forall_impl; [| apply (ins_range lr lc); exact Hd]. cbv beta. intros w Hw. lia.
        + apply Forall_forall. intros i Hi. unfold not_in in Hi. apply filter_In in Hi. destruct Hi as [Hi _]. apply in_seq in Hi. lia. }
    { intros t Ht. assert (t = 0%nat) by lia. subst t. rewrite EA, EBk. cbn [nth]. split; [exact SA | exact SB]. }
    exists ct'. eexists _, _. exists (poly_sum n 1 (fun t => poly_mul (D t) e)). split; [exact ES |]. split; [exact EM' |]. split; [exact LD' |]. split; [exact T0 |]. split; [exact T1 |]. split; [apply poly_sum_length |]. split.
    - unfold switch_noise. apply poly_sum_bound. intros t Ht. destruct (HDg t Ht) as [LDt _]. split; [rewrite poly_mul_length; lia |]. rewrite <- (group_pick q p 1 t Hd).
      replace (Z.of_nat n) with (Z.of_nat (length (D t))) by (rewrite LDt; lia). unfold pick at 1. rewrite map_length.
      apply poly_bound_mul; [lia | | exact Be]. apply (digit_bound _ _ c); [| apply (HDg t Ht)]. apply lprod_pos.
      apply pick_Forall; [apply HC |]. eapply Forall_impl; [| apply (ins_range lr lc); exact Hd]. cbv beta. intros w Hw. fold QP. lia.
    - intros i Hi. pose proof (switch_equation lr lc q p HM HC NQ 1 Hd 1 (fun t i => nth i u []) (fun _ => e) D z c s s' i) as EQ.
      etransitivity; [apply EQ; try assumption |].
      + intros x Hx. apply (owner_lt lr lc q p HM HC NQ 1 Hd x Hx).
      + intros t Ht. split; [exact Le |]. destruct (uniform_cols _ _ _ U) as [_ CU]. apply CU. exact Hi.
      + pose proof (admissible_gt1 _ _ (adm L QP HAQP i Hi)). apply poly_mod_eqm; [fold QP; lia |]. split; [rewrite !poly_add_length, !poly_scale_length, poly_add_length, poly_mul_length; lia |].
        intros j Hj. rewrite poly_add_length, poly_scale_length, poly_add_length, Lz in Hj. rewrite !co_add by (rewrite poly_scale_length, ?poly_add_length, ?poly_mul_length; lia). rewrite !co_scale. rewrite co_add by lia. unfold z. rewrite co_scale. change (2 ^ (lr + lc))%nat with n. apply eqm_eq. ring.
  Qed.

  (** the key is good for the factor beta and the automorphism X -> X^g: applied to any ciphertext it gives one that
      decrypts to beta * m(X^g) plus noise *)
  Definition hmux_good (K : blind_rotation) (beta j g : Z) (key : hmuxrot_key) : Prop := forall ct c0 c1, ct_moduli ct = q -> length (ct_data ct) = 2%nat ->
    slots L q (nth 0 (ct_data ct) []) (fun _ => c0) -> slots L q (nth 1 (ct_data ct) []) (fun _ => c1) ->
    exists ct' y0 y1 err, hmuxrot K ct key j p 0 = Some ct' /\ ct_moduli ct' = q /\ length (ct_data ct') = 2%nat /\ slots L q (nth 0 (ct_data ct') []) (fun _ => y0) /\ slots L q (nth 1 (ct_data ct') []) (fun _ => y1) /\ length err = n /\
      (forall i, (i < length q)%nat -> poly_mod (nth i q 0) (poly_add y0 (poly_mul y1 s)) = poly_mod (nth i q 0) (poly_add (poly_scale beta (poly_auto g (poly_add c0 (poly_mul c1 s)))) err)) /\
      poly_bound (hmux_noise n q p B S) (poly_scale (lprod p) err).

  Lemma hmux_kernel : exists K sw kernel bc, blind_rotation_precompute q p 1 (2 ^ lr) (2 ^ lc) (length p) = Some K /\ br_switcher K = sw /\ br_bc K = bc /\ br_mul K = Some (precompute_constants QP) /\ br_rescale K = Some kernel /\
    key_switcher_precompute q p 1 (2 ^ lr) (2 ^ lc) = Some sw /\ basis_precompute_constants QP (switch_plans (length q) (length p) 1) = Some bc /\ rescale_precompute QP (length p) (2 ^ lr) (2 ^ lc) = Some kernel.
  Proof.
    pose proof HS as (NQ & NP & Hd & HG & HM & HC & HK & HT).
    destruct (switcher_exists lr lc q p 1 HS) as (sw & ESW). destruct (C36_constants_exist q p 1 HC Hd) as (bc & EB). fold QP in EB.
    assert (EQP : q ++ rev (rev p) = QP) by (rewrite rev_involutive; reflexivity).
    destruct (C35_rescale_partial lr lc q (rev p) [] {| ct_data := []; ct_moduli := [] |}) as (kernel & _ & EK & _).
    { exact NQ. } { intros X. apply (f_equal (@rev Z)) in X. rewrite rev_involutive in X. cbn in X. contradiction. }
    { rewrite EQP. exact HM. } { rewrite EQP. exact HC. } { rewrite EQP. exact HR. } { constructor. }
    rewrite EQP, rev_length in EK.
    assert (HMq : Forall (accel_modulus lr lc) q /\ Forall (accel_modulus lr lc) p) by (pose proof HM as X; rewrite Forall_app in X; exact X). destruct HMq as [Mq Mp].
    destruct (kernel_exists lr lc q Mq) as (nq & Enq). destruct (kernel_exists lr lc p Mp) as (np & Enp). rewrite <- ntt_kernel_some in Enq, Enp by assumption.
    eexists. exists sw, kernel, bc. split; [unfold blind_rotation_precompute; fold QP; rewrite Enq, Enp, ESW, EB, EK; reflexivity |]. cbn. repeat (split; [first [reflexivity | exact ESW | exact EB] |]). exact EK.
  Qed.

  Lemma hmux_ok K ext beta j d0 e0 d1 e1 g : blind_rotation_precompute q p 1 (2 ^ lr) (2 ^ lc) (length p) = Some K ->
    extend_secret_key sk QP = Some ext -> slots L QP (sk_data ext) (fun _ => s) ->
    beta = 0 \/ beta = 1 -> lprod p < 2 ^ 64 -> good_draw d0 e0 -> good_draw d1 e1 -> rotation_exponent j n = Some g -> 0 <= g < 2 * Z.of_nat n -> g mod 2 = 1 ->
    exists key, gen_hmuxrot_key sk beta j q p d0 d1 (Some ext) = Some key /\ hmux_good K beta j g key.
  Proof.
    intros HK EX SX Hb HP64 (U0 & E0 & Le0 & Be0) (U1 & E1 & Le1 & Be1) Eg Bg Og.
    destruct (core_q_moduli lr lc q p 1 HS) as [HQ HQP]. pose proof HS as (NQ & NP & Hd & HG & HM & HC & HKd & HT). pose proof (scheme_adm _ _ HQ) as HAq. pose proof (scheme_adm _ _ HQP) as HAQP. fold L QP in HQ, HQP, HAq, HAQP.
    assert (Lq : (0 < length q)%nat) by (clear - NQ; destruct q; [contradiction | cbn; lia]). assert (LQP : length QP = (length q + length p)%nat) by (unfold QP; apply app_length).
    assert (G32 : 0 <= g < 2 ^ 32). { split; [lia |]. apply Z.lt_le_trans with (2 * Z.of_nat n); [lia |]. unfold n. rewrite Nat2Z.inj_pow. change (Z.of_nat 2) with 2. rewrite <- Z.pow_succ_r by lia. apply Z.pow_le_mono_r; lia. }
    assert (S31 : forall i, (i < length QP)%nat -> 1 < nth i QP 0 < 2 ^ 31) by (intros i Hi; apply (qp_range lr lc q p HM i Hi)).
    assert (NQi : forall i, (i < length q)%nat -> nth i q 0 = nth i QP 0) by (intros i Hi; unfold QP; rewrite app_nth1 by exact Hi; reflexivity).
    assert (PP : 0 < lprod p) by (apply lprod_pos; destruct HC as [X _]; rewrite Forall_app in X; apply X).
    (* the first key *)
    destruct (auto_slots L q (sk_data sk) (fun _ => s) g HL HAq SS G32 Og) as (rot & ER & SR).
    set (rb := tab (length q) (degree_of (sk_data sk)) (fun i j => u64 (ent rot i j * beta) mod nth i q 0)).
    assert (SRB : slots L q rb (fun _ => poly_scale beta (poly_auto g s))).
    { unfold rb. rewrite (deg_slots L q _ _ Lq SS). apply slots_tab; [exact HAq | intros; rewrite poly_scale_length, poly_auto_length; exact Ls |]. intros i k Hi Hk. destruct (slots_ent L q HAq _ _ i k SR Hi Hk) as [R V]. pose proof (S31 i ltac:(lia)) as Q. rewrite <- NQi in Q by exact Hi.
      rewrite u64_small by (destruct Hb as [-> | ->]; lia). split; [apply Z.mod_pos_bound; lia |]. rewrite eqm_mod, V. unfold T. rewrite slot_scale by exact Hk. apply eqm_eq. ring. }
    destruct (gen_ksk_ok lr lc q p HM HC NQ 1 Hd {| sk_data := rb; sk_moduli := sk_moduli sk |} sk ext (poly_scale beta (poly_auto g s)) s (fun _ => d0) (fun _ => e0) (Some ext) SRB eq_refl SX) as (ksk & EK & EMk & LA & LB & HKS).
    { intros t Ht. split; [exact U0 | split; assumption]. }
    destruct (HKS 0%nat ltac:(lia)) as [SA0 SB0]. assert (EA : exists a b, ek_a ksk = [a] /\ ek_b ksk = [b]).
    { clear - LA LB. destruct ksk as [xa xb xm]. cbn in *. destruct xa as [|a [|]]; try discriminate. destruct xb as [|b [|]]; try discriminate. eauto. }
    destruct EA as (a0 & b0 & Ea0 & Eb0). rewrite Ea0 in SA0. rewrite Eb0 in SB0. cbn [nth] in SA0, SB0.
    (* the second *)
    set (t1 := tab (length QP) (degree_of (sk_data sk)) (fun i k => (product p * beta) mod nth i QP 0)).
    assert (ST1 : slots L QP t1 (fun i => poly_scale (if existsb (Nat.eqb i) ins then lprod p else 0) (poly_const n beta))).
    { unfold t1. rewrite (deg_slots L q _ _ Lq SS). apply slots_tab; [exact HAQP | intros; rewrite poly_scale_length; apply poly_const_length |]. intros i k Hi Hk. pose proof (S31 i Hi) as Q. split; [apply Z.mod_pos_bound; lia |].
      rewrite eqm_mod. unfold T. rewrite slot_scale by exact Hk. pose proof (slot_const L (nth i QP 0) beta k (adm L QP HAQP i Hi) Hk) as CV. change (2 ^ L)%nat with n in CV. unfold T in CV. rewrite CV. rewrite product_lprod, ins_all.
      destruct (existsb (Nat.eqb i) (seq 0 (length q))) eqn:EE; [reflexivity |].
      assert (Hge : (length q <= i)%nat). { destruct (Nat.le_gt_cases (length q) i) as [C | C]; [exact C |]. exfalso. assert (X : existsb (Nat.eqb i) (seq 0 (length q)) = true) by (apply existsb_exists; exists i; split; [apply in_seq; lia | apply Nat.eqb_refl]). congruence. }
      assert (EN : nth i QP 0 = nth (i - length q) p 0) by (unfold QP; apply app_nth2; exact Hge). rewrite EN. assert (Hip : (i - length q < length p)%nat) by lia. pose proof (in_divides_lprod (nth (i - length q) p 0) p (nth_In p 0 Hip)) as [z Ez]. apply eqm_ex. exists (z * beta). rewrite Ez. ring. }
    destruct (key_part_ok L QP (sk_data ext) s (fst d1) e1 t1 (fun i => poly_scale (if existsb (Nat.eqb i) ins then lprod p else 0) (poly_const n beta)) HQP) as (a1 & b1 & EP1 & SA1 & SB1); try assumption.
    { apply Forall_forall. intros m Hm. apply (In_nth _ _ 0) in Hm. destruct Hm as (i & Hi & <-). apply S31. exact Hi. }
    rewrite <- E1 in EP1.
    eexists. split.
    { unfold gen_hmuxrot_key. fold QP. rewrite (deg_slots L q _ _ Lq SS). fold n. rewrite Eg, ER. rewrite product_lprod.
      assert (W : (0 <=? lprod p * beta) && (lprod p * beta <? 2 ^ 64) = true) by (apply andb_true_intro; split; [apply Z.leb_le | apply Z.ltb_lt]; destruct Hb as [-> | ->]; lia). rewrite W. cbn [negb].
      rewrite (proj1 SR), Nat.eqb_refl. cbn [negb]. unfold rb in EK. rewrite (deg_slots L q _ _ Lq SS) in EK. fold n in EK. rewrite EK. unfold t1 in EP1. rewrite (deg_slots L q _ _ Lq SS) in EP1. fold n in EP1. rewrite product_lprod in EP1. rewrite EP1. reflexivity. }
    rewrite Ea0, Eb0, EMk. cbn [nth]. assert (H32 : Forall (fun m => m <= 2 ^ 32) QP) by (apply (accel_le32 lr lc); exact HM).
    rewrite (slots_cast32 L QP b1 _ HAQP H32 SB1), (slots_cast32 L QP a1 _ HAQP H32 SA1).
    (* use *)
    destruct hmux_kernel as (K' & sw & kernel & bc & HK' & KS & KB & KM & KR & ESW & EB & ERK). rewrite HK in HK'. injection HK' as <-.
    intros ct c0 c1 EM LD S0 S1. assert (L0 : length c0 = n) by (apply (proj2 S0 0%nat Lq)). assert (L1 : length c1 = n) by (apply (proj2 S1 0%nat Lq)).
    assert (DC : exists C0 C1, ct_data ct = [C0; C1]) by (destruct (ct_data ct) as [|C0 [|C1 [|]]]; try discriminate; eauto). destruct DC as (C0 & C1 & EC). rewrite EC in S0, S1. cbn [nth] in S0, S1.
    destruct (auto_slots L q C1 _ g HL HAq S1 G32 Og) as (AR & EAR & SAR). destruct (auto_slots L q C0 _ g HL HAq S0 G32 Og) as (BR & EBR & SBR). cbv beta in SAR, SBR.
    destruct (switch_zero sw bc {| ek_a := [a0]; ek_b := [b0]; ek_moduli := QP |} (a0, b0) e0 (poly_scale beta (poly_auto g s)) AR (poly_auto g c1)) with (u := fst d0) as (r0 & f0 & f1 & no0 & X1 & X2 & X3 & X4 & X5 & X6 & X7 & X8); try assumption; try reflexivity.
    { rewrite poly_scale_length, poly_auto_length. exact Ls. }
    destruct (switch_zero sw bc {| ek_a := [a1]; ek_b := [b1]; ek_moduli := QP |} (a1, b1) e1 (poly_const n beta) BR (poly_auto g c0)) with (u := fst d1) as (r1 & h0 & h1 & no1 & Y1 & Y2 & Y3 & Y4 & Y5 & Y6 & Y7 & Y8); try assumption; try reflexivity.
    { apply poly_const_length. }
    assert (D0 : exists F0 F1, ct_data r0 = [F0; F1]) by (destruct (ct_data r0) as [|F0 [|F1 [|]]]; try discriminate; eauto). destruct D0 as (F0 & F1 & ED0). rewrite ED0 in X4, X5. cbn [nth] in X4, X5.
    assert (D1 : exists H0 H1, ct_data r1 = [H0; H1]) by (destruct (ct_data r1) as [|H0 [|H1 [|]]]; try discriminate; eauto). destruct D1 as (H0 & H1 & ED1). rewrite ED1 in Y4, Y5. cbn [nth] in Y4, Y5.
    assert (LP0 : (0 < length QP)%nat) by lia.
    set (sum := fun A B' : array => tab (length QP) (degree_of A) (fun i j => u32 (u64 (ent A i j + ent B' i j) mod nth i QP 0))).
    assert (SUM : forall A B' a b, slots L QP A a -> slots L QP B' b -> slots L QP (sum A B') (fun i => poly_add (a i) (b i))).
    { intros A B' a b SA SB. unfold sum. rewrite (deg_slots L QP _ _ LP0 SA). apply slots_tab; [exact HAQP | intros i Hi; rewrite poly_add_length; apply (proj2 SA i Hi) |]. intros i k Hi Hk. destruct (slots_ent L QP HAQP _ _ i k SA Hi Hk) as [RA VA]. destruct (slots_ent L QP HAQP _ _ i k SB Hi Hk) as [RB VB].
      pose proof (S31 i Hi) as Q. rewrite u64_small by lia. pose proof (Z.mod_pos_bound (ent A i k + ent B' i k) (nth i QP 0) ltac:(lia)). rewrite u32_small by lia. split; [lia |]. rewrite eqm_mod, VA, VB. unfold T. symmetry. apply slot_add; [exact Hk |].
      destruct (proj2 SA i Hi) as [-> _]. destruct (proj2 SB i Hi) as [-> _]. reflexivity. }
    set (m := poly_scale beta (poly_auto g (poly_add c0 (poly_mul c1 s)))). assert (Lm : length m = n) by (unfold m; rewrite poly_scale_length, poly_auto_length, poly_add_length; exact L0).
    destruct (mod_down_ok lr lc q p HM HC NQ NP HR kernel {| ct_data := [sum F0 H0; sum F1 H1]; ct_moduli := QP |} (fun i => poly_add (f0 i) (h0 i)) (fun i => poly_add (f1 i) (h1 i)) s m (poly_add no0 no1) S) as (ct' & y0 & y1 & err & Z1 & Z2 & Z3 & Z4 & Z5 & Z6 & Z7 & Z8); try assumption; try reflexivity.
    { rewrite poly_add_length. exact X6. } { cbn [ct_data nth]. apply SUM; assumption. } { cbn [ct_data nth]. apply SUM; assumption. }
    { intros i Hi. pose proof (adm L QP HAQP i Hi) as Ai. pose proof (psi_of_root _ _ Ai) as RT. specialize (X8 i Hi). specialize (Y8 i Hi).
      pose proof (auto_linear L (nth i QP 0) g c0 c1 s Ai Og L0 L1 Ls) as AL. fold QP.
      destruct (proj2 X4 i Hi) as [Lf0 _]. destruct (proj2 X5 i Hi) as [Lf1 _]. destruct (proj2 Y4 i Hi) as [Lh0 _]. destruct (proj2 Y5 i Hi) as [Lh1 _].
      assert (Lg0 : length (poly_auto g c0) = (2 ^ L)%nat) by (rewrite poly_auto_length; exact L0). assert (Lg1 : length (poly_auto g c1) = (2 ^ L)%nat) by (rewrite poly_auto_length; exact L1). assert (Lgs : length (poly_auto g s) = (2 ^ L)%nat) by (rewrite poly_auto_length; exact Ls).
      assert (Lgm : length (poly_auto g (poly_add c0 (poly_mul c1 s))) = (2 ^ L)%nat) by (rewrite poly_auto_length, poly_add_length; exact L0).
      change (length s = (2 ^ L)%nat) in Ls. change (length no0 = (2 ^ L)%nat) in X6. change (length no1 = (2 ^ L)%nat) in Y6. change (length c0 = (2 ^ L)%nat) in L0. pose proof (poly_const_length n beta) as Lpc. change (length (poly_const n beta) = (2 ^ L)%nat) in Lpc.
      unfold m. apply (slots_determine L); [exact Ai | slot_side | slot_side |]. intros k Hk.
      assert (TV : forall x y, poly_mod (nth i QP 0) x = poly_mod (nth i QP 0) y -> nth k (T L (nth i QP 0) x) 0 == nth k (T L (nth i QP 0) y) 0 [mod nth i QP 0]) by (intros x y E; rewrite <- (T_mod _ _ x) by exact Ai; rewrite E, T_mod by exact Ai; reflexivity).
      apply TV in X8. apply TV in Y8. apply TV in AL. pose proof (slot_const L (nth i QP 0) beta k Ai Hk) as CV. change (2 ^ L)%nat with n in CV. unfold T in *. revert X8 Y8 AL. slot_push. rewrite CV. intros X8 Y8 AL. rewrite <- AL.
      match type of X8 with ?v == ?w [mod _] => match type of Y8 with ?v' == ?w' [mod _] => match goal with |- ?G == ?H [mod _] => transitivity (v + v'); [apply eqm_eq; ring | rewrite X8, Y8; apply eqm_eq; ring] end end end. }
    exists ct', y0, y1, err. split.
    { unfold hmuxrot. rewrite EC. cbv [static_index]. cbn [nth Nat.min Nat.sub length hk_key0 hk_key1 ct_data ct_moduli firstn skipn]. rewrite (deg_slots L q _ _ Lq S0). fold n. rewrite Eg, EAR, EBR, KS, KB, KM, EM.
      assert (ZE : tab (length BR) (degree_of BR) (fun _ _ => 0) = tab (length AR) (degree_of AR) (fun _ _ => 0)) by (rewrite (proj1 SAR), (proj1 SBR), (deg_slots L q _ _ Lq SAR), (deg_slots L q _ _ Lq SBR); reflexivity).
      cbv zeta. cbn [nth Nat.min Nat.sub length hk_key0 hk_key1 ct_data ct_moduli firstn skipn]. fold QP. rewrite X1. rewrite <- ZE. rewrite Y1. rewrite ED0, ED1, X2, KR. cbn [combine map fst snd]. exact Z1. }
    split; [exact Z2 |]. split; [exact Z3 |]. split; [exact Z4 |]. split; [exact Z5 |]. split; [exact Z6 |]. split; [exact Z7 |].
    apply poly_bound_intro. intros k Hk. rewrite poly_scale_length in Hk. rewrite co_scale. change (length err = n) in Z6. rewrite Z6 in Hk. specialize (Z8 k Hk).
    pose proof (poly_bound_co _ no0 k X7) as B0. pose proof (poly_bound_co _ no1 k Y7) as B1. rewrite X6 in B0. rewrite Y6 in B1. specialize (B0 Hk). specialize (B1 Hk). rewrite co_add in Z8 by (rewrite X6; exact Hk). unfold hmux_noise. change (2 ^ (lr + lc))%nat with n in Z8. lia.
  Qed.
End Hmux.
