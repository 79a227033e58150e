(** C36: ciphertext multiplication with relinearisation. *)
From Coq Require Import ZArith Znumtheory List Bool Lia Permutation.
From Verif Require Import Base.ZSum Base.Modeq Base.Nega Base.Powm Base.Lists Base.Word Base.Fermat Base.Crt Base.PrimeCheck.
From Verif Require Import Ckks.Model_rns_utils Ckks.Model_ntt_cpu Ckks.Model_barrett Ckks.Spec_barrett Ckks.Model_scheme Ckks.Model_ntt Ckks.Model_addmul Ckks.Model_basis Ckks.Model_plan Ckks.Model_keyswitch Ckks.Model_mul Ckks.Spec_ntt Ckks.Spec_poly Ckks.Spec_keyswitch.
From Verif Require Import Ckks.Proof_ntt_cpu Ckks.Proof_transform Ckks.Prop_crt Ckks.Prop_barrett Ckks.Prop_ntt_cpu Ckks.Proof_slots Ckks.Proof_ntt_accel Ckks.Prop_ntt_accel Ckks.Proof_basis Ckks.Prop_basis Ckks.Proof_encrypt Ckks.Prop_plan Ckks.Prop_rescale Ckks.Proof_keyswitch Ckks.Proof_moddown Ckks.Proof_ksk Ckks.Prop_keyswitch Ckks.Proof_mul.
Import ListNotations.
Local Open Scope Z_scope.

Local Notation u64 := Model_scheme.u64.
Local Notation u32 := Model_scheme.u32.

(** parameters the accelerated multiplication handles *)
Definition mul_setting (lr lc : nat) (q p : list Z) (dnum : nat) : Prop :=
  q <> [] /\ p <> [] /\ (0 < dnum)%nat /\ Forall (accel_modulus lr lc) (q ++ p) /\ coprime_moduli (q ++ p) /\
  Z.of_nat (ceil_div (length q) dnum) <= 4112 /\ Forall (fun m => 1020 * Z.of_nat (ceil_div (length q) dnum) <= m) (q ++ p) /\
  Z.of_nat (length p) <= 4112 /\ Forall (fun m => 1020 * Z.of_nat (length p) <= m) q /\ Forall (fun m => Z.of_nat dnum <= m) (q ++ p).

(** the error of a relinearisation: P*err is at most the key-switching noise plus |p| * P * (1 + n*S) *)
Definition relin_error (n : nat) (q p : list Z) (dnum : nat) (B S : Z) (err : list Z) : Prop :=
  length err = n /\ Forall (fun x => lprod p * Z.abs x <= switch_noise n q dnum B + Z.of_nat (length p) * lprod p * (1 + Z.of_nat n * S)) err.

Lemma zsum_prefix k d f : (k <= d)%nat -> (forall t, 0 <= f t) -> zsum k f <= zsum d f.
Proof. intros H F. replace d with (k + (d - k))%nat by lia. rewrite zsum_split. pose proof (zsum_nonneg (d - k) (fun i => f (k + i)%nat) ltac:(intros; apply F)). lia. Qed.

Lemma slots_shaped L ms A a : slots L ms A a -> shaped_as (length ms) (2 ^ L) A = true.
Proof.
  intros [LAx X]. unfold shaped_as. rewrite LAx, Nat.eqb_refl. cbn [andb]. apply forallb_forall. intros col HI. apply (In_nth _ _ []) in HI. destruct HI as (i & Hi & <-).
  destruct (X i ltac:(lia)) as [_ ->]. rewrite T_length. apply Nat.eqb_refl.
Qed.

(** division by P of both components, from the decryption over all primes *)
Lemma divide_core lr lc q p x0 x1 y0 y1 s m noise S Bd (HM : Forall (accel_modulus lr lc) (q ++ p)) (HC : coprime_moduli (q ++ p)) :
  let n := (2 ^ (lr + lc))%nat in
  Forall (fun a => length a = n) [x0; x1; y0; y1; s; m; noise] -> poly_bound S s -> 0 <= S ->
  (forall i, (i < length (q ++ p))%nat -> poly_mod (nth i (q ++ p) 0) (poly_add x0 (poly_mul x1 s)) = poly_mod (nth i (q ++ p) 0) (poly_add (poly_scale (lprod p) m) noise)) ->
  (forall j, (j < n)%nat -> Z.abs (co x0 j - lprod p * co y0 j) <= Bd) -> (forall j, (j < n)%nat -> Z.abs (co x1 j - lprod p * co y1 j) <= Bd) ->
  exists err, length err = n /\ (forall i, (i < length q)%nat -> poly_mod (nth i q 0) (poly_add y0 (poly_mul y1 s)) = poly_mod (nth i q 0) (poly_add m err)) /\
    forall j, (j < n)%nat -> Z.abs (lprod p * co err j - co noise j) <= Bd * (1 + Z.of_nat n * S).
Proof.
  intros n F BS HS0 HV R0 R1. rewrite !Forall_cons_iff in F. destruct F as (Lx0 & Lx1 & Ly0 & Ly1 & Ls & Lm & Ln & _).
  pose proof (accel_adm lr lc _ HM) as HA. assert (HAq : Forall (cpu_admissible (lr + lc)) q) by (pose proof HA as X; rewrite Forall_app in X; apply X).
  set (P := lprod p) in *. set (Q := lprod q).
  assert (HX : forall j, (j < n)%nat -> exists w, co (poly_add x0 (poly_mul x1 s)) j = P * co m j + co noise j + w * (P * Q)).
  { intros j Hj. assert (X : co (poly_add x0 (poly_mul x1 s)) j == P * co m j + co noise j [mod lprod (q ++ p)]).
    { apply crt_unique; [exact HC |]. intros z Hz. apply (In_nth _ _ 0) in Hz. destruct Hz as (i & Hi & <-). pose proof (admissible_gt1 _ _ (adm (lr + lc) _ HA i Hi)) as G.
      specialize (HV i Hi). apply poly_mod_eqm in HV; [| lia]. destruct HV as [_ HV]. rewrite poly_add_length, Lx0 in HV. specialize (HV j Hj). rewrite HV.
      rewrite co_add, co_scale by (rewrite ?poly_scale_length; lia). reflexivity. }
    apply eqm_ex in X. destruct X as (w & X). exists w. rewrite X. rewrite lprod_app. fold P Q. ring. }
  destruct (list_choice n _ HX) as (ws & Lw & HW).
  set (err := map (fun j => co (poly_add y0 (poly_mul y1 s)) j - co m j - Q * nth j ws 0) (seq 0 n)).
  assert (Le : length err = n) by (unfold err; rewrite map_length, seq_length; reflexivity).
  assert (CE : forall j, (j < n)%nat -> co err j = co (poly_add y0 (poly_mul y1 s)) j - co m j - Q * nth j ws 0) by (intros j Hj; unfold co at 1, err; rewrite nth_map_seq by exact Hj; reflexivity).
  exists err. split; [exact Le |]. split.
  - intros i Hi. pose proof (admissible_gt1 _ _ (adm (lr + lc) q HAq i Hi)). apply poly_mod_eqm; [lia |]. split; [rewrite !poly_add_length; lia |]. intros j Hj. rewrite poly_add_length, Ly0 in Hj.
    rewrite (co_add m) by lia. rewrite (CE j Hj). pose proof (in_divides_lprod (nth i q 0) q (nth_In _ _ Hi)) as [z Ez]. fold Q in Ez. apply eqm_ex. exists (z * nth j ws 0). rewrite Ez. ring.
  - intros j Hj. rewrite (CE j Hj).
    replace (P * (co (poly_add y0 (poly_mul y1 s)) j - co m j - Q * nth j ws 0) - co noise j) with (P * co (poly_add y0 (poly_mul y1 s)) j - co (poly_add x0 (poly_mul x1 s)) j) by (rewrite (HW j Hj); ring).
    rewrite !co_add by lia. rewrite !co_mul by lia. rewrite Lx1, Ly1.
    match goal with |- Z.abs ?x <= _ => replace x with (- ((co x0 j - P * co y0 j) + nega_coeff n (fun i => co x1 i - P * co y1 i) (co s) j)) by (rewrite nega_sub, nega_scale; ring) end.
    pose proof (R0 j Hj) as R0j.
    assert (R1s : Z.abs (nega_coeff n (fun i => co x1 i - P * co y1 i) (co s) j) <= Z.of_nat n * (Bd * S)).
    { unfold nega_coeff. apply zsum_abs_bound. intros i Hi. pose proof (R1 i Hi) as R1i.
      destruct (Nat.leb_spec i j) as [C | C].
      - pose proof (poly_bound_co S s (j - i) BS ltac:(lia)). rewrite Z.abs_mul. apply Z.mul_le_mono_nonneg; lia.
      - pose proof (poly_bound_co S s (j + n - i) BS ltac:(lia)). rewrite Z.abs_opp, Z.abs_mul. apply Z.mul_le_mono_nonneg; lia. }
    rewrite Z.abs_opp. etransitivity; [apply Z.abs_triangle |]. nia.
Qed.

Section Relin.
  Variables (lr lc : nat) (q p : list Z) (dnum : nat) (original : list Z) (cd : nat).
  Let QP := q ++ p.
  Let L := (lr + lc)%nat.
  Let n := (2 ^ L)%nat.
  Hypothesis HS : mul_setting lr lc q p dnum.
  Hypothesis HCD : (0 < cd)%nat.
  Hypothesis HO : firstn (length original - cd) original = q.

  Lemma relin_core sk s draws e B S K ct c0 c1 c2 : length s = n -> Forall (fun c => 0 <= c < nth 0 q 0) s -> poly_bound S s -> 0 <= S -> sk_moduli sk = q -> slots L q (sk_data sk) (fun _ => s) ->
    0 <= B -> (forall t, (t < dnum)%nat -> uniform_sample n QP (fst (draws t)) /\ snd (draws t) = residue_array (e t) QP /\ length (e t) = n /\ poly_bound B (e t)) ->
    mul_precompute original p dnum (2 ^ lr) (2 ^ lc) cd = Some K ->
    ct_moduli ct = q -> length (ct_data ct) = 3%nat -> slots L q (nth 0 (ct_data ct) []) (fun _ => c0) -> slots L q (nth 1 (ct_data ct) []) (fun _ => c1) -> slots L q (nth 2 (ct_data ct) []) (fun _ => c2) ->
    exists evk ct' y0 y1 err, gen_evaluation_key sk q p dnum draws = Some evk /\ relinearize (Some K) ct evk = Some ct' /\ ct_moduli ct' = q /\
      slots L q (nth 0 (ct_data ct') []) (fun _ => poly_add c0 y0) /\ slots L q (nth 1 (ct_data ct') []) (fun _ => poly_add c1 y1) /\ length y0 = n /\ length y1 = n /\
      relin_error n q p dnum B S err /\
      forall i, (i < length q)%nat -> poly_mod (nth i q 0) (poly_add y0 (poly_mul y1 s)) = poly_mod (nth i q 0) (poly_add (poly_mul c2 (poly_mul s s)) err).
  Proof.
    intros Ls Hr BS HS0 MS SS HB HD HK EM LD S0 S1 S2. pose proof HS as (NQ & NP & Hd & HM & HC & HAl & HT & HLp & HTp & HDm).
    assert (Lq : (0 < length q)%nat) by (clear - NQ; destruct q; [contradiction | cbn; lia]). assert (LQP : length QP = (length q + length p)%nat) by (unfold QP; apply app_length).
    pose proof (q_scheme lr lc q p HM NQ) as HQ. pose proof (qp_scheme lr lc q p HM HC NQ) as HQP. pose proof (scheme_adm _ _ HQ) as HAq. pose proof (scheme_adm _ _ HQP) as HAQP.
    assert (L0 : length c0 = n) by (apply (proj2 S0 0%nat Lq)). assert (L1 : length c1 = n) by (apply (proj2 S1 0%nat Lq)). assert (L2 : length c2 = n) by (apply (proj2 S2 0%nat Lq)).
    (* the key *)
    assert (S31 : forall i, (i < length q)%nat -> 1 < nth i q 0 < 2 ^ 31).
    { intros i Hi. destruct (qp_range lr lc q p HM i) as [X _]; [fold QP; lia |]. rewrite app_nth1 in X by exact Hi. exact X. }
    set (s2 := poly_mul s s). assert (Ls2 : length s2 = n) by (unfold s2; rewrite poly_mul_length; exact Ls).
    set (sq := tab (length q) (degree_of (sk_data sk)) (fun i j => u64 (ent (sk_data sk) i j * ent (sk_data sk) i j) mod nth i q 0)).
    assert (SQ : slots L q sq (fun _ => s2)).
    { unfold sq. rewrite (deg_slots L q _ _ Lq SS). apply slots_tab; [exact HAq | intros; exact Ls2 |]. intros i j Hi Hj. destruct (slots_ent L q HAq _ _ i j SS Hi Hj) as [R V]. pose proof (S31 i Hi).
      rewrite (u64_mul _ _ (nth i q 0)) by lia. split; [apply Z.mod_pos_bound; lia |]. rewrite eqm_mod, V. pose proof (psi_of_root L _ (adm L q HAq i Hi)) as RT. unfold T, s2. symmetry. apply slot_mul; first [exact RT | exact Hj | exact Ls | lia]. }
    destruct (extend_ok L q QP sk s HQ HQP) as (ext & EX & MX & SX); try assumption. { unfold QP. apply firstn_app_exact. }
    destruct (gen_ksk_ok lr lc q p HM HC NQ dnum Hd {| sk_data := sq; sk_moduli := sk_moduli sk |} sk ext s2 s draws e None SQ EX SX) as (evk & EK & _ & LA & LB & HKS).
    { intros t Ht. destruct (HD t Ht) as (X1 & X2 & X3 & _). split; [exact X1 | split; assumption]. }
    assert (EEK : gen_evaluation_key sk q p dnum draws = Some evk) by (unfold gen_evaluation_key; rewrite (proj1 SS), Nat.eqb_refl; exact EK).
    (* the switch *)
    assert (DC : exists C0 C1 C2, ct_data ct = [C0; C1; C2]) by (destruct (ct_data ct) as [|C0 [|C1 [|C2 [|]]]]; try discriminate; eauto). destruct DC as (C0 & C1 & C2 & EC). rewrite EC in S0, S1, S2. cbn [nth] in S0, S1, S2.
    pose proof (kernel_facts lr lc q p HC NQ dnum Hd original cd HCD HO K HK) as KF.
    assert (KF' : mk_drop_last K = q /\ mk_extend K = p /\ mk_r K = (2 ^ lr)%nat /\ mk_c K = (2 ^ lc)%nat) by (destruct KF as (K1 & K2 & K3 & K4 & _); split; [exact K1 |]; split; [exact K2 |]; split; [exact K3 | exact K4]). clear KF. destruct KF' as (K1 & K2 & K3 & K4).
    destruct (mul_switch_ok lr lc q p HM HC NQ dnum Hd original cd HCD HO K HK HAl HT HLp HDm C2 c2 evk (fun t i => nth i (fst (draws t)) [])
      (fun t i => poly_sub (poly_add (e t) (poly_scale (if existsb (Nat.eqb i) (part_indices (length q) dnum t) then lprod p else 0) s2)) (poly_mul (nth i (fst (draws t)) []) s))) as (R0 & R1 & D & ES & HDg & T0 & T1); try assumption.
    set (alpha := ceil_div (length q) dnum) in *. set (k := ceil_div (length q) alpha) in *.
    destruct (malpha lr lc q NQ dnum Hd) as (Ha & Hkd & Hka & _). fold alpha k in Ha, Hkd, Hka.
    set (noise := poly_sum n k (fun t => poly_mul (D t) (e t))). assert (Lno : length noise = n) by apply poly_sum_length.
    assert (LDt : forall t, (t < k)%nat -> length (D t) = n) by (intros t Ht; destruct (HDg t Ht) as [X _]; lia).
    assert (BN : poly_bound (switch_noise n q dnum B) noise).
    { assert (X : poly_bound (zsum k (fun t => Z.of_nat n * (Z.of_nat (length (digit_group q dnum t)) * lprod (digit_group q dnum t) * B))) noise).
      { apply poly_sum_bound. intros t Ht. split; [rewrite poly_mul_length; apply LDt; exact Ht |].
        destruct (HD t ltac:(lia)) as (_ & _ & Let & Bt). rewrite <- (group_pick q p dnum t Hd). replace (Z.of_nat n) with (Z.of_nat (length (D t))) by (rewrite (LDt t Ht); reflexivity). unfold pick at 1. rewrite map_length.
        apply poly_bound_mul; [rewrite LDt by exact Ht; lia | | exact Bt]. apply (digit_bound _ _ c2); [| apply (HDg t Ht)]. apply lprod_pos.
        apply pick_Forall; [apply HC |]. eapply Forall_impl; [| apply (ins_range lr lc); exact Hd]. cbv beta. intros z Hz. fold QP. lia. }
      eapply Forall_impl; [| exact X]. cbv beta. intros z Hz. etransitivity; [exact Hz |]. unfold switch_noise. apply zsum_prefix; [exact Hkd |]. intros t.
      assert (0 < lprod (digit_group q dnum t)).
      { apply lprod_pos. rewrite <- (group_pick q p dnum _ Hd). apply pick_Forall; [apply HC |]. eapply Forall_impl; [| apply (ins_range lr lc); exact Hd]. cbv beta. intros z' Hz'. fold QP. lia. }
      apply Z.mul_nonneg_nonneg; [lia |]. apply Z.mul_nonneg_nonneg; [nia | exact HB]. }
    set (z := poly_scale 0 c2). assert (Lz : length z = n) by (unfold z; rewrite poly_scale_length; exact L2). set (m := poly_mul c2 s2). assert (Lm : length m = n) by (unfold m; rewrite poly_mul_length; exact L2).
    assert (ZC : forall j, co z j = 0). { intros j. unfold z, co, poly_scale. destruct (Nat.lt_ge_cases j (length c2)) as [C | C]; [rewrite (nth_map_lt _ _ _ _ 0) by exact C; ring | apply nth_overflow; rewrite map_length; exact C]. }
    assert (NQP : QP <> []) by (unfold QP; clear - NQ; destruct q; [contradiction | discriminate]).
    destruct (C35_every_component L QP _ HAQP HC NQP (slots_uniform L QP _ _ HAQP T0)) as (x0 & Lx0 & _ & E0).
    destruct (C35_every_component L QP _ HAQP HC NQP (slots_uniform L QP _ _ HAQP T1)) as (x1 & Lx1 & _ & E1).
    apply (evaluation_slots L QP x0 R0 HAQP Lx0) in E0. apply (evaluation_slots L QP x1 R1 HAQP Lx1) in E1.
    assert (HV : forall i, (i < length QP)%nat -> poly_mod (nth i QP 0) (poly_add x0 (poly_mul x1 s)) = poly_mod (nth i QP 0) (poly_add (poly_scale (lprod p) m) noise)).
    { intros i Hi. pose proof (admissible_gt1 _ _ (adm L QP HAQP i Hi)) as G.
      pose proof (switch_equation lr lc q p HM HC NQ dnum Hd k (fun t i => nth i (fst (draws t)) []) e D z c2 s s2 i) as EQ.
      assert (EQ' : poly_mod (nth i QP 0) (poly_add (poly_add (poly_scale (lprod p) z) (poly_sum n k (fun t => poly_mul (poly_sub (poly_add (e t) (poly_scale (if existsb (Nat.eqb i) (part_indices (length q) dnum t) then lprod p else 0) s2)) (poly_mul (nth i (fst (draws t)) []) s)) (D t))))
        (poly_mul (poly_sum n k (fun t => poly_mul (nth i (fst (draws t)) []) (D t))) s)) = poly_mod (nth i QP 0) (poly_add (poly_scale (lprod p) (poly_add z (poly_mul c2 s2))) noise)).
      { apply EQ; try assumption.
        - intros x Hx. fold alpha. apply Nat.div_lt_upper_bound; lia.
        - intros t Ht. destruct (HD t ltac:(lia)) as (U & _ & Let & _). split; [exact Let |]. destruct (uniform_cols _ _ _ U) as [_ CU]. apply CU. exact Hi. }
      clear EQ. pose proof (uniform_slots_value L QP R0 _ (fun _ => x0) i HAQP T0 E0 Hi) as V0. pose proof (uniform_slots_value L QP R1 _ (fun _ => x1) i HAQP T1 E1 Hi) as V1. cbv beta in V0, V1.
      set (F0 := poly_sum n k (fun t => poly_mul (poly_sub (poly_add (e t) (poly_scale (if existsb (Nat.eqb i) (part_indices (length q) dnum t) then lprod p else 0) s2)) (poly_mul (nth i (fst (draws t)) []) s)) (D t))) in EQ'. change (poly_mod (nth i QP 0) F0 = poly_mod (nth i QP 0) x0) in V0. set (F1 := poly_sum n k (fun t => poly_mul (nth i (fst (draws t)) []) (D t))) in EQ'. change (poly_mod (nth i QP 0) F1 = poly_mod (nth i QP 0) x1) in V1. assert (LF0 : length F0 = n) by apply poly_sum_length. assert (LF1 : length F1 = n) by apply poly_sum_length.
      apply poly_mod_eqm in EQ'; [| lia]. apply poly_mod_eqm in V0; [| lia]. apply poly_mod_eqm in V1; [| lia]. destruct EQ' as [_ EQ']. destruct V0 as [_ V0]. destruct V1 as [_ V1].
      apply poly_mod_eqm; [lia |]. split; [rewrite !poly_add_length, poly_scale_length; change (length x0 = length m); rewrite Lm; exact Lx0 |]. change (length x0 = n) in Lx0. change (length x1 = n) in Lx1.
      intros j Hj. rewrite poly_add_length, Lx0 in Hj. rewrite !poly_add_length, poly_scale_length, Lz in EQ'. specialize (EQ' j Hj).
      rewrite (co_add (poly_add (poly_scale (lprod p) z) F0)) in EQ' by (rewrite poly_add_length, poly_scale_length; lia). rewrite (co_add (poly_scale (lprod p) z)) in EQ' by (rewrite poly_scale_length; lia).
      rewrite (co_scale _ z) in EQ' by lia. rewrite ZC in EQ'. rewrite (co_add (poly_scale (lprod p) (poly_add z (poly_mul c2 s2)))) in EQ' by (rewrite poly_scale_length, poly_add_length; lia).
      rewrite (co_scale _ (poly_add _ _)) in EQ' by (rewrite poly_add_length; lia). rewrite (co_add z) in EQ' by lia. rewrite ZC in EQ'. fold m in EQ'.
      rewrite (co_add x0) by lia. rewrite (co_add (poly_scale (lprod p) m)) by (rewrite poly_scale_length; lia). rewrite (co_scale _ m) by lia. rewrite (Z.add_0_l (co m j)) in EQ'. rewrite <- EQ'.
      rewrite <- (V0 j) by (rewrite LF0; exact Hj).
      assert (VM : co (poly_mul x1 s) j == co (poly_mul F1 s) j [mod nth i QP 0]).
      { rewrite !co_mul by lia. rewrite Lx1, LF1. unfold nega_coeff. apply eqm_zsum. intros t Ht. pose proof (V1 t ltac:(lia)) as V. destruct (_ <=? _)%nat; rewrite <- V; reflexivity. }
      rewrite VM. apply eqm_eq. ring. }
    (* the division *)
    destruct (approx_ok lr lc q p HM HC NQ NP dnum Hd original cd HCD HO K HK HAl HLp HTp R0 x0 Lx0 E0) as (A0 & y0 & EA0 & SA0 & Ly0 & B0).
    destruct (approx_ok lr lc q p HM HC NQ NP dnum Hd original cd HCD HO K HK HAl HLp HTp R1 x1 Lx1 E1) as (A1 & y1 & EA1 & SA1 & Ly1 & B1).
    destruct (divide_core lr lc q p x0 x1 y0 y1 s m noise S (Z.of_nat (length p) * lprod p) HM HC) as (err & Le & HE & BE).
    { repeat (constructor; [assumption |]). constructor. } { exact BS. } { exact HS0. } { exact HV. }
    { intros j Hj. specialize (B0 j Hj). lia. } { intros j Hj. specialize (B1 j Hj). lia. }
    exists evk. eexists. exists y0, y1, err. split; [exact EEK |]. split.
    { unfold relinearize. rewrite EC, K1, K2, K3, K4. rewrite <- Nat.pow_add_r. fold L n. rewrite <- LQP.
      cbn [forallb]. rewrite (slots_shaped L q C0 _ S0 : shaped_as (length q) n C0 = true), (slots_shaped L q C1 _ S1 : shaped_as (length q) n C1 = true), (slots_shaped L q C2 _ S2 : shaped_as (length q) n C2 = true). cbn [andb negb orb].
      assert (SHK : forall (X : list array) a, length X = dnum -> (forall t, (t < dnum)%nat -> slots L QP (nth t X []) (a t)) -> forallb (shaped_as (length QP) n) X = true).
      { intros X a LX HX. apply forallb_forall. intros Y HY. apply (In_nth _ _ []) in HY. destruct HY as (t & Ht & <-). assert (Ht' : (t < dnum)%nat) by (rewrite <- LX; exact Ht). exact (slots_shaped L QP _ _ (HX t Ht')). }
      rewrite (SHK (ek_a evk) _ LA (fun t Ht => proj1 (HKS t Ht))), (SHK (ek_b evk) _ LB (fun t Ht => proj2 (HKS t Ht))). rewrite LA, LB. destruct (Nat.eqb_spec dnum 0); [lia |]. cbn [negb orb].
      fold L n in ES. fold QP in ES. rewrite ES. fold L n in EA0, EA1. rewrite EA0, EA1. reflexivity. }
    cbn [ct_moduli ct_data nth]. split; [exact EM |].
    assert (ADD : forall C A c y, length c = n -> length y = n -> slots L q C (fun _ => c) -> slots L q A (fun _ => y) ->
      slots L q (tab (length q) n (fun i j => let m := nth i q 0 in let result := u32 (ent C i j + u32 (ent A i j)) in if m <=? result then u32 (result - m) else result)) (fun _ => poly_add c y)).
    { intros C A c y Lc Ly SC SA. apply slots_tab; [exact HAq | intros; rewrite poly_add_length; exact Lc |]. intros i j Hi Hj. cbv zeta. destruct (slots_ent L q HAq _ _ i j SC Hi Hj) as [RC VC]. destruct (slots_ent L q HAq _ _ i j SA Hi Hj) as [RA VA].
      pose proof (S31 i Hi) as Q31. rewrite (u32_small (ent A i j)) by lia. rewrite (u32_small (ent C i j + ent A i j)) by lia.
      assert (V : ent C i j + ent A i j == nth j (T L (nth i q 0) (poly_add c y)) 0 [mod nth i q 0]). { rewrite VC, VA. unfold T. symmetry. apply slot_add; [exact Hj | lia]. }
      destruct (Z.leb_spec (nth i q 0) (ent C i j + ent A i j)); [rewrite u32_small by lia; split; [lia |]; rewrite <- V; apply eqm_ex; exists (-1); ring | split; [lia | exact V]]. }
    split; [apply (ADD C0 A0); assumption |]. split; [apply (ADD C1 A1); assumption |]. split; [exact Ly0 |]. split; [exact Ly1 |]. split; [| exact HE].
    split; [exact Le |]. apply Forall_forall. intros v Hv. apply (In_nth _ _ 0) in Hv. destruct Hv as (j & Hj & <-). change (nth j err 0) with (co err j). rewrite Le in Hj. specialize (BE j Hj).
    pose proof (poly_bound_co _ noise j BN) as BNj. rewrite Lno in BNj. specialize (BNj Hj).
    assert (PP : 0 < lprod p) by (apply lprod_pos; destruct HC as [X _]; rewrite Forall_app in X; apply X).
    fold L n in BE. rewrite <- (Z.abs_eq (lprod p)) at 1 by lia. rewrite <- Z.abs_mul. lia.
  Qed.
End Relin.

Lemma tensor_ok L q K ct1 ct2 a0 a1 b0 b1 A0 A1 B0 B1 : scheme_moduli L q -> Forall (fun m => m < 2 ^ 31) q ->
  ct_moduli ct1 = q -> ct_data ct1 = [A0; A1] -> ct_data ct2 = [B0; B1] ->
  slots L q A0 (fun _ => a0) -> slots L q A1 (fun _ => a1) -> slots L q B0 (fun _ => b0) -> slots L q B1 (fun _ => b1) ->
  exists ct3, tensor_multiply (Some K) ct1 ct2 = Some ct3 /\ ct_moduli ct3 = q /\ length (ct_data ct3) = 3%nat /\
    slots L q (nth 0 (ct_data ct3) []) (fun _ => poly_mul a0 b0) /\ slots L q (nth 1 (ct_data ct3) []) (fun _ => poly_add (poly_mul a0 b1) (poly_mul a1 b0)) /\ slots L q (nth 2 (ct_data ct3) []) (fun _ => poly_mul a1 b1).
Proof.
  intros HQ H31 EM E1 E2 S0 S1 U0 U1. pose proof (scheme_adm _ _ HQ) as HA. assert (Lq : (0 < length q)%nat) by (destruct HQ as [N _]; destruct q; [contradiction | cbn; lia]).
  assert (La0 : length a0 = (2 ^ L)%nat) by (apply (proj2 S0 0%nat Lq)). assert (La1 : length a1 = (2 ^ L)%nat) by (apply (proj2 S1 0%nat Lq)).
  assert (Lb0 : length b0 = (2 ^ L)%nat) by (apply (proj2 U0 0%nat Lq)). assert (Lb1 : length b1 = (2 ^ L)%nat) by (apply (proj2 U1 0%nat Lq)).
  unfold tensor_multiply. rewrite E1, E2, EM. cbv [static_index]. cbn [nth Nat.min Nat.sub length]. rewrite (deg_slots L q _ _ Lq S0).
  cbn [forallb].
  rewrite (slots_shaped L q A0 _ S0), (slots_shaped L q A1 _ S1), (slots_shaped L q B0 _ U0), (slots_shaped L q B1 _ U1). cbn [andb negb].
  eexists. split; [reflexivity |]. cbn [ct_moduli ct_data length nth]. split; [reflexivity |]. split; [reflexivity |].
  assert (B31 : forall i, (i < length q)%nat -> 1 < nth i q 0 < 2 ^ 31) by (intros i Hi; pose proof (admissible_gt1 _ _ (adm L q HA i Hi)); rewrite Forall_forall in H31; pose proof (H31 _ (nth_In q 0 Hi)); lia).
  assert (P : forall i x y, (i < length q)%nat -> 0 <= x < nth i q 0 -> 0 <= y < nth i q 0 -> 0 <= x * y < 2 ^ 62).
  { intros i x y Hi Hx Hy. pose proof (B31 i Hi). split; [nia |]. apply Z.lt_le_trans with (2 ^ 31 * 2 ^ 31); [nia | vm_compute; discriminate]. }
  assert (R : forall i x, (i < length q)%nat -> 0 <= u32 (x mod nth i q 0) < nth i q 0 /\ u32 (x mod nth i q 0) == x [mod nth i q 0]).
  { intros i x Hi. pose proof (B31 i Hi). pose proof (Z.mod_pos_bound x (nth i q 0) ltac:(lia)). rewrite u32_small by lia. split; [lia |]. apply eqm_mod. }
  split; [| split].
  - apply slots_tab; [exact HA | intros; rewrite poly_mul_length; exact La0 |]. intros i j Hi Hj. destruct (slots_ent L q HA _ _ i j S0 Hi Hj) as [RA VA]. destruct (slots_ent L q HA _ _ i j U0 Hi Hj) as [RB VB].
    destruct (R i (u64 (ent A0 i j * ent B0 i j)) Hi) as [R1 R2]. split; [exact R1 |]. rewrite R2. pose proof (P i _ _ Hi RA RB). rewrite u64_small by lia. rewrite VA, VB. pose proof (psi_of_root L _ (adm L q HA i Hi)) as RT. unfold T. symmetry. apply slot_mul; assumption.
  - apply slots_tab; [exact HA | intros; rewrite poly_add_length, poly_mul_length; exact La0 |]. intros i j Hi Hj. destruct (slots_ent L q HA _ _ i j S0 Hi Hj) as [RA VA]. destruct (slots_ent L q HA _ _ i j S1 Hi Hj) as [RA' VA']. destruct (slots_ent L q HA _ _ i j U0 Hi Hj) as [RB VB]. destruct (slots_ent L q HA _ _ i j U1 Hi Hj) as [RB' VB'].
    match goal with |- context [u64 ?x mod _] => destruct (R i (u64 x) Hi) as [R1 R2] end. split; [exact R1 |]. rewrite R2. pose proof (P i _ _ Hi RA RB'). pose proof (P i _ _ Hi RA' RB). rewrite (u64_small (ent A0 i j * ent B1 i j)) by lia. rewrite (u64_small (ent A1 i j * ent B0 i j)) by lia. rewrite u64_small by lia.
    rewrite VA, VB, VA', VB'. pose proof (psi_of_root L _ (adm L q HA i Hi)) as RT. unfold T. symmetry. slot_push. reflexivity.
  - apply slots_tab; [exact HA | intros; rewrite poly_mul_length; exact La1 |]. intros i j Hi Hj. destruct (slots_ent L q HA _ _ i j S1 Hi Hj) as [RA VA]. destruct (slots_ent L q HA _ _ i j U1 Hi Hj) as [RB VB].
    destruct (R i (u64 (ent A1 i j * ent B1 i j)) Hi) as [R1 R2]. split; [exact R1 |]. rewrite R2. pose proof (P i _ _ Hi RA RB). rewrite u64_small by lia. rewrite VA, VB. pose proof (psi_of_root L _ (adm L q HA i Hi)) as RT. unfold T. symmetry. apply slot_mul; assumption.
Qed.

(** C36, multiplication: the product of two ciphertexts, relinearised, decrypts to the product of what they decrypt to, up
    to an error of at most (key-switching noise)/P + |p| * (1 + n*S) per coefficient. [original] is the chain the kernel is built
    for, of which the ciphertexts hold all but the last [cd] moduli.
    Missing: secret keys with coefficient -1 (as C38) and primes without exact Barrett constants (as C28, C34). *)
Theorem C36_multiply_partial : forall lr lc q p dnum original cd sk s draws e B S ct1 ct2 a0 a1 b0 b1,
  let n := (2 ^ (lr + lc))%nat in
  mul_setting lr lc q p dnum -> (0 < cd)%nat -> firstn (length original - cd) original = q ->
  length s = n -> Forall (fun c => 0 <= c < nth 0 q 0) s -> poly_bound S s -> 0 <= S -> sk_moduli sk = q -> evaluation_form q s (sk_data sk) ->
  0 <= B -> (forall t, (t < dnum)%nat -> uniform_sample n (q ++ p) (fst (draws t)) /\ snd (draws t) = residue_array (e t) (q ++ p) /\ length (e t) = n /\ poly_bound B (e t)) ->
  Forall (fun a => length a = n) [a0; a1; b0; b1] -> ct_moduli ct1 = q -> ct_moduli ct2 = q ->
  Forall2 (evaluation_form q) [a0; a1] (ct_data ct1) -> Forall2 (evaluation_form q) [b0; b1] (ct_data ct2) ->
  exists evk K ct3 ct' err,
    gen_evaluation_key sk q p dnum draws = Some evk /\ mul_precompute original p dnum (2 ^ lr) (2 ^ lc) cd = Some K /\
    decrypt sk ct1 = Some {| pt_data := residue_array (poly_add a0 (poly_mul a1 s)) q; pt_moduli := q |} /\
    decrypt sk ct2 = Some {| pt_data := residue_array (poly_add b0 (poly_mul b1 s)) q; pt_moduli := q |} /\
    tensor_multiply (Some K) ct1 ct2 = Some ct3 /\ relinearize (Some K) ct3 evk = Some ct' /\
    decrypt sk ct' = Some {| pt_data := residue_array (poly_add (poly_mul (poly_add a0 (poly_mul a1 s)) (poly_add b0 (poly_mul b1 s))) err) q; pt_moduli := q |} /\
    relin_error n q p dnum B S err.
Proof.
  intros lr lc q p dnum original cd sk s draws e B S ct1 ct2 a0 a1 b0 b1 n HS HCD HO Ls Hr BS HS0 MD ED HB HD LL EM1 EM2 HE1 HE2.
  rewrite !Forall_cons_iff in LL. destruct LL as (La0 & La1 & Lb0 & Lb1 & _).
  pose proof HS as (NQ & NP & Hd & HM & HC & HAl & HT & HLp & HTp & HDm). pose proof (q_scheme lr lc q p HM NQ) as HQ. pose proof (scheme_adm _ _ HQ) as HA.
  assert (Lq : (0 < length q)%nat) by (destruct HQ as [N _]; destruct q; [contradiction | cbn; lia]).
  assert (DC : forall c0 c1 ct, Forall2 (evaluation_form q) [c0; c1] (ct_data ct) -> exists C0 C1, ct_data ct = [C0; C1] /\ evaluation_form q c0 C0 /\ evaluation_form q c1 C1).
  { clear. intros c0 c1 ct HE. inversion HE as [|? C0 ? ? X1 X2 X3 X4]; subst. inversion X2 as [|? C1 ? ? Y1 Y2 Y3 Y4]; subst. inversion Y2; subst. exists C0, C1. repeat split; assumption. }
  destruct (DC _ _ _ HE1) as (A0 & A1 & EA & F0 & F1). destruct (DC _ _ _ HE2) as (B0 & B1 & EB & G0 & G1). clear DC.
  apply (evaluation_slots _ _ _ _ HA Ls) in ED. apply (evaluation_slots _ _ _ _ HA La0) in F0. apply (evaluation_slots _ _ _ _ HA La1) in F1. apply (evaluation_slots _ _ _ _ HA Lb0) in G0. apply (evaluation_slots _ _ _ _ HA Lb1) in G1.
  assert (EF : firstn (length q) q = q) by apply firstn_all.
  assert (DEC : forall ct c0 c1, ct_moduli ct = q -> slots (lr + lc) q (nth 0 (ct_data ct) []) (fun _ => c0) -> slots (lr + lc) q (nth 1 (ct_data ct) []) (fun _ => c1) ->
    decrypt sk ct = Some {| pt_data := residue_array (poly_add c0 (poly_mul c1 s)) q; pt_moduli := q |}).
  { intros ct c0 c1 EM X0 X1. rewrite (decrypt_ok (lr + lc) q (length q) sk ct s (fun _ => c0) (fun _ => c1)); try assumption; try lia; rewrite ?EF; try assumption. rewrite residues_of_map. reflexivity. }
  destruct (mul_kernel_exists lr lc q p HM HC NQ dnum Hd original cd HCD HO) as (K & HK).
  destruct (tensor_ok (lr + lc) q K ct1 ct2 a0 a1 b0 b1 A0 A1 B0 B1 HQ) as (ct3 & ET & M3 & L3 & X0 & X1 & X2); try assumption.
  { apply Forall_forall. intros m Hm. apply (In_nth _ _ 0) in Hm. destruct Hm as (i & Hi & <-). destruct (qp_range lr lc q p HM i) as [X _]; [rewrite app_length; lia |]. rewrite app_nth1 in X by exact Hi. apply X. }
  destruct (relin_core lr lc q p dnum original cd HS HCD HO sk s draws e B S K ct3 _ _ _ Ls Hr BS HS0 MD ED HB HD HK M3 L3 X0 X1 X2) as (evk & ct' & y0 & y1 & err & EEK & ER & MR & Y0 & Y1 & Ly0 & Ly1 & BE & HE).
  exists evk, K, ct3, ct', err. split; [exact EEK |]. split; [exact HK |]. split; [apply DEC; [exact EM1 | rewrite EA; exact F0 | rewrite EA; exact F1] |]. split; [apply DEC; [exact EM2 | rewrite EB; exact G0 | rewrite EB; exact G1] |].
  split; [exact ET |]. split; [exact ER |]. split; [| exact BE]. rewrite (DEC ct' _ _ MR Y0 Y1). f_equal. f_equal. rewrite <- !residues_of_map. apply map_ext_in. intros i Hi. apply in_seq in Hi.
  destruct BE as [Le _]. change (length err = 2 ^ (lr + lc))%nat in Le. pose proof (adm (lr + lc) q HA i ltac:(lia)) as Ai. pose proof (psi_of_root _ _ Ai) as RT. pose proof (admissible_gt1 _ _ Ai) as GT.
  change (length s = 2 ^ (lr + lc))%nat in Ls. change (length a0 = 2 ^ (lr + lc))%nat in La0. change (length a1 = 2 ^ (lr + lc))%nat in La1. change (length b0 = 2 ^ (lr + lc))%nat in Lb0. change (length b1 = 2 ^ (lr + lc))%nat in Lb1.
  apply (slots_determine (lr + lc)); [exact Ai | slot_side | slot_side |]. intros j Hj. specialize (HE i ltac:(lia)).
  assert (V : nth j (T (lr + lc) (nth i q 0) (poly_add y0 (poly_mul y1 s))) 0 == nth j (T (lr + lc) (nth i q 0) (poly_add (poly_mul (poly_mul a1 b1) (poly_mul s s)) err)) 0 [mod nth i q 0]).
  { rewrite <- (T_mod _ _ (poly_add y0 _)) by exact Ai. rewrite HE, T_mod by exact Ai. reflexivity. }
  unfold T in *. revert V. slot_push. intros V.
  match goal with |- ?g == _ [mod ?q] => match type of V with ?v == ?w [mod _] => transitivity (g - v + w); [rewrite <- V; apply eqm_eq; ring | apply eqm_eq; ring] end end.
Qed.
Print Assumptions C36_multiply_partial.

(** a concrete case: degree 2, two digits, one auxiliary prime *)
Example C36_multiply_setting : mul_setting 0 1 ex_q ex_p 2.
Proof.
  destruct C36_example_setting as [(X1 & X2 & X3 & _ & X4 & X5 & X6 & X7) _]. do 7 (split; [assumption |]). split; [vm_compute; discriminate |]. split; repeat (constructor; [vm_compute; discriminate |]); constructor.
Qed.
Example C36_multiply_example :
  let sk := {| sk_data := ex_eval [1; 1]; sk_moduli := ex_q |} in
  let ct1 := {| ct_data := [ex_eval [100000; 7]; ex_eval [3; -2000]]; ct_moduli := ex_q |} in
  let ct2 := {| ct_data := [ex_eval [12; 700]; ex_eval [31; 19]]; ct_moduli := ex_q |} in
  match gen_evaluation_key sk ex_q ex_p 2 ex_draws, mul_precompute (ex_q ++ [7681]) ex_p 2 1 2 1 with
  | Some evk, Some K =>
      match tensor_multiply (Some K) ct1 ct2 with
      | Some ct3 =>
          match relinearize (Some K) ct3 evk with
          | Some ct' => (* the error is 4 + 4X *)
              decrypt sk ct' = Some {| pt_data := residue_array (poly_add (poly_mul (poly_add [100000; 7] (poly_mul [3; -2000] [1; 1])) (poly_add [12; 700] (poly_mul [31; 19] [1; 1]))) [4; 4]) ex_q; pt_moduli := ex_q |}
          | None => False
          end
      | None => False
      end
  | _, _ => False
  end.
Proof. vm_compute. reflexivity. Qed.
