(** Correctness of one rescaling step. *)
From Coq Require Import ZArith Znumtheory List Bool Lia.
From Verif Require Import Base.ZSum Base.Modeq Base.Lists Base.Word Base.Egcd Base.Fermat Base.Crt.
From Verif Require Import Ckks.Model_rns_utils Ckks.Model_math Ckks.Model_ntt_cpu Ckks.Model_barrett Ckks.Spec_barrett Ckks.Model_scheme Ckks.Model_ntt Ckks.Model_rescale Ckks.Spec_ntt Ckks.Spec_poly Ckks.Spec_rescale.
From Verif Require Import Ckks.Proof_ntt_cpu Ckks.Proof_transform Ckks.Prop_crt Ckks.Prop_barrett Ckks.Prop_ntt_cpu Ckks.Proof_slots Ckks.Proof_ntt_accel Ckks.Prop_ntt_accel.
Import ListNotations.
Local Open Scope Z_scope.

Lemma accel_odd lr lc q : accel_modulus lr lc q -> Z.odd q = true.
Proof.
  intros (_ & [k D] & _). replace q with (1 + 2 * (k * 2 ^ Z.of_nat (lr + lc))) by nia. rewrite Z.odd_add, Z.odd_mul. reflexivity.
Qed.

(** the centred residue used by the code *)
Lemma centred q x : 0 < q -> Z.odd q = true ->
  (if x mod q <? (q + 1) / 2 then x mod q else x mod q - q) = x - q * nearest q x.
Proof.
  intros Hq O. pose proof (Z.div_mod x q ltac:(lia)) as D. pose proof (Z.mod_pos_bound x q Hq) as B.
  apply Z.odd_spec in O. destruct O as [k O].
  assert (E : (q + 1) / 2 = k + 1) by (replace (q + 1) with ((k + 1) * 2) by lia; apply Z.div_mul; lia). rewrite E.
  destruct (Z.ltb_spec (x mod q) (k + 1)).
  - assert (N : x / q = nearest q x) by (apply nearest_within; [lia |]; replace (x - q * (x / q)) with (x mod q) by lia; lia). rewrite <- N. lia.
  - assert (N : x / q + 1 = nearest q x) by (apply nearest_within; [lia |]; replace (x - q * (x / q + 1)) with (x mod q - q) by lia; lia). rewrite <- N. lia.
Qed.

Lemma gamma_beta_ok rest ql : (0 < length rest)%nat -> coprime_moduli (rest ++ [ql]) -> Forall (fun q => 1 < q) (rest ++ [ql]) ->
  exists gammas betas, gamma_beta_calculation (rest ++ [ql]) = Some (gammas, betas) /\ length gammas = length rest /\ length betas = length rest /\
    forall i, (i < length rest)%nat -> 0 <= nth i gammas 0 < nth i rest 0 /\ 0 <= nth i betas 0 < nth i rest 0 /\
      ql * nth i betas 0 == 1 [mod nth i rest 0] /\ nth i gammas 0 == - nth i betas 0 [mod nth i rest 0].
Proof.
  intros Hr [HP HC] H1. unfold gamma_beta_calculation. rewrite app_length. cbn [length].
  destruct (Nat.ltb_spec 1 (length rest + 1)); [| lia]. cbn [negb]. rewrite last_last, removelast_last, product_lprod.
  assert (G : forall x, In x rest -> Z.gcd x ql = 1).
  { intros x Hx. apply (FOP_middle (fun a b => Z.gcd a b = 1)) with (l1 := rest) (l2 := []); [intros a b Hab; rewrite Z.gcd_comm; exact Hab | exact HC |].
    rewrite app_nil_r. exact Hx. }
  rewrite Forall_app in H1. destruct H1 as [HR HL]. rewrite Forall_cons_iff in HL. destruct HL as [Hql _].
  destruct (inverse_total (lprod rest) ql ltac:(lia) (gcd_lprod ql rest G)) as [qi Eqi]. unfold inverse_mod at 1. rewrite Eqi.
  apply inverse_some in Eqi; [| lia]. destruct Eqi as [_ Eqi].
  destruct (sequence_opt_total (map (fun mod_i => inverse_mod ql mod_i) rest)) as [betas EB].
  { intros o Ho. apply in_map_iff in Ho. destruct Ho as (m & <- & Hm). rewrite Forall_forall in HR. specialize (HR m Hm).
    destruct (inverse_total ql m) as [y Hy]; [lia | rewrite Z.gcd_comm; apply G; exact Hm |]. unfold inverse_mod. rewrite Hy. discriminate. }
  rewrite EB. destruct (sequence_opt_nth _ _ 0 EB) as [LB NB]. rewrite map_length in LB, NB.
  eexists. exists betas. split; [reflexivity |]. split; [apply map_length |]. split; [exact LB |]. intros i Hi.
  assert (Q : 1 < nth i rest 0) by (rewrite Forall_forall in HR; apply HR; apply nth_In; exact Hi).
  specialize (NB i Hi). rewrite (nth_map_lt _ _ _ _ 0) in NB by exact Hi. unfold inverse_mod in NB. apply inverse_some in NB; [| lia]. destruct NB as [RB NB].
  rewrite (nth_map_lt _ _ _ _ 0) by exact Hi. split; [apply Z.mod_pos_bound; lia |]. split; [exact RB |]. split; [exact NB |].
  set (p := nth i rest 0) in *. set (b := nth i betas 0) in *. rewrite eqm_mod.
  apply eqm_ex in Eqi. destruct Eqi as [k Ek].
  assert (EG : (lprod rest * qi - 1) / ql = k) by (replace (lprod rest * qi - 1) with (k * ql) by lia; apply Z.div_mul; lia). rewrite EG.
  (* ql * k = lprod rest * qi - 1 = -1 mod p *)
  assert (D : lprod rest == 0 [mod p]).
  { assert (X : (p | lprod rest)) by (apply in_divides_lprod; apply nth_In; exact Hi). apply eqm_ex. destruct X as [t X]. exists t. lia. }
  assert (K : ql * k == -1 [mod p]).
  { replace (ql * k) with (lprod rest * qi - 1) by lia. rewrite D. apply eqm_eq. ring. }
  transitivity (k * (ql * b)); [rewrite NB; apply eqm_eq; ring |]. replace (k * (ql * b)) with ((ql * k) * b) by ring. rewrite K. apply eqm_eq. ring.
Qed.

Section Step.
  Variables (lr lc : nat) (rest : list Z) (ql : Z).
  Let L := (lr + lc)%nat.
  Hypothesis HM : Forall (accel_modulus lr lc) (rest ++ [ql]).
  Hypothesis HC : coprime_moduli (rest ++ [ql]).
  Hypothesis Hr : (0 < length rest)%nat.
  Hypothesis HS : Forall (fun q => ql <= 2 * q + 1) rest.
  Variables (it : rescale_constants) (gammas betas : list Z) (kl : ntt_constants).
  Hypothesis EGB : gamma_beta_calculation (rest ++ [ql]) = Some (gammas, betas).
  Hypothesis Eg : firstn (length rest) (rc_gammas it) = gammas.
  Hypothesis Eb : firstn (length rest) (rc_betas it) = betas.
  Hypothesis Et : rc_threshold it = (ql + 1) / 2.
  Hypothesis El : rc_ntt_last it = [kl].
  Hypothesis Ekl : ntt_precompute ql (2 ^ lr) (2 ^ lc) = Some kl.
  Hypothesis Er : ntt_precompute_constants rest (2 ^ lr) (2 ^ lc) = Some (rc_ntt_remaining it).

  Lemma rest_adm : Forall (cpu_admissible L) rest.
  Proof using HM. rewrite Forall_app in HM. destruct HM as [H _]. revert H. apply Forall_impl. intros q Hq. apply (accel_admissible lr lc q Hq). Qed.

  Lemma step_ok A a : slots L (rest ++ [ql]) A (fun _ => a) -> slots L rest (rescale_limbs it (rest ++ [ql]) A) (fun _ => map (nearest ql) a).
  Proof.
    intros S. pose proof HM as HM'. rewrite Forall_app in HM'. destruct HM' as [MR ML]. rewrite Forall_cons_iff in ML. destruct ML as [ML _].
    destruct (accel_admissible lr lc ql ML) as (Al & Ql & Bl & HRl & HCl). pose proof (accel_odd lr lc ql ML) as Ol.
    assert (La : length a = (2 ^ L)%nat) by (destruct S as [_ S]; apply (S 0%nat); rewrite app_length; cbn; lia).
    assert (LA : length A = (length rest + 1)%nat) by (destruct S as [S _]; rewrite S, app_length; reflexivity).
    assert (ELL : last A [] = T L ql a).
    { destruct S as [_ S]. destruct (S (length rest)) as [_ E]; [rewrite app_length; cbn; lia |].
      rewrite app_nth2, Nat.sub_diag in E by lia. cbn [nth] in E. rewrite <- E.
      destruct (exists_last (l := A)) as (A' & x & ->); [destruct A; [cbn in LA; lia | discriminate] |].
      rewrite last_last. rewrite app_length in LA. cbn in LA. rewrite app_nth2 by lia. replace (length rest - length A')%nat with 0%nat by lia. reflexivity. }
    unfold rescale_limbs. rewrite app_length. cbn [length]. replace (length rest + 1 - 1)%nat with (length rest) by lia.
    rewrite last_last, removelast_last, ELL, Eg, Eb, El, Et, T_length.
    assert (TW : Forall (fun x => 0 <= x < 2 ^ 32) (T L ql a)).
    { apply Forall_forall. intros x Hx. apply (In_nth _ _ 0) in Hx. destruct Hx as (j & Hj & <-). rewrite T_length in Hj. pose proof (T_range L ql a j Al Hj). lia. }
    assert (EC : map u32 (T L ql a) = T L ql a).
    { rewrite <- (map_id (T L ql a)) at 2. apply map_ext_in. intros x Hx. rewrite Forall_forall in TW. apply u32_small. apply TW. exact Hx. }
    rewrite EC. assert (EI : intt_accel kl (T L ql a) = poly_mod ql a).
    { pose proof (accel_inverse lr lc ql Al Ql Bl HRl HCl kl (T L ql a) Ekl (T_length _ _ _) TW) as X. fold L in X. rewrite (intt_T L ql a Al La) in X. congruence. }
    rewrite EI. clear EI EC TW.
    destruct (gamma_beta_ok rest ql Hr HC) as (g' & b' & E' & Lg & Lb & GB).
    { revert HM. apply Forall_impl. intros q Hq. destruct (accel_admissible lr lc q Hq) as (_ & Q & _). lia. }
    assert (g' = gammas /\ b' = betas) as [-> ->] by (rewrite EGB in E'; injection E' as -> ->; split; reflexivity). clear E'.
    match goal with |- context [ntt_accel_poly _ ?t] => set (tw := t) end.
    (* the coefficients after the switch *)
    assert (TWE : forall i j, (i < length rest)%nat -> (j < 2 ^ L)%nat ->
      0 <= ent tw i j < nth i rest 0 /\ ent tw i j == nth i gammas 0 * (co a j - ql * nearest ql (co a j)) [mod nth i rest 0]).
    { intros i j Hi Hj. unfold tw. rewrite tab_ent by assumption. cbv beta zeta.
      replace (nth j (poly_mod ql a) 0) with (co a j mod ql) by (symmetry; apply co_mod).
      pose proof (centred ql (co a j) ltac:(lia) Ol) as CE. rewrite <- CE. clear CE.
      pose proof (Z.mod_pos_bound (co a j) ql ltac:(lia)) as CB. set (c := co a j mod ql) in *.
      assert (Qi : 1 < nth i rest 0 < 2 ^ 31).
      { rewrite Forall_forall in MR. pose proof (accel_admissible lr lc (nth i rest 0) (MR _ (nth_In rest 0 Hi))) as (_ & Q & _). exact Q. }
      assert (Si : ql <= 2 * nth i rest 0 + 1) by (rewrite Forall_forall in HS; apply HS; apply nth_In; exact Hi).
      destruct (GB i Hi) as (Gr & _). set (p := nth i rest 0) in *.
      apply Z.odd_spec in Ol. destruct Ol as [h Oh].
      assert (EH : (ql + 1) / 2 = h + 1) by (replace (ql + 1) with ((h + 1) * 2) by lia; apply Z.div_mul; lia). rewrite EH.
      set (sw := if c <? h + 1 then c else p - ql + c).
      assert (SB : 0 <= sw < 2 ^ 31 /\ sw == (if c <? h + 1 then c else c - ql) [mod p]).
      { unfold sw. destruct (Z.ltb_spec c (h + 1)); split; try lia; try reflexivity. apply eqm_ex. exists 1. lia. }
      destruct SB as [SB SE]. rewrite (u64_small sw) by lia. rewrite (u64_small (sw * _)) by nia.
      pose proof (Z.mod_pos_bound (sw * nth i gammas 0) p ltac:(lia)). rewrite u32_small by lia. split; [lia |].
      rewrite eqm_mod, SE. apply eqm_eq. ring. }
    (* the forward transform *)
    assert (NT : forall i j, (i < length rest)%nat -> (j < 2 ^ L)%nat -> ent (ntt_accel_poly (rc_ntt_remaining it) tw) i j = nth j (T L (nth i rest 0) (nth i tw [])) 0).
    { intros i j Hi Hj. unfold ent, ntt_accel_poly. destruct (sequence_opt_nth _ _ kl Er) as [LK NK]. rewrite map_length in LK, NK.
      rewrite (nth_map2 _ kl [] []) by (try (unfold tw; rewrite tab_length); lia). f_equal.
      specialize (NK i Hi). rewrite (nth_map_lt _ _ _ _ 0) in NK by exact Hi.
      rewrite Forall_forall in MR. pose proof (accel_admissible lr lc (nth i rest 0) (MR _ (nth_In rest 0 Hi))) as (Ai & Qi & Bi & HRi & HCi).
      apply (accel_forward lr lc (nth i rest 0) Ai Qi Bi HRi HCi); [exact NK | |].
      - unfold tw. rewrite tab_col by exact Hi. rewrite map_length, seq_length. reflexivity.
      - apply Forall_forall. intros x Hx. apply (In_nth _ _ 0) in Hx. destruct Hx as (m & Hm & <-).
        assert (Hm' : (m < 2 ^ L)%nat) by (unfold tw in Hm; rewrite tab_col, map_length, seq_length in Hm by exact Hi; exact Hm).
        destruct (TWE i m Hi Hm') as [B _]. unfold ent in B. lia. }
    apply slots_tab; [exact rest_adm | intros; rewrite map_length; exact La |]. intros i j Hi Hj. cbv beta zeta.
    rewrite NT by assumption.
    assert (Qi : 1 < nth i rest 0 < 2 ^ 31).
    { rewrite Forall_forall in MR. pose proof (accel_admissible lr lc (nth i rest 0) (MR _ (nth_In rest 0 Hi))) as (_ & Q & _). exact Q. }
    assert (Ai : cpu_admissible L (nth i rest 0)) by (pose proof rest_adm as X; rewrite Forall_forall in X; apply X; apply nth_In; exact Hi).
    assert (EA : ent A i j = nth j (T L (nth i rest 0) a) 0).
    { destruct S as [_ S]. destruct (S i) as [_ E]; [rewrite app_length; lia |]. unfold ent. rewrite E, app_nth1 by exact Hi. reflexivity. }
    rewrite EA. pose proof (T_range L (nth i rest 0) a j Ai Hj) as B1. pose proof (T_range L (nth i rest 0) (nth i tw []) j Ai Hj) as B2.
    destruct (GB i Hi) as (Gr & Br & BI & GI). set (p := nth i rest 0) in *.
    rewrite (u64_small (nth j (T L p a) 0 * _)) by nia. rewrite u64_small by nia.
    match goal with |- context [u32 (?x mod p)] => pose proof (Z.mod_pos_bound x p ltac:(lia)) end. rewrite u32_small by lia. split; [lia |].
    rewrite eqm_mod.
    assert (Lt : length (nth i tw []) = (2 ^ L)%nat) by (unfold tw; rewrite tab_col by exact Hi; rewrite map_length, seq_length; reflexivity).
    transitivity (nth j (T L p (poly_add (poly_scale (nth i betas 0) a) (nth i tw []))) 0).
    - unfold T. symmetry. rewrite slot_add by (try exact Hj; rewrite poly_scale_length; lia). rewrite slot_scale by exact Hj. apply eqm_eq. ring.
    - unfold T. apply slot_eqm; [exact Hj |]. split; [rewrite poly_add_length, poly_scale_length, map_length; reflexivity |].
      intros m Hm. rewrite poly_add_length, poly_scale_length in Hm. rewrite co_add by (rewrite poly_scale_length; exact Hm). rewrite co_scale.
      destruct (TWE i m Hi ltac:(lia)) as [_ E]. unfold ent in E. unfold co at 2. rewrite E, GI.
      unfold co at 4. rewrite (nth_map_lt _ _ _ _ 0) by exact Hm. fold (co a m).
      transitivity (ql * nth i betas 0 * nearest ql (co a m)); [apply eqm_eq; ring |]. rewrite BI. apply eqm_eq. ring.
  Qed.
End Step.
