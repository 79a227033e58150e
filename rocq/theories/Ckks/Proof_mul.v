(** Relinearisation: the key switch and the approximate division by the auxiliary primes. *)
From Coq Require Import ZArith Znumtheory List Bool Lia Permutation.
From Verif Require Import Base.ZSum Base.Modeq Base.Nega Base.Powm Base.Lists Base.Word Base.Fermat Base.Crt Base.Egcd.
From Verif Require Import Ckks.Model_rns_utils Ckks.Model_ntt_cpu Ckks.Model_barrett Ckks.Spec_barrett Ckks.Model_scheme Ckks.Model_ntt Ckks.Model_addmul Ckks.Model_basis Ckks.Model_plan Ckks.Model_keyswitch Ckks.Model_mul Ckks.Spec_ntt Ckks.Spec_poly.
From Verif Require Import Ckks.Proof_ntt_cpu Ckks.Proof_transform Ckks.Prop_crt Ckks.Prop_barrett Ckks.Prop_ntt_cpu Ckks.Proof_slots Ckks.Proof_ntt_accel Ckks.Prop_ntt_accel Ckks.Proof_basis Ckks.Prop_basis Ckks.Proof_encrypt Ckks.Prop_plan Ckks.Prop_rescale Ckks.Proof_keyswitch Ckks.Proof_moddown Ckks.Proof_ksk Ckks.Prop_keyswitch.
Import ListNotations.
Local Open Scope Z_scope.

Local Notation u64 := Model_scheme.u64.
Local Notation u32 := Model_scheme.u32.

Lemma sequence_opt_intro {A} (l : list (option A)) (d : A) r : length r = length l -> (forall i, (i < length l)%nat -> nth i l None = Some (nth i r d)) -> sequence_opt l = Some r.
Proof.
  revert r. induction l as [|o l IH]; intros r L H; [destruct r; [reflexivity | discriminate] |]. destruct r as [|x r]; [discriminate |].
  cbn [sequence_opt]. pose proof (H 0%nat ltac:(cbn; lia)) as H0. cbn [nth] in H0. rewrite H0. rewrite (IH r); [reflexivity | cbn in L; lia |]. intros i Hi. apply (H (S i)). cbn. lia.
Qed.

Definition no_ntt : ntt_constants := {| nc_ntt1 := []; nc_ntt2 := []; nc_ntt3 := []; nc_intt1 := []; nc_intt2 := []; nc_intt3 := []; nc_barrett := no_constants; nc_r := 0; nc_c := 0 |}.

Lemma kernel_pick ms r c ks idx : ntt_precompute_constants ms r c = Some ks -> Forall (fun i => (i < length ms)%nat) idx ->
  ntt_precompute_constants (pick 0 ms idx) r c = Some (pick no_ntt ks idx).
Proof.
  intros E F. unfold ntt_precompute_constants in *. destruct (sequence_opt_nth _ _ no_ntt E) as [L N]. rewrite map_length in L, N.
  apply (sequence_opt_intro _ no_ntt); rewrite map_length, !pick_length; [reflexivity |]. intros i Hi.
  rewrite (nth_map_lt _ _ _ _ 0) by (rewrite pick_length; exact Hi). rewrite !nth_pick by exact Hi. rewrite Forall_forall in F. pose proof (F _ (nth_In _ 0%nat Hi)) as H.
  rewrite <- (N _ H). rewrite (nth_map_lt _ _ _ _ 0) by exact H. reflexivity.
Qed.
Lemma pick_seq {A} (d : A) l k s : (s + k <= length l)%nat -> pick d l (seq s k) = firstn k (skipn s l).
Proof.
  unfold pick. revert s. induction k as [|k IH]; intros s H; [reflexivity |]. cbn [seq map]. rewrite IH by lia.
  assert (ES : skipn s l = nth s l d :: skipn (S s) l).
  { clear - H. revert s H. induction l as [|x l IHl]; intros s H; [cbn in H; lia |]. destruct s as [|s]; [reflexivity |]. cbn [skipn nth]. apply IHl. cbn in H. lia. }
  rewrite ES. reflexivity.
Qed.

Lemma ntt_kernel_some ms r c : ms <> [] -> ntt_kernel ms r c = ntt_precompute_constants ms r c.
Proof. destruct ms; [contradiction | reflexivity]. Qed.

Section Mul.
  Variables (lr lc : nat) (q p : list Z).
  Let QP := q ++ p.
  Let L := (lr + lc)%nat.
  Let n := (2 ^ L)%nat.
  Hypothesis HM : Forall (accel_modulus lr lc) QP.
  Hypothesis HC : coprime_moduli QP.
  Hypothesis NQ : q <> [].
  Hypothesis NP : p <> [].
  Variable dnum : nat.
  Hypothesis Hd : (0 < dnum)%nat.
  Let HA : Forall (cpu_admissible L) QP := accel_adm lr lc QP HM.
  Let ins := part_indices (length q) dnum.
  Let outs t := not_in (length QP) (ins t).
  Let alpha := ceil_div (length q) dnum.
  Let k := ceil_div (length q) alpha.

  Lemma mlq : (0 < length q)%nat. Proof. clear - NQ. destruct q; [contradiction | cbn; lia]. Qed.
  Lemma mlqp : length QP = (length q + length p)%nat. Proof. apply app_length. Qed.
  Lemma mhm : Forall (accel_modulus lr lc) q /\ Forall (accel_modulus lr lc) p. Proof. pose proof HM as X. unfold QP in X. rewrite Forall_app in X. exact X. Qed.
  Lemma mhc : coprime_moduli q /\ coprime_moduli p.
  Proof.
    split.
    - rewrite <- (firstn_app_exact q p). replace (firstn (length q) (q ++ p)) with (pick 0 QP (seq 0 (length q))) by (rewrite pick_seq by (rewrite mlqp; lia); reflexivity).
      apply coprime_pick; [exact HC | apply seq_NoDup |]. apply Forall_forall. intros i Hi. apply in_seq in Hi. rewrite mlqp. lia.
    - replace p with (pick 0 QP (seq (length q) (length p))).
      + apply coprime_pick; [exact HC | apply seq_NoDup |]. apply Forall_forall. intros i Hi. apply in_seq in Hi. rewrite mlqp. lia.
      + rewrite pick_seq by (rewrite mlqp; lia). unfold QP. rewrite skipn_app, skipn_all, Nat.sub_diag. cbn [app skipn]. apply firstn_all.
  Qed.
  Lemma malpha : (0 < alpha)%nat /\ (k <= dnum)%nat /\ (length q <= k * alpha)%nat /\ (forall t, (t < k)%nat -> ins t <> []).
  Proof.
    pose proof mlq as Lq. destruct (ceil_div_spec (length q) dnum Hd) as [A1 A2]. specialize (A2 ltac:(lia)). fold alpha in A1, A2. assert (Ha : (0 < alpha)%nat) by (destruct alpha; lia).
    destruct (ceil_div_spec (length q) alpha Ha) as [B1 B2]. specialize (B2 Lq). fold k in B1, B2. split; [exact Ha |]. split; [nia |]. split; [nia |].
    intros t Ht E. assert (I : In (t * alpha)%nat (ins t)) by (unfold ins, part_indices; fold alpha; apply in_seq; nia). rewrite E in I. contradiction.
  Qed.
  Lemma ins_r t : Forall (fun i => (i < length q)%nat) (ins t). Proof. apply (ins_range lr lc). exact Hd. Qed.
  Lemma ins_r' t : Forall (fun i => (i < length QP)%nat) (ins t). Proof. eapply Forall_impl; [| apply ins_r]. cbv beta. intros z Hz. rewrite mlqp. lia. Qed.
  Lemma outs_r t : Forall (fun i => (i < length QP)%nat) (outs t).
  Proof. apply Forall_forall. intros i Hi. unfold outs, not_in in Hi. apply filter_In in Hi. destruct Hi as [Hi _]. apply in_seq in Hi. lia. Qed.

  Lemma control_ok : compute_control_indices (length q) (length p) dnum = Some ((seq (length q) (length p), seq 0 (length q)) :: map (fun t => (ins t, outs t)) (seq 0 k)).
  Proof.
    destruct malpha as (Ha & _). unfold compute_control_indices. destruct (Nat.eqb_spec dnum 0); [lia |]. fold alpha. destruct (Nat.eqb_spec alpha 0); [lia |]. fold k. f_equal. f_equal.
    apply map_ext_in. intros t Ht. apply in_seq in Ht. rewrite extract_blocks by exact Ha. fold k. rewrite (nth_map_seq (block alpha (length q))) by lia.
    unfold outs. rewrite mlqp. reflexivity.
  Qed.

  Variables (original : list Z) (cd : nat).
  Hypothesis HCD : (0 < cd)%nat.
  Hypothesis HO : firstn (length original - cd) original = q.

  Lemma mul_kernel_exists : exists K, mul_precompute original p dnum (2 ^ lr) (2 ^ lc) cd = Some K.
  Proof.
    unfold mul_precompute. destruct (Nat.eqb_spec cd 0); [lia |]. rewrite HO. destruct mhm as [Mq Mp]. destruct mhc as [Cq Cp].
    assert (S31 : forall ms, Forall (accel_modulus lr lc) ms -> forallb (fun m => m <? 2 ^ 31) ms = true).
    { intros ms H. apply forallb_forall. intros m Hm. rewrite Forall_forall in H. destruct (accel_admissible lr lc m (H m Hm)) as (_ & Y & _). apply Z.ltb_lt. lia. }
    rewrite !S31 by assumption. cbn [andb negb]. rewrite control_ok.
    destruct (sequence_opt_total (map (fun c => match select QP (fst c), select QP (snd c) with Some o, Some t => basis_precompute o t | _, _ => None end)
      ((seq (length q) (length p), seq 0 (length q)) :: map (fun t => (ins t, outs t)) (seq 0 k)))) as (bc & EB).
    { intros o Ho. apply in_map_iff in Ho. destruct Ho as (pl & <- & Hp). destruct Hp as [<- | Hp]; cbn [fst snd].
      - rewrite !select_total by (apply Forall_forall; intros i Hi; apply in_seq in Hi; rewrite mlqp; lia).
        destruct (basis_precompute_ok (pick 0 QP (seq (length q) (length p))) (map (fun i => nth i QP 0) (seq 0 (length q)))) as (c & E).
        + apply coprime_pick; [exact HC | apply seq_NoDup |]. apply Forall_forall. intros i Hi. apply in_seq in Hi. rewrite mlqp. lia.
        + unfold pick in E. rewrite E. discriminate.
      - apply in_map_iff in Hp. destruct Hp as (t & <- & Ht). cbn [fst snd]. rewrite !select_total by (first [apply ins_r' | apply outs_r]).
        destruct (basis_precompute_ok (pick 0 QP (ins t)) (map (fun i => nth i QP 0) (outs t))) as (c & E).
        + apply coprime_pick; [exact HC | apply ins_NoDup | apply ins_r'].
        + unfold pick in E. rewrite E. discriminate. }
    unfold basis_precompute_constants. fold QP. rewrite EB. destruct (kernel_exists lr lc QP HM) as (ks & EK).
    assert (NQP : QP <> []) by (unfold QP; clear - NQ; destruct q; [contradiction | discriminate]).
    rewrite (ntt_kernel_some _ _ _ NQP), EK.
    destruct (sequence_opt_total (map (fun m => Egcd.inverse (product p) m) q)) as (pi & EPI).
    { intros o Ho. apply in_map_iff in Ho. destruct Ho as (m & <- & Hm). rewrite product_lprod. destruct (inverse_total (lprod p) m) as (y & ->); [| | discriminate].
      - destruct Cq as [X _]. rewrite Forall_forall in X. apply X, Hm.
      - apply gcd_lprod. intros x Hx. destruct HC as [_ X]. unfold QP in X. clear - X Hm Hx.
        rewrite Z.gcd_comm. induction q as [|z l IH]; [contradiction |]. cbn [app] in X. inversion X as [|? ? F R]; subst. destruct Hm as [-> | Hm]; [rewrite Forall_forall in F; apply F, in_app_iff; right; exact Hx | apply IH; assumption]. }
    rewrite EPI. eexists. reflexivity.
  Qed.

  Variable K : mul_kernel.
  Hypothesis HK : mul_precompute original p dnum (2 ^ lr) (2 ^ lc) cd = Some K.

  Lemma kernel_facts : mk_drop_last K = q /\ mk_extend K = p /\ mk_r K = (2 ^ lr)%nat /\ mk_c K = (2 ^ lc)%nat /\
    mk_parts K = map (fun t => (ins t, outs t)) (seq 0 k) /\ mk_restore K = map (fun t => restore_index (ins t ++ outs t)) (seq 0 k) /\
    (forall t, (t < k)%nat -> exists c, nth_error (mk_bconv K) (1 + t) = Some c /\ basis_precompute (pick 0 QP (ins t)) (pick 0 QP (outs t)) = Some c) /\
    (exists c, nth_error (mk_bconv K) 0 = Some c /\ basis_precompute p q = Some c) /\
    ntt_precompute_constants q (2 ^ lr) (2 ^ lc) = Some (mk_ntt_current K) /\ ntt_precompute_constants p (2 ^ lr) (2 ^ lc) = Some (mk_ntt_extend K) /\
    (forall t, (t < k)%nat -> ntt_precompute_constants (pick 0 QP (outs t)) (2 ^ lr) (2 ^ lc) = Some (nth t (mk_ntt_parts K) [])) /\
    (forall i, (i < length q)%nat -> 0 <= nth i (mk_p_inv K) 0 < nth i q 0 /\ lprod p * nth i (mk_p_inv K) 0 == 1 [mod nth i q 0]) /\
    mk_full_barrett K = precompute_constants QP.
  Proof.
    pose proof HK as E. unfold mul_precompute in E. destruct (Nat.eqb_spec cd 0); [lia |]. rewrite HO in E. destruct (negb _); [discriminate |]. rewrite control_ok in E. cbn [tl] in E. fold QP in E.
    destruct (basis_precompute_constants QP _) as [bc |] eqn:EB; [| discriminate]. destruct (ntt_kernel QP (2 ^ lr) (2 ^ lc)) as [ks |] eqn:EN; [| discriminate].
    destruct (sequence_opt (map (fun m => Egcd.inverse (product p) m) q)) as [pi |] eqn:EI; [| discriminate]. injection E as <-.
    assert (EK : ntt_precompute_constants QP (2 ^ lr) (2 ^ lc) = Some ks) by (rewrite <- EN; symmetry; apply ntt_kernel_some; unfold QP; clear - NQ; destruct q; [contradiction | discriminate]).
    pose proof (kernel_length _ _ _ _ EK) as LK. rewrite mlqp in LK.
    cbn [mk_drop_last mk_extend mk_r mk_c mk_parts mk_restore mk_bconv mk_ntt_current mk_ntt_extend mk_ntt_parts mk_p_inv mk_full_barrett].
    split; [reflexivity |]. split; [reflexivity |]. split; [reflexivity |]. split; [reflexivity |]. split; [reflexivity |]. split; [rewrite map_map; reflexivity |].
    assert (Eq : q = pick 0 QP (seq 0 (length q))) by (rewrite pick_seq by (rewrite mlqp; lia); unfold QP; cbn [skipn]; rewrite firstn_app_exact; reflexivity).
    assert (Ep : p = pick 0 QP (seq (length q) (length p))).
    { rewrite pick_seq by (rewrite mlqp; lia). unfold QP. rewrite skipn_app, skipn_all, Nat.sub_diag. cbn [app skipn]. symmetry. apply firstn_all. }
    assert (Rq : Forall (fun i => (i < length QP)%nat) (seq 0 (length q))) by (apply Forall_forall; intros i Hi; apply in_seq in Hi; rewrite mlqp; lia).
    assert (Rp : Forall (fun i => (i < length QP)%nat) (seq (length q) (length p))) by (apply Forall_forall; intros i Hi; apply in_seq in Hi; rewrite mlqp; lia).
    split.
    { apply (plans_constants QP _ bc 1 k ins outs EB); [cbn [skipn]; apply firstn_all2; rewrite map_length, seq_length; lia |]. intros t Ht. split; [apply ins_r' | apply outs_r]. }
    split.
    { destruct (plans_constants QP _ bc 0 1 (fun _ => seq (length q) (length p)) (fun _ => seq 0 (length q)) EB eq_refl ltac:(intros; split; assumption) 0%nat ltac:(lia)) as (c & N1 & N2).
      exists c. split; [exact N1 |]. rewrite <- Eq, <- Ep in N2. exact N2. }
    split. { rewrite Eq at 1. rewrite (kernel_pick _ _ _ ks) by assumption. f_equal. rewrite pick_seq by lia. reflexivity. }
    split. { rewrite Ep at 1. rewrite (kernel_pick _ _ _ ks) by assumption. f_equal. rewrite pick_seq by lia. reflexivity. }
    split.
    { intros t Ht. rewrite (kernel_pick _ _ _ ks _ EK (outs_r t)). f_equal. rewrite map_map. cbn [snd].
      rewrite (nth_map_seq (fun x => flat_map (fun i => match nth_error ks i with Some k => [k] | None => [] end) (outs x))) by exact Ht.
      pose proof (outs_r t) as F. clear - F LK. set (o := outs t) in *. pose proof mlqp as X. unfold pick. induction o as [|i l IH]; [reflexivity |]. rewrite Forall_cons_iff in F. destruct F as [Fi F]. cbn [map flat_map].
      rewrite (nth_error_nth' ks no_ntt) by lia. cbn [app]. f_equal. apply IH. exact F. }
    split; [| reflexivity].
    intros i Hi. destruct (sequence_opt_nth _ _ 0 EI) as [LI NI]. rewrite map_length in NI. specialize (NI i Hi). rewrite (nth_map_lt _ _ _ _ 0) in NI by exact Hi.
    rewrite product_lprod in NI. apply inverse_some in NI; [exact NI |]. destruct mhc as [[X _] _]. rewrite Forall_forall in X. apply X, nth_In, Hi.
  Qed.

  Hypothesis HAl : Z.of_nat alpha <= 4112.
  Hypothesis HT : Forall (fun m => 1020 * Z.of_nat alpha <= m) QP.
  Hypothesis HLp : Z.of_nat (length p) <= 4112.
  Hypothesis HTp : Forall (fun m => 1020 * Z.of_nat (length p) <= m) q.
  Hypothesis HDm : Forall (fun m => Z.of_nat dnum <= m) QP.

  Lemma ins_len t : (length (ins t) <= alpha)%nat. Proof. unfold ins, part_indices. fold alpha. rewrite seq_length. nia. Qed.

  Lemma mul_extend_ok last c2 t : (t < k)%nat -> slots L q last (fun _ => c2) ->
    exists D E, mul_extend_part K (intt_accel_poly (mk_ntt_current K) (cast32 last)) last t = Some E /\ slots L QP E (fun _ => D) /\ digit_of (lprod (pick 0 QP (ins t))) (length (ins t)) c2 D.
  Proof.
    intros Ht S. destruct kernel_facts as (K1 & K2 & K3 & K4 & K5 & K6 & K7 & K8 & K9 & K10 & K11 & K12 & K13). destruct mhm as [Mq Mp].
    assert (HAq : Forall (cpu_admissible L) q) by (apply accel_adm; exact Mq).
    destruct (K7 t Ht) as (c & N1 & N2). pose proof (K11 t Ht) as N3. pose proof (ins_r t) as F. pose proof (ins_r' t) as F'. pose proof (outs_r t) as Fo.
    assert (ND : NoDup (ins t)) by apply ins_NoDup.
    pose proof (not_in_spec (length QP) (ins t) ND F') as PM. fold (outs t) in PM.
    assert (EP : pick 0 QP (ins t) = pick 0 q (ins t)). { unfold pick. apply map_ext_in. intros i Hi. rewrite Forall_forall in F. apply app_nth1, F, Hi. }
    assert (Sp : slots L (pick 0 QP (ins t)) (pick [] last (ins t)) (fun _ => c2)). { rewrite EP. exact (slots_pick L q last (fun _ => c2) (ins t) S F). }
    assert (NE : ins t <> []) by (apply malpha; exact Ht).
    assert (Lc : length c2 = n) by (apply (proj2 S 0%nat mlq)).
    destruct (conv_ok lr lc (pick 0 QP (ins t)) (pick 0 QP (outs t)) (pick no_ntt (mk_ntt_current K) (ins t)) (nth t (mk_ntt_parts K) []) c (pick [] last (ins t)) c2) as (D & conv & E1 & E2 & E3 & E4 & E5 & E6); try assumption.
    - apply pick_Forall; assumption.
    - apply pick_Forall; assumption.
    - apply coprime_pick; assumption.
    - destruct (ins t); [contradiction | discriminate].
    - rewrite pick_length. pose proof (ins_len t). lia.
    - rewrite pick_length. apply pick_Forall; [| exact Fo]. pose proof HT as X. revert X. apply Forall_impl. intros m Hm. pose proof (ins_len t). lia.
    - rewrite EP. apply kernel_pick; assumption.
    - rewrite pick_length in E6. unfold mul_extend_part. rewrite K5, K6. rewrite (nth_map_seq (fun t => (ins t, outs t))) by exact Ht. rewrite (nth_map_seq (fun t => restore_index (ins t ++ outs t))) by exact Ht.
      assert (EI : pick [] (intt_accel_poly (mk_ntt_current K) (cast32 last)) (ins t) = intt_accel_poly (pick no_ntt (mk_ntt_current K) (ins t)) (cast32 (pick [] last (ins t)))).
      { rewrite (slots_cast32 L q last _ HAq (accel_le32 lr lc q Mq) S). rewrite (slots_cast32 L _ _ _ (accel_adm lr lc _ (pick_Forall _ _ _ HM F')) (accel_le32 lr lc _ (pick_Forall _ _ _ HM F')) Sp).
        rewrite (accel_intt lr lc q _ last _ Mq K9 S). rewrite (accel_intt lr lc (pick 0 QP (ins t)) _ _ (fun _ => c2)); [| apply pick_Forall; assumption | rewrite EP; apply kernel_pick; assumption | exact Sp].
        apply (list_ext []); [rewrite pick_length, map_length, seq_length, pick_length; reflexivity |]. intros i Hi. rewrite pick_length in Hi. rewrite nth_pick by exact Hi.
        pose proof F as F2. rewrite Forall_forall in F2. pose proof (F2 _ (nth_In _ 0%nat Hi)) as Hb. rewrite (nth_map_seq (fun i => poly_mod (nth i q 0) c2)) by exact Hb.
        rewrite (nth_map_seq (fun i => poly_mod (nth i (pick 0 QP (ins t)) 0) c2)) by (rewrite pick_length; exact Hi). rewrite nth_pick by exact Hi. f_equal. unfold QP. rewrite app_nth1 by exact Hb. reflexivity. }
      rewrite EI. unfold basis_change. rewrite Nat.add_comm. cbv beta zeta. rewrite N1, E1, E4.
      eexists D, _. split; [reflexivity |]. split; [| exact E6].
      assert (EG : pick [] last (ins t) ++ ntt_accel_poly (nth t (mk_ntt_parts K) []) conv = map (fun i => T L (nth i QP 0) D) (ins t ++ outs t)).
      { rewrite map_app. f_equal.
        - apply (list_ext []); [rewrite pick_length, map_length; reflexivity |]. intros i Hi. rewrite pick_length in Hi. rewrite (nth_map_lt _ _ _ _ 0%nat) by exact Hi.
          destruct Sp as [_ Sp]. destruct (Sp i) as [_ ->]; [rewrite pick_length; exact Hi |]. rewrite nth_pick by exact Hi. symmetry.
          apply (digit_congr L (pick 0 QP (ins t)) (length (ins t))); [apply accel_adm, pick_Forall; assumption | apply coprime_pick; assumption | exact E6 |].
          rewrite <- nth_pick by exact Hi. apply nth_In. rewrite pick_length. exact Hi.
        - destruct E5 as [LE E5]. rewrite pick_length in LE. apply (list_ext []); [rewrite map_length; exact LE |]. intros i Hi. rewrite LE in Hi. rewrite (nth_map_lt _ _ _ _ 0%nat) by exact Hi.
          destruct (E5 i) as [_ X]; [rewrite pick_length; exact Hi |]. rewrite nth_pick in X by exact Hi. exact X. }
      rewrite EG. pose proof (C41_restore (length QP) (ins t) (outs t) (fun i => T L (nth i QP 0) D) PM) as R. cbv zeta in R. unfold pick. rewrite R.
      split; [rewrite map_length, seq_length; reflexivity |]. intros i Hi. split; [destruct E6 as [X _]; lia |]. rewrite (nth_map_seq (fun i => T L (nth i QP 0) D)) by exact Hi. reflexivity.
  Qed.

  Lemma mul_switch_ok last c2 evk (a b : nat -> nat -> list Z) : slots L q last (fun _ => c2) ->
    length (ek_a evk) = dnum -> length (ek_b evk) = dnum -> (forall t, (t < dnum)%nat -> slots L QP (nth t (ek_a evk) []) (a t) /\ slots L QP (nth t (ek_b evk) []) (b t)) ->
    exists R0 R1 D, mul_key_switch K evk (length QP) n (intt_accel_poly (mk_ntt_current K) (cast32 last)) last = Some (R0, R1) /\
      (forall t, (t < k)%nat -> digit_of (lprod (pick 0 QP (ins t))) (length (ins t)) c2 (D t)) /\
      slots L QP R0 (fun i => poly_sum n k (fun t => poly_mul (b t i) (D t))) /\ slots L QP R1 (fun i => poly_sum n k (fun t => poly_mul (a t i) (D t))).
  Proof.
    intros SL LA LB HS. destruct kernel_facts as (K1 & K2 & K3 & K4 & K5 & K6 & K7 & K8 & K9 & K10 & K11 & K12 & K13). destruct malpha as (Ha & Hkd & Hka & _).
    assert (Lc : length c2 = n) by (apply (proj2 SL 0%nat mlq)). assert (Hk0 : (0 < k)%nat) by (pose proof mlq; destruct k; lia).
    destruct (fun_choice ([], []) k (fun t DE => mul_extend_part K (intt_accel_poly (mk_ntt_current K) (cast32 last)) last t = Some (snd DE) /\
      slots L QP (snd DE) (fun _ => fst DE) /\ digit_of (lprod (pick 0 QP (ins t))) (length (ins t)) c2 (fst DE))) as (DE & HDE).
    { intros t Ht. destruct (mul_extend_ok last c2 t Ht SL) as (D & E & X1 & X2 & X3). exists (D, E). cbn [fst snd]. split; [exact X1 |]. split; [exact X2 | exact X3]. }
    set (D := fun t => fst (DE t)).
    assert (LD : forall t, (t < k)%nat -> length (D t) = n) by (intros t Ht; destruct (HDE t Ht) as (_ & _ & [X _]); fold (D t) in X; lia).
    assert (La : forall t i, (t < k)%nat -> (i < length QP)%nat -> length (a t i) = n) by (intros t i Ht Hi; apply (HS t ltac:(lia)); exact Hi).
    assert (Lb : forall t i, (t < k)%nat -> (i < length QP)%nat -> length (b t i) = n) by (intros t i Ht Hi; apply (HS t ltac:(lia)); exact Hi).
    (* one unreduced accumulation *)
    set (good := fun (x : nat -> nat -> list Z) kk (A : array) => length A = length QP /\ forall i j, (i < length QP)%nat -> (j < n)%nat -> length (nth i A []) = n /\ 0 <= ent A i j <= Z.of_nat kk * (nth i QP 0 - 1) /\
      ent A i j == nth j (T L (nth i QP 0) (poly_sum n kk (fun t => poly_mul (x t i) (D t)))) 0 [mod nth i QP 0]).
    assert (PR : forall X x E Dt i j, slots L QP X x -> slots L QP E (fun _ => Dt) -> (i < length QP)%nat -> (j < n)%nat ->
      let v := modular_reduction (u64 (ent E i j * ent X i j)) (nth i (mk_full_barrett K) no_constants) in 0 <= v < nth i QP 0 /\ v == nth j (T L (nth i QP 0) (poly_mul (x i) Dt)) 0 [mod nth i QP 0]).
    { intros X x E Dt i j SX SE Hi Hj v. destruct (slots_ent L QP HA X x i j SX Hi Hj) as [R1 V1]. destruct (slots_ent L QP HA E _ i j SE Hi Hj) as [R2 V2].
      destruct (qp_range lr lc q p HM i Hi) as [Q B]. fold QP in Q, B. unfold v. rewrite K13. unfold precompute_constants. rewrite (nth_map_lt _ _ _ _ 0) by exact Hi.
      rewrite (u64_mul _ _ (nth i QP 0)) by lia. rewrite B by nia. split; [apply Z.mod_pos_bound; lia |]. rewrite eqm_mod, V1, V2. pose proof (psi_of_root L _ (adm L QP HA i Hi)) as RT.
      unfold T. symmetry. rewrite slot_mul by (first [exact Hj | exact RT | apply (proj2 SX i Hi) | apply (proj2 SE i Hi) | lia]). apply eqm_eq. ring. }
    assert (ACC0 : forall x X E, slots L QP X (x 0%nat) -> slots L QP E (fun _ => D 0%nat) -> good x 1%nat (mul_accumulate K (length QP) n E X None)).
    { intros x X E SX SE. unfold mul_accumulate. split; [apply tab_length |]. intros i j Hi Hj. rewrite tab_ent by assumption. destruct (PR X (x 0%nat) E (D 0%nat) i j SX SE Hi Hj) as [P1 P2].
      split; [rewrite (tab_col _ _ _ _ Hi), map_length, seq_length; reflexivity |]. split; [lia |]. rewrite P2.
      rewrite poly_sum_S by (rewrite poly_mul_length; apply (proj2 SX i Hi)). unfold T. symmetry. rewrite slot_add by (first [exact Hj | rewrite poly_mul_length, poly_sum_length; symmetry; apply (proj2 SX i Hi)]).
      pose proof (slot_sum L (nth i QP 0) 0 (fun t => poly_mul (x t i) (D t)) j (adm L QP HA i Hi) Hj ltac:(lia)) as Z0. unfold T in Z0. unfold n at 1. rewrite Z0. cbn [zsum]. apply eqm_eq. ring. }
    assert (ACC : forall x X E A kk, (0 < kk < k)%nat -> good x kk A -> slots L QP X (x kk) -> slots L QP E (fun _ => D kk) -> good x (S kk) (mul_accumulate K (length QP) n E X (Some A))).
    { intros x X E A kk Hkk [GL G] SX SE. unfold mul_accumulate. split; [apply tab_length |]. intros i j Hi Hj. rewrite tab_ent by assumption. destruct (PR X (x kk) E (D kk) i j SX SE Hi Hj) as [P1 P2].
      destruct (G i j Hi Hj) as (_ & G1 & G2). split; [rewrite (tab_col _ _ _ _ Hi), map_length, seq_length; reflexivity |].
      pose proof HDm as X1. rewrite Forall_forall in X1. pose proof (X1 _ (nth_In _ 0 Hi)) as X2. destruct (qp_range lr lc q p HM i Hi) as [Q _]. fold QP in Q.
      assert (BK : Z.of_nat kk <= 2 ^ 31) by lia. rewrite u64_small by nia. split; [nia |]. rewrite G2, P2.
      rewrite (poly_sum_S n kk) by (rewrite poly_mul_length; apply (proj2 SX i Hi)). unfold T. symmetry. rewrite slot_add by (first [exact Hj | rewrite poly_mul_length, poly_sum_length; symmetry; apply (proj2 SX i Hi)]). reflexivity. }
    assert (FOLD : forall kk, (0 < kk <= k)%nat -> exists A B, fold_left (fun acc part =>
      match acc with
      | None => None
      | Some (r0, r1) =>
          match mul_extend_part K (intt_accel_poly (mk_ntt_current K) (cast32 last)) last part with
          | None => None
          | Some ext => Some (Some (mul_accumulate K (length QP) n ext (static_index (ek_b evk) part []) r0), Some (mul_accumulate K (length QP) n ext (static_index (ek_a evk) part []) r1))
          end
      end) (seq 0 kk) (Some (None, None)) = Some (Some A, Some B) /\ good b kk A /\ good a kk B).
    { induction kk as [|kk IH]; [lia |]. intros Hkk. destruct (Nat.eq_dec kk 0) as [-> | NZ].
      - cbn [seq fold_left]. destruct (HDE 0%nat ltac:(lia)) as (X1 & X2 & X3). rewrite X1. eexists _, _. split; [reflexivity |]. unfold static_index. rewrite LA, LB, Nat.min_0_l.
        split; apply ACC0; first [exact X2 | apply (HS 0%nat ltac:(lia))].
      - destruct (IH ltac:(lia)) as (A & B & EF & GA & GB). rewrite seq_S, fold_left_app, EF. cbn [Nat.add fold_left]. destruct (HDE kk ltac:(lia)) as (X1 & X2 & X3). rewrite X1.
        eexists _, _. split; [reflexivity |]. unfold static_index. rewrite LA, LB. rewrite Nat.min_l by lia. split; (apply ACC; [lia | assumption | apply (HS kk ltac:(lia)) | exact X2]). }
    destruct (FOLD k ltac:(lia)) as (A & B & EF & GA & GB). unfold mul_key_switch. rewrite K5, map_length, seq_length. rewrite EF. eexists _, _, D. split; [reflexivity |].
    split; [intros t Ht; apply (HDE t Ht) |].
    assert (RED : forall x X, (forall t i, (t < k)%nat -> (i < length QP)%nat -> length (x t i) = n) -> good x k X ->
      slots L QP (tab (length QP) n (fun i j => modular_reduction (ent X i j) (nth i (mk_full_barrett K) no_constants))) (fun i => poly_sum n k (fun t => poly_mul (x t i) (D t)))).
    { intros x X Lx [GL G]. apply slots_tab; [exact HA | intros i Hi; apply poly_sum_length |]. intros i j Hi Hj. destruct (G i j Hi Hj) as (_ & G1 & G2). destruct (qp_range lr lc q p HM i Hi) as [Q BB]. fold QP in Q, BB.
      pose proof HDm as X1. rewrite Forall_forall in X1. pose proof (X1 _ (nth_In _ 0 Hi)) as X2. rewrite K13. unfold precompute_constants. rewrite (nth_map_lt _ _ _ _ 0) by exact Hi.
      rewrite BB by nia. split; [apply Z.mod_pos_bound; lia |]. rewrite eqm_mod. exact G2. }
    split; apply RED; assumption.
  Qed.

  Lemma approx_ok R x : length x = n -> slots L QP R (fun _ => x) -> exists A y, approx_mod_down K n R = Some A /\ slots L q A (fun _ => y) /\ length y = n /\
    forall j, (j < n)%nat -> 0 <= co x j - lprod p * co y j < Z.of_nat (length p) * lprod p.
  Proof.
    intros Lx S. destruct kernel_facts as (K1 & K2 & K3 & K4 & K5 & K6 & K7 & K8 & K9 & K10 & K11 & K12 & K13). destruct mhm as [Mq Mp]. destruct mhc as [Cq Cp]. destruct K8 as (c & N1 & N2).
    assert (HAq : Forall (cpu_admissible L) q) by (apply accel_adm; exact Mq).
    assert (Ep : p = pick 0 QP (seq (length q) (length p))).
    { rewrite pick_seq by (rewrite mlqp; lia). unfold QP. rewrite skipn_app, skipn_all, Nat.sub_diag. cbn [app skipn]. symmetry. apply firstn_all. }
    assert (Rp : Forall (fun i => (i < length QP)%nat) (seq (length q) (length p))) by (apply Forall_forall; intros i Hi; apply in_seq in Hi; rewrite mlqp; lia).
    assert (Sp : slots L p (firstn (length p) (skipn (length q) R)) (fun _ => x)).
    { pose proof (slots_pick L QP R (fun _ => x) _ S Rp) as X. rewrite <- Ep in X. rewrite pick_seq in X by (rewrite (proj1 S), mlqp; lia). exact X. }
    destruct (conv_ok lr lc p q (mk_ntt_extend K) (mk_ntt_current K) c (firstn (length p) (skipn (length q) R)) x) as (D & conv & E1 & E2 & E3 & E4 & E5 & E6); try assumption.
    unfold approx_mod_down. rewrite K1, K2. unfold basis_change. rewrite N1, E1, E4.
    assert (PP : 0 < lprod p) by (apply lprod_pos, Cp). destruct E6 as [LD HD].
    assert (HY : forall j, (j < n)%nat -> exists y, lprod p * y = co x j - co D j /\ 0 <= co D j < Z.of_nat (length p) * lprod p).
    { intros j Hj. destruct (HD j ltac:(lia)) as (u & Hu & ->). exists (co x j / lprod p - u). pose proof (Z.div_mod (co x j) (lprod p) ltac:(lia)). pose proof (Z.mod_pos_bound (co x j) (lprod p) PP). split; nia. }
    destruct (list_choice n _ HY) as (y & Ly & Hy). exists (tab (length q) n (fun i j => let m := nth i q 0 in let q := ent R i j in let b := ent (ntt_accel_poly (mk_ntt_current K) conv) i j in
        let sub := if q <? b then u32 (u32 (q + m) - b) else u32 (q - b) in u64 (sub * nth i (mk_p_inv K) 0) mod m)), y.
    split; [reflexivity |]. split; [| split; [exact Ly | intros j Hj; change (co y j) with (nth j y 0); destruct (Hy j Hj); lia]].
    apply slots_tab; [exact HAq | intros; exact Ly |]. intros i j Hi Hj. cbv zeta.
    assert (Hi' : (i < length QP)%nat) by (rewrite mlqp; lia). assert (EQ : nth i QP 0 = nth i q 0) by (unfold QP; apply app_nth1; exact Hi).
    destruct (slots_ent L QP HA R _ i j S Hi' Hj) as [R1 V1]. destruct (slots_ent L q HAq _ _ i j E5 Hi Hj) as [R2 V2]. destruct (qp_range lr lc q p HM i Hi') as [Q _]. fold QP in Q. rewrite EQ in *.
    destruct (K12 i Hi) as [P1 P2]. set (r := ent R i j) in *. set (b := ent (ntt_accel_poly (mk_ntt_current K) conv) i j) in *. set (m := nth i q 0) in *.
    set (sub := if r <? b then u32 (u32 (r + m) - b) else u32 (r - b)).
    assert (ES : 0 <= sub < m /\ sub == r - b [mod m]).
    { unfold sub. destruct (Z.ltb_spec r b); [rewrite (u32_small (r + m)) by lia; rewrite u32_small by lia; split; [lia | apply eqm_ex; exists 1; ring] | rewrite u32_small by lia; split; [lia | reflexivity]]. }
    destruct ES as [ES1 ES2]. rewrite (u64_mul _ _ m) by lia. split; [apply Z.mod_pos_bound; lia |]. rewrite eqm_mod, ES2, V1, V2.
    pose proof (adm L q HAq i Hi) as Ai. fold m in Ai.
    assert (EY : nth j (T L m x) 0 - nth j (T L m D) 0 == lprod p * nth j (T L m y) 0 [mod m]).
    { assert (X : poly_mod m (poly_sub x D) = poly_mod m (poly_scale (lprod p) y)).
      { f_equal. apply (list_ext 0); [rewrite poly_sub_length, poly_scale_length; lia |]. intros t Ht. rewrite poly_sub_length in Ht. change (co (poly_sub x D) t = co (poly_scale (lprod p) y) t).
        rewrite co_sub by lia. rewrite co_scale by lia. unfold co at 3. symmetry. apply Hy. lia. }
      assert (TT : T L m (poly_sub x D) = T L m (poly_scale (lprod p) y)) by (rewrite <- (T_mod L m (poly_sub x D) Ai), X, (T_mod L m _ Ai); reflexivity).
      pose proof (slot_sub L m (psi_of L m) x D j Hj ltac:(lia)) as S1. pose proof (slot_scale L m (psi_of L m) (lprod p) y j Hj) as S2. fold (T L m (poly_sub x D)) in S1. fold (T L m (poly_scale (lprod p) y)) in S2. rewrite TT in S1. rewrite S2 in S1. symmetry. exact S1. }
    rewrite EY. transitivity (nth j (T L m y) 0 * (lprod p * nth i (mk_p_inv K) 0)); [apply eqm_eq; ring |]. rewrite P2. apply eqm_eq. ring.
  Qed.
End Mul.
