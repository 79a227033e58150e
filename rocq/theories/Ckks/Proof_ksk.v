(** Key-switching keys: what key generation stores, and the decryption equation of a switched ciphertext. *)
From Coq Require Import ZArith Znumtheory List Bool Lia Permutation.
From Verif Require Import Base.ZSum Base.Modeq Base.Nega Base.Powm Base.Lists Base.Word Base.Fermat Base.Crt Base.PrimeCheck.
From Verif Require Import Ckks.Model_rns_utils Ckks.Model_ntt_cpu Ckks.Model_barrett Ckks.Spec_barrett Ckks.Model_scheme Ckks.Model_ntt Ckks.Model_auto Ckks.Model_addmul Ckks.Model_basis Ckks.Model_rescale Ckks.Model_plan Ckks.Model_keyswitch Ckks.Spec_ntt Ckks.Spec_poly.
From Verif Require Import Ckks.Proof_ntt_cpu Ckks.Proof_transform Ckks.Prop_crt Ckks.Prop_barrett Ckks.Prop_ntt_cpu Ckks.Proof_slots Ckks.Proof_ntt_accel Ckks.Prop_ntt_accel Ckks.Proof_basis Ckks.Prop_basis Ckks.Proof_encrypt Ckks.Prop_plan Ckks.Prop_keys Ckks.Prop_auto Ckks.Prop_rescale Ckks.Proof_keyswitch Ckks.Proof_moddown.
Import ListNotations.
Local Open Scope Z_scope.

Local Notation u64 := Model_scheme.u64.
Local Notation u32 := Model_scheme.u32.

Lemma deg_slots L ms A a : (0 < length ms)%nat -> slots L ms A a -> degree_of A = (2 ^ L)%nat.
Proof. intros H [_ S]. unfold degree_of. destruct (S 0%nat H) as [_ ->]. apply T_length. Qed.

Lemma key_part_ok L ms dest s ac e tgt (tg : nat -> list Z) : scheme_moduli L ms -> Forall (fun m => m < 2 ^ 31) ms -> slots L ms dest (fun _ => s) ->
  uniform_sample (2 ^ L) ms ac -> length e = (2 ^ L)%nat -> slots L ms tgt tg ->
  exists a b, key_part ms dest ac (residue_array e ms) tgt = Some (a, b) /\ slots L ms a (fun i => nth i ac []) /\
    slots L ms b (fun i => poly_sub (poly_add e (tg i)) (poly_mul (nth i ac []) s)).
Proof.
  intros HS H31 SD HU Le ST. pose proof (scheme_adm L ms HS) as HA. destruct (uniform_cols _ _ _ HU) as [LU CU].
  destruct (ntt_poly_slots L ms HA ac LU CU) as (a & EA & SA). destruct (ntt_residues L ms HA e Le) as (eN & EE & SE).
  assert (LP : (0 < length ms)%nat) by (destruct HS as [N _]; destruct ms; [contradiction | cbn; lia]).
  assert (Ls : length s = (2 ^ L)%nat) by (apply (proj2 SD 0%nat LP)).
  unfold key_part. rewrite EA, EE. rewrite (deg_slots L ms dest _ LP SD). eexists _, _. split; [reflexivity |]. split; [exact SA |].
  assert (Lt : forall i, (i < length ms)%nat -> length (tg i) = (2 ^ L)%nat) by (intros i Hi; apply (proj2 ST i Hi)).
  apply slots_tab; [exact HA | intros i Hi; rewrite poly_sub_length, poly_add_length; exact Le |]. intros i j Hi Hj. rewrite tab_ent by assumption.
  pose proof (scheme_small L ms i HS Hi) as Q. rewrite Forall_forall in H31. pose proof (H31 _ (nth_In _ 0 Hi)) as Q'.
  destruct (slots_ent L ms HA a _ i j SA Hi Hj) as [R1 V1]. destruct (slots_ent L ms HA dest _ i j SD Hi Hj) as [R2 V2]. destruct (slots_ent L ms HA eN _ i j SE Hi Hj) as [R3 V3]. destruct (slots_ent L ms HA tgt _ i j ST Hi Hj) as [R4 V4].
  rewrite (u64_mul _ _ (nth i ms 0)) by lia. pose proof (Z.mod_pos_bound (ent a i j * ent dest i j) (nth i ms 0) ltac:(lia)) as RM.
  rewrite (u64_small (ent eN i j + ent tgt i j)) by lia. rewrite (u64_small (ent eN i j + ent tgt i j + nth i ms 0)) by lia. rewrite u64_small by lia.
  split; [apply Z.mod_pos_bound; lia |]. rewrite !eqm_mod. rewrite V1, V2, V3, V4. pose proof (psi_of_root L _ (adm L ms HA i Hi)) as RT. specialize (Lt i Hi). specialize (CU i Hi).
  unfold T. symmetry. rewrite slot_sub by (try exact Hj; rewrite ?poly_add_length, ?poly_mul_length; congruence). rewrite slot_add by (first [exact Hj | congruence]).
  rewrite slot_mul by (first [exact Hj | exact RT | congruence | lia]). apply eqm_ex. exists (-1). ring.
Qed.

Section Key.
  Variables (lr lc : nat) (q p : list Z).
  Let QP := q ++ p.
  Let L := (lr + lc)%nat.
  Let n := (2 ^ L)%nat.
  Hypothesis HM : Forall (accel_modulus lr lc) QP.
  Hypothesis HC : coprime_moduli QP.
  Hypothesis NQ : q <> [].
  Variable dnum : nat.
  Hypothesis Hdnum : (0 < dnum)%nat.
  Let HA : Forall (cpu_admissible L) QP := accel_adm lr lc QP HM.
  Let ins := part_indices (length q) dnum.
  Let alpha := ceil_div (length q) dnum.

  Lemma scaled_partition_ok source s' idx : slots L q source (fun _ => s') -> (forall i, (length q <= i)%nat -> existsb (Nat.eqb i) idx = false) ->
    slots L QP (compute_scaled_source_key_partition source q (product p) (length QP) idx) (fun i => poly_scale (if existsb (Nat.eqb i) idx then lprod p else 0) s').
  Proof.
    intros S HO. assert (Lq : (0 < length q)%nat) by (destruct q; [contradiction | cbn; lia]). assert (Ls : length s' = n) by (apply (proj2 S 0%nat Lq)).
    unfold compute_scaled_source_key_partition. rewrite (deg_slots L q source _ Lq S). apply slots_tab; [exact HA | intros i Hi; rewrite poly_scale_length; exact Ls |].
    intros i j Hi Hj. destruct (qp_range lr lc q p HM i Hi) as [Q _]. fold QP in Q. 
    match goal with |- _ /\ ?x == _ [mod _] => enough (E : 0 <= x < nth i QP 0 /\ x == (if existsb (Nat.eqb i) idx then lprod p else 0) * nth j (T L (nth i QP 0) s') 0 [mod nth i QP 0]) end.
    { destruct E as [E1 E2]. split; [exact E1 |]. rewrite E2. unfold T. symmetry. apply slot_scale. exact Hj. }
    destruct (existsb (Nat.eqb i) idx) eqn:EX.
    - assert (C : (i < length q)%nat) by (destruct (Nat.lt_ge_cases i (length q)) as [C | C]; [exact C | rewrite (HO i C) in EX; discriminate]).
      destruct (slots_ent L q (q_adm lr lc q p HM) source _ i j S C Hj) as [R V]. cbv beta zeta. pose proof (qp_nth q p i C) as EQ. fold QP in EQ. rewrite <- EQ in *.
      pose proof (Z.mod_pos_bound (product p) (nth i QP 0) ltac:(lia)). rewrite (u64_mul _ _ (nth i QP 0)) by lia. split; [apply Z.mod_pos_bound; lia |].
      rewrite !eqm_mod, V. rewrite product_lprod. apply eqm_eq. ring.
    - split; [lia |]. apply eqm_eq. ring.
  Qed.

  Lemma gen_ksk_ok source dest ext s' s draws (e : nat -> list Z) dext :
    slots L q (sk_data source) (fun _ => s') -> (match dext with None => extend_secret_key dest QP | Some x => Some x end) = Some ext -> slots L QP (sk_data ext) (fun _ => s) ->
    (forall t, (t < dnum)%nat -> uniform_sample n QP (fst (draws t)) /\ snd (draws t) = residue_array (e t) QP /\ length (e t) = n) ->
    exists ksk, gen_key_switching_key source dest q p dnum draws dext = Some ksk /\ ek_moduli ksk = QP /\ length (ek_a ksk) = dnum /\ length (ek_b ksk) = dnum /\
      forall t, (t < dnum)%nat -> slots L QP (nth t (ek_a ksk) []) (fun i => nth i (fst (draws t)) []) /\
        slots L QP (nth t (ek_b ksk) []) (fun i => poly_sub (poly_add (e t) (poly_scale (if existsb (Nat.eqb i) (ins t) then lprod p else 0) s')) (poly_mul (nth i (fst (draws t)) []) s)).
  Proof.
    intros SS EX SE HD. unfold gen_key_switching_key. fold QP. rewrite EX. destruct (Nat.eqb_spec dnum 0); [lia |]. rewrite (proj1 SS), Nat.ltb_irrefl. cbn [orb].
    assert (HP : forall t, (t < dnum)%nat -> exists ab, key_part QP (sk_data ext) (fst (draws t)) (snd (draws t)) (compute_scaled_source_key_partition (sk_data source) q (product p) (length QP) (part_indices (length q) dnum t)) = Some ab /\
        slots L QP (fst ab) (fun i => nth i (fst (draws t)) []) /\
        slots L QP (snd ab) (fun i => poly_sub (poly_add (e t) (poly_scale (if existsb (Nat.eqb i) (ins t) then lprod p else 0) s')) (poly_mul (nth i (fst (draws t)) []) s))).
    { intros t Ht. destruct (HD t Ht) as (HU & -> & Le).
      destruct (key_part_ok L QP (sk_data ext) s (fst (draws t)) (e t) (compute_scaled_source_key_partition (sk_data source) q (product p) (length QP) (part_indices (length q) dnum t))
        (fun i => poly_scale (if existsb (Nat.eqb i) (ins t) then lprod p else 0) s')) as (a & b & E1 & E2 & E3).
      - apply qp_scheme; assumption.
      - pose proof HM as X. revert X. apply Forall_impl. intros m Hm. destruct (accel_admissible lr lc m Hm) as (_ & Y & _). lia.
      - exact SE.
      - exact HU.
      - exact Le.
      - apply scaled_partition_ok; [exact SS |]. intros i Hi. apply (ins_outside lr lc); assumption.
      - exists (a, b). split; [exact E1 |]. split; assumption. }
    destruct (sequence_opt_total (map (fun part => key_part QP (sk_data ext) (fst (draws part)) (snd (draws part)) (compute_scaled_source_key_partition (sk_data source) q (product p) (length QP) (part_indices (length q) dnum part))) (seq 0 dnum))) as (parts & EP).
    { intros o Ho. apply in_map_iff in Ho. destruct Ho as (t & <- & Ht). apply in_seq in Ht. destruct (HP t ltac:(lia)) as (ab & -> & _). discriminate. }
    rewrite EP. eexists. split; [reflexivity |]. cbn [ek_moduli ek_a ek_b]. split; [reflexivity |].
    destruct (sequence_opt_nth _ _ ([], []) EP) as [LN HN]. rewrite map_length, seq_length in LN, HN. split; [rewrite map_length; exact LN |]. split; [rewrite map_length; exact LN |].
    intros t Ht. specialize (HN t Ht). rewrite nth_map_seq in HN by exact Ht. destruct (HP t Ht) as (ab & E1 & E2 & E3). rewrite E1 in HN. injection HN as HN.
    assert (Ht' : (t < length parts)%nat) by (eapply Nat.lt_le_trans; [exact Ht | apply Nat.eq_le_incl; symmetry; exact LN]).
    pose proof (nth_map_lt fst parts t [] ([], []) Ht') as N1. pose proof (nth_map_lt snd parts t [] ([], []) Ht') as N2. unfold array in *. rewrite N1, N2, <- HN. split; assumption.
  Qed.

  (** the decryption equation *)
  Lemma switch_equation kk (a : nat -> nat -> list Z) e D c0 c1 s s' i : (forall x, (x < length q)%nat -> (x / alpha < kk)%nat) -> length c0 = n -> length c1 = n -> length s = n -> length s' = n ->
    (forall t, (t < kk)%nat -> length (e t) = n /\ length (a t i) = n) ->
    (forall t, (t < kk)%nat -> digit_of (lprod (pick 0 QP (ins t))) (length (ins t)) c1 (D t)) -> (i < length QP)%nat ->
    poly_mod (nth i QP 0) (poly_add (poly_add (poly_scale (lprod p) c0) (poly_sum n kk (fun t => poly_mul (poly_sub (poly_add (e t) (poly_scale (if existsb (Nat.eqb i) (ins t) then lprod p else 0) s')) (poly_mul (a t i) s)) (D t))))
        (poly_mul (poly_sum n kk (fun t => poly_mul (a t i) (D t))) s)) =
    poly_mod (nth i QP 0) (poly_add (poly_scale (lprod p) (poly_add c0 (poly_mul c1 s'))) (poly_sum n kk (fun t => poly_mul (D t) (e t)))).
  Proof.
    intros HKK L0 L1 Ls Ls' HL HD Hi. pose proof (adm L QP HA i Hi) as Ai. pose proof (psi_of_root L _ Ai) as RT. pose proof (admissible_gt1 _ _ Ai) as Q1.
    assert (LD : forall t, (t < kk)%nat -> length (D t) = n) by (intros t Ht; destruct (HD t Ht) as [X _]; lia).
    apply (slots_determine L); [exact Ai | rewrite !poly_add_length, poly_scale_length; exact L0 | rewrite poly_add_length, poly_scale_length, poly_add_length; exact L0 |].
    intros j Hj. set (v := fun x => nth j (T L (nth i QP 0) x) 0).
    assert (VA : forall x y, length x = length y -> v (poly_add x y) == v x + v y [mod nth i QP 0]) by (intros x y E; apply slot_add; assumption).
    assert (VS : forall c x, v (poly_scale c x) == c * v x [mod nth i QP 0]) by (intros c x; apply slot_scale; assumption).
    assert (VU : forall x y, length x = length y -> v (poly_sub x y) == v x - v y [mod nth i QP 0]) by (intros x y E; apply slot_sub; assumption).
    assert (VM : forall x y, length x = n -> length y = n -> v (poly_mul x y) == v x * v y [mod nth i QP 0]) by (intros x y E1 E2; apply slot_mul; first [exact RT | exact Hj | assumption | lia]).
    assert (VZ : forall f, (forall t, (t < kk)%nat -> length (f t) = n) -> v (poly_sum n kk f) == zsum kk (fun t => v (f t)) [mod nth i QP 0]) by (intros f Hf; apply slot_sum; assumption).
    fold (v (poly_add (poly_scale (lprod p) (poly_add c0 (poly_mul c1 s'))) (poly_sum n kk (fun t => poly_mul (D t) (e t))))).
    match goal with |- ?x == _ [mod _] => change x with (v (poly_add (poly_add (poly_scale (lprod p) c0) (poly_sum n kk (fun t => poly_mul (poly_sub (poly_add (e t) (poly_scale (if existsb (Nat.eqb i) (ins t) then lprod p else 0) s')) (poly_mul (a t i) s)) (D t))))
        (poly_mul (poly_sum n kk (fun t => poly_mul (a t i) (D t))) s))) end.
    rewrite (VA (poly_add _ _)) by (rewrite poly_add_length, poly_scale_length, poly_mul_length, poly_sum_length; exact L0).
    rewrite VA by (rewrite poly_scale_length, poly_sum_length; exact L0). rewrite VS, VM by (first [apply poly_sum_length | assumption]).
    rewrite VZ by (intros t Ht; rewrite poly_mul_length, poly_sub_length, poly_add_length; apply HL; exact Ht).
    rewrite VZ by (intros t Ht; rewrite poly_mul_length; apply HL; exact Ht).
    rewrite VA by (rewrite poly_scale_length, poly_add_length, poly_sum_length; exact L0). rewrite VS, VA by (rewrite poly_mul_length; lia). rewrite VM by assumption.
    rewrite VZ by (intros t Ht; rewrite poly_mul_length; apply LD; exact Ht).
    set (f := fun t => if existsb (Nat.eqb i) (ins t) then lprod p else 0).
    assert (X1 : zsum kk (fun t => v (poly_mul (poly_sub (poly_add (e t) (poly_scale (f t) s')) (poly_mul (a t i) s)) (D t))) == zsum kk (fun t => (v (e t) + f t * v s' - v (a t i) * v s) * v (D t)) [mod nth i QP 0]).
    { apply eqm_zsum. intros t Ht. destruct (HL t Ht) as [H1 H2]. specialize (LD t Ht). rewrite VM by (rewrite ?poly_sub_length, ?poly_add_length; assumption). rewrite VU by (rewrite poly_add_length, poly_mul_length; lia).
      rewrite VA by (rewrite poly_scale_length; lia). rewrite VS, VM by assumption. reflexivity. }
    assert (X2 : zsum kk (fun t => v (poly_mul (a t i) (D t))) == zsum kk (fun t => v (a t i) * v (D t)) [mod nth i QP 0]).
    { apply eqm_zsum. intros t Ht. destruct (HL t Ht) as [H1 H2]. apply VM; [exact H2 | apply LD; exact Ht]. }
    assert (X3 : zsum kk (fun t => v (poly_mul (D t) (e t))) == zsum kk (fun t => v (D t) * v (e t)) [mod nth i QP 0]).
    { apply eqm_zsum. intros t Ht. destruct (HL t Ht) as [H1 H2]. apply VM; [apply LD; exact Ht | exact H1]. }
    assert (X4 : zsum kk (fun t => f t * v (D t)) == lprod p * v c1 [mod nth i QP 0]).
    { destruct (Nat.lt_ge_cases i (length q)) as [C | C].
      - pose proof (HKK i C) as OL. rewrite (zsum_single kk (i / alpha)%nat); [| exact OL |].
        + assert (EX : existsb (Nat.eqb i) (ins (i / alpha)%nat) = true) by (apply (ins_unique lr lc q p HM HC NQ dnum Hdnum i); [exact C | reflexivity]). unfold f. rewrite EX.
          unfold v. rewrite (digit_congr L (pick 0 QP (ins (i / alpha)%nat)) (length (ins (i / alpha)%nat)) c1 (D (i / alpha)%nat)); [reflexivity | | | apply HD; exact OL |].
          * apply accel_adm. apply pick_Forall; [exact HM |]. eapply Forall_impl; [| apply (ins_range lr lc); exact Hdnum]. cbv beta. intros z Hz. unfold QP. rewrite app_length. lia.
          * apply coprime_pick; [exact HC | apply ins_NoDup |]. eapply Forall_impl; [| apply (ins_range lr lc); exact Hdnum]. cbv beta. intros z Hz. unfold QP. rewrite app_length. lia.
          * apply existsb_exists in EX. destruct EX as (z & Hz & EZ). apply Nat.eqb_eq in EZ. subst z. unfold pick. apply in_map_iff. exists i. split; [reflexivity | exact Hz].
        + intros t Ht NE. unfold f. destruct (existsb (Nat.eqb i) (ins t)) eqn:EX; [| ring]. apply (ins_unique lr lc q p HM HC NQ dnum Hdnum i t C) in EX. contradiction.
      - rewrite zsum_zero. 2:{ intros t Ht. unfold f. unfold ins. rewrite (ins_outside lr lc) by assumption. ring. }
        assert (DV : (nth i QP 0 | lprod p)). { apply in_divides_lprod. unfold QP. rewrite app_nth2 by exact C. apply nth_In. unfold QP in Hi. rewrite app_length in Hi. lia. }
        destruct DV as [z DV]. symmetry. apply eqm_ex. exists (z * v c1). rewrite DV. ring. }
    unfold f in X1. rewrite X1, X2, X3. fold f.
    assert (X5 : zsum kk (fun t => (v (e t) + f t * v s' - v (a t i) * v s) * v (D t)) = zsum kk (fun t => v (D t) * v (e t)) + v s' * zsum kk (fun t => f t * v (D t)) - v s * zsum kk (fun t => v (a t i) * v (D t))).
    { rewrite <- !zsum_mul_l, <- zsum_add, <- zsum_sub. apply zsum_ext. intros t Ht. ring. }
    change (zsum kk (fun t => (v (e t) + (if existsb (Nat.eqb i) (ins t) then lprod p else 0) * v s' - v (a t i) * v s) * v (D t))) with (zsum kk (fun t => (v (e t) + f t * v s' - v (a t i) * v s) * v (D t))).
    rewrite X5, X4. apply eqm_eq. ring.
  Qed.
End Key.
