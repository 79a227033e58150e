(** C42: CKKS blind rotation by the column method. *)
From Coq Require Import ZArith Znumtheory List Bool Lia.
From Verif Require Import Base.ZSum Base.Modeq Base.Nega Base.Lists Base.Word Base.Fermat Base.Crt.
From Verif Require Import Ckks.Model_rns_utils Ckks.Model_ntt_cpu Ckks.Model_barrett Ckks.Spec_barrett Ckks.Model_scheme Ckks.Model_ntt Ckks.Model_auto Ckks.Model_addmul Ckks.Model_basis Ckks.Model_rescale Ckks.Model_plan Ckks.Model_keyswitch Ckks.Model_blindrot Ckks.Spec_ntt Ckks.Spec_poly Ckks.Spec_keyswitch Ckks.Spec_blindrot.
From Verif Require Import Ckks.Proof_ntt_cpu Ckks.Proof_transform Ckks.Prop_crt Ckks.Prop_barrett Ckks.Prop_ntt_cpu Ckks.Proof_slots Ckks.Prop_ntt_accel Ckks.Proof_encrypt Ckks.Prop_addmul Ckks.Prop_rescale Ckks.Proof_keyswitch Ckks.Proof_moddown Ckks.Proof_ksk Ckks.Prop_keyswitch Ckks.Proof_mul Ckks.Proof_blindrot.
Import ListNotations.
Local Open Scope Z_scope.

Local Notation u64 := Model_scheme.u64.
Local Notation u32 := Model_scheme.u32.

Lemma fold_u64_sum {X} (d : X) (h : X -> Z) M : forall l acc, 0 <= acc -> 0 <= M -> (forall t, (t < length l)%nat -> 0 <= h (nth t l d) < M) -> acc + Z.of_nat (length l) * M <= 2 ^ 64 ->
  fold_left (fun acc x => u64 (acc + h x)) l acc = acc + zsum (length l) (fun t => h (nth t l d)).
Proof.
  induction l as [|x l IH]; intros acc A0 M0 H B; [cbn; lia |]. cbn [fold_left length] in *. pose proof (H 0%nat ltac:(lia)) as H0. cbn [nth] in H0.
  rewrite u64_small by nia. rewrite IH; [| lia | exact M0 | intros t Ht; apply (H (S t)); lia | nia].
  rewrite zsum_S_l. cbn [nth]. ring.
Qed.

Definition no_ct : ciphertext := {| ct_data := []; ct_moduli := [] |}.
Definition no_pt : plaintext := {| pt_data := []; pt_moduli := [] |}.
(** what a list of column keys and a list of plaintexts stand for *)
Definition column_key (n : nat) (moduli : list Z) (sk : secret_key) (ct : ciphertext) (m : list Z) : Prop :=
  valid_ct n moduli ct /\ length m = n /\ decrypt sk ct = Some {| pt_data := residue_array m moduli; pt_moduli := moduli |}.
Definition plain_poly (n : nat) (moduli : list Z) (pt : plaintext) (t : list Z) : Prop :=
  pt_moduli pt = moduli /\ length t = n /\ evaluation_form moduli t (pt_data pt).

Section Column.
  Variables (lr lc : nat) (q p : list Z).
  Let QP := q ++ p.
  Let L := (lr + lc)%nat.
  Let n := (2 ^ L)%nat.
  Hypothesis HS : switch_setting lr lc q p 1.
  Hypothesis HR : ForallOrdPairs (fun m later => later <= 2 * m + 1) QP.
  Variables (sk : secret_key) (s : list Z) (S : Z).
  Hypothesis (Ls : length s = n) (BS : poly_bound S s) (HS0 : 0 <= S) (MS : sk_moduli sk = QP) (SS : slots L QP (sk_data sk) (fun _ => s)).

  Lemma components cmkey ms : Forall2 (column_key n QP sk) cmkey ms -> exists f0 f1 : nat -> nat -> list Z, forall t, (t < length cmkey)%nat ->
    ct_moduli (nth t cmkey no_ct) = QP /\ length (nth t ms []) = n /\ (exists A B, ct_data (nth t cmkey no_ct) = [A; B] /\ slots L QP A (f0 t) /\ slots L QP B (f1 t)) /\
    forall i, (i < length QP)%nat -> poly_mod (nth i QP 0) (poly_add (f0 t i) (poly_mul (f1 t i) s)) = poly_mod (nth i QP 0) (nth t ms []).
  Proof.
    destruct (core_q_moduli lr lc q p 1 HS) as [_ HQP]. fold L QP in HQP. pose proof (scheme_adm _ _ HQP) as HA. assert (LQ : (1 <= length QP)%nat) by (destruct HQP as [N _]; destruct QP; [contradiction | cbn; lia]).
    induction 1 as [|ct m cmkey ms ((EM & A & B & ED & UA & UB) & Lm & EDec) F (f0 & f1 & IH)]; [exists (fun _ _ => []), (fun _ _ => []); cbn; lia |].
    destruct (slots_exist L QP A HA UA) as (a & SA). destruct (slots_exist L QP B HA UB) as (b & SB).
    exists (fun t => match t with O => a | Datatypes.S t => f0 t end), (fun t => match t with O => b | Datatypes.S t => f1 t end). intros [|t] Ht.
    - cbn [nth]. split; [exact EM |]. split; [exact Lm |]. split; [exists A, B; auto |].
      assert (EF : firstn (length QP) QP = QP) by apply firstn_all. rewrite (decrypt_ok L QP (length QP) sk ct s a b) in EDec; try assumption; try lia; rewrite ?EF, ?ED; try assumption.
      rewrite EF in EDec. intros i Hi. pose proof (f_equal (fun o => match o with Some pt => nth i (pt_data pt) [] | None => [] end) EDec) as E. cbn [pt_data] in E. rewrite <- residues_of_map in E.
      rewrite (nth_map_seq (fun i => poly_mod (nth i QP 0) (poly_add (a i) (poly_mul (b i) s)))), (nth_map_seq (fun i => poly_mod (nth i QP 0) m)) in E by exact Hi. exact E.
    - cbn [nth]. apply IH. cbn in Ht. lia.
  Qed.

  Lemma column_ok K cmkey pts ms ts : blind_rotation_precompute q p 1 (2 ^ lr) (2 ^ lc) (length p) = Some K ->
    cmkey <> [] -> length pts = length cmkey -> Forall (fun m => Z.of_nat (length cmkey) <= m) QP -> Forall2 (column_key n QP sk) cmkey ms -> Forall2 (plain_poly n QP) pts ts ->
    exists ct' y0 y1 y, brot_cm K cmkey pts = Some ct' /\ ct_moduli ct' = q /\ length (ct_data ct') = 2%nat /\ slots L q (nth 0 (ct_data ct') []) (fun _ => y0) /\ slots L q (nth 1 (ct_data ct') []) (fun _ => y1) /\ length y = n /\
      (forall i, (i < length q)%nat -> poly_mod (nth i q 0) (poly_add y0 (poly_mul y1 s)) = poly_mod (nth i q 0) y) /\
      forall j, (j < n)%nat -> Z.abs (lprod p * co y j - zsum (length cmkey) (fun t => co (poly_mul (nth t ts []) (nth t ms [])) j)) <= (lprod p - 1) * (1 + Z.of_nat n * S).
  Proof.
    intros HK NK LP HN FK FP. destruct (core_q_moduli lr lc q p 1 HS) as [HQ HQP]. pose proof HS as (NQ & NP & Hd & HG & HM & HC & HKd & HT). fold L QP in HQ, HQP. pose proof (scheme_adm _ _ HQP) as HA.
    assert (Lq : (0 < length q)%nat) by (clear - NQ; destruct q; [contradiction | cbn; lia]). assert (LQP : (0 < length QP)%nat) by (unfold QP; rewrite app_length; lia).
    destruct (hmux_kernel lr lc q p HS HR) as (K' & sw & kernel & bc & HK' & _ & _ & KM & KR & _ & _ & ERK). rewrite HK in HK'. injection HK' as <-. fold QP in KM, ERK.
    destruct (components cmkey ms FK) as (f0 & f1 & HF). set (k := length cmkey) in *.
    assert (HP : forall t, (t < k)%nat -> pt_moduli (nth t pts no_pt) = QP /\ length (nth t ts []) = n /\ slots L QP (pt_data (nth t pts no_pt)) (fun _ => nth t ts [])).
    { intros t Ht. rewrite <- LP in Ht. clear - FP Ht HA. revert t Ht. induction FP as [|pt t0 pts ts (E1 & E2 & E3) F IH]; intros [|t] Ht; try (cbn in Ht; lia); [| apply IH; cbn in Ht; lia].
      cbn [nth]. split; [exact E1 |]. split; [exact E2 |]. apply evaluation_slots; assumption. }
    assert (RNG : forall i, (i < length QP)%nat -> 1 < nth i QP 0 < 2 ^ 31 /\ barrett_exact (nth i QP 0) /\ Z.of_nat k <= nth i QP 0).
    { intros i Hi. rewrite Forall_forall in HM, HN. pose proof (HM _ (nth_In QP 0 Hi)) as Q. destruct (accel_admissible lr lc _ Q) as (_ & R & Bx & _). split; [exact R |]. split; [exact Bx | apply HN, nth_In, Hi]. }
    assert (CST : forall i, (i < length QP)%nat -> nth i (precompute_constants QP) no_constants = precompute_barrett_constants (nth i QP 0)) by (intros i Hi; unfold precompute_constants; rewrite (nth_map_lt _ _ _ _ 0) by exact Hi; reflexivity).
    set (g := fun i a b => u32' (modular_reduction (Model_barrett.u64 (a * b)) (nth i (precompute_constants QP) no_constants))).
    set (prods := map (fun c : ciphertext * plaintext => map (fun A => zip_entries g A (pt_data (snd c))) (ct_data (fst c))) (combine cmkey pts)).
    assert (LPr : length prods = k) by (unfold prods; rewrite map_length, combine_length; fold k; lia).
    (* the products, entry by entry *)
    assert (PR : forall e t i j, (e < 2)%nat -> (t < k)%nat -> (i < length QP)%nat -> (j < n)%nat ->
      0 <= ent (nth e (nth t prods []) []) i j < nth i QP 0 /\
      ent (nth e (nth t prods []) []) i j == nth j (T L (nth i QP 0) (poly_mul (if (e =? 0)%nat then f0 t i else f1 t i) (nth t ts []))) 0 [mod nth i QP 0]).
    { intros e t i j He Ht Hi Hj. destruct (HF t Ht) as (EM & Lm & (A & B & ED & SA & SB) & _). destruct (HP t Ht) as (EP & Lt & SP). destruct (RNG i Hi) as (Q & Bx & _).
      assert (EN : nth t prods [] = [zip_entries g A (pt_data (nth t pts no_pt)); zip_entries g B (pt_data (nth t pts no_pt))]).
      { unfold prods. rewrite (nth_map_lt _ _ _ _ (no_ct, no_pt)) by (rewrite combine_length; fold k; lia). rewrite combine_nth by (fold k; lia). cbn [fst snd]. rewrite ED. reflexivity. }
      assert (G : forall X x, slots L QP X (x : nat -> list Z) -> 0 <= ent (zip_entries g X (pt_data (nth t pts no_pt))) i j < nth i QP 0 /\
        ent (zip_entries g X (pt_data (nth t pts no_pt))) i j == nth j (T L (nth i QP 0) (poly_mul (x i) (nth t ts []))) 0 [mod nth i QP 0]).
      { intros X x SX. unfold zip_entries. rewrite (proj1 SX), (deg_slots L QP _ _ LQP SX), tab_ent by (first [exact Hi | exact Hj]). unfold g. rewrite (CST i Hi).
        destruct (slots_ent L QP HA X x i j SX Hi Hj) as [RA VA]. destruct (slots_ent L QP HA _ _ i j SP Hi Hj) as [RB VB].
        unfold Model_barrett.u64. rewrite (Z.mod_small _ (2 ^ 64)) by nia. rewrite Bx by nia. pose proof (Z.mod_pos_bound (ent X i j * ent (pt_data (nth t pts no_pt)) i j) (nth i QP 0) ltac:(lia)).
        unfold u32'. rewrite Z.mod_small by lia. split; [lia |]. rewrite eqm_mod, VA, VB. unfold T. symmetry. apply slot_mul; [apply psi_of_root, (adm L QP HA i Hi) | exact Hj | apply SX; exact Hi | exact Lt]. }
      rewrite EN. destruct e as [|[|e]]; [| | lia]; cbn [nth Nat.eqb]; [apply (G A (f0 t) SA) | apply (G B (f1 t) SB)]. }
    set (sum := fun e i j => fold_left (fun acc P => u64 (acc + ent (nth e P []) i j)) prods 0).
    set (out := fun e => tab (length QP) n (fun i j => u32 (modular_reduction (sum e i j) (nth i (precompute_constants QP) no_constants)))).
    assert (OUT : forall e, (e < 2)%nat -> slots L QP (out e) (fun i => poly_sum n k (fun t => poly_mul (if (e =? 0)%nat then f0 t i else f1 t i) (nth t ts [])))).
    { intros e He. unfold out. apply slots_tab; [exact HA | intros i Hi; apply poly_sum_length |]. intros i j Hi Hj. destruct (RNG i Hi) as (Q & Bx & KQ). change (2 ^ L)%nat with n in Hj.
      assert (ES : sum e i j = zsum k (fun t => ent (nth e (nth t prods []) []) i j)).
      { unfold sum. pose proof (@fold_u64_sum (list array) [] (fun P => ent (nth e P []) i j) (nth i QP 0) prods 0) as FS. cbv beta in FS. rewrite LPr in FS. etransitivity; [apply FS | reflexivity]; [lia | lia | | nia]. intros t Ht. apply PR; assumption. }
      assert (BSum : 0 <= sum e i j < nth i QP 0 * nth i QP 0).
      { rewrite ES. assert (K1 : 0 < Z.of_nat k) by (unfold k; clear - NK; destruct cmkey; [contradiction | cbn; lia]).
        split; [apply zsum_nonneg; intros t Ht; apply PR; assumption |]. apply Z.le_lt_trans with (Z.of_nat k * (nth i QP 0 - 1)); [| nia].
        rewrite <- zsum_const. apply zsum_le. intros t Ht. destruct (PR e t i j He Ht Hi Hj) as [X _]. lia. }
      rewrite (CST i Hi), Bx by exact BSum. pose proof (Z.mod_pos_bound (sum e i j) (nth i QP 0) ltac:(lia)). rewrite u32_small by lia. split; [lia |]. rewrite eqm_mod, ES.
      symmetry. etransitivity; [apply slot_sum; [apply (adm L QP HA i Hi) | exact Hj |] |].
      2: { apply eqm_zsum. intros t Ht. symmetry. apply PR; assumption. }
      intros t Ht. cbv beta. rewrite poly_mul_length. destruct (HF t Ht) as (_ & _ & (A & B & _ & SA & SB) & _). destruct (e =? 0)%nat; [apply SA | apply SB]; exact Hi. }
    set (noise := poly_sum n k (fun t => poly_mul (nth t ts []) (nth t ms []))).
    destruct (mod_down_ok lr lc q p HM HC NQ NP HR kernel {| ct_data := [out 0%nat; out 1%nat]; ct_moduli := QP |} (fun i => poly_sum n k (fun t => poly_mul (f0 t i) (nth t ts []))) (fun i => poly_sum n k (fun t => poly_mul (f1 t i) (nth t ts []))) s (poly_scale 0 s) noise S ERK Ls) as (ct' & y0 & y1 & err & Z1 & Z2 & Z3 & Z4 & Z5 & Z6 & Z7 & Z8);
      [rewrite poly_scale_length; exact Ls | apply poly_sum_length | exact BS | exact HS0 | reflexivity | exact (OUT 0%nat ltac:(lia)) | exact (OUT 1%nat ltac:(lia)) | |].
    { intros i Hi. cbn [Nat.eqb]. fold QP in Hi |- *. pose proof (adm L QP HA i Hi) as Ai. pose proof (psi_of_root _ _ Ai) as RT.
      apply (slots_determine L); [exact Ai | rewrite poly_add_length; apply poly_sum_length | rewrite poly_add_length, !poly_scale_length; exact Ls |]. intros j Hj. change (2 ^ L)%nat with n in Hj.
      assert (LF : forall t, (t < k)%nat -> length (f0 t i) = (2 ^ L)%nat /\ length (f1 t i) = (2 ^ L)%nat /\ length (nth t ts []) = (2 ^ L)%nat /\ length (nth t ms []) = (2 ^ L)%nat).
      { intros t Ht. destruct (HF t Ht) as (_ & Lm & (A & B & _ & SA & SB) & _). destruct (HP t Ht) as (_ & Lt & _). split; [apply SA; exact Hi |]. split; [apply SB; exact Hi |]. split; assumption. }
      set (v := fun x => nth j (T L (nth i QP 0) x) 0). change (v (poly_add (poly_sum n k (fun t => poly_mul (f0 t i) (nth t ts []))) (poly_mul (poly_sum n k (fun t => poly_mul (f1 t i) (nth t ts []))) s)) == v (poly_add (poly_scale (lprod p) (poly_scale 0 s)) noise) [mod nth i QP 0]).
      assert (VA : forall x y, length x = n -> length y = n -> v (poly_add x y) == v x + v y [mod nth i QP 0]) by (intros x y Lx Ly; unfold v, T; apply slot_add; [exact Hj | congruence]).
      assert (VM : forall x y, length x = n -> length y = n -> v (poly_mul x y) == v x * v y [mod nth i QP 0]) by (intros x y Lx Ly; unfold v, T; apply slot_mul; assumption).
      assert (VZ : forall f, (forall t, (t < k)%nat -> length (f t) = n) -> v (poly_sum n k f) == zsum k (fun t => v (f t)) [mod nth i QP 0]) by (intros f Hf; apply slot_sum; assumption).
      assert (VS : forall c x, v (poly_scale c x) == c * v x [mod nth i QP 0]) by (intros c x; unfold v, T; rewrite slot_scale by exact Hj; reflexivity).
      rewrite VA by (rewrite ?poly_mul_length; apply poly_sum_length). rewrite VM by (first [apply poly_sum_length | exact Ls]). rewrite !VZ by (intros t Ht; rewrite poly_mul_length; apply LF; exact Ht).
      rewrite VA by (first [rewrite !poly_scale_length; exact Ls | apply poly_sum_length]). rewrite !VS. unfold noise. rewrite VZ by (intros t Ht; rewrite poly_mul_length; apply LF; exact Ht).
      rewrite <- zsum_mul_r, <- zsum_add. rewrite Z.mul_0_l, Z.mul_0_r, Z.add_0_l. apply eqm_zsum. intros t Ht. destruct (LF t Ht) as (L0 & L1 & L2 & L3). destruct (HF t Ht) as (_ & _ & _ & EV). specialize (EV i Hi).
      rewrite !VM by assumption. assert (E : v (poly_add (f0 t i) (poly_mul (f1 t i) s)) == v (nth t ms []) [mod nth i QP 0]) by (unfold v; rewrite <- (T_mod L _ (poly_add _ _)) by exact Ai; rewrite EV, T_mod by exact Ai; reflexivity).
      rewrite <- E, VA, VM by (rewrite ?poly_mul_length; assumption). apply eqm_eq. ring. }
    exists ct', y0, y1, err. split.
    { unfold brot_cm. rewrite LP. fold k. rewrite Nat.eqb_refl. cbn [negb].
      destruct cmkey as [|c0 cmkey']; [contradiction |]. destruct pts as [|p0 pts']; [discriminate |].
      destruct (HF 0%nat ltac:(unfold k; cbn; lia)) as (EM0 & _ & (A & B & ED & SA & SB) & _). destruct (HP 0%nat ltac:(unfold k; cbn; lia)) as (EP0 & _ & _). cbn [nth] in EM0, ED, EP0. rewrite EM0, EP0, Nat.eqb_refl. cbn [negb]. rewrite ED. cbn [nth length]. rewrite (deg_slots L QP _ _ LQP SA). fold n.
      assert (SH : forall X x, slots L QP X x -> shaped_as (length QP) n X = true).
      { intros X x SX. unfold shaped_as. rewrite (proj1 SX), Nat.eqb_refl. apply forallb_forall. intros col Hc. apply (In_nth _ _ []) in Hc. destruct Hc as (i & Hi & <-). rewrite (proj1 SX) in Hi. destruct (proj2 SX i Hi) as [_ ->]. rewrite T_length. apply Nat.eqb_refl. }
      assert (G1 : forallb (fun ct => (length (ct_data ct) =? 2)%nat && forallb (shaped_as (length QP) n) (ct_data ct)) (c0 :: cmkey') = true).
      { apply forallb_forall. intros ct Hc. apply (In_nth _ _ no_ct) in Hc. destruct Hc as (t & Ht & <-). destruct (HF t Ht) as (_ & _ & (A' & B' & ED' & SA' & SB') & _). rewrite ED'. cbn [length Nat.eqb forallb andb]. rewrite (SH _ _ SA'), (SH _ _ SB'). reflexivity. }
      assert (G2 : forallb (fun pt => shaped_as (length QP) n (pt_data pt)) (p0 :: pts') = true).
      { apply forallb_forall. intros pt Hc. apply (In_nth _ _ no_pt) in Hc. destruct Hc as (t & Ht & <-). rewrite LP in Ht. fold k in Ht. apply (SH _ _ (proj2 (proj2 (HP t Ht)))). }
      rewrite G1, G2. cbn [negb orb]. rewrite KM, list_eqb_refl. cbn [negb]. rewrite KR. exact Z1. }
    split; [exact Z2 |]. split; [exact Z3 |]. split; [exact Z4 |]. split; [exact Z5 |]. split; [exact Z6 |]. split.
    - intros i Hi. rewrite (Z7 i Hi). f_equal. apply (list_ext 0); [rewrite poly_add_length, poly_scale_length; change (length err = n) in Z6; congruence |]. intros j Hj. rewrite poly_add_length in Hj. change (co (poly_add (poly_scale 0 s) err) j = co err j). rewrite co_add by exact Hj. rewrite co_scale. ring.
    - intros j Hj. specialize (Z8 j Hj). unfold noise in Z8. rewrite co_sum in Z8 by exact Hj. exact Z8.
  Qed.
End Column.

(** C42, the column method: brot_cm with any number of column keys, each decrypting to some polynomial m_t modulo all the
    primes, and as many plaintexts t_t gives a ciphertext on the remaining primes that decrypts to the sum of the products
    t_t * m_t divided by P, up to (P - 1)/P * (1 + n*S) in every coefficient.
    Missing: as C36; the number of columns is at most the smallest prime. *)
Theorem C42_column_partial : forall lr lc q p sk s S cmkey pts ms ts,
  let n := (2 ^ (lr + lc))%nat in
  switch_setting lr lc q p 1 -> ForallOrdPairs (fun q later => later <= 2 * q + 1) (q ++ p) ->
  length s = n -> poly_bound S s -> 0 <= S -> sk_moduli sk = q ++ p -> evaluation_form (q ++ p) s (sk_data sk) ->
  cmkey <> [] -> length pts = length cmkey -> Forall (fun m => Z.of_nat (length cmkey) <= m) (q ++ p) ->
  Forall2 (column_key n (q ++ p) sk) cmkey ms -> Forall2 (plain_poly n (q ++ p)) pts ts ->
  exists K ct' y, blind_rotation_precompute q p 1 (2 ^ lr) (2 ^ lc) (length p) = Some K /\ brot_cm K cmkey pts = Some ct' /\
    decrypt sk ct' = Some {| pt_data := residue_array y q; pt_moduli := q |} /\ length y = n /\
    forall j, (j < n)%nat -> Z.abs (lprod p * co y j - zsum (length cmkey) (fun t => co (poly_mul (nth t ts []) (nth t ms [])) j)) <= (lprod p - 1) * (1 + Z.of_nat n * S).
Proof.
  intros lr lc q p sk s S cmkey pts ms ts n HS HR Ls BS S0 MS ES NK LP HN FK FP. destruct (core_q_moduli lr lc q p 1 HS) as [HQ HQP]. pose proof (scheme_adm _ _ HQP) as HA.
  apply (evaluation_slots (lr + lc) _ _ _ HA Ls) in ES. destruct (hmux_kernel lr lc q p HS HR) as (K & _ & _ & _ & HK & _).
  destruct (column_ok lr lc q p HS HR sk s S Ls BS S0 MS ES K cmkey pts ms ts HK NK LP HN FK FP) as (ct' & y0 & y1 & y & E & EM & LD & S0' & S1' & Ly & HV & HB).
  exists K, ct', y. split; [exact HK |]. split; [exact E |]. split; [| split; [exact Ly | exact HB]].
  assert (EF : firstn (length q) (q ++ p) = q) by apply firstn_app_exact. assert (Lq : (0 < length q)%nat) by (destruct HQ as [N _]; destruct q; [contradiction | cbn; lia]).
  rewrite (decrypt_ok (lr + lc) (q ++ p) (length q) sk ct' s (fun _ => y0) (fun _ => y1)); try assumption; rewrite ?EF; try assumption; [| rewrite app_length; lia].
  f_equal. f_equal. rewrite <- residues_of_map. apply map_ext_in. intros i Hi. apply in_seq in Hi. apply HV. lia.
Qed.
Print Assumptions C42_column_partial.

(** C42, what the column method is for: with column keys that encrypt D times the sel-th unit vector, up to errors of at most
    Be, the result decrypts to a polynomial y close to D/P times the sel-th plaintext polynomial t: in every coefficient
    |P*y - D*t| <= k * n * Bt * Be + (P - 1) * (1 + n*S), for k plaintexts with coefficients at most Bt.
    (D is the scale the keys were encoded at; with D = P the result is the selected plaintext itself.) *)
Theorem C42_column_selects_partial : forall lr lc q p sk s S cmkey pts es ts sel D Be Bt,
  let n := (2 ^ (lr + lc))%nat in
  switch_setting lr lc q p 1 -> ForallOrdPairs (fun q later => later <= 2 * q + 1) (q ++ p) ->
  length s = n -> poly_bound S s -> 0 <= S -> sk_moduli sk = q ++ p -> evaluation_form (q ++ p) s (sk_data sk) ->
  (sel < length cmkey)%nat -> length pts = length cmkey -> Forall (fun m => Z.of_nat (length cmkey) <= m) (q ++ p) ->
  length es = length cmkey -> Forall (fun e => length e = n /\ poly_bound Be e) es ->
  Forall2 (column_key n (q ++ p) sk) cmkey (map (fun t => poly_add (poly_const n (if (t =? sel)%nat then D else 0)) (nth t es [])) (seq 0 (length cmkey))) ->
  Forall2 (plain_poly n (q ++ p)) pts ts -> Forall (poly_bound Bt) ts ->
  exists K ct' y, blind_rotation_precompute q p 1 (2 ^ lr) (2 ^ lc) (length p) = Some K /\ brot_cm K cmkey pts = Some ct' /\
    decrypt sk ct' = Some {| pt_data := residue_array y q; pt_moduli := q |} /\ length y = n /\
    forall j, (j < n)%nat -> Z.abs (lprod p * co y j - D * co (nth sel ts []) j) <= Z.of_nat (length cmkey) * (Z.of_nat n * (Bt * Be)) + (lprod p - 1) * (1 + Z.of_nat n * S).
Proof.
  intros lr lc q p sk s S cmkey pts es ts sel D Be Bt n HS HR Ls BS S0 MS ES Hsel LP HN LE FE FK FP FB.
  assert (NK : cmkey <> []) by (destruct cmkey; [cbn in Hsel; lia | discriminate]). set (k := length cmkey) in *.
  destruct (C42_column_partial lr lc q p sk s S cmkey pts _ ts HS HR Ls BS S0 MS ES NK LP HN FK FP) as (K & ct' & y & HK & E & ED & Ly & HB). fold n k in Ly, HB.
  assert (PP : 0 < lprod p) by (apply lprod_pos; destruct HS as (_ & _ & _ & _ & _ & [X _] & _); rewrite Forall_app in X; apply X).
  assert (Lts : length ts = k) by (rewrite <- LP; clear - FP; induction FP; cbn; congruence).
  assert (Lt : forall t, (t < k)%nat -> length (nth t ts []) = n).
  { intros t Ht. rewrite <- Lts in Ht. clear - FP Ht. revert t Ht. induction FP as [|pt t0 pts ts (E1 & E2 & E3) F IH]; intros [|t] Ht; try (cbn in Ht; lia); [exact E2 | apply IH; cbn in Ht; lia]. }
  assert (Ee : forall t, (t < k)%nat -> length (nth t es []) = n /\ poly_bound Be (nth t es [])) by (intros t Ht; rewrite Forall_forall in FE; apply FE, nth_In; lia).
  exists K, ct', y. split; [exact HK |]. split; [exact E |]. split; [exact ED |]. split; [exact Ly |].
  - intros j Hj. specialize (HB j Hj).
    assert (EX : forall t, (t < k)%nat -> co (poly_mul (nth t ts []) (nth t (map (fun t => poly_add (poly_const n (if (t =? sel)%nat then D else 0)) (nth t es [])) (seq 0 k)) [])) j =
      (if (t =? sel)%nat then D else 0) * co (nth t ts []) j + co (poly_mul (nth t ts []) (nth t es [])) j).
    { intros t Ht. destruct (Ee t Ht) as [Le _]. rewrite nth_map_seq by exact Ht. rewrite !co_mul by (rewrite Lt by exact Ht; exact Hj). rewrite Lt by exact Ht. set (c := if (t =? sel)%nat then D else 0). unfold nega_coeff.
      transitivity (zsum n (fun i => (if (i =? j)%nat then c * co (nth t ts []) j else 0) + (if (i <=? j)%nat then co (nth t ts []) i * co (nth t es []) (j - i) else - (co (nth t ts []) i * co (nth t es []) (j + n - i))))).
      - apply zsum_ext. intros i Hi. destruct (Nat.leb_spec i j) as [Cij | Cij].
        + rewrite co_add by (rewrite poly_const_length; lia). unfold co at 2, poly_const. rewrite nth_map_seq by lia. destruct (Nat.eqb_spec (j - i) 0); destruct (Nat.eqb_spec i j); first [lia | subst; ring].
        + rewrite co_add by (rewrite poly_const_length; lia). unfold co at 2, poly_const. rewrite nth_map_seq by lia. destruct (Nat.eqb_spec (j + n - i) 0); destruct (Nat.eqb_spec i j); first [lia | ring].
      - rewrite zsum_add. f_equal. rewrite (zsum_single n j) by (first [exact Hj | intros i Hi NE; destruct (Nat.eqb_spec i j); [contradiction | reflexivity]]). rewrite Nat.eqb_refl. reflexivity. }
    rewrite (zsum_ext _ _ _ EX), zsum_add in HB. rewrite (zsum_single k sel) in HB by (first [exact Hsel | intros t Ht NE; destruct (Nat.eqb_spec t sel); [contradiction | ring]]). rewrite Nat.eqb_refl in HB.
    assert (BN : Z.abs (zsum k (fun t => co (poly_mul (nth t ts []) (nth t es [])) j)) <= Z.of_nat k * (Z.of_nat n * (Bt * Be))).
    { etransitivity; [apply zsum_abs |]. rewrite <- zsum_const. apply zsum_le. intros t Ht. destruct (Ee t Ht) as [Le Bee].
      assert (PB : poly_bound (Z.of_nat (length (nth t ts [])) * (Bt * Be)) (poly_mul (nth t ts []) (nth t es []))) by (apply poly_bound_mul; [rewrite Lt by exact Ht; congruence | rewrite Forall_forall in FB; apply FB, nth_In; lia | exact Bee]).
      rewrite Lt in PB by exact Ht. apply (poly_bound_co _ _ j PB). rewrite poly_mul_length, Lt by exact Ht. exact Hj. }
    set (N := zsum k (fun t => co (poly_mul (nth t ts []) (nth t es [])) j)) in *. lia.
Qed.
Print Assumptions C42_column_selects_partial.

(** A concrete case at degree two, with Q = 12289 * 2053 and P = 2081: two column keys encrypting (0, P) with errors (1, X) and
    two plaintexts.  The hypotheses hold and the result is computed. *)
Definition col_qp : list Z := ex_q ++ ex_p.
Definition col_pt (t : list Z) : plaintext := match encode_plaintext t col_qp with Some pt => pt | None => no_pt end.
Definition col_keys : option (secret_key * list ciphertext) :=
  match keygen col_qp (residue_array [1; 1] col_qp) [[5000; 77]; [1; 2000]; [3; 2080]] (residue_array [1; -1] col_qp) with
  | Some (pk, sk) =>
      match encrypt pk (col_pt [0; 0]) (residue_array [1; 0] col_qp) (residue_array [0; 1] col_qp) (residue_array [0; -1] col_qp),
            encrypt pk (col_pt [2081; 0]) (residue_array [0; -1] col_qp) (residue_array [1; 1] col_qp) (residue_array [1; 0] col_qp) with
      | Some k0, Some k1 => Some (sk, [k0; k1])
      | _, _ => None
      end
  | None => None
  end.
Example C42_column_example_setting : switch_setting 0 1 ex_q ex_p 1 /\ ForallOrdPairs (fun q later => later <= 2 * q + 1) (ex_q ++ ex_p) /\ Forall (fun m => 2 <= m) (ex_q ++ ex_p).
Proof.
  destruct C36_example_setting as [(X1 & X2 & X3 & _ & X4 & X5 & X6 & X7) [_ Y]]. split; [| split; [| repeat constructor; lia]].
  - split; [exact X1 |]. split; [exact X2 |]. split; [lia |]. split; [intros [|t] Ht; [discriminate | lia] |]. split; [exact X4 |]. split; [exact X5 |]. split; [vm_compute; discriminate |]. repeat (constructor; [vm_compute; discriminate |]). constructor.
  - unfold ex_q, ex_p. cbn [app]. repeat constructor; lia.
Qed.
Example C42_column_example :
  match col_keys, blind_rotation_precompute ex_q ex_p 1 1 2 1 with
  | Some (sk, keys), Some K =>
      map (fun ct => decrypt sk ct) keys = map (fun m => Some {| pt_data := residue_array m col_qp; pt_moduli := col_qp |}) [[2; -1]; [2082; 1]] /\
      match brot_cm K keys [col_pt [100; 7]; col_pt [3; -2000]] with
      | Some ct' => decrypt sk ct' = Some {| pt_data := residue_array [4; -2001] ex_q; pt_moduli := ex_q |}
      | None => False
      end
  | _, _ => False
  end.
Proof. vm_compute. split; reflexivity. Qed.
