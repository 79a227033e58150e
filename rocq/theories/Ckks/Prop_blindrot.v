(** C42: CKKS blind rotation. *)
From Coq Require Import ZArith Znumtheory List Bool Lia Permutation Zpow_facts.
From Verif Require Import Base.ZSum Base.Modeq Base.Nega Base.Powm Base.Lists Base.Word Base.Fermat Base.Crt Base.Egcd Base.Bitrev.
From Verif Require Import Ckks.Model_rns_utils Ckks.Model_ntt_cpu Ckks.Model_barrett Ckks.Spec_barrett Ckks.Model_scheme Ckks.Model_ntt Ckks.Model_auto Ckks.Model_addmul Ckks.Model_basis Ckks.Model_rescale Ckks.Model_plan Ckks.Model_keyswitch Ckks.Model_blindrot Ckks.Spec_ntt Ckks.Spec_poly Ckks.Spec_keyswitch Ckks.Spec_blindrot.
From Verif Require Import Ckks.Proof_ntt_cpu Ckks.Proof_transform Ckks.Prop_crt Ckks.Prop_barrett Ckks.Prop_ntt_cpu Ckks.Proof_slots Ckks.Proof_ntt_accel Ckks.Prop_ntt_accel Ckks.Proof_basis Ckks.Prop_basis Ckks.Proof_encrypt Ckks.Prop_plan Ckks.Prop_rescale Ckks.Proof_keyswitch Ckks.Proof_moddown Ckks.Proof_ksk Ckks.Prop_keyswitch Ckks.Proof_mul Ckks.Proof_auto Ckks.Prop_auto Ckks.Proof_autohom Ckks.Proof_autocomp Ckks.Proof_blindrot.
Import ListNotations.
Local Open Scope Z_scope.

Local Notation u64 := Model_scheme.u64.
Local Notation u32 := Model_scheme.u32.

Lemma auto_one a : poly_auto 1 a = a.
Proof.
  apply (list_ext 0); [apply poly_auto_length |]. intros k Hk. rewrite poly_auto_length in Hk. change (co (poly_auto 1 a) k = co a k). rewrite co_chi by exact Hk. set (n := Z.of_nat (length a)). assert (Hn : 0 < n) by lia.
  assert (Kn : Z.of_nat k < n) by (unfold n; lia). rewrite (zsum_single _ k) by (first [exact Hk | intros i Hi NE; assert (In' : Z.of_nat i < n) by (unfold n; lia); clearbody n;
    destruct (chi_cases n (Z.of_nat i * 1 - Z.of_nat k) Hn) as [[[z E] _] | [[[z E] _] | [_ ->]]]; [exfalso; assert (z = 0) by nia; subst z; lia | exfalso; assert (z = 0 \/ z = -1) as [-> | ->] by nia; lia | ring]]).
  replace (Z.of_nat k * 1 - Z.of_nat k) with 0 by lia. unfold chi. rewrite Z.mod_0_l by lia. rewrite Z.eqb_refl. ring.
Qed.

Lemma auto_scale g c a : poly_auto g (poly_scale c a) = poly_scale c (poly_auto g a).
Proof.
  apply (list_ext 0); [rewrite poly_auto_length, !poly_scale_length, poly_auto_length; reflexivity |]. intros k Hk. rewrite poly_auto_length, poly_scale_length in Hk.
  change (co (poly_auto g (poly_scale c a)) k = co (poly_scale c (poly_auto g a)) k). rewrite co_scale, !co_chi by (rewrite ?poly_scale_length; exact Hk). rewrite poly_scale_length, <- zsum_mul_l. apply zsum_ext. intros i Hi. rewrite co_scale. ring.
Qed.

Lemma rotates_zero n g : (0 < n)%nat -> rotates n 0 g -> g == 1 [mod 2 * Z.of_nat n].
Proof. intros Hn H. unfold rotates in H. cbn in H. rewrite <- H. apply eqm_eq. destruct g; reflexivity. Qed.
Lemma rotates_add n e1 e2 g h : 0 <= e1 * e2 -> rotates n e1 g -> rotates n e2 h -> rotates n (e1 + e2) (g * h).
Proof.
  unfold rotates. intros HE H1 H2. assert (M1 : Z.max (e1 + e2) 0 = Z.max e1 0 + Z.max e2 0) by nia. assert (M2 : Z.max (- (e1 + e2)) 0 = Z.max (- e1) 0 + Z.max (- e2) 0) by nia.
  rewrite M1, M2, !Z.pow_add_r by lia. rewrite <- H1, <- H2. apply eqm_eq. ring.
Qed.

Section Brot.
  Variables (lr lc : nat) (q p : list Z).
  Let QP := q ++ p.
  Let L := (lr + lc)%nat.
  Let n := (2 ^ L)%nat.
  Hypothesis HS : switch_setting lr lc q p 1.
  Hypothesis HR : ForallOrdPairs (fun m later => later <= 2 * m + 1) QP.
  Hypothesis HL : (L <= 31)%nat.
  Variables (sk : secret_key) (s : list Z) (S B : Z).
  Hypothesis (Ls : length s = n) (Hr : Forall (fun c => 0 <= c < nth 0 q 0) s) (BS : poly_bound S s) (HS0 : 0 <= S) (MS : sk_moduli sk = q) (SS : slots L q (sk_data sk) (fun _ => s)) (HB : 0 <= B).
  Variables (K : blind_rotation) (stride : Z).
  Hypothesis HK : blind_rotation_precompute q p 1 (2 ^ lr) (2 ^ lc) (length p) = Some K.
  Let E := hmux_noise n q p B S.

  Fixpoint keys_good (k0 : nat) (bits : list Z) (keys : list (hmuxrot_key * hmuxrot_key)) : Prop :=
    match bits, keys with
    | [], [] => True
    | b :: bits, (h0, h1) :: keys => (b = 0 \/ b = 1) /\ (exists g, g mod 2 = 1 /\ rotates n (2 ^ Z.of_nat k0 * stride) g /\ hmux_good lr lc q p s S B K b (2 ^ Z.of_nat k0 * stride) g h0) /\
        (exists g, rotates n 0 g /\ hmux_good lr lc q p s S B K (1 - b) 0 g h1) /\ keys_good (Datatypes.S k0) bits keys
    | _, _ => False
    end.

  Lemma E_nonneg : 0 <= E.
  Proof.
    unfold E, hmux_noise, switch_noise. pose proof HS as (NQ & NP & Hd & HG & HM & HC & HKd & HT). assert (PP : 0 < lprod p) by (apply lprod_pos; destruct HC as [X _]; rewrite Forall_app in X; apply X).
    assert (0 <= zsum 1 (fun t => Z.of_nat n * (Z.of_nat (length (digit_group q 1 t)) * lprod (digit_group q 1 t) * B))).
    { apply zsum_nonneg. intros t Ht. assert (0 < lprod (digit_group q 1 t)).
      { apply lprod_pos. rewrite <- (group_pick q p 1 _ Hd). apply pick_Forall; [apply HC |]. eapply Forall_impl; [| apply (ins_range lr lc); exact Hd]. cbv beta. intros z' Hz'. rewrite app_length. lia. }
      apply Z.mul_nonneg_nonneg; [lia |]. apply Z.mul_nonneg_nonneg; [nia | exact HB]. }
    nia.
  Qed.

  Lemma keys_exist bits k0 ext (draws : nat -> nat -> (array * array) * (array * array)) e : extend_secret_key sk QP = Some ext -> slots L QP (sk_data ext) (fun _ => s) -> lprod p < 2 ^ 64 -> Forall (fun b => b = 0 \/ b = 1) bits ->
    (forall k b, (k < k0 + length bits)%nat -> (b < 2)%nat -> good_draw lr lc q p B (fst (draws k b)) (e k b 0%nat) /\ good_draw lr lc q p B (snd (draws k b)) (e k b 1%nat)) ->
    exists keys, sequence_opt (map (fun kb : nat * Z => let '(k, bit) := kb in
        match gen_hmuxrot_key sk bit (2 ^ Z.of_nat k * stride) q p (fst (draws k 0%nat)) (snd (draws k 0%nat)) (Some ext),
              gen_hmuxrot_key sk (1 - bit) 0 q p (fst (draws k 1%nat)) (snd (draws k 1%nat)) (Some ext) with
        | Some h0, Some h1 => Some (h0, h1)
        | _, _ => None
        end) (combine (seq k0 (length bits)) bits)) = Some keys /\ keys_good k0 bits keys.
  Proof.
    intros EX SX HP. revert k0. induction bits as [|b bits IH]; intros k0 HBt HD; [exists []; split; [reflexivity | exact I] |].
    rewrite Forall_cons_iff in HBt. destruct HBt as [Hb HBt]. cbn [length seq combine map sequence_opt].
    destruct (HD k0 0%nat) as [D1 D2]; [cbn [length]; lia | lia |]. destruct (HD k0 1%nat) as [D3 D4]; [cbn [length]; lia | lia |].
    destruct (rotation_exponent_ok L (2 ^ Z.of_nat k0 * stride)) as (g & Eg & Bg & Og & Rg). destruct (rotation_exponent_ok L 0) as (g0 & Eg0 & Bg0 & Og0 & Rg0).
    destruct (hmux_ok lr lc q p HS HR HL sk s S B Ls BS HS0 SS K ext b (2 ^ Z.of_nat k0 * stride) _ _ _ _ g HK EX SX Hb HP D1 D2 Eg Bg Og) as (h0 & EH0 & G0).
    destruct (hmux_ok lr lc q p HS HR HL sk s S B Ls BS HS0 SS K ext (1 - b) 0 _ _ _ _ g0 HK EX SX ltac:(lia) HP D3 D4 Eg0 Bg0 Og0) as (h1 & EH1 & G1).
    destruct (IH (Datatypes.S k0) HBt) as (keys & EK & KG). { intros k c Hk Hc. apply HD; [cbn [length]; lia | exact Hc]. }
    rewrite EH0, EH1, EK. exists ((h0, h1) :: keys). split; [reflexivity |]. cbn [keys_good]. split; [exact Hb |]. split; [exists g; split; [exact Og | split; [exact Rg | exact G0]] |]. split; [exists g0; split; [exact Rg0 | exact G1] | exact KG].
  Qed.

  Let step := (fun (acc : option ciphertext) (kp : nat * (hmuxrot_key * hmuxrot_key)) =>
    match acc with
    | None => None
    | Some ct_out =>
        let '(k, (h0, h1)) := kp in
        match hmuxrot K ct_out h0 (2 ^ Z.of_nat k * stride) p 0, hmuxrot K ct_out h1 0 p 0 with
        | Some ct0, Some ct1 =>
            let moduli := ct_moduli ct0 in
            let add A B := tab (length moduli) (degree_of A) (fun i j => let s := u64 (ent A i j + ent B i j) in let m := nth i moduli 0 in u32 (if m <=? s then u64 (s - m) else s)) in
            Some {| ct_data := map (fun p => add (fst p) (snd p)) (combine (ct_data ct0) (ct_data ct1)); ct_moduli := moduli |}
        | _, _ => None
        end
    end).

  Definition holds_poly (ct : ciphertext) (m : list Z) : Prop := exists c0 c1, ct_moduli ct = q /\ length (ct_data ct) = 2%nat /\ slots L q (nth 0 (ct_data ct) []) (fun _ => c0) /\ slots L q (nth 1 (ct_data ct) []) (fun _ => c1) /\
    forall i, (i < length q)%nat -> poly_mod (nth i q 0) (poly_add c0 (poly_mul c1 s)) = poly_mod (nth i q 0) m.

  Lemma step_ok ct m k b h0 h1 g0 g1 : length m = n -> holds_poly ct m -> b = 0 \/ b = 1 -> hmux_good lr lc q p s S B K b (2 ^ Z.of_nat k * stride) g0 h0 -> hmux_good lr lc q p s S B K (1 - b) 0 g1 h1 -> rotates n 0 g1 ->
    exists ct' err, step (Some ct) (k, (h0, h1)) = Some ct' /\ length err = n /\ holds_poly ct' (poly_add (poly_auto (if b =? 1 then g0 else 1) m) err) /\ poly_bound (2 * E) (poly_scale (lprod p) err).
  Proof.
    intros Lm (c0 & c1 & EM & LD & S0 & S1 & HV) Hb G0 G1 R1. pose proof HS as (NQ & NP & Hd & HG & HM & HC & HKd & HT). destruct (core_q_moduli lr lc q p 1 HS) as [HQ HQP]. pose proof (scheme_adm _ _ HQ) as HAq. fold L in HQ, HAq.
    assert (Lq : (0 < length q)%nat) by (clear - NQ; destruct q; [contradiction | cbn; lia]).
    assert (L0 : length c0 = n) by (apply (proj2 S0 0%nat Lq)). assert (L1 : length c1 = n) by (apply (proj2 S1 0%nat Lq)).
    destruct (G0 ct c0 c1 EM LD S0 S1) as (r0 & y0 & y1 & er0 & X1 & X2 & X3 & X4 & X5 & X6 & X7 & X8). destruct (G1 ct c0 c1 EM LD S0 S1) as (r1 & z0 & z1 & er1 & Y1 & Y2 & Y3 & Y4 & Y5 & Y6 & Y7 & Y8).
    assert (D0 : exists F0 F1, ct_data r0 = [F0; F1]) by (destruct (ct_data r0) as [|F0 [|F1 [|]]]; try discriminate; eauto). destruct D0 as (F0 & F1 & ED0). rewrite ED0 in X4, X5. cbn [nth] in X4, X5.
    assert (D1 : exists H0 H1, ct_data r1 = [H0; H1]) by (destruct (ct_data r1) as [|H0 [|H1 [|]]]; try discriminate; eauto). destruct D1 as (H0 & H1 & ED1). rewrite ED1 in Y4, Y5. cbn [nth] in Y4, Y5.
    assert (S31 : forall i, (i < length q)%nat -> 1 < nth i q 0 < 2 ^ 31) by (intros i Hi; destruct (qp_range lr lc q p HM i) as [X _]; [rewrite app_length; lia |]; rewrite app_nth1 in X by exact Hi; exact X).
    set (sum := fun A B' : array => tab (length q) (degree_of A) (fun i j => let s := u64 (ent A i j + ent B' i j) in let m := nth i q 0 in u32 (if m <=? s then u64 (s - m) else s))).
    assert (SUM : forall A B' a b', slots L q A (fun _ => a) -> slots L q B' (fun _ => b') -> slots L q (sum A B') (fun _ => poly_add a b')).
    { intros A B' a b' SA SB. unfold sum. rewrite (deg_slots L q _ _ Lq SA). apply slots_tab; [exact HAq | intros i Hi; rewrite poly_add_length; apply (proj2 SA i Hi) |]. intros i j Hi Hj. cbv zeta. destruct (slots_ent L q HAq _ _ i j SA Hi Hj) as [RA VA]. destruct (slots_ent L q HAq _ _ i j SB Hi Hj) as [RB VB].
      pose proof (S31 i Hi) as Q. rewrite (u64_small (ent A i j + ent B' i j)) by lia.
      assert (V : ent A i j + ent B' i j == nth j (T L (nth i q 0) (poly_add a b')) 0 [mod nth i q 0]). { rewrite VA, VB. unfold T. symmetry. apply slot_add; [exact Hj |]. destruct (proj2 SA i Hi) as [-> _]. destruct (proj2 SB i Hi) as [-> _]. reflexivity. }
      destruct (Z.leb_spec (nth i q 0) (ent A i j + ent B' i j)).
      - rewrite u64_small, u32_small by lia. split; [lia |]. rewrite <- V. apply eqm_ex. exists (-1). ring.
      - rewrite u32_small by lia. split; [lia | exact V]. }
    assert (Ly0 : length y0 = n) by (apply (proj2 X4 0%nat Lq)). assert (Ly1 : length y1 = n) by (apply (proj2 X5 0%nat Lq)). assert (Lz0 : length z0 = n) by (apply (proj2 Y4 0%nat Lq)). assert (Lz1 : length z1 = n) by (apply (proj2 Y5 0%nat Lq)).
    change (length er0 = n) in X6. change (length er1 = n) in Y6.
    eexists. exists (poly_add er0 er1). split; [unfold step; rewrite X1, Y1, X2, ED0, ED1; reflexivity |]. split; [rewrite poly_add_length; exact X6 |]. split.
    - exists (poly_add y0 z0), (poly_add y1 z1). cbn [ct_moduli ct_data combine map fst snd nth length]. split; [reflexivity |]. split; [reflexivity |]. split; [apply (SUM F0 H0); assumption |]. split; [apply (SUM F1 H1); assumption |].
      intros i Hi. pose proof (adm L q HAq i Hi) as Ai. pose proof (psi_of_root _ _ Ai) as RT. pose proof (admissible_gt1 _ _ Ai) as Q. specialize (X7 i Hi). specialize (Y7 i Hi). specialize (HV i Hi).
      assert (W : forall g, poly_mod (nth i q 0) (poly_auto g (poly_add c0 (poly_mul c1 s))) = poly_mod (nth i q 0) (poly_auto g m)) by (intros g; apply auto_congr; [lia | exact HV]).
      assert (A1 : poly_auto g1 (poly_add c0 (poly_mul c1 s)) = poly_add c0 (poly_mul c1 s)). { rewrite (poly_auto_period g1 1); [apply auto_one |]. rewrite poly_add_length, L0. apply rotates_zero; [unfold n; pose proof (pow2_ge1 L); lia | exact R1]. }
      rewrite A1 in Y7.
      assert (TVt : forall x y, poly_mod (nth i q 0) x = poly_mod (nth i q 0) y -> forall k, nth k (T L (nth i q 0) x) 0 == nth k (T L (nth i q 0) y) 0 [mod nth i q 0]) by (intros x y Exy k'; rewrite <- (T_mod _ _ x) by exact Ai; rewrite Exy, T_mod by exact Ai; reflexivity).
      assert (Lg : forall g, length (poly_auto g m) = (2 ^ L)%nat) by (intros g; rewrite poly_auto_length; exact Lm). assert (Lc : forall g, length (poly_auto g (poly_add c0 (poly_mul c1 s))) = (2 ^ L)%nat) by (intros g; rewrite poly_auto_length, poly_add_length; exact L0).
      pose proof Ls as Ls2. change (length s = (2 ^ L)%nat) in Ls2. change (length er0 = (2 ^ L)%nat) in X6. change (length er1 = (2 ^ L)%nat) in Y6. change (length c0 = (2 ^ L)%nat) in L0. change (length c1 = (2 ^ L)%nat) in L1. change (length y0 = (2 ^ L)%nat) in Ly0. change (length y1 = (2 ^ L)%nat) in Ly1. change (length z0 = (2 ^ L)%nat) in Lz0. change (length z1 = (2 ^ L)%nat) in Lz1. change (length m = (2 ^ L)%nat) in Lm.
      pose proof (Lg (if b =? 1 then g0 else 1)) as Lgi. pose proof (Lc g0) as Lc0. apply (slots_determine L); [exact Ai | slot_side | slot_side |]. intros j Hj.
      pose proof (TVt _ _ X7 j) as V0. pose proof (TVt _ _ Y7 j) as V1. pose proof (TVt _ _ HV j) as VM. pose proof (TVt _ _ (W g0) j) as VW. unfold T in *. revert V0 V1 VM. slot_push. intros V0 V1 VM. rewrite VM in V1. rewrite VW in V0.
      match type of V0 with ?v == ?w [mod _] => match type of V1 with ?v' == ?w' [mod _] => transitivity (v + v'); [apply eqm_eq; ring | rewrite V0, V1] end end.
      destruct Hb as [-> | ->]; cbn [Z.eqb Pos.eqb]; [rewrite (auto_one m) |]; apply eqm_eq; ring.
    - apply poly_bound_intro. intros j Hj. rewrite poly_scale_length, poly_add_length, X6 in Hj. rewrite co_scale, co_add by lia. pose proof (poly_bound_co _ _ j X8) as B0. pose proof (poly_bound_co _ _ j Y8) as B1. rewrite poly_scale_length, X6 in B0. rewrite poly_scale_length, Y6 in B1. specialize (B0 Hj). specialize (B1 Hj). rewrite co_scale in B0, B1. change (hmux_noise (2 ^ (lr + lc)) q p B S) with E in B0, B1. lia.
  Qed.

  Lemma brot_fold : forall bits keys k0 ct m, keys_good k0 bits keys -> length m = n -> holds_poly ct m ->
    exists ct' err G, fold_left step (combine (seq k0 (length keys)) keys) (Some ct) = Some ct' /\ G mod 2 = 1 /\ rotates n (2 ^ Z.of_nat k0 * stride * bits_value bits) G /\ length err = n /\ holds_poly ct' (poly_add (poly_auto G m) err) /\
      poly_bound (Z.of_nat (length bits) * (2 * E)) (poly_scale (lprod p) err) /\ 0 <= bits_value bits.
  Proof.
    pose proof E_nonneg as HE.
    induction bits as [|b bits IH]; intros [|[h0 h1] keys] k0 ct m KG Lm HH; cbn [keys_good] in KG; try contradiction.
    - exists ct, (poly_scale 0 m), 1. cbn [length seq combine fold_left bits_value]. split; [reflexivity |]. split; [reflexivity |]. split; [unfold rotates; rewrite Z.mul_0_r; reflexivity |]. split; [rewrite poly_scale_length; exact Lm |]. split; [| split].
      + rewrite auto_one. replace (poly_add m (poly_scale 0 m)) with m; [exact HH |]. apply (list_ext 0); [rewrite poly_add_length; reflexivity |]. intros j Hj. change (co m j = co (poly_add m (poly_scale 0 m)) j). rewrite co_add by exact Hj. rewrite co_scale. ring.
      + apply poly_bound_intro. intros j Hj. rewrite !co_scale. lia.
      + lia.
    - destruct KG as (Hb & (g0 & Og & Rg & G0) & (g1 & R1 & G1) & KG).
      destruct (step_ok ct m k0 b h0 h1 g0 g1 Lm HH Hb G0 G1 R1) as (mid & e1 & ES & Le1 & HM1 & B1).
      set (g := if b =? 1 then g0 else 1) in *. assert (Og' : g mod 2 = 1) by (unfold g; destruct (b =? 1); [exact Og | reflexivity]).
      destruct (IH keys (Datatypes.S k0) mid (poly_add (poly_auto g m) e1) KG) as (ct' & e2 & G & EF & OG & RG & Le2 & HM2 & B2 & NV). { rewrite poly_add_length, poly_auto_length. exact Lm. } { exact HM1. }
      exists ct', (poly_add (poly_auto G e1) e2), (g * G). cbn [length seq combine fold_left]. rewrite ES. split; [exact EF |].
      split; [rewrite Z.mul_mod, Og', OG by lia; reflexivity |]. split; [| split; [| split; [| split]]].
      + cbn [bits_value]. replace (2 ^ Z.of_nat k0 * stride * (b + 2 * bits_value bits)) with (2 ^ Z.of_nat k0 * stride * b + 2 ^ Z.of_nat (Datatypes.S k0) * stride * bits_value bits) by (rewrite (Nat2Z.inj_succ k0), Z.pow_succ_r by lia; ring).
        apply rotates_add.
        * rewrite (Nat2Z.inj_succ k0), Z.pow_succ_r by lia. set (P2 := 2 ^ Z.of_nat k0). replace (P2 * stride * b * (2 * P2 * stride * bits_value bits)) with (2 * (P2 * stride) ^ 2 * (b * bits_value bits)) by ring. apply Z.mul_nonneg_nonneg; [nia | destruct Hb as [-> | ->]; lia].
        * unfold g. destruct Hb as [-> | ->]; cbn [Z.eqb Pos.eqb]; [rewrite Z.mul_0_r; unfold rotates; reflexivity | rewrite Z.mul_1_r; exact Rg].
        * exact RG.
      + rewrite poly_add_length, poly_auto_length. exact Le1.
      + replace (poly_add (poly_auto (g * G) m) (poly_add (poly_auto G e1) e2)) with (poly_add (poly_auto G (poly_add (poly_auto g m) e1)) e2); [exact HM2 |].
        rewrite auto_add by (rewrite poly_auto_length; congruence). rewrite auto_compose by exact OG. apply (list_ext 0); [rewrite !poly_add_length; reflexivity |]. intros j Hj. rewrite !poly_add_length, poly_auto_length in Hj.
        match goal with |- nth j ?x 0 = nth j ?y 0 => change (co x j = co y j) end. rewrite !co_add by (rewrite ?poly_add_length, ?poly_auto_length; lia). ring.
      + assert (BA : poly_bound (2 * E) (poly_scale (lprod p) (poly_auto G e1))). { rewrite <- auto_scale. apply (auto_bound L); [exact OG | rewrite poly_scale_length; exact Le1 | lia | exact B1]. }
        apply poly_bound_intro. intros j Hj. rewrite poly_scale_length, poly_add_length, poly_auto_length, Le1 in Hj. rewrite co_scale, co_add by (rewrite poly_auto_length; lia).
        pose proof (poly_bound_co _ _ j BA) as X1. pose proof (poly_bound_co _ _ j B2) as X2. rewrite poly_scale_length, poly_auto_length, Le1 in X1. rewrite poly_scale_length, Le2 in X2. specialize (X1 Hj). specialize (X2 Hj). rewrite co_scale in X1, X2. rewrite Nat2Z.inj_succ. lia.
      + cbn [bits_value]. destruct Hb as [-> | ->]; lia.
  Qed.
End Brot.

(** one array draw of a key: a uniform polynomial and an error polynomial e with coefficients at most B *)
Definition key_draw (n : nat) (moduli : list Z) (B : Z) (d : array * array) (e : list Z) : Prop :=
  uniform_sample n moduli (fst d) /\ snd d = residue_array e moduli /\ length e = n /\ poly_bound B e.

(** C42, one step.  hmuxrot with a key generated for the bit beta and the rotation j: every ciphertext is mapped to one that
    decrypts to beta * m(X^g), where m is what it decrypts to and g = 5^(-j) mod 2n, up to an error err with
    P * |err| <= 2 * (key-switching noise) + (P - 1) * (1 + n*S).
    Missing: as C36; and the product P of the auxiliary primes must be below 2^64 (see C42_large_p_rejected). *)
Theorem C42_hmuxrot_partial : forall lr lc q p sk s S B beta j d0 e0 d1 e1,
  let n := (2 ^ (lr + lc))%nat in
  switch_setting lr lc q p 1 -> ForallOrdPairs (fun q later => later <= 2 * q + 1) (q ++ p) -> (lr + lc <= 31)%nat -> lprod p < 2 ^ 64 ->
  length s = n -> Forall (fun c => 0 <= c < nth 0 q 0) s -> poly_bound S s -> 0 <= S -> sk_moduli sk = q -> evaluation_form q s (sk_data sk) -> 0 <= B ->
  beta = 0 \/ beta = 1 -> key_draw n (q ++ p) B d0 e0 -> key_draw n (q ++ p) B d1 e1 ->
  exists K key g, blind_rotation_precompute q p 1 (2 ^ lr) (2 ^ lc) (length p) = Some K /\ gen_hmuxrot_key sk beta j q p d0 d1 None = Some key /\ rotates n j g /\
    forall ct c0 c1, length c0 = n -> length c1 = n -> ct_moduli ct = q -> Forall2 (evaluation_form q) [c0; c1] (ct_data ct) ->
    exists ct' err, hmuxrot K ct key j p 0 = Some ct' /\
      decrypt sk ct = Some {| pt_data := residue_array (poly_add c0 (poly_mul c1 s)) q; pt_moduli := q |} /\
      decrypt sk ct' = Some {| pt_data := residue_array (poly_add (poly_scale beta (poly_auto g (poly_add c0 (poly_mul c1 s)))) err) q; pt_moduli := q |} /\
      length err = n /\ Forall (fun x => lprod p * Z.abs x <= hmux_noise n q p B S) err.
Proof.
  intros lr lc q p sk s S B beta j d0 e0 d1 e1 n HS HR HL HP Ls Hr BS HS0 MD ED HB Hb D0 D1.
  destruct (core_q_moduli lr lc q p 1 HS) as [HQ HQP]. pose proof (scheme_adm _ _ HQ) as HA. pose proof (scheme_adm _ _ HQP) as HAQP.
  assert (Lq : (0 < length q)%nat) by (destruct HQ as [N _]; destruct q; [contradiction | cbn; lia]).
  assert (PP : 0 < lprod p) by (apply lprod_pos; destruct HS as (_ & _ & _ & _ & _ & [X _] & _); rewrite Forall_app in X; apply X).
  apply (evaluation_slots _ _ _ _ HA Ls) in ED.
  destruct (hmux_kernel lr lc q p HS HR) as (K & _ & _ & _ & HK & _). destruct (rotation_exponent_ok (lr + lc) j) as (g & Eg & Bg & Og & Rg).
  destruct (extend_ok (lr + lc) q (q ++ p) sk s HQ HQP) as (ext & EX & MX & SX); try assumption. { apply firstn_app_exact. }
  destruct (hmux_ok lr lc q p HS HR HL sk s S B Ls BS HS0 ED K ext beta j d0 e0 d1 e1 g HK EX SX Hb HP D0 D1 Eg Bg Og) as (key & EK & KG).
  exists K, key, g. split; [exact HK |]. split; [unfold gen_hmuxrot_key in *; rewrite EX; exact EK |]. split; [exact Rg |].
  intros ct c0 c1 L0 L1 EM HE.
  assert (DC : exists C0 C1, ct_data ct = [C0; C1] /\ evaluation_form q c0 C0 /\ evaluation_form q c1 C1).
  { clear - HE. inversion HE as [|? C0 ? ? X1 X2 X3 X4]; subst. inversion X2 as [|? C1 ? ? Y1 Y2 Y3 Y4]; subst. inversion Y2; subst. exists C0, C1. repeat split; assumption. }
  destruct DC as (C0 & C1 & EC & F0 & F1). apply (evaluation_slots _ _ _ _ HA L0) in F0. apply (evaluation_slots _ _ _ _ HA L1) in F1.
  assert (EF : firstn (length q) q = q) by apply firstn_all.
  destruct (KG ct c0 c1 EM) as (ct' & y0 & y1 & err & X1 & X2 & X3 & X4 & X5 & X6 & X7 & X8). { rewrite EC. reflexivity. } { rewrite EC. exact F0. } { rewrite EC. exact F1. }
  exists ct', err. split; [exact X1 |]. split; [| split; [| split; [exact X6 |]]].
  - rewrite (decrypt_ok (lr + lc) q (length q) sk ct s (fun _ => c0) (fun _ => c1)); try assumption; try lia; rewrite ?EF, ?EC; try assumption. rewrite residues_of_map. reflexivity.
  - rewrite (decrypt_ok (lr + lc) q (length q) sk ct' s (fun _ => y0) (fun _ => y1)); try assumption; try lia; rewrite ?EF; try assumption. f_equal. f_equal. rewrite <- residues_of_map. apply map_ext_in. intros i Hi. apply in_seq in Hi. apply X7. lia.
  - apply Forall_forall. intros x Hx. apply (In_nth _ _ 0) in Hx. destruct Hx as (k & Hk & <-). pose proof (poly_bound_co _ _ k X8) as BB. rewrite poly_scale_length in BB. specialize (BB Hk). rewrite co_scale in BB. change (nth k err 0) with (co err k). rewrite <- (Z.abs_eq (lprod p)) at 1 by lia. rewrite <- Z.abs_mul. exact BB.
Qed.
Print Assumptions C42_hmuxrot_partial.

(** C42, the whole blind rotation: with keys generated for any list of secret bits, brot_mux maps every ciphertext to one
    that decrypts to the rotation of the message by stride * (the number the bits stand for), up to an error that grows by at most two
    steps' errors per bit.  The rotation exponent G is determined modulo 2n by [rotates]. *)
Theorem C42_blind_rotation_partial : forall lr lc q p sk s S B bits stride draws e,
  let n := (2 ^ (lr + lc))%nat in
  switch_setting lr lc q p 1 -> ForallOrdPairs (fun q later => later <= 2 * q + 1) (q ++ p) -> (lr + lc <= 31)%nat -> lprod p < 2 ^ 64 ->
  length s = n -> Forall (fun c => 0 <= c < nth 0 q 0) s -> poly_bound S s -> 0 <= S -> sk_moduli sk = q -> evaluation_form q s (sk_data sk) -> 0 <= B ->
  Forall (fun b => b = 0 \/ b = 1) bits ->
  (forall k b, (k < length bits)%nat -> (b < 2)%nat -> key_draw n (q ++ p) B (fst (draws k b)) (e k b 0%nat) /\ key_draw n (q ++ p) B (snd (draws k b)) (e k b 1%nat)) ->
  exists K keys G, blind_rotation_precompute q p 1 (2 ^ lr) (2 ^ lc) (length p) = Some K /\ gen_mux_rotation_key sk bits q p stride draws = Some keys /\ rotates n (stride * bits_value bits) G /\
    forall ct c0 c1, length c0 = n -> length c1 = n -> ct_moduli ct = q -> Forall2 (evaluation_form q) [c0; c1] (ct_data ct) ->
    exists ct' err, brot_mux K ct keys p 0 stride = Some ct' /\
      decrypt sk ct = Some {| pt_data := residue_array (poly_add c0 (poly_mul c1 s)) q; pt_moduli := q |} /\
      decrypt sk ct' = Some {| pt_data := residue_array (poly_add (poly_auto G (poly_add c0 (poly_mul c1 s))) err) q; pt_moduli := q |} /\
      length err = n /\ Forall (fun x => lprod p * Z.abs x <= Z.of_nat (length bits) * (2 * hmux_noise n q p B S)) err.
Proof.
  intros lr lc q p sk s S B bits stride draws e n HS HR HL HP Ls Hr BS HS0 MD ED HB Hb HD.
  destruct (core_q_moduli lr lc q p 1 HS) as [HQ HQP]. pose proof (scheme_adm _ _ HQ) as HA. pose proof (scheme_adm _ _ HQP) as HAQP.
  assert (Lq : (0 < length q)%nat) by (destruct HQ as [N _]; destruct q; [contradiction | cbn; lia]).
  assert (PP : 0 < lprod p) by (apply lprod_pos; destruct HS as (_ & _ & _ & _ & _ & [X _] & _); rewrite Forall_app in X; apply X).
  apply (evaluation_slots _ _ _ _ HA Ls) in ED.
  destruct (hmux_kernel lr lc q p HS HR) as (K & _ & _ & _ & HK & _).
  destruct (extend_ok (lr + lc) q (q ++ p) sk s HQ HQP) as (ext & EX & MX & SX); try assumption. { apply firstn_app_exact. }
  destruct (keys_exist lr lc q p HS HR HL sk s S B Ls BS HS0 ED K stride HK bits 0 ext draws e EX SX HP Hb HD) as (keys & EK & KG).
  assert (HG : forall ct c0 c1, length c0 = n -> length c1 = n -> ct_moduli ct = q -> Forall2 (evaluation_form q) [c0; c1] (ct_data ct) -> holds_poly lr lc q s ct (poly_add c0 (poly_mul c1 s)) /\
    decrypt sk ct = Some {| pt_data := residue_array (poly_add c0 (poly_mul c1 s)) q; pt_moduli := q |}).
  { intros ct c0 c1 L0 L1 EM HE.
    assert (DC : exists C0 C1, ct_data ct = [C0; C1] /\ evaluation_form q c0 C0 /\ evaluation_form q c1 C1).
    { clear - HE. inversion HE as [|? C0 ? ? X1 X2 X3 X4]; subst. inversion X2 as [|? C1 ? ? Y1 Y2 Y3 Y4]; subst. inversion Y2; subst. exists C0, C1. repeat split; assumption. }
    destruct DC as (C0 & C1 & EC & F0 & F1). apply (evaluation_slots _ _ _ _ HA L0) in F0. apply (evaluation_slots _ _ _ _ HA L1) in F1.
    assert (EF : firstn (length q) q = q) by apply firstn_all. split.
    - exists c0, c1. split; [exact EM |]. rewrite EC. split; [reflexivity |]. split; [exact F0 |]. split; [exact F1 |]. intros i Hi. reflexivity.
    - rewrite (decrypt_ok (lr + lc) q (length q) sk ct s (fun _ => c0) (fun _ => c1)); try assumption; try lia; rewrite ?EF, ?EC; try assumption. rewrite residues_of_map. reflexivity. }
  (* the exponent does not depend on the ciphertext *)
  destruct (rotation_exponent_ok (lr + lc) (stride * bits_value bits)) as (G & _ & BG & OG & RG).
  exists K, keys, G. split; [exact HK |]. split; [unfold gen_mux_rotation_key; rewrite EX; exact EK |]. split; [exact RG |].
  intros ct c0 c1 L0 L1 EM HE. destruct (HG ct c0 c1 L0 L1 EM HE) as [HH DEC].
  destruct (brot_fold lr lc q p HS HL s S B Ls HS0 HB K stride bits keys 0 ct (poly_add c0 (poly_mul c1 s)) KG) as (ct' & err & G' & EF' & OG' & RG' & Le & HH' & BE & NV). { rewrite poly_add_length. exact L0. } { exact HH. }
  assert (EG : G' == G [mod 2 * Z.of_nat n]).
  { unfold rotates in RG, RG'. cbn [Z.of_nat] in RG'. rewrite Z.pow_0_r, Z.mul_1_l in RG'. fold n in RG. rewrite <- RG in RG'. set (M := 2 * Z.of_nat n) in *. set (x := Z.max (stride * bits_value bits) 0) in *.
    apply eqm_ex in RG'. destruct RG' as [z RG']. apply eqm_ex.
    assert (DV : (M | 5 ^ x * (G' - G))) by (exists z; lia). apply Z.gauss in DV.
    - destruct DV as [d DV]. exists d. lia.
    - unfold M, n. rewrite Nat2Z.inj_pow. change (2 * Z.of_nat 2 ^ Z.of_nat (lr + lc)) with (2 * 2 ^ Z.of_nat (lr + lc)). rewrite <- Z.pow_succ_r by lia. rewrite <- Nat2Z.inj_succ. apply odd_gcd_pow2.
      rewrite Zpower_mod by lia. change (5 mod 2) with 1. rewrite Z.pow_1_l by lia. reflexivity. }
  rewrite (poly_auto_period G' G) in HH' by (rewrite poly_add_length, L0; exact EG).
  exists ct', err. split; [exact EF' |]. split; [exact DEC |]. split; [| split; [exact Le |]].
  - destruct HH' as (y0 & y1 & X2 & X3 & X4 & X5 & X7). assert (EF : firstn (length q) q = q) by apply firstn_all.
    rewrite (decrypt_ok (lr + lc) q (length q) sk ct' s (fun _ => y0) (fun _ => y1)); try assumption; try lia; rewrite ?EF; try assumption. f_equal. f_equal. rewrite <- residues_of_map. apply map_ext_in. intros i Hi. apply in_seq in Hi. apply X7. lia.
  - apply Forall_forall. intros x Hx. apply (In_nth _ _ 0) in Hx. destruct Hx as (k & Hk & <-). pose proof (poly_bound_co _ _ k BE) as BB. rewrite poly_scale_length in BB. specialize (BB Hk). rewrite co_scale in BB. change (nth k err 0) with (co err k). rewrite <- (Z.abs_eq (lprod p)) at 1 by lia. rewrite <- Z.abs_mul. exact BB.
Qed.
Print Assumptions C42_blind_rotation_partial.

(** FINDING.  Keys for the bit 1 cannot be generated when the product of the auxiliary primes reaches 2^64 (line 285 takes
    a Python integer modulo a uint64 array), so three auxiliary primes of 22 bits already rule blind rotation out. *)
Theorem C42_large_p_rejected : forall sk j q p d0 d1 ext, 2 ^ 64 <= lprod p -> gen_hmuxrot_key sk 1 j q p d0 d1 ext = None.
Proof.
  intros sk j q p d0 d1 ext H. unfold gen_hmuxrot_key. destruct (match ext with None => _ | Some e => _ end); [| reflexivity]. rewrite product_lprod, Z.mul_1_r.
  destruct (Z.ltb_spec (lprod p) (2 ^ 64)); [lia |]. rewrite andb_false_r. reflexivity.
Qed.
Print Assumptions C42_large_p_rejected.

(** column-method rotation: a wrong number of plaintexts or different moduli are rejected *)
Theorem C42_cm_mismatch_rejected : forall K cmkey pts, length cmkey <> length pts -> brot_cm K cmkey pts = None.
Proof. intros K cmkey pts H. unfold brot_cm. destruct (Nat.eqb_spec (length cmkey) (length pts)); [contradiction | reflexivity]. Qed.
Print Assumptions C42_cm_mismatch_rejected.
Theorem C42_cm_moduli_rejected : forall K ct cts pt pts, ct_moduli ct <> pt_moduli pt -> brot_cm K (ct :: cts) (pt :: pts) = None.
Proof.
  intros K ct cts pt pts H. unfold brot_cm. destruct (negb (length (ct :: cts) =? length (pt :: pts))%nat); [reflexivity |]. destruct (negb (length (ct_moduli ct) =? length (pt_moduli pt))%nat); [reflexivity |].
  destruct (_ || _); [reflexivity |]. destruct (br_mul K); [| reflexivity]. destruct (list_eqb (ct_moduli ct) (pt_moduli pt)) eqn:EL; [| reflexivity]. apply list_eqb_eq in EL. contradiction.
Qed.
Print Assumptions C42_cm_moduli_rejected.

(** a concrete case: degree 2, two bits (1, 1), stride 1 *)
Definition br_draws (k b : nat) : (array * array) * (array * array) :=
  (([[5000; 77]; [1; 2000]; [3; 2080]], residue_array [1; -1] (ex_q ++ ex_p)), ([[0; 12288]; [1000; 1]; [31; 41]], residue_array [0; 1] (ex_q ++ ex_p))).
Example C42_example_setting : switch_setting 0 1 ex_q ex_p 1 /\ lprod ex_p < 2 ^ 64 /\ key_draw 2 (ex_q ++ ex_p) 1 (fst (br_draws 0 0)) [1; -1] /\ key_draw 2 (ex_q ++ ex_p) 1 (snd (br_draws 0 0)) [0; 1].
Proof.
  destruct C36_example_setting as [(X1 & X2 & X3 & _ & X4 & X5 & X6 & X7) [_ Y]]. split; [| split; [reflexivity |]].
  - split; [exact X1 |]. split; [exact X2 |]. split; [lia |]. split; [intros [|t] Ht; [discriminate | lia] |]. split; [exact X4 |]. split; [exact X5 |]. split; [vm_compute; discriminate |]. repeat (constructor; [vm_compute; discriminate |]). constructor.
  - destruct (Y 0%nat ltac:(lia)) as (A1 & A2 & A3). destruct (Y 1%nat ltac:(lia)) as (B1 & B2 & B3). split; [split; [exact A1 | split; [exact A3 | split; [reflexivity | exact A2]]] | split; [exact B1 | split; [exact B3 | split; [reflexivity | exact B2]]]].
Qed.
Example C42_example :
  let sk := {| sk_data := ex_eval [1; 1]; sk_moduli := ex_q |} in
  let ct := {| ct_data := [ex_eval [100000; 7]; ex_eval [3; -2000]]; ct_moduli := ex_q |} in
  match blind_rotation_precompute ex_q ex_p 1 1 2 1, gen_mux_rotation_key sk [1; 1] ex_q ex_p 1 br_draws with
  | Some K, Some keys =>
      match brot_mux K ct keys ex_p 0 1 with
      | Some ct' => (* the message is 102003 - 1990 X, modulo Q = 25229317, and 5 is 1 modulo 2n = 4; the error is within 4 * hmux_noise / P = 387968 *)
          decrypt sk ct' = Some {| pt_data := residue_array (poly_add (poly_auto 1 [102003; -1990]) [53566; 48900]) ex_q; pt_moduli := ex_q |}
      | None => False
      end
  | _, _ => False
  end.
Proof. vm_compute. reflexivity. Qed.

(** FINDING.  precompute_constants defaults to one rescaling; with two auxiliary primes the rotated ciphertext then still
    carries one of them. *)
Theorem C42_default_rescales_refuted : ~ forall sk ct key j q p d0 d1 K ct', blind_rotation_precompute q p 1 1 2 1 = Some K -> gen_hmuxrot_key sk 1 j q p d0 d1 None = Some key ->
  sk_moduli sk = q -> ct_moduli ct = q -> hmuxrot K ct key j p 0 = Some ct' -> ct_moduli ct' = q.
Proof.
  intros H. set (q := [12289]). set (p := [2081; 2113]). set (sk := {| sk_data := [[1; 2]]; sk_moduli := q |}). set (ct := {| ct_data := [[[3; 4]]; [[5; 6]]]; ct_moduli := q |}).
  set (d := ([[1; 2]; [3; 4]; [5; 6]], [[0; 0]; [0; 0]; [0; 0]]) : array * array).
  destruct (blind_rotation_precompute q p 1 1 2 1) as [K |] eqn:EK; [| vm_compute in EK; discriminate].
  destruct (gen_hmuxrot_key sk 1 0 q p d d None) as [key |] eqn:EG; [| vm_compute in EG; discriminate].
  destruct (hmuxrot K ct key 0 p 0) as [ct' |] eqn:EH.
  - specialize (H sk ct key 0 q p d d K ct' EK EG eq_refl eq_refl EH). vm_compute in EK. injection EK as <-. vm_compute in EG. injection EG as <-. vm_compute in EH. injection EH as <-. vm_compute in H. discriminate.
  - vm_compute in EK. injection EK as <-. vm_compute in EG. injection EG as <-. vm_compute in EH. discriminate.
Qed.
Print Assumptions C42_default_rescales_refuted.

(** FINDING.  With two digits the key switcher reads the key of the second digit, but a selection key holds one part and the
    out-of-range index is clamped to it: both digits are multiplied by the key of the whole ciphertext.  Rotating by 0 with the
    key of the bit 1, generated without noise, then returns twice the message. *)
Definition ex_draw : array * array := ([[0; 0]; [0; 0]; [0; 0]], residue_array [0; 0] (ex_q ++ ex_p)).
Theorem C42_two_digits_refuted : exists sk key K ct ct' m,
  switch_setting 0 1 ex_q ex_p 2 /\ sk_moduli sk = ex_q /\ evaluation_form ex_q [1; 1] (sk_data sk) /\ key_draw 2 (ex_q ++ ex_p) 0 ex_draw [0; 0] /\
  gen_hmuxrot_key sk 1 0 ex_q ex_p ex_draw ex_draw None = Some key /\ blind_rotation_precompute ex_q ex_p 2 1 2 (length ex_p) = Some K /\
  ct_moduli ct = ex_q /\ decrypt sk ct = Some {| pt_data := residue_array m ex_q; pt_moduli := ex_q |} /\
  hmuxrot K ct key 0 ex_p 0 = Some ct' /\ decrypt sk ct' = Some {| pt_data := residue_array (poly_scale 2 m) ex_q; pt_moduli := ex_q |} /\
  residue_array (poly_scale 2 m) ex_q <> residue_array m ex_q.
Proof.
  set (sk := {| sk_data := ex_eval [1; 1]; sk_moduli := ex_q |}). set (ct := {| ct_data := [ex_eval [100; 7]; ex_eval [0; 0]]; ct_moduli := ex_q |}).
  destruct (gen_hmuxrot_key sk 1 0 ex_q ex_p ex_draw ex_draw None) as [key |] eqn:EG; [| vm_compute in EG; discriminate].
  destruct (blind_rotation_precompute ex_q ex_p 2 1 2 (length ex_p)) as [K |] eqn:EK; [| vm_compute in EK; discriminate].
  destruct (hmuxrot K ct key 0 ex_p 0) as [ct' |] eqn:EH; [| exfalso; vm_compute in EK; injection EK as <-; vm_compute in EG; injection EG as <-; vm_compute in EH; discriminate].
  exists sk, key, K, ct, ct', [100; 7]. destruct C36_example_setting as [SS [_ Y]]. split; [exact SS |]. split; [reflexivity |]. split; [vm_compute; reflexivity |]. split.
  { split; [| split; [reflexivity | split; [reflexivity |]]]; [repeat (constructor; [split; [reflexivity |]; repeat (constructor; [lia |]); constructor |]); constructor | repeat (constructor; [lia |]); constructor]. }
  split; [exact EG |]. split; [reflexivity |]. split; [reflexivity |]. split; [vm_compute; reflexivity |]. split; [exact EH |].
  vm_compute in EK. injection EK as <-. vm_compute in EG. injection EG as <-. vm_compute in EH. injection EH as <-. split; [vm_compute; reflexivity |]. vm_compute. discriminate.
Qed.
Print Assumptions C42_two_digits_refuted.
