(** Dividing by the auxiliary primes after a key switch. *)
From Coq Require Import ZArith Znumtheory List Bool Lia Permutation.
From Verif Require Import Base.ZSum Base.Modeq Base.Nega Base.Powm Base.Lists Base.Word Base.Fermat Base.Crt.
From Verif Require Import Ckks.Model_rns_utils Ckks.Model_ntt_cpu Ckks.Model_barrett Ckks.Spec_barrett Ckks.Model_scheme Ckks.Model_ntt Ckks.Model_rescale Ckks.Spec_ntt Ckks.Spec_poly Ckks.Spec_rescale.
From Verif Require Import Ckks.Proof_ntt_cpu Ckks.Proof_transform Ckks.Prop_crt Ckks.Prop_barrett Ckks.Prop_ntt_cpu Ckks.Proof_slots Ckks.Proof_ntt_accel Ckks.Prop_ntt_accel Ckks.Proof_rescale Ckks.Proof_encrypt Ckks.Prop_rescale Ckks.Proof_keyswitch.
Import ListNotations.
Local Open Scope Z_scope.

Lemma nearest_all_bound ds : Forall (fun q => 2 <= q) ds -> forall x, Z.abs (x - lprod ds * nearest_all ds x) <= lprod ds - 1.
Proof.
  unfold nearest_all, lprod. induction 1 as [|q ds Hq _ IH]; intros x; cbn [fold_left fold_right]; [lia |].
  specialize (IH (nearest q x)). pose proof (nearest_spec q x ltac:(lia)) as N. set (P := fold_right Z.mul 1 ds) in *. set (y := fold_left _ ds (nearest q x)) in *. nia.
Qed.
Lemma lprod_rev l : lprod (rev l) = lprod l.
Proof. apply lprod_perm. symmetry. apply Permutation_rev. Qed.

Lemma slots_uniform L ms A a : Forall (cpu_admissible L) ms -> slots L ms A a -> uniform_sample (2 ^ L) ms A.
Proof.
  intros HA. revert A a. induction ms as [|q ms IH]; intros A a [LA HS].
  - destruct A; [constructor | discriminate].
  - destruct A as [|col A]; [discriminate |]. rewrite Forall_cons_iff in HA. destruct HA as [Aq HA]. constructor.
    + destruct (HS 0%nat ltac:(cbn; lia)) as [_ E]. cbn [nth] in E. rewrite E. split; [apply T_length |]. apply Forall_forall. intros x Hx. apply (In_nth _ _ 0) in Hx. destruct Hx as (j & Hj & <-). rewrite T_length in Hj. apply T_range; assumption.
    + apply (IH HA A (fun i => a (S i))). split; [cbn in LA; lia |]. intros i Hi. apply (HS (S i)). cbn. lia.
Qed.

Lemma uniform_slots_value L ms A a b i : Forall (cpu_admissible L) ms -> slots L ms A a -> slots L ms A b -> (i < length ms)%nat -> poly_mod (nth i ms 0) (a i) = poly_mod (nth i ms 0) (b i).
Proof.
  intros HA [_ S1] [_ S2] Hi. destruct (S1 i Hi) as [L1 E1]. destruct (S2 i Hi) as [L2 E2]. apply (T_inj L); [apply adm; assumption | exact L1 | exact L2 | congruence].
Qed.

Lemma poly_mod_eqm m a b : 0 < m -> (poly_mod m a = poly_mod m b <-> length a = length b /\ forall j, (j < length a)%nat -> co a j == co b j [mod m]).
Proof.
  intros Hm. split.
  - intros E. assert (EL : length a = length b) by (apply (f_equal (@length Z)) in E; rewrite !poly_mod_length in E; exact E). split; [exact EL |]. intros j Hj. apply eqm_mod_iff; [exact Hm |].
    rewrite <- !co_mod. rewrite E. reflexivity.
  - intros [EL H]. apply (list_ext 0); [rewrite !poly_mod_length; exact EL |]. intros j Hj. rewrite poly_mod_length in Hj. change (co (poly_mod m a) j = co (poly_mod m b) j). rewrite !co_mod. apply eqm_mod_iff; [exact Hm |]. apply H. exact Hj.
Qed.

Lemma nega_sub n a a' s k : nega_coeff n (fun i => a i - a' i) s k = nega_coeff n a s k - nega_coeff n a' s k.
Proof. unfold nega_coeff. rewrite <- zsum_sub. apply zsum_ext. intros i Hi. destruct (_ <=? _)%nat; ring. Qed.
Lemma nega_scale n c a s k : nega_coeff n (fun i => c * a i) s k = c * nega_coeff n a s k.
Proof. unfold nega_coeff. rewrite <- zsum_mul_l. apply zsum_ext. intros i Hi. destruct (_ <=? _)%nat; ring. Qed.
Lemma nega_ext n a a' s k : (forall i, (i < n)%nat -> a i = a' i) -> nega_coeff n a s k = nega_coeff n a' s k.
Proof. intros H. unfold nega_coeff. apply zsum_ext. intros i Hi. rewrite (H i Hi). reflexivity. Qed.

Section ModDown.
  Variables (lr lc : nat) (q p : list Z).
  Let QP := q ++ p.
  Let L := (lr + lc)%nat.
  Let n := (2 ^ L)%nat.
  Hypothesis HM : Forall (accel_modulus lr lc) QP.
  Hypothesis HC : coprime_moduli QP.
  Hypothesis NQ : q <> [].
  Hypothesis NP : p <> [].
  Hypothesis HR : ForallOrdPairs (fun m later => later <= 2 * m + 1) QP.
  Let HA : Forall (cpu_admissible L) QP := accel_adm lr lc QP HM.

  (** if the components of a ciphertext decrypt, modulo all primes, to P*m + noise then the rescaled components decrypt to
      m + err with P*err = noise - r, r at most (P - 1)*(1 + n*S) *)
  Lemma mod_down_ok kernel ct f0 f1 s m noise S : rescale_precompute QP (length p) (2 ^ lr) (2 ^ lc) = Some kernel ->
    length s = n -> length m = n -> length noise = n -> poly_bound S s -> 0 <= S ->
    length (ct_data ct) = 2%nat -> slots L QP (nth 0 (ct_data ct) []) f0 -> slots L QP (nth 1 (ct_data ct) []) f1 ->
    (forall i, (i < length QP)%nat -> poly_mod (nth i QP 0) (poly_add (f0 i) (poly_mul (f1 i) s)) = poly_mod (nth i QP 0) (poly_add (poly_scale (lprod p) m) noise)) ->
    exists ct' y0 y1 err, rescale (Some kernel) ct = Some ct' /\ ct_moduli ct' = q /\ length (ct_data ct') = 2%nat /\
      slots L q (nth 0 (ct_data ct') []) (fun _ => y0) /\ slots L q (nth 1 (ct_data ct') []) (fun _ => y1) /\ length err = n /\
      (forall i, (i < length q)%nat -> poly_mod (nth i q 0) (poly_add y0 (poly_mul y1 s)) = poly_mod (nth i q 0) (poly_add m err)) /\
      forall j, (j < n)%nat -> Z.abs (lprod p * co err j - co noise j) <= (lprod p - 1) * (1 + Z.of_nat n * S).
  Proof.
    intros EK Ls Lm Ln BS HS0 LD S0 S1 HV.
    assert (NQP : QP <> []) by (unfold QP; destruct q; [contradiction | discriminate]).
    assert (Lq : (0 < length q)%nat) by (destruct q; [contradiction | cbn; lia]).
    assert (LQP : (length q < length QP)%nat) by (unfold QP; rewrite app_length; destruct p; [contradiction | cbn; lia]).
    destruct (C35_every_component L QP _ HA HC NQP (slots_uniform L QP _ _ HA S0)) as (x0 & Lx0 & _ & E0).
    destruct (C35_every_component L QP _ HA HC NQP (slots_uniform L QP _ _ HA S1)) as (x1 & Lx1 & _ & E1).
    change (length x0 = n) in Lx0. change (length x1 = n) in Lx1.
    assert (LF : exists A0 A1, ct_data ct = [A0; A1]) by (destruct (ct_data ct) as [|A0 [|A1 [|]]]; try discriminate; eauto). destruct LF as (A0 & A1 & ED).
    rewrite ED in S0, S1, E0, E1. cbn [nth] in *.
    assert (EQP : q ++ rev (rev p) = QP) by (rewrite rev_involutive; reflexivity).
    destruct (C35_rescale_partial lr lc q (rev p) [x0; x1] ct) as (k' & ct' & EK' & ER & EM & FR).
    { exact NQ. } { intros X. apply (f_equal (@rev Z)) in X. rewrite rev_involutive in X. cbn in X. contradiction. }
    { rewrite EQP. exact HM. } { rewrite EQP. exact HC. } { rewrite EQP. exact HR. }
    { rewrite EQP, ED. constructor; [split; [exact Lx0 | exact E0] |]. constructor; [split; [exact Lx1 | exact E1] | constructor]. }
    rewrite EQP, rev_length, EK in EK'. injection EK' as <-.
    assert (exists B0 B1, ct_data ct' = [B0; B1] /\ evaluation_form q (map (nearest_all (rev p)) x0) B0 /\ evaluation_form q (map (nearest_all (rev p)) x1) B1) as (B0 & B1 & ED' & F0 & F1).
    { clear - FR. inversion FR as [|? B0 ? ? X1 X2 X3 X4]; subst. inversion X2 as [|? B1 ? ? Y1 Y2 Y3 Y4]; subst. inversion Y2; subst. exists B0, B1. repeat split; assumption. }
    set (y0 := map (nearest_all (rev p)) x0) in *. set (y1 := map (nearest_all (rev p)) x1) in *.
    assert (Ly0 : length y0 = n) by (unfold y0; rewrite map_length; exact Lx0). assert (Ly1 : length y1 = n) by (unfold y1; rewrite map_length; exact Lx1).
    assert (HAq : Forall (cpu_admissible L) q) by (pose proof HA as X; unfold QP in X; rewrite Forall_app in X; apply X).
    set (P := lprod p) in *. set (Q := lprod q).
    assert (PP : Forall (fun m => 0 < m) p /\ Forall (fun m => 0 < m) q) by (destruct HC as [X _]; unfold QP in X; rewrite Forall_app in X; tauto).
    assert (HP : 0 < P) by (apply lprod_pos, PP). assert (HQ : 0 < Q) by (apply lprod_pos, PP).
    assert (P2 : Forall (fun q => 2 <= q) (rev p)).
    { apply Forall_forall. intros x Hx. apply in_rev in Hx. pose proof HM as X. rewrite Forall_forall in X. destruct (accel_admissible lr lc x) as (_ & Y & _); [apply X; unfold QP; apply in_app_iff; right; exact Hx | lia]. }
    (* the decryption over all primes *)
    assert (HX : forall j, (j < n)%nat -> exists w, co (poly_add x0 (poly_mul x1 s)) j = P * co m j + co noise j + w * (P * Q)).
    { intros j Hj. assert (X : co (poly_add x0 (poly_mul x1 s)) j == P * co m j + co noise j [mod lprod QP]).
      { apply crt_unique; [exact HC |]. intros z Hz. apply (In_nth _ _ 0) in Hz. destruct Hz as (i & Hi & <-). pose proof (adm L QP HA i Hi) as Ai. pose proof (admissible_gt1 _ _ Ai).
        apply (evaluation_slots L QP x0 A0 HA Lx0) in E0. apply (evaluation_slots L QP x1 A1 HA Lx1) in E1.
        pose proof (uniform_slots_value L QP A0 f0 (fun _ => x0) i HA S0 E0 Hi) as V0. pose proof (uniform_slots_value L QP A1 f1 (fun _ => x1) i HA S1 E1 Hi) as V1. cbv beta in V0, V1.
        assert (Lf0 : length (f0 i) = n) by (apply (proj2 S0 i Hi)). assert (Lf1 : length (f1 i) = n) by (apply (proj2 S1 i Hi)).
        apply poly_mod_eqm in V0; [| lia]. apply poly_mod_eqm in V1; [| lia]. specialize (HV i Hi). apply poly_mod_eqm in HV; [| lia]. destruct HV as [_ HV]. rewrite poly_add_length, Lf0 in HV. specialize (HV j Hj).
        rewrite !co_add, co_scale in HV by (rewrite ?poly_scale_length; lia). rewrite <- HV. rewrite co_add by lia. destruct V0 as [_ V0]. rewrite (V0 j) by lia.
        assert (VM : co (poly_mul x1 s) j == co (poly_mul (f1 i) s) j [mod nth i QP 0]).
        { rewrite !co_mul by lia. rewrite Lx1, Lf1. unfold nega_coeff. apply eqm_zsum. intros t Ht. destruct V1 as [_ V1]. pose proof (V1 t ltac:(lia)) as V. destruct (_ <=? _)%nat; rewrite V; reflexivity. }
        rewrite VM. reflexivity. }
      apply eqm_ex in X. destruct X as (w & X). exists w. rewrite X. unfold QP. rewrite lprod_app. fold P Q. ring. }
    destruct (list_choice n _ HX) as (ws & Lw & HW).
    set (err := map (fun j => co (poly_add y0 (poly_mul y1 s)) j - co m j - Q * nth j ws 0) (seq 0 n)).
    assert (Le : length err = n) by (unfold err; rewrite map_length, seq_length; reflexivity).
    assert (CE : forall j, (j < n)%nat -> co err j = co (poly_add y0 (poly_mul y1 s)) j - co m j - Q * nth j ws 0) by (intros j Hj; unfold co at 1, err; rewrite nth_map_seq by exact Hj; reflexivity).
    exists ct', y0, y1, err. split; [exact ER |]. split; [exact EM |]. rewrite ED'. cbn [nth length]. split; [reflexivity |].
    split; [apply (evaluation_slots L q y0 B0 HAq Ly0); exact F0 |]. split; [apply (evaluation_slots L q y1 B1 HAq Ly1); exact F1 |]. split; [exact Le |]. split.
    - intros i Hi. pose proof (admissible_gt1 _ _ (adm L q HAq i Hi)). apply poly_mod_eqm; [lia |]. split; [rewrite !poly_add_length; lia |]. intros j Hj. rewrite poly_add_length, Ly0 in Hj.
      rewrite (co_add m) by lia. rewrite (CE j Hj). pose proof (in_divides_lprod (nth i q 0) q (nth_In _ _ Hi)) as [z Ez]. fold Q in Ez. apply eqm_ex. exists (z * nth j ws 0). rewrite Ez. ring.
    - intros j Hj. rewrite (CE j Hj).
      assert (R : forall x, length x = n -> forall i, (i < n)%nat -> Z.abs (co x i - P * co (map (nearest_all (rev p)) x) i) <= P - 1).
      { intros x Lx i Hi. unfold co at 2. rewrite (nth_map_lt _ _ _ _ 0) by lia. fold (co x i). pose proof (nearest_all_bound (rev p) P2 (co x i)) as X. rewrite lprod_rev in X. exact X. }
      replace (P * (co (poly_add y0 (poly_mul y1 s)) j - co m j - Q * nth j ws 0) - co noise j) with (P * co (poly_add y0 (poly_mul y1 s)) j - co (poly_add x0 (poly_mul x1 s)) j) by (rewrite (HW j Hj); ring).
      rewrite !co_add by lia. rewrite !co_mul by lia. rewrite Lx1, Ly1.
      match goal with |- Z.abs ?x <= _ => replace x with (- ((co x0 j - P * co y0 j) + nega_coeff n (fun i => co x1 i - P * co y1 i) (co s) j)) by (rewrite nega_sub, nega_scale; ring) end.
      pose proof (R x0 Lx0 j Hj) as R0. fold y0 in R0.
      assert (R1 : Z.abs (nega_coeff n (fun i => co x1 i - P * co y1 i) (co s) j) <= Z.of_nat n * ((P - 1) * S)).
      { unfold nega_coeff. apply zsum_abs_bound. intros i Hi. pose proof (R x1 Lx1 i Hi) as R1. fold y1 in R1.
        destruct (Nat.leb_spec i j) as [C | C].
        - pose proof (poly_bound_co S s (j - i) BS ltac:(lia)). rewrite Z.abs_mul. apply Z.mul_le_mono_nonneg; lia.
        - pose proof (poly_bound_co S s (j + n - i) BS ltac:(lia)). rewrite Z.abs_opp, Z.abs_mul. apply Z.mul_le_mono_nonneg; lia. }
      rewrite Z.abs_opp. etransitivity; [apply Z.abs_triangle |]. nia.
  Qed.
End ModDown.
