(** C39: the canonical embedding.  Complex numbers are pairs of reals (exact arithmetic); [slot a j] is the value of the polynomial with
    coefficients a at the point e^(2 pi i 5^j / 4n), [cdist] the distance of two complex numbers. *)
From Coq Require Import Reals ZArith Znumtheory List Bool Lia Lra.
From Verif Require Import Base.Lists Base.Word Base.ZSum Base.Fermat Base.Crt Base.Cplx Base.PrimeCheck Ckks.Model_rns_utils Ckks.Model_ntt_cpu Ckks.Model_encode Ckks.Model_fft Ckks.Spec_fft Ckks.Spec_ntt Ckks.Prop_bitrev Ckks.Prop_crt Ckks.Proof_ntt Ckks.Proof_ntt_cpu Ckks.Prop_ntt_cpu Ckks.Proof_fft.
Import ListNotations.
Local Open Scope R_scope.

(** C39: for every power of two length the forward transform evaluates at the points of the canonical embedding. *)
Theorem C39_fft_special_evaluates : forall L a, length a = (2 ^ L)%nat ->
  exists y, fft_special a (4 * 2 ^ L) = Some y /\ length y = (2 ^ L)%nat /\ forall j, (j < 2 ^ L)%nat -> nth j y c0 = slot a j.
Proof. intros L a H. exact (fft_special_value a L H). Qed.

(** C39: the two transforms are inverse to each other. *)
Theorem C39_forward_inverse : forall L v, length v = (2 ^ L)%nat ->
  exists a, fft_special_inv v (4 * 2 ^ L) = Some a /\ length a = (2 ^ L)%nat /\ fft_special a (4 * 2 ^ L) = Some v.
Proof. intros L v H. exact (fft_fwd_inv v L H). Qed.
Theorem C39_inverse_forward : forall L a, length a = (2 ^ L)%nat ->
  exists y, fft_special a (4 * 2 ^ L) = Some y /\ length y = (2 ^ L)%nat /\ fft_special_inv y (4 * 2 ^ L) = Some a.
Proof. intros L a H. exact (fft_inv_fwd a L H). Qed.

(** C39: a polynomial with real coefficients p (low half then high half) takes at those points the values of the complex polynomial
    whose coefficients are made of the two halves: the layout used by encode and decode. *)
Theorem C39_real_layout : forall a j, real_slot (map fst a ++ map snd a) j = slot a j.
Proof. exact real_slot_halves. Qed.

Lemma array_length {A} (d : A) v : length (bit_reversal_array d v) = length v.
Proof.
  unfold bit_reversal_array. generalize (seq 0 (length v)) (num_bits (length v)). intros l nb. revert v. induction l as [|i l IH]; intros v; cbn [fold_left]; [reflexivity |]. rewrite IH. destruct (i <? _)%nat; [rewrite !upd_length |]; reflexivity.
Qed.

(** C39: lengths that are not powers of two are rejected, whatever the cyclotomic order. *)
Theorem C39_other_lengths_rejected : forall v m, (0 < length v)%nat -> (forall L, length v <> (2 ^ L)%nat) -> fft_special v m = None /\ fft_special_inv v m = None.
Proof.
  intros v m Hv NP. split.
  - unfold fft_special. set (rg := rot_group _ _ _). set (w := bit_reversal_array c0 v).
    assert (LW : length w = length v) by apply array_length.
    assert (G : forall fuel s u, length u = length v -> (length v mod 2 ^ s = 0)%nat -> (2 ^ s <= length v)%nat -> fwd_loop fuel m (2 * 2 ^ s) (length v) rg u = None).
    { induction fuel as [|fuel IH]; intros s u HU D LE; cbn [fwd_loop]; [reflexivity |]. pose proof (pow2_pos s). destruct (Nat.leb_spec (2 * 2 ^ s) (length v)) as [Le | Gt].
      - unfold stage. rewrite HU. destruct (Nat.eqb_spec (length v mod (2 * 2 ^ s)) 0) as [E0 | NE]; [| reflexivity]. assert (EV : (2 * 2 ^ s mod 2 = 0)%nat) by (rewrite Nat.mul_comm; apply Nat.mod_mul; lia). rewrite EV. cbn [Nat.eqb andb].
        replace (2 * 2 ^ s * 2)%nat with (2 * 2 ^ S s)%nat by (rewrite Nat.pow_succ_r'; ring). apply IH; [| rewrite Nat.pow_succ_r'; exact E0 | rewrite Nat.pow_succ_r'; exact Le].
        apply Nat.div_exact in E0; [| lia]. rewrite half_of. set (rs := fwd_roots _ _ _).
        assert (LR : length rs = (2 ^ s)%nat). { unfold rs. rewrite fwd_roots_length, half_of. unfold rg. rewrite rot_group_length. lia. }
        rewrite (stage_length _ (length v / (2 * 2 ^ s)) (2 * 2 ^ s) u); [lia | lia |]. intros r Hr. apply fwd_row_length; assumption.
      - exfalso. apply (NP s). apply Nat.mod_divides in D; [| lia]. destruct D as (k & D). rewrite D. rewrite D in LE, Gt. generalize dependent (2 ^ s)%nat. intros P. intros. destruct k as [|[|k]]; nia. }
    apply (G _ 0%nat w); [exact LW | apply Nat.mod_1_r | cbn; lia].
  - unfold fft_special_inv. destruct (Nat.eqb_spec (length v) 0); [lia |]. set (rg := rot_group _ _ _).
    assert (G : forall fuel len u, (0 < len)%nat -> (forall L, len <> (2 ^ L)%nat) -> inv_loop fuel m len rg u = None).
    { induction fuel as [|fuel IH]; intros len u H0 H; cbn [inv_loop]; [reflexivity |]. destruct (Nat.leb_spec 2 len) as [Le | Gt].
      - unfold stage. destruct (Nat.eqb_spec (len mod 2) 0) as [E0 | NE]; [| rewrite andb_false_r; reflexivity]. destruct (length u mod len =? 0)%nat; [| reflexivity]. cbn [andb]. apply Nat.div_exact in E0; [| lia]. apply IH; [lia |]. intros L E. apply (H (S L)). rewrite Nat.pow_succ_r'. lia.
      - exfalso. apply (H 0%nat). cbn. lia. }
    rewrite (G _ (length v) v Hv NP). reflexivity.
Qed.

Lemma Rabs_le_inv a b : Rabs a <= b -> - b <= a <= b.
Proof. intros H. pose proof (Rle_abs a). pose proof (Rle_abs (- a)) as X. rewrite Rabs_Ropp in X. lra. Qed.

(** C39: decoding an encoded vector gives the vector back, up to the rounding of 2^L coefficients to a multiple of 1/scale, whenever
    the scaled values stay below half the product of the moduli.  Fewer slots than degree/2 are padded with zeros and cut again. *)
Theorem C39_encode_decode : forall L moduli scale slots B, 0 < scale -> moduli <> [] -> coprime_moduli moduli ->
  Forall (fun q => cpu_admissible (S L) q /\ (q < 2 ^ 32)%Z) moduli -> (length slots <= 2 ^ L)%nat ->
  Forall (fun z => cnorm z <= B) slots -> 0 <= B -> 2 * (scale * B) + 1 < IZR (lprod moduli) ->
  exists columns ys, encode (2 * 2 ^ L) moduli scale slots = Some columns /\ decode scale (length slots) columns moduli true = Some ys /\
    length ys = length slots /\ forall j, (j < length slots)%nat -> cdist (nth j ys c0) (nth j slots c0) <= INR (2 ^ L) * (sqrt (1 / 2) / scale).
Proof.
  intros L moduli scale slots B Hsc NE CM FM LS FB B0 HB. pose proof (pow2_pos L) as P2. unfold encode. rewrite half_of.
  set (z := if (length slots <? 2 ^ L)%nat then _ else _).
  assert (LZ : length z = (2 ^ L)%nat) by (unfold z; destruct (Nat.ltb_spec (length slots) (2 ^ L)); [rewrite app_length, repeat_length; lia | lia]).
  assert (NZ : forall j, (j < length slots)%nat -> nth j z c0 = nth j slots c0) by (intros j Hj; unfold z; destruct (length slots <? 2 ^ L)%nat; [apply app_nth1; exact Hj | reflexivity]).
  assert (BZ : forall j, (j < 2 ^ L)%nat -> cnorm (nth j z c0) <= B).
  { intros j Hj. destruct (Nat.lt_ge_cases j (length slots)) as [Lt | Ge]; [rewrite NZ by exact Lt; rewrite Forall_forall in FB; apply FB, nth_In; exact Lt |].
    assert (E : nth j z c0 = c0). { unfold z. destruct (length slots <? 2 ^ L)%nat; [| apply nth_overflow; exact Ge]. rewrite app_nth2 by exact Ge. apply nth_repeat. } rewrite E, cnorm_0. exact B0. }
  replace (2 * 2 ^ L * 2)%nat with (4 * 2 ^ L)%nat by lia. destruct (fft_fwd_inv z L LZ) as (a & EA & LA & FA). rewrite EA.
  assert (FQ : forallb (fun q => (0 <=? q)%Z && (q <? 2 ^ 32)%Z) moduli = true). { apply forallb_forall. intros q Hq. rewrite Forall_forall in FM. destruct (FM q Hq) as [(_ & (Q1 & _) & _) Q2]. apply andb_true_intro. split; [apply Z.leb_le; lia | apply Z.ltb_lt; exact Q2]. } rewrite FQ.
  set (rd := fun c => np_round (c * scale)). set (xs := map rd (map fst a ++ map snd a)).
  pose proof (LA : @length (R * R) a = (2 ^ L)%nat) as LAR.
  assert (LX : length xs = (2 ^ S L)%nat) by (unfold xs; rewrite map_length, app_length, !map_length, Nat.pow_succ_r'; lia).
  destruct (C27_poly_roundtrip (S L) (encode_residues xs moduli) moduli) as (out & E1 & E2).
  { unfold encode_residues. clear - FM LX. induction FM as [|q ms Hq _ IH]; cbn [map]; constructor; [| exact IH]. split; [apply Hq |]. split; [rewrite map_length; exact LX |]. apply map_mod_reduced. destruct Hq as [(_ & (Q1 & _) & _) _]. lia. }
  rewrite E1. exists out. assert (AB := fft_inv_norm z L a B LZ EA BZ).
  assert (XB : Forall (fun x => (- lprod moduli < 2 * x <= lprod moduli)%Z) xs).
  { unfold xs. apply Forall_map. assert (X : forall c, Rabs c <= B -> (- lprod moduli < 2 * rd c <= lprod moduli)%Z).
    { intros c Hc. unfold rd. pose proof (np_round_near (c * scale)) as N. assert (HS : Rabs (c * scale) <= scale * B) by (rewrite Rabs_mult, (Rabs_right scale) by lra; rewrite Rmult_comm; apply Rmult_le_compat_l; lra). set (x := np_round _) in *.
      assert (AX : Rabs (IZR x) <= scale * B + 1 / 2) by (replace (IZR x) with ((IZR x - c * scale) + c * scale) by ring; eapply Rle_trans; [apply Rabs_triang |]; lra). apply Rabs_le_inv in AX.
      split; [apply lt_IZR; rewrite opp_IZR, mult_IZR; lra | apply le_IZR; rewrite mult_IZR; lra]. }
    apply Forall_app. split; apply Forall_map, Forall_forall; intros w Hw; destruct (In_nth a w c0 Hw) as (i & Hi & <-); rewrite LA in Hi; apply X; [eapply Rle_trans; [apply cnorm_fst |] | eapply Rle_trans; [apply cnorm_snd |]]; apply AB; exact Hi. }
  assert (LO : length (nth 0 out []) = (2 * 2 ^ L)%nat).
  { destruct moduli as [|q ms]; [contradiction NE; reflexivity |]. unfold encode_residues, ntt_negacyclic_poly in E1. cbn [map map2] in E1. inversion FM as [|? ? [Aq _] _]; subst. destruct (C27_forward_evaluates (S L) q Aq) as (psi & _ & _ & F). rewrite F in E1 by (rewrite map_length; exact LX).
    cbn [sequence_opt] in E1. destruct (sequence_opt _); [| discriminate E1]. injection E1 as <-. cbn [nth]. rewrite transform_length. apply Nat.pow_succ_r'. }
  unfold decode. rewrite LO, half_of, E2. rewrite (C30_centred_lift moduli xs CM NE XB).
  set (cs := map _ xs). assert (LC : length cs = (2 * 2 ^ L)%nat) by (unfold cs; rewrite map_length, LX, Nat.pow_succ_r'; reflexivity). rewrite skipn_length, LC. replace (2 * 2 ^ L - 2 ^ L)%nat with (2 ^ L)%nat by lia. rewrite Nat.eqb_refl.
  set (a' := combine _ _). assert (LA' : length a' = (2 ^ L)%nat) by (unfold a'; rewrite combine_length, firstn_length, skipn_length; lia). replace (2 * 2 ^ L * 2)%nat with (4 * 2 ^ L)%nat by lia.
  destruct (fft_special_value a' L LA') as (y & EY & LY & VY). rewrite EY. eexists. split; [reflexivity |]. split; [reflexivity |]. split; [rewrite firstn_length; lia |].
  intros j Hj. rewrite nth_firstn_lt by exact Hj. rewrite VY by lia. destruct (fft_special_value a L LA) as (y2 & EY2 & _ & VY2). rewrite FA in EY2. injection EY2 as <-. rewrite <- NZ by exact Hj. rewrite VY2 by lia. rewrite <- LA'. apply slot_dist; [transitivity (2 ^ L)%nat; [exact LA' | symmetry; exact LA] |].
  intros i Hi. pose proof (eq_ind _ (fun n => (i < n)%nat) Hi _ LA') as Hi'. clear Hi. rename Hi' into Hi. cbv beta in Hi. assert (EI : @nth cplx i a' c0 = (IZR (rd (fst (nth i a c0))) / scale, IZR (rd (snd (nth i a c0))) / scale)).
  { unfold a'. change (@nth cplx) with (@nth (R * R)). change c0 with (0, 0) at 1. rewrite combine_nth by (rewrite firstn_length, skipn_length; lia). rewrite nth_firstn_lt by exact Hi. rewrite nth_skipn. unfold cs, xs. rewrite !(nth_map_lt _ _ _ _ 0%Z) by (rewrite !map_length, app_length, !map_length; lia). rewrite !(nth_map_lt _ _ _ _ 0) by (rewrite app_length, !map_length; lia).
    rewrite app_nth1 by (rewrite map_length; lia). rewrite app_nth2 by (rewrite map_length; lia). rewrite map_length, LAR. replace (2 ^ L + i - 2 ^ L)%nat with i by lia. rewrite !(nth_map_lt _ _ _ _ c0) by lia. reflexivity. }
  rewrite EI. unfold cdist, cnorm, csub. cbn [fst snd].
  assert (X : forall c, Rabs (IZR (rd c) / scale - c) <= 1 / 2 / scale). { intros c. unfold rd. pose proof (np_round_near (c * scale)) as N. replace (IZR (np_round (c * scale)) / scale - c) with ((IZR (np_round (c * scale)) - c * scale) / scale) by (field; lra). unfold Rdiv at 1. rewrite Rabs_mult, (Rabs_right (/ scale)) by (apply Rle_ge, Rlt_le, Rinv_0_lt_compat; lra). apply Rmult_le_compat_r; [apply Rlt_le, Rinv_0_lt_compat; lra | exact N]. }
  set (e1 := IZR _ / scale - _). set (e2 := IZR (rd (snd _)) / scale - _). assert (X1 : Rabs e1 <= 1 / 2 / scale) by apply X. assert (X2 : Rabs e2 <= 1 / 2 / scale) by apply X.
  assert (PS : 0 < / scale) by (apply Rinv_0_lt_compat; lra). replace (sqrt (1 / 2) / scale) with (sqrt (1 / 2 * (/ scale * / scale))); [| rewrite sqrt_mult_alt by lra; rewrite sqrt_square by lra; reflexivity]. apply sqrt_le_1_alt.
  assert (S1 : forall e, Rabs e <= 1 / 2 / scale -> e * e <= 1 / 4 * (/ scale * / scale)). { intros e He. apply Rabs_le_inv in He. unfold Rdiv in He. assert (0 <= (1 * / 2 * / scale - e) * (1 * / 2 * / scale + e)) by (apply Rmult_le_pos; lra). nra. }
  pose proof (S1 e1 X1). pose proof (S1 e2 X2). lra.
Qed.

(** Finding: more than degree/2 slots are not rejected.  Encoding two slots (1, -1) at degree two gives a plaintext of degree four that
    decodes to other values. *)
Lemma np_round_IZR k : np_round (IZR k) = k.
Proof.
  pose proof (np_round_near (IZR k)) as N. rewrite <- minus_IZR, <- abs_IZR in N. assert ((Z.abs (np_round (IZR k) - k) < 1)%Z) by (apply lt_IZR; lra). lia.
Qed.
Lemma single_nonzero : fft_special_inv [(1, 0); (-1, 0)] 4 = Some [(0, 0); (1, 0)].
Proof.
  unfold fft_special_inv. cbn [length Nat.eqb]. cbn [inv_loop Nat.leb]. unfold stage. cbn. unfold bit_reversal_array. cbn. change (Pos.to_nat 1) with 1%nat. cbv iota. do 2 f_equal.
  - unfold cscale, cadd; cbn; f_equal; field.
  - f_equal. unfold cscale, csub, cmul, cis; cbn. replace (2 * PI * 0 / (1 + 1 + 1 + 1)) with 0 by field. rewrite cos_0, sin_0. f_equal; field.
Qed.
Theorem C39_too_many_slots_refuted : exists degree moduli scale slots columns ys, (degree / 2 < length slots)%nat /\
  encode degree moduli scale slots = Some columns /\ decode scale (length slots) columns moduli true = Some ys /\
  1 / 4 < cdist (nth 0 ys c0) (nth 0 slots c0).
Proof.
  assert (AD : cpu_admissible 2 97) by (split; [lia |]; split; [apply prime_check_sound; vm_compute; reflexivity |]; split; [exists 12%Z; reflexivity | vm_compute; discriminate]).
  set (xs := [0; 1; 0; 0]%Z). destruct (C27_poly_roundtrip 2 (encode_residues xs [97%Z]) [97%Z]) as (out & E1 & E2).
  { constructor; [| constructor]. split; [exact AD |]. split; [reflexivity |]. apply map_mod_reduced. lia. }
  set (slots := [(1, 0); (-1, 0)] : list cplx). exists 2%nat, [97%Z], 1, slots, out. unfold encode. change (2 / 2)%nat with 1%nat. change (length slots <? 1)%nat with false. cbv iota. change (2 * 2)%nat with 4%nat. unfold slots at 2. rewrite single_nonzero. cbn [map fst snd app].
  assert (R0 : np_round (0 * 1) = 0%Z) by (replace (0 * 1) with (IZR 0) by ring; apply np_round_IZR). assert (R1 : np_round (1 * 1) = 1%Z) by (replace (1 * 1) with (IZR 1) by ring; apply np_round_IZR). rewrite R0, R1. change [0%Z; 1%Z; 0%Z; 0%Z] with xs.
  assert (LO : length (nth 0 out []) = 4%nat).
  { unfold ntt_negacyclic_poly, encode_residues in E1. cbn [map map2] in E1. destruct (C27_forward_evaluates 2 97 AD) as (psi & _ & _ & F). rewrite F in E1 by reflexivity. cbn [sequence_opt] in E1. injection E1 as <-. cbn [nth]. rewrite transform_length. reflexivity. }
  change (forallb _ [97%Z]) with true. cbv iota. rewrite E1. unfold decode. rewrite LO, E2. change (4 / 2)%nat with 2%nat. rewrite (C30_centred_lift [97%Z] xs); [| split; [repeat constructor; lia | repeat constructor] | discriminate | unfold xs; repeat constructor; cbn; lia ].
  set (a' := [(IZR 0 / 1, IZR 0 / 1); (IZR 1 / 1, IZR 0 / 1)] : list cplx). set (cs := map (fun c => IZR c / 1) xs). change (combine (firstn 2 cs) (skipn 2 cs)) with a'.
  change (length (skipn 2 cs) =? 2)%nat with true. cbv iota. destruct (fft_special_value a' 1 eq_refl) as (y & EY & LY & VY). change (4 * 2 ^ 1)%nat with (4 * 2)%nat in EY. rewrite EY.
  eexists. split; [cbn; lia |]. split; [reflexivity |]. split; [reflexivity |]. change (length slots) with 2%nat. rewrite nth_firstn_lt by lia. rewrite VY by (cbn; lia). unfold slot. change (length a') with 2%nat. cbn [csum nth a']. unfold cdist.
  assert (Z1 : zeta (4 * 2) (5 ^ 0 * 1) = (cos (PI / 4), sin (PI / 4))). { unfold zeta, cis. replace (2 * PI * INR (5 ^ 0 * 1) / INR (4 * 2)) with (PI / 4); [reflexivity |]. cbn. field. }
  rewrite Z1, cos_PI4, sin_PI4. change (5 ^ 0 * 0)%nat with 0%nat. rewrite zeta_0.
  assert (S2 : 0 < sqrt 2) by (apply sqrt_lt_R0; lra). assert (SS : sqrt 2 * sqrt 2 = 2) by (apply sqrt_def; lra). assert (I2 : / sqrt 2 = sqrt 2 / 2) by (apply (Rmult_eq_reg_l (sqrt 2)); [rewrite Rinv_r by lra; unfold Rdiv; rewrite <- Rmult_assoc, SS; field | lra]).
  assert (V : sqrt 2 > 1) by nra. eapply Rlt_le_trans; [| apply cnorm_snd]. cbn. unfold Rdiv at 2 3 4 5 6 7. rewrite Rabs_right; rewrite ?I2; lra.
Qed.

(** the hypotheses of the round trip are met by two slots at degree four *)
Example C39_example : exists columns ys, encode 4 [97%Z; 193%Z] 16 [(1, 2); (3, -1)] = Some columns /\ decode 16 2 columns [97%Z; 193%Z] true = Some ys /\
  cdist (nth 1 ys c0) (3, -1) <= 2 * (sqrt (1 / 2) / 16).
Proof.
  assert (A : forall q, (q < 2 ^ 32)%Z -> prime q -> (8 | q - 1)%Z -> cpu_admissible 2 q /\ (q < 2 ^ 32)%Z) by (intros q H1 H2 H3; split; [| exact H1]; split; [lia |]; split; [exact H2 |]; split; [exact H3 | lia]).
  destruct (C39_encode_decode 1 [97%Z; 193%Z] 16 [(1, 2); (3, -1)] 4) as (columns & ys & E & D & _ & V).
  - lra.
  - discriminate.
  - split; [repeat constructor; lia |]. repeat constructor.
  - constructor; [apply A; [lia | apply prime_check_sound; vm_compute; reflexivity | exists 12%Z; reflexivity] | constructor; [apply A; [lia | apply prime_check_sound; vm_compute; reflexivity | exists 24%Z; reflexivity] | constructor]].
  - cbn. lia.
  - assert (S16 : sqrt 16 = 4) by (replace 16 with (4 * 4) by ring; apply sqrt_square; lra). constructor; [| constructor; [| constructor]]; unfold cnorm; cbn; rewrite <- S16; apply sqrt_le_1_alt; lra.
  - lra.
  - cbn. lra.
  - exists columns, ys. split; [exact E |]. split; [exact D |]. specialize (V 1%nat ltac:(cbn; lia)). replace 2 with (INR (2 ^ 1)) by (cbn; ring). exact V.
Qed.
(** the transform of a length four vector *)
Example C39_example_fft : exists y, fft_special [(1, 0); (0, 1); (2, 3); (0, 0)] 16 = Some y /\ fft_special_inv y 16 = Some [(1, 0); (0, 1); (2, 3); (0, 0)].
Proof. destruct (C39_inverse_forward 2 [(1, 0); (0, 1); (2, 3); (0, 0)] eq_refl) as (y & E & _ & I). exists y. split; [exact E | exact I]. Qed.
Example C39_example_rejected : fft_special [c0; c1; c0] 12 = None /\ fft_special_inv [c0; c1; c0] 12 = None.
Proof. apply C39_other_lengths_rejected; [cbn; lia |]. intros [|[|L]]; cbn [length Nat.pow]; [lia | lia |]. pose proof (pow2_pos L). lia. Qed.

Print Assumptions C39_fft_special_evaluates.
Print Assumptions C39_forward_inverse.
Print Assumptions C39_inverse_forward.
Print Assumptions C39_real_layout.
Print Assumptions C39_other_lengths_rejected.
Print Assumptions C39_encode_decode.
Print Assumptions C39_too_many_slots_refuted.
