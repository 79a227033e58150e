From Coq Require Import ZArith List Bool Lia Setoid Permutation.
From Verif Require Import Base.Lists Base.Bitrev Base.Word Base.ZSum Ckks.Model_rns_utils Ckks.Model_math Ckks.Model_ntt_cpu.
Import ListNotations.
Local Open Scope Z_scope.

(** the reversal, bit by bit *)
Lemma brev_testbit L : forall x i, Nat.testbit (brev L x) i = if (i <? L)%nat then Nat.testbit x (L - 1 - i) else false.
Proof.
  induction L as [|l IH]; intros x i; [cbn [brev]; apply Nat.bits_0 |].
  pose proof (brev_lt l (x / 2)) as B. pose proof (Nat.mod_upper_bound x 2 ltac:(lia)) as M.
  cbn [brev]. destruct (Nat.ltb_spec i (S l)) as [H | H].
  - destruct (Nat.eq_dec i l) as [-> | N].
    + replace (S l - 1 - l)%nat with 0%nat by lia.
      assert (E : Nat.odd (((x mod 2) * 2 ^ l + brev l (x / 2)) / 2 ^ l) = Nat.odd x).
      { rewrite Nat.div_add_l by apply pow2_nz. rewrite (Nat.div_small _ _ B), Nat.add_0_r.
        rewrite (Nat.div_mod x 2) at 2 by lia. rewrite Nat.odd_add, Nat.odd_mul. change (Nat.odd 2) with false.
        rewrite xorb_false_l. reflexivity. }
      rewrite Nat.testbit_odd, Nat.shiftr_div_pow2, E. rewrite Nat.bit0_odd. reflexivity.
    + specialize (IH (x / 2)%nat i). destruct (Nat.ltb_spec i l) as [H' | H']; [| lia].
      replace (S l - 1 - i)%nat with (S (l - 1 - i)) by lia.
      rewrite <- Nat.div2_bits. rewrite <- IH.
      rewrite <- (Nat.mod_pow2_bits_low _ l i H'). rewrite <- (Nat.mod_pow2_bits_low (brev l (x / 2)) l i H').
      f_equal. rewrite Nat.add_comm, Nat.mod_add by apply pow2_nz. reflexivity.
  - assert (E : ((x mod 2) * 2 ^ l + brev l (x / 2) < 2 ^ S l)%nat) by (rewrite Nat.pow_succ_r'; nia).
    rewrite <- (Nat.mod_small _ _ E). apply Nat.mod_pow2_bits_high. lia.
Qed.

Lemma land1_nat x : Z.land (Z.of_nat x) 1 = Z.of_nat (x mod 2).
Proof. change 1 with (Z.ones 1). rewrite Z.land_ones by lia. rewrite Nat2Z.inj_mod. reflexivity. Qed.
Lemma shiftr1_nat x : Z.shiftr (Z.of_nat x) 1 = Z.of_nat (x / 2).
Proof. rewrite Z.shiftr_div_pow2 by lia. rewrite Nat2Z.inj_div. reflexivity. Qed.
Lemma lor_shift1 r b : 0 <= r -> 0 <= b < 2 -> Z.lor (Z.shiftl r 1) b = 2 * r + b.
Proof.
  intros Hr Hb. rewrite Z.shiftl_mul_pow2 by lia. change (2 ^ 1) with 2. rewrite (Z.mul_comm r 2).
  assert (b = 0 \/ b = 1) as [-> | ->] by lia; [rewrite Z.lor_0_r; lia |].
  destruct r as [|p|p]; [reflexivity | reflexivity | lia].
Qed.

Lemma bit_reversal_loop_spec n : forall (r x : nat), bit_reversal_loop n (Z.of_nat r) (Z.of_nat x) = Z.of_nat (r * 2 ^ n + brev n x).
Proof.
  induction n as [|n IH]; intros r x; cbn [bit_reversal_loop brev].
  - f_equal. cbn. lia.
  - rewrite land1_nat, shiftr1_nat. pose proof (Nat.mod_upper_bound x 2 ltac:(lia)).
    rewrite lor_shift1 by lia. replace (2 * Z.of_nat r + Z.of_nat (x mod 2)) with (Z.of_nat (2 * r + x mod 2)) by lia.
    rewrite IH. f_equal. rewrite Nat.pow_succ_r'. lia.
Qed.
Lemma bit_reversal_spec L x : bit_reversal (Z.of_nat x) L = Z.of_nat (brev L x).
Proof. unfold bit_reversal. change 0 with (Z.of_nat 0) at 1. rewrite bit_reversal_loop_spec. f_equal. Qed.

Lemma rev_loop_eq n : forall r x, rev_loop n r x = bit_reversal_loop n r x.
Proof. induction n as [|n IH]; intros r x; [reflexivity |]. cbn [rev_loop bit_reversal_loop]. apply IH. Qed.

(** in-place swapping *)
Lemma bit_reversal_array_prefix {A} (d : A) L xs : length xs = (2 ^ L)%nat -> forall I, (I <= 2 ^ L)%nat ->
  let l := fold_left (fun l i =>
    let j := Z.to_nat (bit_reversal (Z.of_nat i) L) in
    if (i <? j)%nat then upd j (nth i l d) (upd i (nth j l d) l) else l) (seq 0 I) xs in
  length l = (2 ^ L)%nat /\
  forall p, (p < 2 ^ L)%nat -> nth p l d = if (Nat.min p (brev L p) <? I)%nat then nth (brev L p) xs d else nth p xs d.
Proof.
  intros Hl. induction I as [|I IH]; intros HI.
  - cbn. split; [exact Hl | reflexivity].
  - specialize (IH ltac:(lia)). cbv zeta in *. rewrite seq_S, fold_left_app. cbn [fold_left plus].
    set (l := fold_left _ (seq 0 I) xs) in *. destruct IH as [LL D].
    rewrite bit_reversal_spec, Nat2Z.id. set (J := brev L I).
    assert (HJ : (J < 2 ^ L)%nat) by apply brev_lt.
    assert (HJI : brev L J = I) by (apply brev_involutive; lia).
    destruct (Nat.ltb_spec I J) as [H | H].
    + split; [rewrite !upd_length; exact LL |]. intros p Hp.
      rewrite nth_upd by (rewrite upd_length; lia). rewrite nth_upd by lia.
      assert (NI : nth I l d = nth I xs d).
      { rewrite D by lia. fold J. destruct (Nat.ltb_spec (Nat.min I J) I); [lia | reflexivity]. }
      assert (NJ : nth J l d = nth J xs d).
      { rewrite D by lia. rewrite HJI. destruct (Nat.ltb_spec (Nat.min J I) I); [lia | reflexivity]. }
      destruct (Nat.eqb_spec J p) as [<- | N1].
      { rewrite HJI. destruct (Nat.ltb_spec (Nat.min J I) (S I)); [exact NI | lia]. }
      destruct (Nat.eqb_spec I p) as [<- | N2].
      { fold J. destruct (Nat.ltb_spec (Nat.min I J) (S I)); [exact NJ | lia]. }
      rewrite D by exact Hp.
      assert (N3 : brev L p <> I). { intros E. apply N1. unfold J. rewrite <- E. apply brev_involutive. exact Hp. }
      destruct (Nat.ltb_spec (Nat.min p (brev L p)) I); destruct (Nat.ltb_spec (Nat.min p (brev L p)) (S I)); auto; lia.
    + split; [exact LL |]. intros p Hp. rewrite D by exact Hp.
      destruct (Nat.ltb_spec (Nat.min p (brev L p)) I); destruct (Nat.ltb_spec (Nat.min p (brev L p)) (S I)); auto; [lia |].
      assert (E : Nat.min p (brev L p) = I) by lia.
      destruct (Nat.min_dec p (brev L p)) as [E' | E'].
      * assert (p = I) by lia. subst p. fold J in E. fold J. assert (J = I) as -> by lia. reflexivity.
      * assert (EB : brev L p = I) by lia. assert (EJ : J = p) by (unfold J; rewrite <- EB; apply brev_involutive; exact Hp).
        assert (EP : p = I) by lia. rewrite EB, EP. reflexivity.
Qed.

Lemma log2_pow2 L : Nat.log2 (2 ^ L) = L.
Proof. apply Nat.log2_pow2. lia. Qed.

Lemma bit_reversal_array_spec {A} (d : A) L xs : length xs = (2 ^ L)%nat ->
  bit_reversal_array d xs = map (fun p => nth (brev L p) xs d) (seq 0 (2 ^ L)).
Proof.
  intros Hl. unfold bit_reversal_array, num_bits. rewrite Hl, log2_pow2.
  pose proof (bit_reversal_array_prefix d L xs Hl (2 ^ L) (le_n _)) as [LL D]. cbv zeta in LL, D.
  apply (list_ext d); [rewrite map_length, seq_length; exact LL |].
  intros p Hp. rewrite LL in Hp. rewrite D by exact Hp. rewrite nth_map_seq by exact Hp.
  destruct (Nat.ltb_spec (Nat.min p (brev L p)) (2 ^ L)); [reflexivity | lia].
Qed.

(** the uint32 loop of ntt_cpu, on every index at once *)
Lemma perm_loop_spec K : forall (f g : nat -> nat) idx m, (forall i, (f i < 2 ^ m)%nat) -> (m + K <= 32)%nat ->
  perm_loop K (map (fun i => Z.of_nat (f i)) idx) (map (fun i => Z.of_nat (g i)) idx) =
  map (fun i => Z.of_nat (f i * 2 ^ K + brev K (g i))) idx.
Proof.
  induction K as [|K IH]; intros f g idx m Hf Hm; cbn [perm_loop].
  - apply map_ext. intros i. f_equal. cbn. lia.
  - rewrite map_map.
    replace (map2 _ (map (fun i => Z.of_nat (f i)) idx) (map (fun i => Z.of_nat (g i)) idx))
      with (map (fun i => Z.of_nat (2 * f i + g i mod 2)) idx).
    2: { clear IH. induction idx as [|a idx IHi]; [reflexivity |]. cbn [map map2]. rewrite IHi. f_equal.
         rewrite land1_nat. pose proof (Nat.mod_upper_bound (g a) 2 ltac:(lia)).
         rewrite Z.mod_small.
         - rewrite lor_shift1 by lia. lia.
         - rewrite Z.shiftl_mul_pow2 by lia. split; [lia |]. specialize (Hf a).
           assert (H0 : 2 ^ Z.of_nat m * 2 ^ Z.of_nat (S K) <= 2 ^ 32).
           { rewrite <- Z.pow_add_r by lia. apply Z.pow_le_mono_r; lia. }
           assert (Z.of_nat (f a) < 2 ^ Z.of_nat m)%Z by (apply Nat2Z.inj_lt in Hf; rewrite Nat2Z.inj_pow in Hf; exact Hf).
           assert (1 <= 2 ^ Z.of_nat K)%Z by (apply (Z.pow_le_mono_r 2 0); lia).
           rewrite Nat2Z.inj_succ, Z.pow_succ_r in H0 by lia. nia. }
    replace (map (fun x => Z.shiftr (Z.of_nat (g x)) 1) idx) with (map (fun i => Z.of_nat (g i / 2)) idx)
      by (apply map_ext; intros; rewrite shiftr1_nat; reflexivity).
    rewrite (IH (fun i => 2 * f i + g i mod 2)%nat (fun i => g i / 2)%nat idx (S m)); [| | lia].
    + apply map_ext. intros i. f_equal. cbn [brev]. rewrite Nat.pow_succ_r'. lia.
    + intros i. specialize (Hf i). pose proof (Nat.mod_upper_bound (g i) 2 ltac:(lia)). rewrite Nat.pow_succ_r'. lia.
Qed.

Lemma get_bit_reversal_perm_spec L : (L <= 32)%nat ->
  get_bit_reversal_perm (2 ^ L) = map (fun i => Z.of_nat (brev L i)) (seq 0 (2 ^ L)).
Proof.
  intros HL. unfold get_bit_reversal_perm. rewrite log2_pow2.
  replace (repeat 0 (2 ^ L)) with (map (fun _ : nat => Z.of_nat 0) (seq 0 (2 ^ L))).
  - change (map Z.of_nat (seq 0 (2 ^ L))) with (map (fun i => Z.of_nat i) (seq 0 (2 ^ L))).
    rewrite (perm_loop_spec L (fun _ => 0%nat) (fun i => i) (seq 0 (2 ^ L)) 0); [| intros; cbn; lia | lia].
    apply map_ext. intros i. f_equal.
  - generalize 0%nat at 2. generalize (2 ^ L)%nat. intros n. induction n as [|n IH]; intros s; [reflexivity |]. cbn. f_equal. apply IH.
Qed.

Lemma get_bit_reverse_perm_spec L : get_bit_reverse_perm (2 ^ L) = map (fun i => Z.of_nat (brev L i)) (seq 0 (2 ^ L)).
Proof.
  unfold get_bit_reverse_perm. rewrite log2_pow2. apply map_ext. intros i. rewrite rev_loop_eq. apply bit_reversal_spec.
Qed.

Lemma permute_brev L a : length a = (2 ^ L)%nat -> (L <= 32)%nat ->
  permute (get_bit_reversal_perm (2 ^ L)) a = map (fun p => nth (brev L p) a 0) (seq 0 (2 ^ L)).
Proof.
  intros Ha HL. unfold permute. rewrite get_bit_reversal_perm_spec by exact HL. rewrite map_map. apply map_ext. intros i. rewrite Nat2Z.id. reflexivity.
Qed.
