(** C59: the reference lazy reduction multiplies modulo p in a redundant form that is closed under further multiplication. *)
From Coq Require Import ZArith List Bool Lia.
From Verif Require Import Base.ZSum Base.Modeq Base.Lists Base.Word Ec.Model_lazyref.
Import ListNotations.
Local Open Scope Z_scope.

(** the number of bytes of p: 256^(t-1) <= p < 256^t *)
Definition byte_count (p : Z) (t : nat) : Prop := (1 <= t)%nat /\ 256 ^ (Z.of_nat t - 1) <= p < 256 ^ Z.of_nat t.

Lemma pow256 k : 0 <= k -> 256 ^ k = 2 ^ (8 * k).
Proof. intros H. change 256 with (2 ^ 8). rewrite <- Z.pow_mul_r by lia. reflexivity. Qed.
Lemma byte_len_ok p t : byte_count p t -> Z.to_nat (byte_len p) = t.
Proof.
  intros (H1 & H2 & H3). rewrite pow256 in H2, H3 by lia. assert (P : 0 < p) by (eapply Z.lt_le_trans; [| exact H2]; apply Z.pow_pos_nonneg; lia).
  unfold byte_len, bit_length. destruct (Z.eqb_spec p 0); [lia |]. rewrite Z.abs_eq by lia.
  assert (A : 8 * (Z.of_nat t - 1) <= Z.log2 p) by (apply Z.log2_le_pow2; lia). assert (B : Z.log2 p < 8 * Z.of_nat t) by (apply Z.log2_lt_pow2; lia).
  assert (E : (Z.log2 p + 1 + 7) / 8 = Z.of_nat t) by (symmetry; apply (Z.div_unique _ _ _ (Z.log2 p - 8 * (Z.of_nat t - 1))); lia). rewrite E. lia.
Qed.
Lemma byte_count_exists p : 0 < p -> exists t, byte_count p t.
Proof.
  intros P. exists (Z.to_nat (Z.log2 p / 8 + 1)). pose proof (Z.log2_nonneg p). pose proof (Z.log2_spec p P) as [A B]. pose proof (Z.div_mod (Z.log2 p) 8 ltac:(lia)). pose proof (Z.mod_pos_bound (Z.log2 p) 8 ltac:(lia)).
  assert (0 <= Z.log2 p / 8) by lia. split; [lia |]. rewrite Z2Nat.id by lia. rewrite !pow256 by lia. split; [eapply Z.le_trans; [| exact A] | eapply Z.lt_le_trans; [exact B |]]; apply Z.pow_le_mono_r; lia.
Qed.

Lemma chunk_nth x n i : (i < n)%nat -> nth i (chunk_decomposition x n) 0 = (x / 256 ^ Z.of_nat i) mod 256.
Proof.
  intros H. unfold chunk_decomposition. rewrite nth_map_seq by exact H. rewrite Z.shiftr_div_pow2, <- pow256 by lia. change 255 with (Z.ones 8). rewrite Z.land_ones by lia. reflexivity.
Qed.
Lemma chunk_length x n : length (chunk_decomposition x n) = n.
Proof. unfold chunk_decomposition. rewrite map_length. apply seq_length. Qed.
Lemma bytes_sum x n : zsum n (fun i => (x / 256 ^ Z.of_nat i) mod 256 * 256 ^ Z.of_nat i) = x mod 256 ^ Z.of_nat n.
Proof.
  revert x. induction n as [|n IH]; intros x; [cbn; rewrite Z.mod_1_r; reflexivity |]. rewrite zsum_S_l. change (256 ^ Z.of_nat 0) with 1. rewrite Z.div_1_r, Z.mul_1_r.
  rewrite (zsum_ext _ _ (fun i => 256 * (((x / 256) / 256 ^ Z.of_nat i) mod 256 * 256 ^ Z.of_nat i))).
  - rewrite zsum_mul_l, IH. rewrite (Nat2Z.inj_succ n), Z.pow_succ_r by lia. rewrite Z.rem_mul_r by (try apply Z.pow_pos_nonneg; lia). ring.
  - intros i _. rewrite Nat2Z.inj_succ, Z.pow_succ_r by lia. rewrite Z.div_div by (try apply Z.pow_pos_nonneg; lia). ring.
Qed.
Lemma recombine l : fold_right (fun r val => val * 256 + r) 0 l = zsum (length l) (fun j => nth j l 0 * 256 ^ Z.of_nat j).
Proof.
  induction l as [|r l IH]; [reflexivity |]. cbn [fold_right length]. rewrite zsum_S_l. cbn [nth]. rewrite IH. change (256 ^ Z.of_nat 0) with 1. rewrite Z.mul_1_r.
  rewrite <- zsum_mul_r. rewrite (zsum_ext _ (fun i => nth (S i) (r :: l) 0 * 256 ^ Z.of_nat (S i)) (fun i => nth i l 0 * 256 ^ Z.of_nat i * 256)); [ring |]. intros i _. cbn [nth]. rewrite Nat2Z.inj_succ, Z.pow_succ_r by lia. ring.
Qed.

(** C59: for every positive modulus p of t bytes (t at most 66000) and any batch of factors of at most t + 2 bytes, each output
    is congruent to the product modulo p.  When t is at most 252 it is also below 65536 * p, so it has at most t + 2 bytes and
    can be multiplied again. *)
Theorem C59_lazy_reduce : forall p t a_list b_list, byte_count p t -> Z.of_nat t <= 66000 -> length a_list = length b_list ->
  Forall (fun a => 0 <= a < 256 ^ Z.of_nat (t + 2)) (a_list ++ b_list) ->
  exists c_list, lazy_reduction_via_matrix a_list b_list p = Some c_list /\ length c_list = length a_list /\
    forall i, (i < length a_list)%nat -> let a := nth i a_list 0 in let b := nth i b_list 0 in let c := nth i c_list 0 in
      c mod p = (a * b) mod p /\ 0 <= c /\ ((t <= 252)%nat -> c < 65536 * p).
Proof.
  intros p t a_list b_list BC TT LE F. pose proof BC as (T1 & PL & PH). assert (P : 0 < p) by (eapply Z.lt_le_trans; [| exact PL]; apply Z.pow_pos_nonneg; lia).
  unfold lazy_reduction_via_matrix. rewrite (byte_len_ok p t BC). destruct (Z.eqb_spec p 0); [lia |]. rewrite LE, Nat.eqb_refl. cbn [negb]. eexists. split; [reflexivity |]. split; [rewrite map_length, map2_length; lia |].
  intros i Hi. cbv zeta. set (a := nth i a_list 0). set (b := nth i b_list 0). rewrite (nth_map_lt _ _ _ _ 0) by (rewrite map2_length; lia). rewrite (nth_map2 _ _ _ _ 0 0) by lia. fold a b.
  apply Forall_app in F. destruct F as [FA FB]. rewrite Forall_forall in FA, FB. pose proof (FA a (nth_In a_list 0 (eq_ind_r (fun k => (i < k)%nat) Hi LE))) as HA. pose proof (FB b (nth_In b_list 0 Hi)) as HB. cbv beta in HA, HB.
  set (s := a * b). set (W := 256 ^ Z.of_nat t) in *. assert (WP : 0 < W) by (apply Z.pow_pos_nonneg; lia).
  assert (S0 : 0 <= s < W * 256 ^ Z.of_nat (t + 4)).
  { unfold s. split; [nia |]. replace (W * 256 ^ Z.of_nat (t + 4)) with (256 ^ Z.of_nat (t + 2) * 256 ^ Z.of_nat (t + 2)) by (unfold W; rewrite <- !Z.pow_add_r by lia; f_equal; lia). nia. }
  assert (EL : Z.land s (W - 1) = s mod W). { unfold W. rewrite pow256 by lia. rewrite <- Z.land_ones by lia. f_equal. rewrite Z.ones_equiv. lia. }
  assert (EH : Z.shiftr s (8 * Z.of_nat t) = s / W) by (rewrite Z.shiftr_div_pow2 by lia; unfold W; rewrite pow256 by lia; reflexivity).
  rewrite EL, EH. set (h := s / W). assert (H0 : 0 <= h < 256 ^ Z.of_nat (t + 4)) by (unfold h; split; [apply Z.div_pos; lia | apply Z.div_lt_upper_bound; lia]).
  set (m := fun k => 256 ^ Z.of_nat (t + k) mod p). set (d := fun k => (h / 256 ^ Z.of_nat k) mod 256). set (e := fun k j => (m k / 256 ^ Z.of_nat j) mod 256).
  assert (M0 : forall k, 0 <= m k < p) by (intros k; apply Z.mod_pos_bound; exact P). assert (D0 : forall k, 0 <= d k < 256) by (intros k; apply Z.mod_pos_bound; lia). assert (E0 : forall k j, 0 <= e k j < 256) by (intros k j; apply Z.mod_pos_bound; lia).
  assert (ER : forall j, (j < t)%nat -> nth j (map (fun j => u32 (dotZ (chunk_decomposition h (t + 4)) (map (fun r => nth j r 0) (lazy_rows p t)))) (seq 0 t)) 0 = zsum (t + 4) (fun k => d k * e k j)).
  { intros j Hj. rewrite nth_map_seq by exact Hj. rewrite dotZ_zsum by (rewrite chunk_length, map_length; unfold lazy_rows; rewrite map_length, seq_length; reflexivity). rewrite chunk_length.
    rewrite (zsum_ext _ _ (fun k => d k * e k j)).
    - unfold u32. apply Z.mod_small. split; [apply zsum_nonneg; intros k _; specialize (D0 k); specialize (E0 k j); nia |]. apply Z.le_lt_trans with (Z.of_nat (t + 4) * (255 * 255)); [rewrite <- zsum_const; apply zsum_le; intros k _; specialize (D0 k); specialize (E0 k j); nia |].
      clear - TT. lia.
    - intros k Hk. rewrite chunk_nth by exact Hk. unfold lazy_rows. rewrite (nth_map_lt _ _ _ _ []) by (rewrite map_length, seq_length; exact Hk). rewrite nth_map_seq by exact Hk. rewrite chunk_nth by exact Hj. reflexivity. }
  assert (EV : fold_right (fun r val => val * 256 + r) 0 (map (fun j => u32 (dotZ (chunk_decomposition h (t + 4)) (map (fun r => nth j r 0) (lazy_rows p t)))) (seq 0 t)) = zsum (t + 4) (fun k => d k * m k)).
  { rewrite recombine, map_length, seq_length. rewrite (zsum_ext _ _ (fun j => zsum (t + 4) (fun k => d k * e k j * 256 ^ Z.of_nat j))) by (intros j Hj; rewrite ER by exact Hj; rewrite zsum_mul_r; reflexivity).
    rewrite zsum_swap. apply zsum_ext. intros k _. rewrite (zsum_ext _ _ (fun j => d k * (e k j * 256 ^ Z.of_nat j))) by (intros; ring). rewrite zsum_mul_l. f_equal. unfold e. rewrite bytes_sum. apply Z.mod_small. specialize (M0 k). unfold W in PH. lia. }
  rewrite EV. clear EV ER. pose proof (Z.mod_pos_bound s W WP) as LOW. split; [| split].
  - apply eqm_mod_iff; [lia |]. transitivity (zsum (t + 4) (fun k => d k * 256 ^ Z.of_nat (t + k)) + s mod W).
    + assert (X : zsum (t + 4) (fun k => d k * m k) == zsum (t + 4) (fun k => d k * 256 ^ Z.of_nat (t + k)) [mod p]) by (apply eqm_zsum; intros k _; unfold m; rewrite eqm_mod; reflexivity). rewrite X. reflexivity.
    + apply eqm_eq. rewrite (zsum_ext _ _ (fun k => W * (d k * 256 ^ Z.of_nat k))) by (intros k _; rewrite Nat2Z.inj_add, Z.pow_add_r by lia; fold W; ring). rewrite zsum_mul_l. unfold d. rewrite bytes_sum, Z.mod_small by exact H0. unfold h. pose proof (Z.div_mod s W ltac:(lia)). lia.
  - apply Z.add_nonneg_nonneg; [apply zsum_nonneg; intros k _; specialize (D0 k); specialize (M0 k); nia | lia].
  - intros T2. assert (X : zsum (t + 4) (fun k => d k * m k) <= Z.of_nat (t + 4) * (255 * (p - 1))) by (rewrite <- zsum_const; apply zsum_le; intros k _; specialize (D0 k); specialize (M0 k); nia).
    assert (WB : W <= 256 * p). { unfold W. replace (Z.of_nat t) with (1 + (Z.of_nat t - 1)) by lia. rewrite Z.pow_add_r by lia. change (256 ^ 1) with 256. lia. }
    assert (TB : Z.of_nat (t + 4) <= 256) by lia. clear - X WB TB LOW P. nia.
Qed.
Print Assumptions C59_lazy_reduce.

(** C59: a whole chain of multiplications stays correct: multiplying any number of (t+2)-byte factors one after the other gives
    a value below 65536 * p that is congruent to the product of all of them. *)
Fixpoint multiply_all (p acc : Z) (factors : list Z) : option Z :=
  match factors with
  | [] => Some acc
  | f :: rest => match lazy_reduction_via_matrix [acc] [f] p with Some [c] => multiply_all p c rest | _ => None end
  end.
Theorem C59_chain : forall p t x factors, byte_count p t -> (t <= 252)%nat -> 0 <= x < 65536 * p -> Forall (fun f => 0 <= f < 65536 * p) factors ->
  exists c, multiply_all p x factors = Some c /\ 0 <= c < 65536 * p /\ c mod p = fold_left Z.mul factors x mod p.
Proof.
  intros p t x factors BC TT Hx F. pose proof BC as (T1 & PL & PH). assert (P : 0 < p) by (eapply Z.lt_le_trans; [| exact PL]; apply Z.pow_pos_nonneg; lia).
  assert (W : 65536 * p < 256 ^ Z.of_nat (t + 2)) by (rewrite Nat2Z.inj_add, Z.pow_add_r by lia; change (256 ^ Z.of_nat 2) with 65536; lia).
  assert (G : forall factors x y, Forall (fun f => 0 <= f < 65536 * p) factors -> 0 <= x < 65536 * p -> x == y [mod p] -> exists c, multiply_all p x factors = Some c /\ 0 <= c < 65536 * p /\ c == fold_left Z.mul factors y [mod p]).
  { clear x factors Hx F. induction factors as [|f fs IH]; intros x y F Hx E; [exists x; auto |]. inversion F as [|? ? Hf F']; subst. cbn [multiply_all fold_left].
    destruct (C59_lazy_reduce p t [x] [f] BC ltac:(lia) eq_refl) as (cs & EC & LC & HC); [repeat constructor; lia |]. rewrite EC. destruct cs as [|c [|? ?]]; try discriminate LC. destruct (HC 0%nat ltac:(cbn; lia)) as (M & C0 & C1). cbn [nth] in M, C0, C1.
    apply IH; [exact F' | split; [exact C0 | apply C1; exact TT] |]. apply eqm_mod_iff in M; [| lia]. rewrite M, E. reflexivity. }
  destruct (G factors x x F Hx ltac:(reflexivity)) as (c & E & B & M). exists c. split; [exact E |]. split; [exact B |]. apply eqm_mod_iff; [lia | exact M].
Qed.
Print Assumptions C59_chain.

(** a zero modulus and batches of different sizes raise *)
Theorem C59_rejects : (forall a b, lazy_reduction_via_matrix a b 0 = None) /\ forall a b p, length a <> length b -> lazy_reduction_via_matrix a b p = None.
Proof.
  split; [reflexivity |]. intros a b p H. unfold lazy_reduction_via_matrix. destruct (p =? 0); [reflexivity |]. destruct (Nat.eqb_spec (length a) (length b)); [contradiction | reflexivity].
Qed.
Print Assumptions C59_rejects.

(** the limit is exact on the inputs' side: one byte more and the excess is dropped without an error *)
Theorem C59_wider_refuted : ~ forall p t a b c, byte_count p t -> 0 <= a < 256 ^ Z.of_nat (t + 3) -> 0 <= b < 256 ^ Z.of_nat (t + 2) -> lazy_reduction_via_matrix [a] [b] p = Some [c] -> c mod p = (a * b) mod p.
Proof.
  intros H. specialize (H 251 1%nat (256 ^ 4 - 1) (256 ^ 3 - 1)). destruct (lazy_reduction_via_matrix [256 ^ 4 - 1] [256 ^ 3 - 1] 251) as [[|c [|? ?]] |] eqn:E; try (vm_compute in E; discriminate).
  specialize (H c). assert (X : c mod 251 = ((256 ^ 4 - 1) * (256 ^ 3 - 1)) mod 251) by (apply H; [split; [lia |]; split; [vm_compute; discriminate | reflexivity] | split; [vm_compute; discriminate | reflexivity] | split; [vm_compute; discriminate | reflexivity] | reflexivity]).
  vm_compute in E. injection E as <-. vm_compute in X. discriminate.
Qed.
Print Assumptions C59_wider_refuted.

Example C59_example : byte_count 65521 2 /\ lazy_reduction_via_matrix [4294967295; 65520] [4000000000; 65520] 65521 = Some [5697722; 982816] /\ (4294967295 * 4000000000) mod 65521 = 5697722 mod 65521.
Proof. split; [split; [lia |]; split; [vm_compute; discriminate | reflexivity] | split; vm_compute; reflexivity]. Qed.
