From Coq Require Import ZArith List Lia.
From Verif Require Import Base.ZSum Base.Modeq Base.Lists Ckks.Model_scheme Ckks.Model_bat.
Import ListNotations.
Local Open Scope Z_scope.

Definition byte (x : Z) (b : nat) : Z := (x / 2 ^ (8 * Z.of_nat b)) mod 256.
Lemma bytes_nth x b : (b < 4)%nat -> nth b (bytes_of x) 0 = byte x b.
Proof. intros H. unfold bytes_of. rewrite nth_map_seq by exact H. reflexivity. Qed.
Lemma byte_range x b : 0 <= byte x b <= 255.
Proof. unfold byte. pose proof (Z.mod_pos_bound (x / 2 ^ (8 * Z.of_nat b)) 256 ltac:(lia)). lia. Qed.
Lemma bytes_value x : 0 <= x < 2 ^ 32 -> zsum 4 (fun b => byte x b * 2 ^ (8 * Z.of_nat b)) = x.
Proof.
  intros H. cbn [zsum]. unfold byte. change (2 ^ (8 * Z.of_nat 0)) with 1. change (2 ^ (8 * Z.of_nat 1)) with 256.
  change (2 ^ (8 * Z.of_nat 2)) with 65536. change (2 ^ (8 * Z.of_nat 3)) with 16777216. change (2 ^ 32) with 4294967296 in H.
  rewrite Z.div_1_r. Z.to_euclidean_division_equations. lia.
Qed.

Lemma fold_u32 {A} (f : A -> Z) l : forall s, 0 <= s < 2 ^ 32 -> fold_left (fun s p => u32 (s + f p)) l s = (s + lsum (map f l)) mod 2 ^ 32.
Proof.
  induction l as [|x l IH]; intros s Hs; cbn [fold_left map lsum fold_right].
  - rewrite Z.add_0_r, Z.mod_small by exact Hs. reflexivity.
  - rewrite IH by (apply Z.mod_pos_bound; lia). unfold u32. rewrite Zplus_mod_idemp_l. f_equal. unfold lsum. cbn. lia.
Qed.

Lemma sum64 a b c d : 0 <= a -> 0 <= b -> 0 <= c -> 0 <= d -> a + b + c + d < 18446744073709551616 ->
  u64 (u64 (u64 (u64 (0 + u64 a) + u64 b) + u64 c) + u64 d) = a + b + c + d.
Proof.
  intros. unfold u64. change (2 ^ 64) with 18446744073709551616.
  rewrite (Z.mod_small a), (Z.mod_small b), (Z.mod_small c), (Z.mod_small d) by lia.
  rewrite (Z.mod_small (0 + a)) by lia. rewrite (Z.mod_small (0 + a + b)) by lia. rewrite (Z.mod_small (0 + a + b + c)) by lia. rewrite Z.mod_small by lia. lia.
Qed.
(** the accumulator for output byte p: the sum over the inner axis and the bytes of the left operand *)
Definition inner_sum (lhs a : nat -> Z) (m : Z) (K : nat) (p : nat) : Z :=
  zsum K (fun k => zsum 4 (fun q => byte (lhs k) q * byte ((a k * 2 ^ (8 * Z.of_nat q)) mod m) p)).

Lemma combine_app_len {A B} (l1 l2 : list A) (r1 r2 : list B) : length l1 = length r1 -> combine (l1 ++ l2) (r1 ++ r2) = combine l1 r1 ++ combine l2 r2.
Proof. revert r1. induction l1 as [|x l1 IH]; intros [|y r1] H; cbn in *; try lia; [reflexivity |]. rewrite IH by lia. reflexivity. Qed.

Section Entry.
  Variable m : Z.
  Hypothesis Hm : 0 < m <= 2 ^ 32.

  Lemma entry_bytes a q p : 0 <= a < 2 ^ 40 -> (q < 4)%nat -> (p < 4)%nat ->
    nth p (nth q (basis_aligned_entry a m) []) 0 = byte ((a * 2 ^ (8 * Z.of_nat q)) mod m) p.
  Proof.
    intros Ha Hq Hp. unfold basis_aligned_entry. rewrite nth_map_seq by exact Hq. rewrite bytes_nth by exact Hp. f_equal.
    assert (P : 0 < 2 ^ (8 * Z.of_nat q) <= 2 ^ 24) by (split; [apply Z.pow_pos_nonneg; lia | apply Z.pow_le_mono_r; lia]).
    unfold u64. rewrite (Z.mod_small _ (2 ^ 64)) by nia. unfold u32. apply Z.mod_small.
    pose proof (Z.mod_pos_bound (a * 2 ^ (8 * Z.of_nat q)) m ltac:(lia)). lia.
  Qed.

  (** the accumulators modulo 2^32 *)
  Lemma accumulate_sum p : (p < 4)%nat -> forall lhs a, length lhs = length a -> Forall (fun x => 0 <= x < 2 ^ 40) a ->
    accumulate (concat (map bytes_of lhs)) (map (fun bs => nth p bs 0) (concat (map (fun x => basis_aligned_entry x m) a)))
    = inner_sum (fun k => nth k lhs 0) (fun k => nth k a 0) m (length lhs) p mod 2 ^ 32.
  Proof.
    intros Hp lhs a LE F. unfold accumulate. rewrite (fold_u32 (fun p => fst p * snd p)) by lia. rewrite Z.add_0_l. f_equal.
    revert a LE F. induction lhs as [|x lhs IH]; intros [|y a] LE F; cbn [length] in LE; try lia; [reflexivity |].
    apply Forall_cons_iff in F. destruct F as [Fy F]. unfold inner_sum. cbn [length]. rewrite zsum_S_l. cbn [map concat nth].
    rewrite map_app, combine_app_len by (rewrite !map_length; unfold basis_aligned_entry, bytes_of; rewrite !map_length; reflexivity).
    rewrite map_app, lsum_app. rewrite (IH a ltac:(lia) F). f_equal.
    assert (E : map (fun bs => nth p bs 0) (basis_aligned_entry y m) = map (fun q => byte ((y * 2 ^ (8 * Z.of_nat q)) mod m) p) (seq 0 4)).
    { apply (list_ext 0); [reflexivity |]. intros q Hq. rewrite map_length in Hq. rewrite (nth_map_lt _ _ _ _ []) by exact Hq.
      assert (Hq4 : (q < 4)%nat) by exact Hq. rewrite (nth_map_seq (fun q => byte ((y * 2 ^ (8 * Z.of_nat q)) mod m) p)) by exact Hq4.
      apply entry_bytes; assumption. }
    rewrite E. unfold bytes_of. fold (byte x). cbn [seq map combine lsum fst snd zsum]. unfold lsum, byte. cbn [fold_right]. ring.
  Qed.

  Lemma inner_sum_bound lhs a K p : 0 <= inner_sum lhs a m K p <= Z.of_nat K * 4 * 255 * 255.
  Proof.
    unfold inner_sum. split.
    - apply zsum_nonneg. intros k Hk. apply zsum_nonneg. intros q Hq. pose proof (byte_range (lhs k) q). pose proof (byte_range ((a k * 2 ^ (8 * Z.of_nat q)) mod m) p). nia.
    - replace (Z.of_nat K * 4 * 255 * 255) with (zsum K (fun _ => 4 * 255 * 255)) by (rewrite zsum_const; ring).
      apply zsum_le. intros k Hk. replace (4 * 255 * 255) with (zsum 4 (fun _ => 255 * 255)) by reflexivity. apply zsum_le.
      intros q Hq. pose proof (byte_range (lhs k) q). pose proof (byte_range ((a k * 2 ^ (8 * Z.of_nat q)) mod m) p). nia.
  Qed.

  (** without overflow the result is the sum of lhs byte times reduced shifted entry *)
  Definition bat_value (lhs a : nat -> Z) (K : nat) : Z :=
    zsum K (fun k => zsum 4 (fun q => byte (lhs k) q * ((a k * 2 ^ (8 * Z.of_nat q)) mod m))).
  Lemma bat_value_bound lhs a K : 0 <= bat_value lhs a K <= Z.of_nat K * (1020 * (m - 1)).
  Proof.
    unfold bat_value. split.
    - apply zsum_nonneg. intros k Hk. apply zsum_nonneg. intros q Hq. pose proof (byte_range (lhs k) q). pose proof (Z.mod_pos_bound (a k * 2 ^ (8 * Z.of_nat q)) m ltac:(lia)). nia.
    - replace (Z.of_nat K * (1020 * (m - 1))) with (zsum K (fun _ => 1020 * (m - 1))) by (rewrite zsum_const; ring).
      apply zsum_le. intros k Hk. replace (1020 * (m - 1)) with (zsum 4 (fun _ => 255 * (m - 1))) by (cbn [zsum]; ring). apply zsum_le.
      intros q Hq. pose proof (byte_range (lhs k) q). pose proof (Z.mod_pos_bound (a k * 2 ^ (8 * Z.of_nat q)) m ltac:(lia)). nia.
  Qed.
  Lemma bat_value_congr lhs a K : (forall k, (k < K)%nat -> 0 <= lhs k < 2 ^ 32) -> bat_value lhs a K == zsum K (fun k => lhs k * a k) [mod m].
  Proof.
    intros H. unfold bat_value. apply eqm_zsum. intros k Hk.
    transitivity (zsum 4 (fun q => byte (lhs k) q * 2 ^ (8 * Z.of_nat q) * a k)).
    - apply eqm_zsum. intros q Hq. rewrite eqm_mod. apply eqm_eq. ring.
    - rewrite zsum_mul_r. rewrite bytes_value by (apply H; exact Hk). reflexivity.
  Qed.

  Lemma matmul_bat_entry_value lhs a : length lhs = length a -> Forall (fun x => 0 <= x < 2 ^ 40) a ->
    Z.of_nat (length lhs) * 4 * 255 * 255 < 2 ^ 32 ->
    matmul_bat_entry lhs (map (fun x => basis_aligned_entry x m) a) = bat_value (fun k => nth k lhs 0) (fun k => nth k a 0) (length lhs).
  Proof.
    intros LE F HK. unfold matmul_bat_entry. set (K := length lhs) in *.
    set (L := fun k => nth k lhs 0). set (A := fun k => nth k a 0).
    set (prods := map _ (seq 0 4)).
    assert (EP : forall p, (p < 4)%nat -> nth p prods 0 = inner_sum L A m K p).
    { intros p Hp. unfold prods. rewrite nth_map_seq by exact Hp. rewrite accumulate_sum by assumption.
      apply Z.mod_small. pose proof (inner_sum_bound L A K p). unfold L, A, K in *. lia. }
    cbn [seq fold_left]. rewrite !EP by lia.
    pose proof (inner_sum_bound L A K 0). pose proof (inner_sum_bound L A K 1). pose proof (inner_sum_bound L A K 2). pose proof (inner_sum_bound L A K 3).
    change (2 ^ (8 * Z.of_nat 0)) with 1. change (2 ^ (8 * Z.of_nat 1)) with 256. change (2 ^ (8 * Z.of_nat 2)) with 65536. change (2 ^ (8 * Z.of_nat 3)) with 16777216.
    change (2 ^ 32) with 4294967296 in HK.
    rewrite sum64 by lia.
    unfold bat_value, inner_sum.
    rewrite (zsum_ext K (fun k => zsum 4 (fun q => byte (L k) q * ((A k * 2 ^ (8 * Z.of_nat q)) mod m)))
      (fun k => zsum 4 (fun q => byte (L k) q * byte ((A k * 2 ^ (8 * Z.of_nat q)) mod m) 0) + zsum 4 (fun q => byte (L k) q * byte ((A k * 2 ^ (8 * Z.of_nat q)) mod m) 1) * 256
        + zsum 4 (fun q => byte (L k) q * byte ((A k * 2 ^ (8 * Z.of_nat q)) mod m) 2) * 65536 + zsum 4 (fun q => byte (L k) q * byte ((A k * 2 ^ (8 * Z.of_nat q)) mod m) 3) * 16777216)).
    - rewrite !zsum_add, !zsum_mul_r. ring.
    - intros k Hk. rewrite <- !zsum_mul_r, <- !zsum_add. apply zsum_ext. intros q Hq.
      set (x := (A k * 2 ^ (8 * Z.of_nat q)) mod m). assert (Hx : 0 <= x < 2 ^ 32) by (pose proof (Z.mod_pos_bound (A k * 2 ^ (8 * Z.of_nat q)) m ltac:(lia)); unfold x; lia).
      pose proof (bytes_value x Hx) as V. cbn [zsum] in V. change (2 ^ (8 * Z.of_nat 0)) with 1 in V. change (2 ^ (8 * Z.of_nat 1)) with 256 in V. change (2 ^ (8 * Z.of_nat 2)) with 65536 in V. change (2 ^ (8 * Z.of_nat 3)) with 16777216 in V.
      rewrite <- V at 1. ring.
  Qed.
End Entry.
