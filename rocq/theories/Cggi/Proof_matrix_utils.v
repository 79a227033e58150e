(** Polynomial arithmetic modulo X^N+1 and 2^32: every path of poly_mul computes the negacyclic product. *)
From Coq Require Import ZArith List Lia Bool Setoid Morphisms.
From Verif Require Import Base.ZSum Base.Modeq Base.Nega Base.Word Base.Bits.
From Verif Require Import Cggi.Model_matrix_utils.
Import ListNotations.
Local Open Scope Z_scope.

Lemma lsum_map2 {A B} (f : A -> B -> Z) a b da db : length a = length b ->
  lsum (map2 f a b) = zsum (length a) (fun i => f (nth i a da) (nth i b db)).
Proof.
  intros H. rewrite lsum_nth, map2_length, <- H, Nat.min_id. apply zsum_ext. intros i Hi.
  rewrite (nth_map2 _ _ _ _ da db) by lia. reflexivity.
Qed.

Lemma map_seq_nth {A} (l : list A) d : map (fun i => nth i l d) (seq 0 (length l)) = l.
Proof.
  apply (list_eq_nth d); [rewrite map_length, seq_length; reflexivity|].
  intros i Hi. rewrite map_length, seq_length in Hi. rewrite nth_map_seq by assumption. reflexivity.
Qed.

Lemma map2_map_seq {A B C} (f : A -> B -> C) a b n da db : length a = n -> length b = n ->
  map2 f a b = map (fun i => f (nth i a da) (nth i b db)) (seq 0 n).
Proof.
  intros Ha Hb. apply (list_eq_nth (f da db)); [rewrite map2_length, map_length, seq_length; lia|].
  intros i Hi. rewrite map2_length in Hi. rewrite (nth_map2 _ _ _ _ da db) by lia. rewrite nth_map_seq by lia. reflexivity.
Qed.

Lemma map_map_seq {A B} (f : A -> B) a n d : length a = n -> map f a = map (fun i => f (nth i a d)) (seq 0 n).
Proof.
  intros Ha. rewrite <- (map_seq_nth a d) at 1. rewrite map_map, Ha. reflexivity.
Qed.

(** *** roll *)
Lemma roll_length k l : length (roll k l) = length l.
Proof. unfold roll. rewrite map_length, seq_length. reflexivity. Qed.

Lemma roll_nth k l i : (i < length l)%nat ->
  nth i (roll k l) 0 = nth (Z.to_nat ((Z.of_nat i - k) mod Z.of_nat (length l))) l 0.
Proof. intros. unfold roll. rewrite nth_map_seq by assumption. reflexivity. Qed.

Lemma roll_roll j k l : roll j (roll k l) = roll (j + k) l.
Proof.
  apply (list_eq_nth 0); [rewrite !roll_length; reflexivity|]. intros i Hi. rewrite !roll_length in Hi.
  set (n := Z.of_nat (length l)).
  rewrite roll_nth by (rewrite roll_length; assumption). rewrite roll_length. fold n.
  pose proof (Z.mod_pos_bound (Z.of_nat i - j) n ltac:(lia)).
  rewrite roll_nth by lia. rewrite roll_nth by assumption. fold n. f_equal. f_equal.
  rewrite Z2Nat.id by lia. rewrite Zminus_mod_idemp_l. f_equal. lia.
Qed.

Lemma roll_0 l : roll 0 l = l.
Proof.
  apply (list_eq_nth 0); [apply roll_length|]. intros i Hi. rewrite roll_length in Hi.
  rewrite roll_nth by assumption. rewrite Z.sub_0_r, Z.mod_small, Nat2Z.id by lia. reflexivity.
Qed.

(** *** toeplitz *)
Lemma firstn_seq a n m : (n <= m)%nat -> firstn n (seq a m) = seq a n.
Proof.
  intros H. revert a m H. induction n as [|n IH]; intros a m H; [reflexivity|].
  destruct m as [|m]; [lia|]. cbn. f_equal. apply IH. lia.
Qed.

Lemma firstn_map' {A B} (f : A -> B) l n : firstn n (map f l) = map f (firstn n l).
Proof. revert n. induction l as [|x l IH]; intros [|n]; cbn; auto. f_equal. apply IH. Qed.

Lemma toeplitz_go_spec x n : forall fuel m, length x = n -> (1 <= m)%nat -> (n < fuel + m)%nat -> (0 < fuel)%nat ->
  toeplitz_go fuel n (map (fun i => roll (Z.of_nat i) x) (seq 0 m)) = map (fun i => roll (Z.of_nat i) x) (seq 0 n).
Proof.
  induction fuel as [|f IH]; intros m Hx Hm Hf H0; [lia|]. cbn [toeplitz_go].
  rewrite map_length, seq_length. destruct (Nat.leb_spec n m) as [Hle|Hgt].
  - rewrite firstn_map', firstn_seq by assumption. reflexivity.
  - rewrite map_map.
    replace (map (fun i => roll (Z.of_nat i) x) (seq 0 m) ++ map (fun i => roll (Z.of_nat m) (roll (Z.of_nat i) x)) (seq 0 m))
      with (map (fun i => roll (Z.of_nat i) x) (seq 0 (m + m))).
    + apply IH; try lia.
    + rewrite seq_app, map_app. f_equal. cbn [Nat.add].
      apply (list_eq_nth []); [rewrite !map_length, !seq_length; reflexivity|].
      intros i Hi. rewrite map_length, seq_length in Hi.
      rewrite (nth_map_lt _ _ _ _ O) by (rewrite seq_length; assumption). rewrite seq_nth by assumption.
      rewrite nth_map_seq by assumption. rewrite roll_roll. f_equal. lia.
Qed.

Lemma toeplitz_spec x : toeplitz x = map (fun i => roll (Z.of_nat i) x) (seq 0 (length x)).
Proof.
  unfold toeplitz. rewrite <- (toeplitz_go_spec x (length x) (S (length x)) 1); try lia.
  f_equal. cbn. rewrite roll_0. reflexivity.
Qed.

(** signed Toeplitz entry: row r, column c of the matrix of multiplication by x *)
Definition tz (x : list Z) (r c : nat) : Z :=
  if (c <? r)%nat then - nth (c + length x - r) x 0 else nth (c - r) x 0.

Lemma roll_tz x r c : (r < length x)%nat -> (c < length x)%nat ->
  nth c (roll (Z.of_nat r) x) 0 = if (c <? r)%nat then nth (c + length x - r) x 0 else nth (c - r) x 0.
Proof.
  intros Hr Hc. rewrite roll_nth by assumption. destruct (Nat.ltb_spec c r).
  - f_equal. replace ((Z.of_nat c - Z.of_nat r) mod Z.of_nat (length x)) with (Z.of_nat c - Z.of_nat r + Z.of_nat (length x)); [lia|].
    apply Z.mod_unique with (-1); lia.
  - f_equal. rewrite Z.mod_small by lia. lia.
Qed.

Lemma toeplitz_chunks_nth x blocks : forall row0 i c,
  (i < 128 * blocks)%nat -> (row0 + i < length x)%nat -> (c < length x)%nat ->
  nth c (nth i (toeplitz_chunks blocks row0 (map (fun r => roll (Z.of_nat (row0 + r)) x) (seq 0 128))) []) 0
  = (if (c <? row0 + i)%nat then u32 (- nth c (roll (Z.of_nat (row0 + i)) x) 0) else nth c (roll (Z.of_nat (row0 + i)) x) 0).
Proof.
  induction blocks as [|b IH]; intros row0 i c Hi Hr Hc; [lia|]. cbn [toeplitz_chunks].
  set (blk := map2 _ _ _). assert (Lb : length blk = 128%nat).
  { unfold blk. rewrite map2_length, map_length, !seq_length. reflexivity. }
  destruct (Nat.lt_ge_cases i 128) as [Hlt|Hge].
  - rewrite app_nth1 by lia. unfold blk.
    rewrite (nth_map2 _ _ _ _ O []) by (rewrite ?map_length, seq_length; assumption).
    rewrite seq_nth by assumption. rewrite nth_map_seq by assumption. cbn [Nat.add].
    rewrite (nth_map2 _ _ _ _ O 0) by (rewrite ?seq_length, ?roll_length; assumption).
    rewrite seq_nth by (rewrite roll_length; assumption). reflexivity.
  - rewrite app_nth2 by lia. rewrite Lb. rewrite map_map.
    rewrite (map_ext _ (fun r => roll (Z.of_nat (row0 + 128 + r)) x)).
    2:{ intros r. rewrite roll_roll. f_equal. lia. }
    rewrite IH by lia. replace (row0 + 128 + (i - 128))%nat with (row0 + i)%nat by lia. reflexivity.
Qed.

Lemma toeplitz_chunks_length blocks : forall row0 chunk, length chunk = 128%nat ->
  length (toeplitz_chunks blocks row0 chunk) = (128 * blocks)%nat.
Proof.
  induction blocks as [|b IH]; intros row0 chunk Hc; [reflexivity|]. cbn [toeplitz_chunks].
  rewrite app_length, map2_length, seq_length, Hc, IH by (rewrite map_length; assumption). lia.
Qed.

Lemma toeplitz_chunks_width n blocks : forall row0 chunk, Forall (fun r => length r = n) chunk ->
  Forall (fun r => length r = n) (toeplitz_chunks blocks row0 chunk).
Proof.
  induction blocks as [|b IH]; intros row0 chunk Hc; [constructor|]. cbn [toeplitz_chunks].
  apply Forall_app. split.
  - clear IH. generalize (seq 0 128). induction Hc as [|x l Hx Hl IHl]; intros s; [rewrite map2_nil_r; constructor|].
    destruct s; cbn; constructor; auto. rewrite map2_length, seq_length. lia.
  - apply IH. apply Forall_map. eapply Forall_impl; [|exact Hc]. intros a Ha. cbn. rewrite roll_length. assumption.
Qed.

Lemma toeplitz_signed_length x : (length x mod 128 = 0)%nat -> length (toeplitz_signed x) = length x.
Proof.
  intros H. unfold toeplitz_signed. rewrite toeplitz_chunks_length by (rewrite map_length, seq_length; reflexivity).
  pose proof (Nat.div_mod (length x) 128 ltac:(lia)). lia.
Qed.

Lemma toeplitz_signed_width x : Forall (fun r => length r = length x) (toeplitz_signed x).
Proof.
  apply toeplitz_chunks_width. apply Forall_map. apply Forall_forall. intros r _. apply roll_length.
Qed.

Lemma toeplitz_signed_nth x r c : (length x mod 128 = 0)%nat -> (r < length x)%nat -> (c < length x)%nat ->
  nth c (nth r (toeplitz_signed x) []) 0 == tz x r c [mod W32].
Proof.
  intros Hm Hr Hc. unfold toeplitz_signed.
  pose proof (Nat.div_mod (length x) 128 ltac:(lia)).
  rewrite (toeplitz_chunks_nth x _ 0 r c) by lia. cbn [Nat.add].
  rewrite roll_tz by assumption. unfold tz. destruct (c <? r)%nat; [apply u32_eqm|reflexivity].
Qed.

(** *** byte matmul *)
Lemma byte_range x p : 0 <= byte_of x p < 256.
Proof. apply Z.mod_pos_bound. lia. Qed.

Lemma bytes_sum x : zsum 4 (fun p => byte_of x p * 256 ^ Z.of_nat p) = u32 x.
Proof.
  pose proof (u32_word x) as H. unfold word32 in H. unfold byte_of. set (w := u32 x) in *.
  cbn [zsum]. change (Z.of_nat 0) with 0. change (Z.of_nat 1) with 1. change (Z.of_nat 2) with 2. change (Z.of_nat 3) with 3.
  change (256 ^ 0) with 1. change (256 ^ 1) with 256. change (256 ^ 2) with (256 * 256). change (256 ^ 3) with (256 * 256 * 256).
  rewrite Z.div_1_r. rewrite <- !Z.div_div by lia.
  pose proof (Z.div_mod w 256 ltac:(lia)). pose proof (Z.div_mod (w / 256) 256 ltac:(lia)).
  pose proof (Z.div_mod (w / 256 / 256) 256 ltac:(lia)).
  assert (E : (w / 256 / 256 / 256) mod 256 = w / 256 / 256 / 256).
  { apply Z.mod_small. rewrite !Z.div_div by lia. split; [apply Z.div_pos; lia|apply Z.div_lt_upper_bound; lia]. }
  rewrite E. lia.
Qed.

Lemma shift_entry p q : (p < 4)%nat -> (q < 4)%nat -> nth q (nth p shift_factors []) 0 = 8 * Z.of_nat (p + q).
Proof.
  intros Hp Hq. destruct p as [|[|[|[|?]]]]; try lia; destruct q as [|[|[|[|?]]]]; try lia; reflexivity.
Qed.

Lemma shl32_bytes x s : (s <= 6)%nat -> shl32 x (8 * Z.of_nat s) == x * 256 ^ Z.of_nat s [mod W32].
Proof.
  intros Hs. destruct (Nat.lt_ge_cases s 4).
  - rewrite shl32_eqm by lia. rewrite Z.pow_mul_r by lia. reflexivity.
  - unfold shl32. replace (8 * Z.of_nat s <? 32) with false by (symmetry; apply Z.ltb_ge; lia).
    rewrite andb_false_r. symmetry. apply eqm_ex. exists (x * 256 ^ (Z.of_nat s - 4)).
    replace (256 ^ Z.of_nat s) with (256 ^ (Z.of_nat s - 4) * 256 ^ 4) by (rewrite <- Z.pow_add_r by lia; f_equal; lia).
    change (256 ^ 4) with W32. ring.
Qed.

Lemma bytes_eqm x : zsum 4 (fun p => byte_of x p * 256 ^ Z.of_nat p) == x [mod W32].
Proof. rewrite bytes_sum. apply u32_eqm. Qed.

Lemma matmul_length lhs rhs : length (i32_as_u8_matmul lhs rhs) = length (nth 0 rhs []).
Proof. unfold i32_as_u8_matmul. rewrite map_length, seq_length. reflexivity. Qed.

Lemma matmul_nth lhs rhs c : length lhs = length rhs -> (c < length (nth 0 rhs []))%nat ->
  nth c (i32_as_u8_matmul lhs rhs) 0 = u32 (zsum (length lhs) (fun i => nth i lhs 0 * nth c (nth i rhs []) 0)).
Proof.
  intros HL Hc. unfold i32_as_u8_matmul. rewrite nth_map_seq by assumption.
  apply eqm_mod_iff; [lia|]. rewrite lsum_map_seq. set (n := length lhs).
  transitivity (zsum 4 (fun p => zsum 4 (fun q => zsum n (fun i => byte_of (nth i lhs 0) p * 256 ^ Z.of_nat p * (byte_of (nth c (nth i rhs []) 0) q * 256 ^ Z.of_nat q))))).
  - apply eqm_zsum. intros p Hp. rewrite lsum_map_seq. apply eqm_zsum. intros q Hq.
    rewrite shift_entry by assumption. rewrite shl32_bytes by lia. rewrite u32_eqm.
    rewrite (lsum_map2 _ _ _ 0 []) by assumption. fold n. apply eqm_eq.
    rewrite <- zsum_mul_r. apply zsum_ext. intros i _. rewrite Nat2Z.inj_add, Z.pow_add_r by lia. ring.
  - transitivity (zsum n (fun i => zsum 4 (fun p => byte_of (nth i lhs 0) p * 256 ^ Z.of_nat p) * zsum 4 (fun q => byte_of (nth c (nth i rhs []) 0) q * 256 ^ Z.of_nat q))).
    + apply eqm_eq.
      rewrite (zsum_ext 4 _ (fun p => zsum n (fun i => zsum 4 (fun q => byte_of (nth i lhs 0) p * 256 ^ Z.of_nat p * (byte_of (nth c (nth i rhs []) 0) q * 256 ^ Z.of_nat q)))))
        by (intros; apply zsum_swap).
      rewrite zsum_swap. apply zsum_ext. intros i _. rewrite <- zsum_mul_r. apply zsum_ext. intros p _.
      rewrite zsum_mul_l. reflexivity.
    + apply eqm_zsum. intros i _. rewrite !bytes_eqm. reflexivity.
Qed.

(** *** poly_mul *)
Lemma nega_tz a b k : (k < length a)%nat ->
  nega_coeff (length a) (fun i => nth i b 0) (fun i => nth i a 0) k = zsum (length a) (fun i => nth i b 0 * tz a i k).
Proof.
  intros Hk. unfold nega_coeff, tz. apply zsum_ext. intros i Hi.
  destruct (Nat.leb_spec i k); destruct (Nat.ltb_spec k i); try lia.
Qed.

Lemma poly_mul_nth tpu a b k : length b = length a -> (k < length a)%nat ->
  nth k (poly_mul tpu a b) 0 = u32 (nega_coeff (length a) (fun i => nth i b 0) (fun i => nth i a 0) k).
Proof.
  intros HL Hk. unfold poly_mul, toeplitz_poly_mul, toeplitz_kernelized. rewrite nega_tz by assumption.
  destruct ((length a mod 128 =? 0)%nat && (5 <=? tpu)) eqn:E.
  - apply andb_prop in E. destruct E as [E _]. rewrite E. apply Nat.eqb_eq in E.
    pose proof (toeplitz_signed_width a) as W. rewrite Forall_forall in W.
    assert (E0 : length (nth 0 (toeplitz_signed a) []) = length a).
    { apply W, nth_In. rewrite toeplitz_signed_length by assumption. lia. }
    rewrite matmul_nth by (rewrite ?toeplitz_signed_length, ?E0 by assumption; lia).
    apply eqm_mod_iff; [lia|]. rewrite HL. apply eqm_zsum. intros i Hi.
    rewrite toeplitz_signed_nth by assumption. reflexivity.
  - set (M := map2 _ _ _).
    assert (LM : length M = length a).
    { unfold M. rewrite map2_length, seq_length, toeplitz_spec, map_length, seq_length. lia. }
    assert (RM : forall i, (i < length a)%nat -> nth i M [] = map2 (fun j v => u32 (sign_entry j i * v)) (seq 0 (length a)) (roll (Z.of_nat i) a)).
    { intros i Hi. unfold M. rewrite (nth_map2 _ _ _ _ O []) by (rewrite ?seq_length, ?toeplitz_spec, ?map_length, ?seq_length; lia).
      rewrite seq_nth by assumption. rewrite toeplitz_spec, nth_map_seq by assumption. reflexivity. }
    rewrite matmul_nth.
    2:{ lia. }
    2:{ rewrite RM by lia. rewrite map2_length, seq_length, roll_length. lia. }
    apply eqm_mod_iff; [lia|]. rewrite HL. apply eqm_zsum. intros i Hi. rewrite RM by assumption.
    rewrite (nth_map2 _ _ _ _ O 0) by (rewrite ?seq_length, ?roll_length; assumption).
    rewrite seq_nth by assumption. rewrite u32_eqm. rewrite roll_tz by assumption. cbn [Nat.add].
    apply eqm_eq. unfold sign_entry, tz. destruct (Nat.leb_spec i k); destruct (Nat.ltb_spec k i); lia.
Qed.

Lemma poly_mul_length tpu a b : length b = length a -> length (poly_mul tpu a b) = length a.
Proof.
  intros HL. destruct (Nat.eq_dec (length a) 0) as [H0|H0].
  - destruct a; [|discriminate]. destruct b; [|discriminate].
    unfold poly_mul, toeplitz_poly_mul. cbn. destruct (5 <=? tpu); reflexivity.
  - unfold poly_mul, toeplitz_poly_mul, toeplitz_kernelized.
    destruct ((length a mod 128 =? 0)%nat && (5 <=? tpu)) eqn:E.
    + apply andb_prop in E. destruct E as [E _]. rewrite E. apply Nat.eqb_eq in E. rewrite matmul_length.
      pose proof (toeplitz_signed_width a) as W. rewrite Forall_forall in W.
      apply W, nth_In. rewrite toeplitz_signed_length by assumption. lia.
    + rewrite matmul_length. rewrite (nth_map2 _ _ _ _ O []).
      2:{ rewrite seq_length. lia. }
      2:{ rewrite toeplitz_spec, map_length, seq_length. lia. }
      rewrite map2_length, seq_length, toeplitz_spec, nth_map_seq by lia. rewrite roll_length. lia.
Qed.
