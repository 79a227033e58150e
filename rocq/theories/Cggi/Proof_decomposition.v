From Coq Require Import ZArith List Lia Bool.
From Verif Require Import Base.ZSum Base.Modeq Base.Word Base.Bits Cggi.Model_decomposition.
Import ListNotations.
Local Open Scope Z_scope.

(** ** unsigned decomposition *)
Lemma shr32_shiftr x k : 0 <= k < 32 -> shr32 x k = Z.shiftr x k.
Proof. intros. rewrite shr32_val by assumption. rewrite Z.shiftr_div_pow2 by lia. reflexivity. Qed.

Lemma decompose_digit x b t i : 1 <= b -> t <= 32 -> (1 + Z.of_nat i) * b <= t ->
  shr32 (Z.land x (shr32 (u32 ((2 ^ b - 1) * 2 ^ (t - b))) (Z.of_nat i * b))) (t - (1 + Z.of_nat i) * b)
  = (x / 2 ^ (t - (1 + Z.of_nat i) * b)) mod 2 ^ b.
Proof.
  intros Hb Ht Hi. set (I := Z.of_nat i) in *. assert (0 <= I) by lia.
  assert (Hib : 0 <= I * b) by nia.
  assert (0 < 2 ^ b) by (apply pow2_pos; lia). assert (0 < 2 ^ (t - b)) by (apply pow2_pos; nia).
  rewrite u32_id.
  2:{ unfold word32. split; [nia|]. apply Z.lt_le_trans with (2 ^ b * 2 ^ (t - b)); [nia|].
      rewrite <- Z.pow_add_r by nia. change W32 with (2 ^ 32). apply pow2_le. lia. }
  rewrite (shr32_val _ (I * b)) by nia.
  replace ((2 ^ b - 1) * 2 ^ (t - b)) with ((2 ^ b - 1) * 2 ^ (t - (1 + I) * b) * 2 ^ (I * b)).
  2:{ rewrite <- Z.mul_assoc. f_equal. rewrite <- Z.pow_add_r by nia. f_equal. ring. }
  rewrite Z.div_mul by (apply Z.pow_nonzero; lia).
  set (s := t - (1 + I) * b) in *. assert (0 <= s < 32) by (unfold s; nia).
  rewrite shr32_shiftr by assumption. rewrite Z.shiftr_land.
  rewrite <- (Z.shiftl_mul_pow2 (2 ^ b - 1)) by lia. rewrite Z.shiftr_shiftl_l by lia. rewrite Z.sub_diag, Z.shiftl_0_r.
  rewrite land_mask by lia. rewrite Z.shiftr_div_pow2 by lia. reflexivity.
Qed.

Lemma decompose_spec x b L t : 1 <= b -> t <= 32 -> Z.of_nat L * b <= t ->
  decompose x b L t = map (fun i => (x / 2 ^ (t - (1 + Z.of_nat i) * b)) mod 2 ^ b) (seq 0 L).
Proof.
  intros Hb Ht HL. unfold decompose. apply map_ext_in. intros i Hi. apply in_seq in Hi.
  apply decompose_digit; nia.
Qed.

Lemma map2_seq {A B} (f : A -> nat -> B) l d : map2 f l (seq 0 (length l)) = map (fun i => f (nth i l d) i) (seq 0 (length l)).
Proof.
  apply (list_eq_nth (f d O)); [rewrite map2_length, map_length, seq_length; lia|].
  intros i Hi. rewrite map2_length, seq_length, Nat.min_id in Hi.
  rewrite (nth_map2 _ _ _ _ d O) by (rewrite ?seq_length; lia).
  rewrite nth_map_seq by lia. rewrite seq_nth by lia. reflexivity.
Qed.

Lemma decompose_telescope x b t L : 1 <= b -> Z.of_nat L * b <= t -> 
  zsum L (fun i => (x / 2 ^ (t - (1 + Z.of_nat i) * b)) mod 2 ^ b * 2 ^ (t - (1 + Z.of_nat i) * b))
  = x mod 2 ^ t - x mod 2 ^ (t - Z.of_nat L * b).
Proof.
  intros Hb. induction L as [|L IH]; intros HL; cbn [zsum].
  - replace (t - Z.of_nat 0 * b) with t by lia. ring.
  - rewrite IH by nia. replace (Z.of_nat (S L)) with (1 + Z.of_nat L) in * by lia.
    set (s := t - (1 + Z.of_nat L) * b) in *. assert (0 <= s) by (unfold s; lia).
    replace (t - Z.of_nat L * b) with (s + b) by (unfold s; ring).
    rewrite (Z.pow_add_r 2 s b) by lia. assert (0 < 2 ^ s) by (apply pow2_pos; lia).
    assert (0 < 2 ^ b) by (apply pow2_pos; lia). rewrite Z.rem_mul_r by lia. ring.
Qed.

Lemma recompose_decompose x b L t : 1 <= b -> 0 <= t <= 32 -> Z.of_nat L * b <= t -> 0 <= x < 2 ^ t ->
  recompose (decompose x b L t) b t = x - x mod 2 ^ (t - Z.of_nat L * b).
Proof.
  intros Hb Ht HL Hx. rewrite decompose_spec by lia. unfold recompose.
  rewrite map_length, seq_length.
  set (l := map _ _). assert (El : length l = L) by (unfold l; rewrite map_length, seq_length; reflexivity).
  rewrite <- El at 1. rewrite (map2_seq _ _ 0). rewrite lsum_map_seq, El.
  assert (Hle : 0 <= x mod 2 ^ (t - Z.of_nat L * b) <= x).
  { split; [apply Z.mod_pos_bound, pow2_pos; lia|]. apply Z.mod_le; [lia|apply pow2_pos; lia]. }
  assert (2 ^ t <= 2 ^ 32) by (apply pow2_le; lia). change (2 ^ 32) with W32 in *.
  apply eqm_small_mod; [lia| |lia].
  rewrite <- (Z.mod_small x (2 ^ t)) at 1 by lia.
  rewrite <- decompose_telescope by lia. apply eqm_zsum. intros i Hi. unfold l. rewrite nth_map_seq by lia.
  rewrite shl32_eqm by nia. reflexivity.
Qed.

Lemma decompose_error x b L t : 1 <= b -> 0 <= t <= 32 -> Z.of_nat L * b <= t -> 0 <= x < 2 ^ t ->
  0 <= x - recompose (decompose x b L t) b t < 2 ^ (t - Z.of_nat L * b).
Proof.
  intros. rewrite recompose_decompose by assumption.
  pose proof (Z.mod_pos_bound x (2 ^ (t - Z.of_nat L * b)) ltac:(apply pow2_pos; lia)). lia.
Qed.

(** ** signed decomposition *)
(** the k'th base-2^b digit, the carry into position k and the signed digit at position k *)
Definition udig (x b : Z) (k : nat) : Z := (x / 2 ^ (Z.of_nat k * b)) mod 2 ^ b.
Fixpoint carry (x b : Z) (k : nat) : Z :=
  match k with
  | O => 0
  | S j => if (2 ^ (b - 1) <=? udig x b j + carry x b j) && (udig x b j + carry x b j <? 2 ^ b) then 1 else 0
  end.
Definition sdig (x b : Z) (k : nat) : Z := udig x b k + carry x b k - 2 ^ b * carry x b (S k).

Lemma carry_01 x b k : carry x b k = 0 \/ carry x b k = 1.
Proof. destruct k; cbn [carry]; [auto|]. destruct (_ && _); auto. Qed.

Lemma udig_range x b k : 0 <= b -> 0 <= udig x b k < 2 ^ b.
Proof. intros. apply Z.mod_pos_bound, pow2_pos. assumption. Qed.

Lemma pow2_half b : 1 <= b -> 2 ^ b = 2 * 2 ^ (b - 1).
Proof. intros. rewrite <- pow2_S by lia. f_equal. lia. Qed.

Lemma sdig_range x b k : 1 <= b -> - 2 ^ (b - 1) <= sdig x b k < 2 ^ (b - 1) \/ sdig x b k = 2 ^ b.
Proof.
  intros Hb. pose proof (udig_range x b k ltac:(lia)). pose proof (carry_01 x b k). pose proof (pow2_half b Hb).
  unfold sdig. cbn [carry].
  destruct ((2 ^ (b - 1) <=? udig x b k + carry x b k) && (udig x b k + carry x b k <? 2 ^ b)) eqn:E; lia.
Qed.

Lemma carry_mask_val v b : 1 <= b -> 0 <= v <= 2 ^ b ->
  Z.land v (2 ^ (b - 1)) = if (2 ^ (b - 1) <=? v) && (v <? 2 ^ b) then 2 ^ (b - 1) else 0.
Proof.
  intros Hb Hv. pose proof (pow2_half b Hb) as Hh. assert (Hp : 0 < 2 ^ (b - 1)) by (apply pow2_pos; lia).
  set (h := 2 ^ (b - 1)) in *.
  assert (Ht : forall w, Z.land w h = if Z.testbit w (b - 1) then h else 0).
  { intros w. apply Z.bits_inj'. intros n Hn. rewrite Z.land_spec. unfold h. rewrite Z.pow2_bits_eqb by lia.
    destruct (Z.eqb_spec (b - 1) n) as [<-|Hne].
    - destruct (Z.testbit w (b - 1)); [rewrite Z.pow2_bits_true by lia|rewrite Z.bits_0]; reflexivity.
    - rewrite andb_false_r. destruct (Z.testbit w (b - 1)); [rewrite Z.pow2_bits_false by lia|rewrite Z.bits_0]; reflexivity. }
  rewrite Ht.
  assert (Etb : Z.testbit v (b - 1) = ((h <=? v) && (v <? 2 ^ b))).
  { apply eq_true_iff_eq. rewrite andb_true_iff, Z.leb_le, Z.ltb_lt.
    rewrite Z.testbit_true by lia. fold h. rewrite Hh in *.
    destruct (Z_lt_le_dec v h); [rewrite Z.div_small by lia; change (0 mod 2) with 0; lia|].
    destruct (Z_lt_le_dec v (2 * h)).
    - assert (E : v / h = 1) by (symmetry; apply Z.div_unique with (v - h); lia). rewrite E. change (1 mod 2) with 1. lia.
    - assert (E : v / h = 2) by (symmetry; apply Z.div_unique with (v - 2 * h); lia). rewrite E. change (2 mod 2) with 0. lia. }
  rewrite Etb. reflexivity.
Qed.

Lemma s32_eqm x : s32 x == x [mod W32].
Proof.
  unfold s32. destruct (_ <? _); [apply u32_eqm|]. rewrite <- (u32_eqm x) at 2. apply eqm_ex. exists (-1). ring.
Qed.

Lemma s32_u32 d : - 2147483648 <= d < 2147483648 -> s32 (u32 d) = d.
Proof.
  intros. unfold s32. rewrite u32_u32. unfold u32. destruct (Z_lt_le_dec d 0).
  - assert (E : d mod W32 = d + W32) by (symmetry; apply Z.mod_unique with (-1); lia). rewrite E.
    destruct (Z.ltb_spec (d + W32) 2147483648); lia.
  - rewrite Z.mod_small by lia. destruct (Z.ltb_spec d 2147483648); lia.
Qed.

Lemma u32_congr a b : a == b [mod W32] -> u32 a = u32 b.
Proof. intros. apply eqm_mod_iff; [lia|assumption]. Qed.

Lemma signed_digits_spec x b n : forall i, 1 <= b < 32 -> (Z.of_nat (i + n)) * b <= 32 ->
  signed_digits x b n i (carry x b i) = map (fun j => u32 (sdig x b j)) (seq i n).
Proof.
  induction n as [|n IH]; intros i Hb Hi; cbn [signed_digits seq map]; [reflexivity|].
  pose proof (pow2_half b ltac:(lia)) as Hh. assert (Hp : 0 < 2 ^ (b - 1)) by (apply pow2_pos; lia).
  assert (Hbb : 2 ^ b <= 2 ^ 31) by (apply pow2_le; lia). change (2 ^ 31) with 2147483648 in Hbb.
  assert (Eu : add32 (Z.land (shr32 x (Z.of_nat i * b)) (2 ^ b - 1)) (carry x b i) = udig x b i + carry x b i).
  { rewrite land_mask by lia. rewrite shr32_val by nia. unfold add32. apply u32_id.
    pose proof (udig_range x b i ltac:(lia)). pose proof (carry_01 x b i). fold (udig x b i). unfold word32. lia. }
  rewrite Eu. pose proof (udig_range x b i ltac:(lia)) as Hu. pose proof (carry_01 x b i) as Hc.
  rewrite carry_mask_val by lia.
  assert (Es : shr32 (if (2 ^ (b - 1) <=? udig x b i + carry x b i) && (udig x b i + carry x b i <? 2 ^ b) then 2 ^ (b - 1) else 0) (b - 1)
          = carry x b (S i)).
  { rewrite shr32_val by lia. cbn [carry]. destruct (_ && _); [apply Z.div_same; lia|apply Z.div_0_l; lia]. }
  f_equal.
  - apply u32_congr. rewrite !s32_eqm. rewrite shl32_eqm by lia. change (2 ^ 1) with 2.
    unfold sdig. cbn [carry]. destruct (_ && _); apply eqm_eq; lia.
  - rewrite Es. apply IH; [assumption|]. replace (S i + n)%nat with (i + S n)%nat by lia. assumption.
Qed.

Lemma firstn_map {A B} (f : A -> B) l n : firstn n (map f l) = map f (firstn n l).
Proof. revert n. induction l as [|x l IH]; intros [|n]; cbn; auto. f_equal. apply IH. Qed.

Lemma rev_seq_firstn {A} (f : nat -> A) n L : (L <= n)%nat ->
  firstn L (rev (map f (seq 0 n))) = map (fun l => f (n - 1 - l)%nat) (seq 0 L).
Proof.
  intros HL. rewrite <- map_rev, firstn_map, <- (map_map (fun l => (n - 1 - l)%nat) f). f_equal.
  apply (list_eq_nth O).
  - rewrite firstn_length, rev_length, map_length, !seq_length. lia.
  - intros i Hi. rewrite firstn_length, rev_length, seq_length in Hi.
    assert (Ei : nth i (firstn L (rev (seq 0 n))) O = nth i (rev (seq 0 n)) O).
    { rewrite <- (firstn_skipn L (rev (seq 0 n))) at 2. rewrite app_nth1; [reflexivity|].
      rewrite firstn_length, rev_length, seq_length. lia. }
    rewrite Ei, rev_nth by (rewrite seq_length; lia). rewrite seq_length, seq_nth by lia.
    rewrite nth_map_seq by lia. lia.
Qed.

Lemma signed_decomposition_spec x b n L : 1 <= b < 32 -> Z.of_nat n * b <= 32 -> (L <= n)%nat ->
  signed_decomposition x b L (Z.of_nat n * b) = map (fun l => u32 (sdig x b (n - 1 - l))) (seq 0 L).
Proof.
  intros Hb Hn HL. unfold signed_decomposition. rewrite Z.div_mul by lia. rewrite Nat2Z.id.
  change 0 with (carry x b 0). rewrite signed_digits_spec by (assumption || lia).
  apply (rev_seq_firstn (fun j => u32 (sdig x b j))). assumption.
Qed.

(** partial sums of the signed digits *)
Lemma sdig_sum x b k : 0 <= b ->
  zsum k (fun j => sdig x b j * 2 ^ (Z.of_nat j * b)) = x mod 2 ^ (Z.of_nat k * b) - carry x b k * 2 ^ (Z.of_nat k * b).
Proof.
  intros Hb. induction k as [|k IH]; cbn [zsum].
  - cbn. rewrite Z.mod_1_r. reflexivity.
  - rewrite IH. replace (Z.of_nat (S k) * b) with (Z.of_nat k * b + b) by lia.
    rewrite Z.pow_add_r by lia. assert (0 < 2 ^ b) by (apply pow2_pos; lia).
    assert (0 < 2 ^ (Z.of_nat k * b)) by (apply pow2_pos; lia).
    rewrite Z.rem_mul_r by lia. unfold sdig, udig. ring.
Qed.

Definition sdec_err (x b : Z) (k : nat) : Z := x mod 2 ^ (Z.of_nat k * b) - carry x b k * 2 ^ (Z.of_nat k * b).

Lemma sdec_err_bound x b k : 0 <= b -> - 2 ^ (Z.of_nat k * b) <= sdec_err x b k < 2 ^ (Z.of_nat k * b).
Proof.
  intros. unfold sdec_err. pose proof (Z.mod_pos_bound x (2 ^ (Z.of_nat k * b)) ltac:(apply pow2_pos; lia)).
  destruct (carry_01 x b k) as [-> | ->]; lia.
Qed.

(** sharper lower bound *)
Lemma sdec_err_lower x b k : 1 <= b -> - (2 ^ b * (2 ^ (Z.of_nat k * b) - 1)) <= 2 * (2 ^ b - 1) * sdec_err x b k.
Proof.
  intros Hb. unfold sdec_err. rewrite <- sdig_sum by lia.
  pose proof (pow2_half b Hb) as Hh. assert (Hp : 0 < 2 ^ (b - 1)) by (apply pow2_pos; lia).
  induction k as [|k IH]; cbn [zsum]; [cbn; lia|].
  replace (Z.of_nat (S k) * b) with (Z.of_nat k * b + b) by lia. rewrite Z.pow_add_r by lia.
  assert (0 < 2 ^ (Z.of_nat k * b)) by (apply pow2_pos; lia).
  assert (- 2 ^ (b - 1) <= sdig x b k) by (pose proof (sdig_range x b k Hb); lia).
  set (P := 2 ^ (Z.of_nat k * b)) in *. set (B := 2 ^ b) in *. set (S := zsum k _) in *. set (d := sdig x b k) in *.
  assert (2 * (B - 1) * (d * P) >= - B * ((B - 1) * P)).
  { assert (2 * d >= - B) by lia. assert (0 <= (B - 1) * P) by nia. nia. }
  nia.
Qed.

Lemma err0 x b : sdec_err x b 0 = 0.
Proof. unfold sdec_err. cbn. rewrite Z.mod_1_r. reflexivity. Qed.

(** kept digits recompose to x minus the truncation error *)
Lemma sdig_top_sum x b n L : 0 <= b -> (L <= n)%nat ->
  zsum L (fun l => sdig x b (n - 1 - l) * 2 ^ (Z.of_nat n * b - (1 + Z.of_nat l) * b))
  = sdec_err x b n - sdec_err x b (n - L).
Proof.
  intros Hb HL. unfold sdec_err. rewrite <- !sdig_sum by assumption.
  set (F := fun j : nat => sdig x b j * 2 ^ (Z.of_nat j * b)).
  assert (E : zsum n F = zsum (n - L) F + zsum L (fun i => F (n - L + i)%nat)).
  { rewrite <- zsum_split. f_equal. lia. }
  rewrite E. rewrite (zsum_rev L (fun i => F (n - L + i)%nat)).
  match goal with |- ?A = ?B + ?C - ?B => replace (B + C - B) with C by ring end.
  apply zsum_ext. intros i Hi. unfold F. replace (n - L + (L - 1 - i))%nat with (n - 1 - i)%nat by lia. f_equal. f_equal.
  rewrite !Nat2Z.inj_sub by lia. lia.
Qed.

Lemma sdec_err_full x b n : 0 <= b -> sdec_err x b n == x [mod 2 ^ (Z.of_nat n * b)].
Proof.
  intros. unfold sdec_err. rewrite eqm_mod. apply eqm_ex. exists (- carry x b n). ring.
Qed.
