(** Lemmas on chunk vectors. *)
From Coq Require Import ZArith List Bool Lia.
From Verif Require Import Base.ZSum Base.Word Base.Bits.
From Verif Require Import Ckks.Model_rns_utils Ec.Model_util Ec.Spec_chunks.
Import ListNotations.
Local Open Scope Z_scope.

Lemma value_nonneg base l : 0 <= base -> Forall (fun d => 0 <= d) l -> 0 <= chunk_value base l.
Proof. intros Hb. induction 1 as [|d l Hd _ IH]; cbn [chunk_value]; [lia |]. pose proof (pow2_pos base Hb). nia. Qed.

Lemma value_app base a b : 0 <= base -> chunk_value base (a ++ b) = chunk_value base a + 2 ^ (base * Z.of_nat (length a)) * chunk_value base b.
Proof.
  intros Hb. induction a as [|d a IH]; [cbn [app chunk_value length]; rewrite Z.mul_0_r; change (2 ^ 0) with 1; ring |].
  cbn [app chunk_value length]. rewrite IH. rewrite Nat2Z.inj_succ. replace (base * Z.succ (Z.of_nat (length a))) with (base + base * Z.of_nat (length a)) by ring.
  rewrite Z.pow_add_r by nia. ring.
Qed.

Lemma value_bound base n l : 0 <= base -> digits base n l -> 0 <= chunk_value base l < 2 ^ (base * Z.of_nat n).
Proof.
  intros Hb [<- H]. induction H as [|d l Hd _ IH]; [cbn [chunk_value length]; rewrite Z.mul_0_r; cbn; lia |].
  cbn [chunk_value length]. rewrite Nat2Z.inj_succ. replace (base * Z.succ (Z.of_nat (length l))) with (base + base * Z.of_nat (length l)) by ring.
  rewrite Z.pow_add_r by nia. pose proof (pow2_pos base Hb). nia.
Qed.

Lemma value_inj base n a b : 0 <= base -> digits base n a -> digits base n b -> chunk_value base a = chunk_value base b -> a = b.
Proof.
  intros Hb. revert n b. induction a as [|x a IH]; intros n b [La Fa] [Lb Fb] E.
  - destruct b; [reflexivity | cbn in *; lia].
  - destruct b as [|y b]; [cbn in *; lia |]. cbn [chunk_value] in E. rewrite Forall_cons_iff in Fa, Fb. destruct Fa as [Hx Fa], Fb as [Hy Fb].
    pose proof (pow2_pos base Hb) as P.
    assert (D : x = y).
    { assert (X : (x + 2 ^ base * chunk_value base a) mod 2 ^ base = (y + 2 ^ base * chunk_value base b) mod 2 ^ base) by (rewrite E; reflexivity).
      rewrite !(Z.mul_comm (2 ^ base)), !Z_mod_plus_full, !Z.mod_small in X by lia. exact X. }
    subst y. f_equal. apply (IH (length a)); [split; [reflexivity | exact Fa] | split; [cbn in La, Lb; lia | exact Fb] | nia].
Qed.

Lemma value_zeros base n : chunk_value base (repeat 0 n) = 0.
Proof. induction n as [|n IH]; cbn [repeat chunk_value]; [reflexivity | rewrite IH; ring]. Qed.

Lemma digits_zeros base n : 0 <= base -> digits base n (repeat 0 n).
Proof. intros Hb. split; [apply repeat_length |]. apply Forall_forall. intros x Hx. apply repeat_spec in Hx. subst. pose proof (pow2_pos base Hb). lia. Qed.

Lemma value_map2_add base a b : length a = length b -> chunk_value base (map2 Z.add a b) = chunk_value base a + chunk_value base b.
Proof. revert b. induction a as [|x a IH]; intros [|y b] L; try discriminate; [reflexivity |]. cbn [map2 chunk_value]. rewrite IH by (cbn in L; lia). ring. Qed.
Lemma value_map2_sub base a b : length a = length b -> chunk_value base (map2 Z.sub a b) = chunk_value base a - chunk_value base b.
Proof. revert b. induction a as [|x a IH]; intros [|y b] L; try discriminate; [reflexivity |]. cbn [map2 chunk_value]. rewrite IH by (cbn in L; lia). ring. Qed.
Lemma value_scale base c l : chunk_value base (map (Z.mul c) l) = c * chunk_value base l.
Proof. induction l as [|x l IH]; cbn [map chunk_value]; [ring | rewrite IH; ring]. Qed.

(** the elements the conversion loop collects *)
Lemma elements_spec base : 1 <= base -> forall fuel x, x < 2 ^ Z.of_nat fuel ->
  Forall (fun d => 0 <= d < 2 ^ base) (int_elements fuel base x) /\ chunk_value base (int_elements fuel base x) = Z.max x 0 /\
  forall n, (length (int_elements fuel base x) <= n)%nat <-> x < 2 ^ (base * Z.of_nat n).
Proof.
  intros Hb. pose proof (pow2_pos base ltac:(lia)) as P. induction fuel as [|f IH]; intros x Hx.
  - cbn [int_elements Z.of_nat] in *. change (2 ^ 0) with 1 in Hx. destruct (Z.leb_spec x 0); [| lia]. split; [constructor |]. split; [cbn [chunk_value]; lia |].
    intros n. pose proof (pow2_pos (base * Z.of_nat n) ltac:(nia)). cbn. lia.
  - cbn [int_elements]. destruct (Z.leb_spec x 0).
    + split; [constructor |]. split; [cbn [chunk_value]; lia |]. intros n. pose proof (pow2_pos (base * Z.of_nat n) ltac:(nia)). cbn. lia.
    + rewrite Z.shiftl_1_l, land_mask, Z.shiftr_div_pow2 by lia. rewrite Nat2Z.inj_succ, Z.pow_succ_r in Hx by lia.
      destruct (IH (x / 2 ^ base)) as (F & V & LN).
      { apply Z.div_lt_upper_bound; [lia |]. assert (2 <= 2 ^ base) by (change 2 with (2 ^ 1) at 1; apply Z.pow_le_mono_r; lia). pose proof (pow2_pos (Z.of_nat f) ltac:(lia)). nia. }
      pose proof (Z.div_mod x (2 ^ base) ltac:(lia)) as DM. pose proof (Z.mod_pos_bound x (2 ^ base) P) as MB.
      assert (0 <= x / 2 ^ base) by (apply Z.div_pos; lia).
      split; [constructor; [exact MB | exact F] |]. split; [cbn [chunk_value]; rewrite V; lia |].
      intros [|n]; cbn [length].
      * rewrite Z.mul_0_r. change (2 ^ 0) with 1. lia.
      * assert (E : 2 ^ (base * Z.of_nat (S n)) = 2 ^ base * 2 ^ (base * Z.of_nat n)) by (rewrite Nat2Z.inj_succ; replace (base * Z.succ (Z.of_nat n)) with (base + base * Z.of_nat n) by ring; rewrite Z.pow_add_r by nia; reflexivity).
        rewrite E. specialize (LN n). split; intros HH.
        -- assert (x / 2 ^ base < 2 ^ (base * Z.of_nat n)) by (apply LN; lia). nia.
        -- assert (x / 2 ^ base < 2 ^ (base * Z.of_nat n)) by (apply Z.div_lt_upper_bound; lia). apply LN in H1. lia.
Qed.

Lemma fuel_enough x : x < 2 ^ Z.of_nat (Z.to_nat (Z.log2 x + 1)).
Proof.
  destruct (Z.le_gt_cases x 0) as [N | N].
  - pose proof (pow2_pos (Z.of_nat (Z.to_nat (Z.log2 x + 1))) ltac:(lia)). lia.
  - pose proof (Z.log2_nonneg x). rewrite Z2Nat.id by lia. pose proof (Z.log2_spec x N). rewrite Z.add_1_r. lia.
Qed.

Lemma lor_disjoint a b k : 0 <= k -> 0 <= a < 2 ^ k -> Z.lor a (Z.shiftl b k) = a + b * 2 ^ k.
Proof.
  intros Hk Ha. rewrite <- Z.shiftl_mul_pow2 by lia. rewrite <- Z.lxor_lor, <- Z.add_nocarry_lxor; try reflexivity;
  (apply Z.bits_inj'; intros i Hi; rewrite Z.land_spec, Z.bits_0; destruct (Z.lt_ge_cases i k) as [C | C];
   [rewrite (Z.shiftl_spec_low b) by lia; apply andb_false_r |
    replace (Z.testbit a i) with false; [reflexivity |]; symmetry; destruct (Z.eq_dec a 0) as [-> | NZ]; [apply Z.bits_0 |]; apply Z.bits_above_log2; [lia |]; apply Z.log2_lt_pow2; [lia |]; apply Z.lt_le_trans with (2 ^ k); [lia | apply Z.pow_le_mono_r; lia]]).
Qed.

(** array_to_int is the positional value *)
Lemma array_to_int_value base l : 0 <= base -> Forall (fun d => 0 <= d < 2 ^ base) l -> array_to_int l base = chunk_value base l.
Proof.
  intros Hb F. unfold array_to_int.
  assert (G : forall l k acc, Forall (fun d => 0 <= d < 2 ^ base) l -> 0 <= acc < 2 ^ (Z.of_nat k * base) ->
    fold_left (fun acc e => Z.lor acc (Z.shiftl (snd e) (Z.of_nat (fst e) * base))) (combine (seq k (length l)) l) acc = acc + 2 ^ (Z.of_nat k * base) * chunk_value base l).
  { clear l F. induction l as [|d l IH]; intros k acc F HA; [cbn; ring |]. rewrite Forall_cons_iff in F. destruct F as [Hd F]. cbn [length seq combine fold_left fst snd chunk_value].
    rewrite lor_disjoint by nia. rewrite IH; [| exact F |].
    - rewrite Nat2Z.inj_succ. replace (Z.succ (Z.of_nat k) * base) with (Z.of_nat k * base + base) by ring. rewrite Z.pow_add_r by nia. ring.
    - rewrite Nat2Z.inj_succ. replace (Z.succ (Z.of_nat k) * base) with (Z.of_nat k * base + base) by ring. rewrite Z.pow_add_r by nia. nia. }
  rewrite G; [cbn; destruct (chunk_value base l); reflexivity | exact F | cbn; lia].
Qed.

Lemma forallb_width base width l : base <= width -> 0 <= base -> Forall (fun d => 0 <= d < 2 ^ base) l -> forallb (fun e => e <? 2 ^ width) l = true.
Proof.
  intros HW Hb F. apply forallb_forall. intros x Hx. rewrite Forall_forall in F. specialize (F x Hx). apply Z.ltb_lt. pose proof (Z.pow_le_mono_r 2 base width ltac:(lia) HW). lia.
Qed.

Lemma int_to_array_ok x base width n : 1 <= base <= width -> 0 <= x < 2 ^ (base * Z.of_nat n) ->
  exists l, int_to_array x base width (Some n) = Some l /\ digits base n l /\ chunk_value base l = x.
Proof.
  intros Hb Hx. unfold int_to_array. destruct (Z.ltb_spec base 1); [lia |].
  destruct (elements_spec base ltac:(lia) _ x (fuel_enough x)) as (F & V & LN). set (els := int_elements _ _ _) in *. cbv zeta.
  assert (LE : (length els <= n)%nat) by (apply LN; lia). replace (length els <=? n)%nat with true by (symmetry; apply Nat.leb_le; exact LE). rewrite firstn_all2 by exact LE.
  assert (D : digits base n (els ++ repeat 0 (n - length els))).
  { split; [rewrite app_length, repeat_length; lia |]. apply Forall_app. split; [exact F | apply (digits_zeros base (n - length els)); lia]. }
  rewrite (forallb_width base width) by (try lia; apply D). eexists. split; [reflexivity |]. split; [exact D |]. rewrite value_app, V, value_zeros by lia. lia.
Qed.

Lemma int_to_array_large x base width n : 1 <= base -> 2 ^ (base * Z.of_nat n) <= x -> int_to_array x base width (Some n) = None.
Proof.
  intros Hb Hx. unfold int_to_array. destruct (Z.ltb_spec base 1); [lia |]. destruct (elements_spec base ltac:(lia) _ x (fuel_enough x)) as (F & V & LN). cbv zeta. set (els := int_elements _ _ _) in *.
  destruct (Nat.leb_spec (length els) n) as [C | C]; [| reflexivity]. apply LN in C. lia.
Qed.

(** a chunk vector is what int_to_array gives for its value *)
Lemma int_to_array_of_digits base width n l : 1 <= base <= width -> digits base n l -> int_to_array (chunk_value base l) base width (Some n) = Some l.
Proof.
  intros Hb D. destruct (int_to_array_ok (chunk_value base l) base width n Hb) as (l' & E & D' & V); [apply value_bound; [lia | exact D] |].
  rewrite E. f_equal. apply (value_inj base n); try assumption. lia.
Qed.
