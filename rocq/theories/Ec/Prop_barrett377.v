(** C45: Barrett modular multiplication of field elements is exact.
    [row a i] is the i-th integer of the batch a; [chunked n a] says that a is a non-empty batch of n-chunk numbers. *)
From Coq Require Import ZArith List Bool Lia.
From Verif Require Import Base.ZSum Base.Word Base.Bits Base.Lists.
From Verif Require Import Ckks.Model_rns_utils Ec.Model_util Ec.Model_field Ec.Spec_chunks Ec.Proof_chunks Ec.Proof_carry Ec.Proof_arith Ec.Proof_mulchunks.
Import ListNotations.
Local Open Scope Z_scope.

(** the product of two chunked numbers, without reduction *)
Theorem C45_mul_2u16 : forall n a b, (2 <= n <= 64)%nat -> chunked n a -> chunked n b -> length a = length b ->
  exists c, mul_2u16 a b n = Some c /\ length c = length a /\ chunked (2 * n) c /\ forall i, (i < length a)%nat -> row c i = row a i * row b i.
Proof. exact mul_2u16_rows. Qed.
Print Assumptions C45_mul_2u16.
(** the same with bytes as output *)
Theorem C45_mul_2u16_bytes : forall n a b, (2 <= n <= 64)%nat -> chunked n a -> chunked n b -> length a = length b ->
  exists c, mul_2u16_u8 a b n = Some c /\ length c = length a /\ Forall (digits 8 (4 * n)) c /\ forall i, (i < length a)%nat -> chunk_value 8 (nth i c []) = row a i * row b i.
Proof. exact mul_u8_rows. Qed.
Print Assumptions C45_mul_2u16_bytes.

(** product with a constant and shift right by 760 bits *)
Theorem C45_mul_shift_2u16x2x1 : forall a b, chunked 48 a -> digits 16 24 b ->
  exists c, mul_shift_2u16x2x1 a b BARRETT_SHIFT_U8 U16_CHUNK_NUM U32_CHUNK_NUM = Some c /\ length c = length a /\ chunked 24 c /\
    forall i, (i < length a)%nat -> row c i = (row a i * chunk_value 16 b / 2 ^ 760) mod 2 ^ 384.
Proof. intros a b Ca Db. apply (mul_shift_rows 24 12 95 a b); try lia; try assumption. exists 25%nat. reflexivity. Qed.
Print Assumptions C45_mul_shift_2u16x2x1.

(** the constants *)
Theorem C45_constants : digits 16 24 MU_377_INT_CHUNK /\ chunk_value 16 MU_377_INT_CHUNK = 2 ^ 760 / MODULUS_377_INT /\ digits 16 24 MODULUS_377_INT_CHUNK /\ chunk_value 16 MODULUS_377_INT_CHUNK = MODULUS_377_INT /\ 2 ^ 376 < MODULUS_377_INT < 2 ^ 377.
Proof.
  assert (D : forall l, (length l =? 24)%nat && forallb (fun d => (0 <=? d) && (d <? 2 ^ 16)) l = true -> digits 16 24 l).
  { intros l H. apply andb_true_iff in H. destruct H as [L F]. split; [apply Nat.eqb_eq; exact L |]. apply Forall_forall. intros d Hd. rewrite forallb_forall in F. specialize (F d Hd). apply andb_true_iff in F. destruct F as [F1 F2]. apply Z.leb_le in F1. apply Z.ltb_lt in F2. lia. }
  split; [apply D; vm_compute; reflexivity |]. split; [vm_compute; reflexivity |]. split; [apply D; vm_compute; reflexivity |]. split; [vm_compute; reflexivity |]. split; vm_compute; reflexivity.
Qed.
Print Assumptions C45_constants.

(** the quotient estimate is short by at most one *)
Lemma barrett_quotient W p x : 0 < p -> 0 < W -> 0 <= x < W -> 0 <= x - (x * (W / p) / W) * p < 2 * p.
Proof.
  intros Hp HW Hx. pose proof (Z.div_mod W p ltac:(lia)) as E1. pose proof (Z.mod_pos_bound W p Hp) as R1. set (mu := W / p) in *. set (r := W mod p) in *.
  pose proof (Z.div_mod (x * mu) W ltac:(lia)) as E2. pose proof (Z.mod_pos_bound (x * mu) W HW) as R2. set (d := x * mu / W) in *. set (s := (x * mu) mod W) in *.
  assert (E : W * (x - d * p) = x * r + s * p). { assert (x * mu * p = (W * d + s) * p) by (rewrite E2; reflexivity). assert (x * W = x * (p * mu) + x * r) by (rewrite E1 at 1; ring). nia. }
  assert (0 <= x * r) by nia. assert (0 <= s * p) by nia. assert (x * r <= W * p) by nia. assert (s * p < W * p) by nia. split; nia.
Qed.

Lemma barrett_rows x : chunked 48 x -> exists c, barrett_reduction_u16x2 x = Some c /\ length c = length x /\ chunked 24 c /\ forall i, (i < length x)%nat -> row x i < 2 ^ 760 -> row c i = row x i mod MODULUS_377_INT.
Proof.
  intros Cx. destruct C45_constants as (DMu & VMu & DP & VP & BP). set (p := MODULUS_377_INT) in *. unfold barrett_reduction_u16x2.
  destruct (C45_mul_shift_2u16x2x1 x _ Cx DMu) as (d & Ed & Ld & Cd & Vd). rewrite Ed. cbn [bind].
  assert (CM : chunked 24 (broadcast d MODULUS_377_INT_CHUNK)). { split; [| apply broadcast_digits; exact DP]. destruct d; [destruct Cd; contradiction | discriminate]. }
  destruct (mul_2u16_rows 24 d _ ltac:(lia) Cd CM ltac:(symmetry; apply broadcast_length)) as (e & Ee & Le & Ce & Ve). change U16_CHUNK_NUM with 24%nat. rewrite Ee. cbn [bind].
  change (24 * 2)%nat with 48%nat. destruct (sub_2u16_rows 48 x e ltac:(lia) (proj1 Cx) ltac:(lia) (chunked_lengths 48 x Cx) (proj2 Ce)) as (t & Et & Lt & Ct & Vt). rewrite Et. cbn [bind].
  assert (CF : chunked 24 (map (firstn 24) t)). { split; [destruct t; [destruct Ct; contradiction | discriminate] |]. apply Forall_map. eapply Forall_impl; [| apply Ct]. cbn beta. intros r Dr. apply (digits_firstn 16 48); [exact Dr | lia]. }
  destruct (cond_sub_mod_rows 24 _ _ ltac:(lia) CF DP) as (c & Ec & Lc & Cc & Vc). exists c. rewrite map_length in *. split; [exact Ec |]. split; [lia |]. split; [exact Cc |].
  intros i Hi Hx. assert (B0 : 0 <= row x i) by (apply (value_bound 16 48); [lia | apply chunked_nth; assumption]).
  assert (Vd' : row d i = row x i * (2 ^ 760 / p) / 2 ^ 760). { rewrite Vd by exact Hi. rewrite VMu. apply Z.mod_small. split; [apply Z.div_pos; [| reflexivity]; apply Z.mul_nonneg_nonneg; [lia | apply Z.div_pos; [lia | unfold p; reflexivity]] |].
    apply Z.div_lt_upper_bound; [reflexivity |]. apply Z.le_lt_trans with (2 ^ 760 * (2 ^ 760 / p)); [apply Z.mul_le_mono_nonneg_r; [apply Z.div_pos; [lia | unfold p; reflexivity] | lia] |]. apply Z.mul_lt_mono_pos_l; [reflexivity |]. unfold p. vm_compute. reflexivity. }
  assert (Ve' : row e i = row d i * p). { rewrite Ve by lia. f_equal. unfold row. rewrite broadcast_nth by lia. exact VP. }
  pose proof (barrett_quotient (2 ^ 760) p (row x i) ltac:(unfold p; reflexivity) ltac:(reflexivity) ltac:(lia)) as Q. rewrite <- Vd', <- Ve' in Q.
  assert (P384 : 2 * 2 ^ 377 < 2 ^ 384 - 2 ^ 368) by reflexivity. assert (P768 : 2 ^ 384 <= 2 ^ 768 - 2 ^ 752) by (vm_compute; discriminate). assert (P368 : 0 < 2 ^ 368) by reflexivity.
  assert (Vt' : row t i = row x i - row e i).
  { apply Vt; [exact Hi |]. pose proof (chunked_nth 48 x i Cx Hi) as Dx. pose proof (chunked_nth 48 e i Ce ltac:(lia)) as De. split; [eapply digits_31; exact Dx |]. split; [apply digits_top; [lia | exact Dx | exact De | unfold row in Q; lia] |]. change (16 * Z.of_nat 48) with 768. change (16 * Z.of_nat (48 - 1)) with 752. unfold row in Q. lia. }
  assert (VF : row (map (firstn 24) t) i = row x i - row e i). { unfold row at 1. rewrite (nth_map_lt _ t i [] [] ltac:(lia)). rewrite (proj1 (value_split 16 48 24 _ ltac:(lia) (chunked_nth 48 t i Ct ltac:(lia)) ltac:(lia))). fold (row t i). rewrite Vt'. apply Z.mod_small. change (16 * Z.of_nat 24) with 384. lia. }
  destruct (Vc i ltac:(lia)) as [V1 V2]. rewrite VF, VP in V1, V2. change (16 * Z.of_nat 24) with 384 in V2. change (16 * Z.of_nat (24 - 1)) with 368 in V2.
  destruct (Z.lt_ge_cases (row x i - row e i) p) as [H | H].
  - rewrite (V1 H). apply (Z.mod_unique _ _ (row d i)); lia.
  - rewrite V2 by lia. apply (Z.mod_unique _ _ (row d i + 1)); lia.
Qed.

(** reduction of any number below 2^760 *)
Theorem C45_barrett_reduction : forall x, chunked 48 x ->
  exists c, barrett_reduction_u16x2 x = Some c /\ length c = length x /\ chunked 24 c /\ forall i, (i < length x)%nat -> row x i < 2 ^ 760 -> row c i = row x i mod MODULUS_377_INT.
Proof. exact barrett_rows. Qed.
Print Assumptions C45_barrett_reduction.

(** modular multiplication: exact whenever the product is below 2^760, in particular for all canonical field elements *)
Theorem C45_mod_mul_barrett : forall a b, chunked 24 a -> chunked 24 b -> length a = length b ->
  exists c, mod_mul_barrett_2u16 a b = Some c /\ length c = length a /\ chunked 24 c /\ forall i, (i < length a)%nat -> row a i * row b i < 2 ^ 760 -> row c i = (row a i * row b i) mod MODULUS_377_INT.
Proof.
  intros a b Ca Cb L. destruct (mul_2u16_rows 24 a b ltac:(lia) Ca Cb L) as (x & Ex & Lx & Cx & Vx). destruct (barrett_rows x Cx) as (c & Ec & Lc & Cc & Vc). exists c.
  split; [| split; [lia |]; split; [exact Cc |]; intros i Hi Hm; rewrite Vc by (rewrite ?Vx; lia); rewrite Vx by exact Hi; reflexivity].
  unfold mod_mul_barrett_2u16. change U16_CHUNK_NUM with 24%nat at 1. rewrite Ex. cbn [bind]. exact Ec.
Qed.
Print Assumptions C45_mod_mul_barrett.
Theorem C45_field_elements : forall a b, chunked 24 a -> chunked 24 b -> length a = length b -> (forall i, (i < length a)%nat -> row a i < MODULUS_377_INT /\ row b i < MODULUS_377_INT) ->
  exists c, mod_mul_barrett_2u16 a b = Some c /\ length c = length a /\ chunked 24 c /\ forall i, (i < length a)%nat -> row c i = (row a i * row b i) mod MODULUS_377_INT /\ 0 <= row c i < MODULUS_377_INT.
Proof.
  intros a b Ca Cb L H. destruct (C45_mod_mul_barrett a b Ca Cb L) as (c & Ec & Lc & Cc & Vc). exists c. split; [exact Ec |]. split; [exact Lc |]. split; [exact Cc |]. intros i Hi.
  assert (E : row c i = (row a i * row b i) mod MODULUS_377_INT).
  { apply Vc; [exact Hi |]. destruct (H i Hi) as [H1 H2]. destruct C45_constants as (_ & _ & _ & _ & BP). pose proof (value_bound 16 24 _ ltac:(lia) (chunked_nth 24 a i Ca Hi)) as B1. pose proof (value_bound 16 24 _ ltac:(lia) (chunked_nth 24 b i Cb ltac:(lia))) as B2. fold (row a i) in B1. fold (row b i) in B2.
    apply Z.le_lt_trans with (2 ^ 377 * 2 ^ 377); [apply Z.mul_le_mono_nonneg; lia | reflexivity]. }
  split; [exact E |]. rewrite E. apply Z.mod_pos_bound. reflexivity.
Qed.
Print Assumptions C45_field_elements.

Definition elem (x : Z) : list Z := chunks_or_nil x 24.
Example C45_example : mod_mul_barrett_2u16 [elem (MODULUS_377_INT - 1); elem (2 ^ 376 + 12345)] [elem (MODULUS_377_INT - 1); elem (2 ^ 375 + 99)] = Some [elem 1; elem (((2 ^ 376 + 12345) * (2 ^ 375 + 99)) mod MODULUS_377_INT)].
Proof. vm_compute. reflexivity. Qed.
Example C45_example_chunked : forallb (fun x => (length (elem x) =? 24)%nat && forallb (fun d => (0 <=? d) && (d <? 2 ^ 16)) (elem x)) [MODULUS_377_INT - 1; 2 ^ 376 + 12345; 2 ^ 375 + 99] = true.
Proof. vm_compute. reflexivity. Qed.

(** FINDING: for 24-chunk inputs whose product is 2^760 or more one conditional subtraction is not enough, and nothing rejects them *)
Theorem C45_large_inputs_refuted : ~ forall a b c, chunked 24 a -> chunked 24 b -> length a = length b -> mod_mul_barrett_2u16 a b = Some c -> row c 0 = (row a 0 * row b 0) mod MODULUS_377_INT.
Proof.
  intros H. assert (D : chunked 24 [repeat 65535 24]). { split; [discriminate |]. constructor; [| constructor]. split; [reflexivity |]. apply Forall_forall. intros x Hx. apply repeat_spec in Hx. subst x. lia. }
  destruct (C45_mod_mul_barrett _ _ D D eq_refl) as (c & Ec & _). pose proof (H _ _ _ D D eq_refl Ec) as E. assert (X : c = match mod_mul_barrett_2u16 [repeat 65535 24] [repeat 65535 24] with Some x => x | None => [] end) by (rewrite Ec; reflexivity). rewrite X in E. vm_compute in E. discriminate E.
Qed.
Print Assumptions C45_large_inputs_refuted.
