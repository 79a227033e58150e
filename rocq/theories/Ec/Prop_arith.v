(** C44: chunked addition, subtraction and comparison are integer operations.
    [row a i] is the i-th integer of the batch a; [chunked n a] says that a is a non-empty batch of n-chunk numbers. *)
From Coq Require Import ZArith List Bool Lia.
From Verif Require Import Base.ZSum Base.Word Base.Bits Base.Lists.
From Verif Require Import Ckks.Model_rns_utils Ec.Model_util Ec.Model_field Ec.Spec_chunks Ec.Proof_chunks Ec.Proof_carry Ec.Proof_arith.
Import ListNotations.
Local Open Scope Z_scope.

Theorem C44_add_2u16 : forall n a b, (2 <= n)%nat -> chunked n a -> chunked n b -> length a = length b ->
  exists c, add_2u16 a b = Some c /\ length c = length a /\ chunked n c /\
    forall i, (i < length a)%nat -> row a i + row b i < 2 ^ (16 * Z.of_nat n) -> row c i = row a i + row b i.
Proof. exact add_2u16_rows. Qed.
Print Assumptions C44_add_2u16.

Theorem C44_add_3u16 : forall n a b d, (2 <= n)%nat -> chunked n a -> chunked n b -> chunked n d -> length a = length b -> length a = length d ->
  exists c, add_3u16 a b d = Some c /\ length c = length a /\ chunked n c /\
    forall i, (i < length a)%nat -> row a i + row b i + row d i < 2 ^ (16 * Z.of_nat n) -> row c i = row a i + row b i + row d i.
Proof. exact add_3u16_rows. Qed.
Print Assumptions C44_add_3u16.

(** the difference, for a >= b whose difference leaves the top chunk below 0xFFFF *)
Theorem C44_sub_2u16_partial : forall n a b, (2 <= n)%nat -> chunked n a -> chunked n b -> length a = length b ->
  exists c, sub_2u16 a b U16_MASK n = Some c /\ length c = length a /\ chunked n c /\
    forall i, (i < length a)%nat -> 0 <= row a i - row b i < 2 ^ (16 * Z.of_nat n) - 2 ^ (16 * Z.of_nat (n - 1)) -> row c i = row a i - row b i.
Proof.
  intros n a b Hn Ca Cb L. destruct (sub_2u16_rows n a b Hn (proj1 Ca) L (chunked_lengths n a Ca) (proj2 Cb)) as (c & E & Lc & Cc & H). exists c. split; [exact E |]. split; [exact Lc |]. split; [exact Cc |].
  intros i Hi V. apply H; [exact Hi |]. pose proof (chunked_nth n a i Ca Hi) as Da. pose proof (chunked_nth n b i Cb ltac:(lia)) as Db. split; [eapply digits_31; exact Da |]. split; [apply digits_top; [lia | exact Da | exact Db | unfold row in V; lia] | exact V].
Qed.
Print Assumptions C44_sub_2u16_partial.

(** FINDING: without the restriction the result can be one too large, because the carry out of the top chunk is rolled into
    the lowest one *)
Theorem C44_sub_2u16_refuted : ~ forall n a b c, (2 <= n)%nat -> chunked n a -> chunked n b -> length a = length b -> row b 0 <= row a 0 -> sub_2u16 a b U16_MASK n = Some c -> row c 0 = row a 0 - row b 0.
Proof.
  intros H. specialize (H 2%nat [[5; 65535]] [[3; 0]] [[3; 65535]]). unfold row in H. cbn [nth] in H.
  assert (D : forall x y, 0 <= x < 2 ^ 16 -> 0 <= y < 2 ^ 16 -> chunked 2 [[x; y]]) by (intros; split; [discriminate |]; constructor; [split; [reflexivity |]; constructor; [assumption |]; constructor; [assumption | constructor] | constructor]).
  specialize (H ltac:(lia) (D 5 65535 ltac:(lia) ltac:(lia)) (D 3 0 ltac:(lia) ltac:(lia)) eq_refl ltac:(vm_compute; discriminate) ltac:(vm_compute; reflexivity)). vm_compute in H. discriminate H.
Qed.
Print Assumptions C44_sub_2u16_refuted.

(** likewise a sum that does not fit is not reduced modulo 2^(16n): the carry is added to the lowest chunk *)
Theorem C44_add_overflow_refuted : ~ forall n a b c, (2 <= n)%nat -> chunked n a -> chunked n b -> length a = length b -> add_2u16 a b = Some c -> row c 0 = (row a 0 + row b 0) mod 2 ^ (16 * Z.of_nat n).
Proof.
  intros H. specialize (H 2%nat [[0; 65535]] [[0; 1]] [[1; 0]]). unfold row in H. cbn [nth] in H.
  assert (D : forall x y, 0 <= x < 2 ^ 16 -> 0 <= y < 2 ^ 16 -> chunked 2 [[x; y]]) by (intros; split; [discriminate |]; constructor; [split; [reflexivity |]; constructor; [assumption |]; constructor; [assumption | constructor] | constructor]).
  specialize (H ltac:(lia) (D 0 65535 ltac:(lia) ltac:(lia)) (D 0 1 ltac:(lia) ltac:(lia)) eq_refl ltac:(vm_compute; reflexivity)). vm_compute in H. discriminate H.
Qed.
Print Assumptions C44_add_overflow_refuted.

(** comparison: the result has the sign of a - b; up to 31 chunks the int32 weights exist, beyond that the call is rejected *)
Theorem C44_compare_u16 : forall n a b, (n <= 31)%nat -> digits 16 n a -> digits 16 n b ->
  exists c, compare_u16 a b n = Some c /\ (0 < c <-> chunk_value 16 b < chunk_value 16 a) /\ (c = 0 <-> chunk_value 16 a = chunk_value 16 b) /\ (c < 0 <-> chunk_value 16 a < chunk_value 16 b).
Proof.
  intros n a b Hn Da Db. destruct (compare_ok n a b Hn Da Db) as (c & E & S). exists c. split; [exact E |].
  destruct (Z.sgn_spec (chunk_value 16 a - chunk_value 16 b)) as [(? & X) | [(? & X) | (? & X)]]; rewrite X in S; destruct c; cbn in S; lia.
Qed.
Print Assumptions C44_compare_u16.
Theorem C44_compare_wide_rejected : forall n a b, (31 < n)%nat -> compare_u16 a b n = None.
Proof. intros n a b Hn. unfold compare_u16. replace (n <=? 31)%nat with false by (symmetry; apply Nat.leb_gt; exact Hn). rewrite andb_false_r. reflexivity. Qed.
Print Assumptions C44_compare_wide_rejected.

(** conditional subtraction of a modulus m *)
Theorem C44_cond_sub_mod_u16 : forall n m a, (2 <= n <= 31)%nat -> chunked n a -> digits 16 n m ->
  exists c, cond_sub_mod_u16 a m n = Some c /\ length c = length a /\ chunked n c /\ forall i, (i < length a)%nat ->
    (row a i < chunk_value 16 m -> row c i = row a i) /\
    (chunk_value 16 m <= row a i -> row a i - chunk_value 16 m < 2 ^ (16 * Z.of_nat n) - 2 ^ (16 * Z.of_nat (n - 1)) -> row c i = row a i - chunk_value 16 m).
Proof. exact cond_sub_mod_rows. Qed.
Print Assumptions C44_cond_sub_mod_u16.

(** modular subtraction of canonical residues, for every modulus whose top chunk is below 0xFFFF *)
Theorem C44_cond_sub_2u16 : forall n m a b, (2 <= n <= 31)%nat -> chunked n a -> chunked n b -> length a = length b -> digits 16 n m -> chunk_value 16 m < 2 ^ (16 * Z.of_nat n) - 2 ^ (16 * Z.of_nat (n - 1)) ->
  exists c, cond_sub_2u16 a b m n = Some c /\ length c = length a /\ chunked n c /\ forall i, (i < length a)%nat ->
    row a i < chunk_value 16 m -> row b i < chunk_value 16 m -> row c i = (row a i - row b i) mod chunk_value 16 m.
Proof.
  intros n m a b Hn Ca Cb L Dm Vm. destruct (cond_sub_2u16_rows n m a b Hn Ca Cb L Dm) as (c & E & Lc & Cc & H). exists c. split; [exact E |]. split; [exact Lc |]. split; [exact Cc |]. intros i Hi Va Vb.
  destruct (H i Hi) as [H1 H2]. pose proof (value_bound 16 n _ ltac:(lia) (chunked_nth n a i Ca Hi)) as Ba. pose proof (value_bound 16 n _ ltac:(lia) (chunked_nth n b i Cb ltac:(lia))) as Bb. fold (row a i) in Ba. fold (row b i) in Bb.
  destruct (Z.le_gt_cases (row b i) (row a i)) as [C | C].
  - rewrite H1 by lia. symmetry. apply Z.mod_small. lia.
  - rewrite H2; [| exact C | | lia].
    + apply (Z.mod_unique_pos (row a i - row b i) _ (-1)); lia.
    + apply digits_top; [lia | exact Dm | apply (chunked_nth n b i Cb); lia | unfold row in Vb; lia].
Qed.
Print Assumptions C44_cond_sub_2u16.

(** the while loops end on every array of machine words, whatever its contents *)
Theorem C44_carry_loop_terminates : forall w s n b, (w, s) = (32, 16) \/ (w, s) = (64, 32) -> (2 <= n)%nat -> b <> [] -> Forall (fun r => length r = n /\ Forall (fun v => 0 <= v < 2 ^ w) r) b ->
  exists c, carry_loop w (2 ^ s - 1) s b = Some c /\ length c = length b /\ Forall (fun r => length r = n /\ Forall (fun v => 0 <= v < 2 ^ s) r) c.
Proof.
  intros w s n b HW Hn N F. assert (B : 0 <= w <= 64 /\ 1 <= s) by (destruct HW as [E | E]; injection E as -> ->; lia).
  destruct (carry_loop_ends w s n b) as (c & E & BI & C & L); try lia; try assumption. exists c. split; [exact E |]. split; [exact L |].
  apply Forall_forall. intros r Hr. pose proof (proj1 (Forall_forall _ _) BI r Hr) as [Lr Fr]. split; [exact Lr |]. apply Forall_forall. intros v Hv. rewrite Forall_forall in Fr. specialize (Fr v Hv). split; [lia |]. apply (no_carry_digits s c ltac:(lia) C r v Hr Hv). lia.
Qed.
Print Assumptions C44_carry_loop_terminates.

(** the cut-off of the modelled loop is only reached by loops that run at least 2^k times: a successful result is the
    state after some number of iterations, the first at which the condition is false *)
Theorem C44_while_loop_faithful : forall (A : Type) k (cond : A -> bool) (body : A -> A) x y, while_loop k cond body x = Some y ->
  exists t, y = Nat.iter t body x /\ cond y = false /\ forall t', (t' < t)%nat -> cond (Nat.iter t' body x) = true.
Proof.
  intros A k cond body x y. unfold while_loop.
  assert (G : forall kk x, let '(stop, y) := while_run kk cond body x in exists t, y = Nat.iter t body x /\ (stop = true -> cond y = false) /\ forall t', (t' < t)%nat -> cond (Nat.iter t' body x) = true).
  { induction kk as [|k' IH]; intros z; cbn [while_run]; destruct (cond z) eqn:C.
    - exists 1%nat. split; [reflexivity |]. split; [discriminate |]. intros [|t'] Ht; [exact C | lia].
    - exists 0%nat. split; [reflexivity |]. split; [auto |]. intros; lia.
    - pose proof (IH z) as H1. destruct (while_run k' cond body z) as [stop u]. destruct H1 as (t & -> & H2 & H3). destruct stop; [exists t; auto |].
      pose proof (IH (Nat.iter t body z)) as H4. destruct (while_run k' cond body (Nat.iter t body z)) as [stop2 v]. destruct H4 as (t2 & -> & H5 & H6).
      assert (IT : forall p q, Nat.iter p body (Nat.iter q body z) = Nat.iter (p + q) body z). { clear. induction p as [|p IH]; intros q; [reflexivity |]. change (body (Nat.iter p body (Nat.iter q body z)) = body (Nat.iter (p + q) body z)). rewrite IH. reflexivity. }
      exists (t2 + t)%nat. rewrite IT in *. split; [reflexivity |]. split; [exact H5 |]. intros t' Ht. destruct (Nat.lt_ge_cases t' t); [apply H3; assumption |].
      specialize (H6 (t' - t)%nat ltac:(lia)). rewrite IT in H6. replace (t' - t + t)%nat with t' in H6 by lia. exact H6.
    - exists 0%nat. split; [reflexivity |]. split; [auto |]. intros; lia. }
  pose proof (G k x) as H. destruct (while_run k cond body x) as [stop z]. destruct H as (t & Hz & H2 & H3). intros E.
  assert (y = z /\ cond z = false) as [-> C]. { destruct stop; [injection E as <-; auto |]. destruct (cond z) eqn:C; [discriminate E |]. injection E as <-. auto. }
  exists t. auto.
Qed.
Print Assumptions C44_while_loop_faithful.

(** concrete cases: carries through several chunks, a borrow, a modular difference, two rows at once *)
Example C44_example_chunked : chunked 3 [[65535; 65535; 7]; [1; 0; 0]].
Proof. split; [discriminate |]. constructor; [split; [reflexivity |] |]. { constructor; [lia |]. constructor; [lia |]. constructor; [lia | constructor]. } constructor; [| constructor]. split; [reflexivity |]. constructor; [lia |]. constructor; [lia |]. constructor; [lia | constructor]. Qed.
Example C44_example :
  add_2u16 [[65535; 65535; 7]; [1; 0; 0]] [[1; 0; 0]; [2; 3; 4]] = Some [[0; 0; 8]; [3; 3; 4]] /\
  sub_2u16 [[0; 0; 8]] [[1; 0; 0]] U16_MASK 3 = Some [[65535; 65535; 7]] /\
  compare_u16 [9; 9; 1] [0; 0; 2] 3 = Some (-1) /\
  cond_sub_2u16 [[5; 0; 0]; [9; 0; 0]] [[9; 0; 0]; [5; 0; 0]] [11; 0; 1] 3 = Some [[7; 0; 1]; [4; 0; 0]].
Proof. vm_compute. repeat split. Qed.
