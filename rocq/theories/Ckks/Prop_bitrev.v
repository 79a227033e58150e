(** C25: the three bit-reversal routines describe the same involutive permutation. *)
From Coq Require Import ZArith List Bool Lia Permutation.
From Verif Require Import Base.Lists Base.Bitrev Base.ZSum Ckks.Model_rns_utils Ckks.Model_math Ckks.Model_ntt_cpu Ckks.Proof_bitrev.
Import ListNotations.
Local Open Scope Z_scope.

(** The specification: y is x with its low L bits in reverse order. *)
Definition reverses (L x y : nat) : Prop := forall i, Nat.testbit y i = if (i <? L)%nat then Nat.testbit x (L - 1 - i) else false.

Lemma reverses_brev L x y : reverses L x y <-> y = brev L x.
Proof.
  split.
  - intros H. apply Nat.bits_inj. intros i. rewrite H, brev_testbit. reflexivity.
  - intros -> i. apply brev_testbit.
Qed.

(** C25: entry i of both permutation tables is the bit reversal of i, so the tables are equal. *)
Theorem C25_tables_reverse_bits : forall L i, (L <= 32)%nat -> (i < 2 ^ L)%nat ->
  reverses L i (Z.to_nat (nth i (get_bit_reverse_perm (2 ^ L)) 0)) /\
  reverses L i (Z.to_nat (nth i (get_bit_reversal_perm (2 ^ L)) 0)).
Proof.
  intros L i HL Hi. rewrite get_bit_reverse_perm_spec, (get_bit_reversal_perm_spec L HL).
  rewrite nth_map_seq by exact Hi. rewrite Nat2Z.id. split; apply reverses_brev; reflexivity.
Qed.
Theorem C25_tables_equal : forall L, (L <= 32)%nat -> get_bit_reverse_perm (2 ^ L) = get_bit_reversal_perm (2 ^ L).
Proof. intros L HL. rewrite get_bit_reverse_perm_spec, (get_bit_reversal_perm_spec L HL). reflexivity. Qed.

(** C25: the in-place array routine applies that permutation, whatever the entries are, and applying it twice is the identity. *)
Theorem C25_array_reverses : forall (A : Type) (d : A) L (xs : list A) i y, length xs = (2 ^ L)%nat -> (i < 2 ^ L)%nat -> reverses L i y ->
  length (bit_reversal_array d xs) = length xs /\ nth i (bit_reversal_array d xs) d = nth y xs d.
Proof.
  intros A d L xs i y Hl Hi Hy. apply reverses_brev in Hy. subst y. rewrite (bit_reversal_array_spec d L xs Hl). split.
  - rewrite map_length, seq_length, Hl. reflexivity.
  - rewrite nth_map_seq by exact Hi. reflexivity.
Qed.
Theorem C25_array_involutive : forall (A : Type) (d : A) L (xs : list A), length xs = (2 ^ L)%nat ->
  bit_reversal_array d (bit_reversal_array d xs) = xs.
Proof.
  intros A d L xs Hl. rewrite (bit_reversal_array_spec d L xs Hl).
  rewrite (bit_reversal_array_spec d L) by (rewrite map_length, seq_length; reflexivity).
  apply (list_ext d); [rewrite map_length, seq_length, Hl; reflexivity |].
  intros i Hi. rewrite map_length, seq_length in Hi. rewrite nth_map_seq by exact Hi. rewrite nth_map_seq by apply brev_lt.
  f_equal. apply brev_involutive. exact Hi.
Qed.
(** C25: it is a permutation: the result has the same entries, each as often. *)
Theorem C25_array_permutation : forall (A : Type) (d : A) L (xs : list A), length xs = (2 ^ L)%nat -> Permutation xs (bit_reversal_array d xs).
Proof.
  intros A d L xs Hl. rewrite (bit_reversal_array_spec d L xs Hl). apply (Permutation_nth _ _ d).
  split; [rewrite map_length, seq_length, Hl; reflexivity |].
  exists (brev L). rewrite Hl. split; [| split].
  - intros x _. apply brev_lt.
  - intros x y Hx Hy H. apply (brev_inj L); assumption.
  - intros x Hx. rewrite nth_map_seq by exact Hx. reflexivity.
Qed.
(** C25: indexing twice with the table used by the CPU NTT is the identity. *)
Theorem C25_table_involutive : forall L a, (L <= 32)%nat -> length a = (2 ^ L)%nat ->
  permute (get_bit_reversal_perm (2 ^ L)) (permute (get_bit_reversal_perm (2 ^ L)) a) = a.
Proof.
  intros L a HL Hl. rewrite (permute_brev L a Hl HL).
  rewrite permute_brev; [| rewrite map_length, seq_length; reflexivity | exact HL].
  apply (list_ext 0); [rewrite map_length, seq_length, Hl; reflexivity |].
  intros i Hi. rewrite map_length, seq_length in Hi. rewrite nth_map_seq by exact Hi. rewrite nth_map_seq by apply brev_lt.
  f_equal. apply brev_involutive. exact Hi.
Qed.

Example C25_example : bit_reversal_array 0 [10; 11; 12; 13; 14; 15; 16; 17] = [10; 14; 12; 16; 11; 15; 13; 17] /\
  get_bit_reverse_perm 8 = [0; 4; 2; 6; 1; 5; 3; 7] /\ reverses 3 1 4.
Proof. split; [vm_compute; reflexivity |]. split; [vm_compute; reflexivity |]. apply reverses_brev. reflexivity. Qed.

Print Assumptions C25_tables_reverse_bits.
Print Assumptions C25_array_reverses.
Print Assumptions C25_array_permutation.
