(** Model of jaxite/jaxite_ckks/blind_rotate_utils.py:11-41 (automorphisms in NTT form) and of the reversal in
    conjugate.py:66-70 and key_gen.py:223-242. *)
From Coq Require Import ZArith List Bool.
From Verif Require Import Ckks.Model_scheme.
Import ListNotations.
Local Open Scope Z_scope.

(** blind_rotate_utils.py:28-34, bit_reverse on uint32 words *)
Fixpoint bit_reverse_u32_loop (bits : nat) (rev temp : Z) : Z :=
  match bits with
  | O => rev
  | S b => bit_reverse_u32_loop b (Z.lor (u32 (Z.shiftl rev 1)) (Z.land temp 1)) (Z.shiftr temp 1)
  end.
Definition bit_reverse_u32 (bits : nat) (x : Z) : Z := bit_reverse_u32_loop bits 0 x.

(** blind_rotate_utils.py:24-39: the index gathered into position j; [degree] is a power of two, so int(math.log2(degree)) is
    its exact logarithm; uint32 arithmetic *)
Definition automorphism_index (degree : nat) (g : Z) (j : nat) : nat :=
  let bits := Nat.log2 degree in
  let br := bit_reverse_u32 bits (u32 (Z.of_nat j)) in
  let target := (u32 (u32 (u32 (u32 (2 * br) + 1) * g) - 1) / 2) mod Z.of_nat degree in
  Z.to_nat (bit_reverse_u32 bits target).

(** blind_rotate_utils.py:11-41, apply_automorphism_ntt on a (degree, num_moduli) array.  jnp.array(g, dtype=uint32) raises
    OverflowError for g outside the 32-bit range. *)
Definition apply_automorphism_ntt (A : array) (g : Z) : option array :=
  if (0 <=? g) && (g <? 2 ^ 32) then
    Some (map (fun col => map (fun j => nth (automorphism_index (length col) g j) col 0) (seq 0 (length col))) A)
  else None.

(** conjugate.py:67-70: jnp.flip along the degree axis *)
Definition flip (A : array) : array := map (@rev Z) A.
