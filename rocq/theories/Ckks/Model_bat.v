(** Model of jaxite/jaxite_ckks/bat_utils.py.  uint64 is available (bat_utils.py:7). *)
From Coq Require Import ZArith List.
From Verif Require Import Ckks.Model_scheme.
Import ListNotations.
Local Open Scope Z_scope.

(** jax.lax.bitcast_convert_type of a uint32 word to uint8: the four bytes, least significant first *)
Definition bytes_of (x : Z) : list Z := map (fun b => (x / 2 ^ (8 * Z.of_nat b)) mod 256) (seq 0 4).

(** bat_utils.py:38-56, basis_aligned_transformation of one entry for one modulus: for each byte shift, the bytes of the
    shifted and reduced entry *)
Definition basis_aligned_entry (a m : Z) : list (list Z) :=
  map (fun byte_idx => bytes_of (u32 (u64 (a * 2 ^ (8 * Z.of_nat byte_idx)) mod m))) (seq 0 4).

(** bat_utils.py:28-35, matmul_bat_einsum for one output entry: [lhs] are the words along the summed axis and [rhs] the
    transformed entries along it; the summed axes of the einsum are the word and byte-shift axes.  Products are accumulated in
    uint32, then shifted and added in uint64. *)
Definition accumulate (l r : list Z) : Z := fold_left (fun s p => u32 (s + fst p * snd p)) (combine l r) 0.
Definition matmul_bat_entry (lhs : list Z) (rhs : list (list (list Z))) : Z :=
  let lhs_u8 := concat (map bytes_of lhs) in
  let rhs_u8 := concat rhs in
  let i8_products := map (fun p => accumulate lhs_u8 (map (fun bs => nth p bs 0) rhs_u8)) (seq 0 4) in
  fold_left (fun s p => u64 (s + u64 (nth p i8_products 0 * 2 ^ (8 * Z.of_nat p)))) (seq 0 4) 0.

(** the product of an (R, K) matrix of words with a transformed (K, C) matrix, "rk,kqcp->rcp" *)
Definition matmul_bat (lhs A : list (list Z)) (m : Z) : list (list Z) :=
  map (fun row => map (fun j => matmul_bat_entry row (map (fun arow => basis_aligned_entry (nth j arow 0) m) A))
    (seq 0 (length (nth 0 A [])))) lhs.
