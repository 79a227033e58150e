(** Model of jaxite_ec/algorithm/lazy_reduction.py: the reference lazy reduction on Python integers and numpy matrices.
    None is a raised exception.  No proofs here. *)
From Coq Require Import ZArith List Bool.
From Verif Require Import Base.Word.
Import ListNotations.
Local Open Scope Z_scope.

(** int.bit_length, and lazy_reduction.py:10-11 *)
Definition bit_length (x : Z) : Z := if x =? 0 then 0 else Z.log2 (Z.abs x) + 1.
Definition byte_len (x : Z) : Z := (bit_length x + 7) / 8.

(** lazy_reduction.py:14-17; the default length of -1 stands for byte_len *)
Definition chunk_decomposition (x : Z) (length : nat) : list Z := map (fun i => Z.land (Z.shiftr x (8 * Z.of_nat i)) 255) (seq 0 length).

(** lazy_reduction.py:36-41: the rows 256^(t+i) mod p in bytes (a modulus of 0 raises) *)
Definition lazy_rows (p : Z) (t : nat) : list (list Z) := map (fun i => chunk_decomposition (256 ^ Z.of_nat (t + i) mod p) t) (seq 0 (t + 4)).

(** lazy_reduction.py:24-68.  np.matmul of uint32 wraps modulo 2^32; the recombination and the final sum are on Python
    integers. *)
Definition lazy_reduction_via_matrix (a_list b_list : list Z) (p : Z) : option (list Z) :=
  let t := Z.to_nat (byte_len p) in
  if p =? 0 then None
  else if negb (length a_list =? length b_list)%nat then None
  else
    let lazy_mat := lazy_rows p t in
    let standard_product := map2 Z.mul a_list b_list in
    Some (map (fun s =>
      let low := Z.land s (256 ^ Z.of_nat t - 1) in
      let batch := chunk_decomposition (Z.shiftr s (8 * Z.of_nat t)) (t + 4) in
      let reduced := map (fun j => u32 (dotZ batch (map (fun r => nth j r 0) lazy_mat))) (seq 0 t) in
      fold_right (fun r val => val * 256 + r) 0 reduced + low) standard_product).
