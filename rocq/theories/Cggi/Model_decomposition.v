(** Model of jaxite/jaxite_cggi/decomposition.py (integer part: [gadget_matrix] and [inverse_gadget] are in Model_gadget). *)
From Coq Require Import ZArith List Bool.
From Verif Require Import Base.ZSum Base.Word.
Import ListNotations.
Local Open Scope Z_scope.

(** decomposition.py:14-26 *)
Record decomp_params := { log_base : Z; level_count : nat; decomp_total : Z }.

(** decomposition.py:34-86, decompose.  [mask >> (i*base_log)] and the final [>>] are uint32 shifts. *)
Definition decompose (x base_log : Z) (num_levels : nat) (total : Z) : list Z :=
  let mask := u32 ((2 ^ base_log - 1) * 2 ^ (total - base_log)) in
  map (fun i => shr32 (Z.land x (shr32 mask (Z.of_nat i * base_log))) (total - (1 + Z.of_nat i) * base_log))
      (seq 0 num_levels).

(** decomposition.py:94-126, recomposition_summands *)
Definition recomposition_summands (x base_log : Z) (num_levels : nat) (total : Z) : list Z :=
  map (fun i => shl32 x (total - (1 + Z.of_nat i) * base_log)) (seq 0 num_levels).

(** decomposition.py:131-149, recompose *)
Definition recompose (digits : list Z) (base_log total : Z) : Z :=
  u32 (lsum (map2 (fun d i => shl32 d (total - (1 + Z.of_nat i) * base_log)) digits (seq 0 (length digits)))).

(** decomposition.py:192-209, the digit loop from index [i] on with the incoming carry; least significant first. *)
Fixpoint signed_digits (x base_log : Z) (n i : nat) (carry : Z) : list Z :=
  match n with
  | O => []
  | S n' =>
      let unsigned_digit := add32 (Z.land (shr32 x (Z.of_nat i * base_log)) (2 ^ base_log - 1)) carry in
      let carry_mask := Z.land unsigned_digit (2 ^ (base_log - 1)) in
      let signed_digit := u32 (s32 unsigned_digit - s32 (shl32 carry_mask 1)) in
      let carry := shr32 carry_mask (base_log - 1) in
      signed_digit :: signed_digits x base_log n' (S i) carry
  end.

(** decomposition.py:155-213, signed_decomposition *)
Definition signed_decomposition (x base_log : Z) (num_levels : nat) (total : Z) : list Z :=
  firstn num_levels (rev (signed_digits x base_log (Z.to_nat (total / base_log)) 0 0)).

(** decomposition.py:216-267: signed_decomposition_polynomial_list followed by the transposition (0,2,1) and the
    reshape to ((k+1)*L, N): row (poly, level) holds the level'th digit of every coefficient. *)
Definition decompose_poly (poly : list Z) (p : decomp_params) : list (list Z) :=
  let digs := map (fun c => signed_decomposition c (log_base p) (level_count p) (decomp_total p)) poly in
  map (fun l => map (fun d => nth l d 0) digs) (seq 0 (level_count p)).
Definition decompose_rlwe_ciphertext (ct : list (list Z)) (p : decomp_params) : list (list Z) :=
  flat_map (fun poly => decompose_poly poly p) ct.
