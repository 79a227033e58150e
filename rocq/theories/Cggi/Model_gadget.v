(** Model of the real-valued gadget of jaxite_cggi/decomposition.py:270-347.  A float32 entry is a dyadic number m / 2^s, given as
    the pair (m, s); multiplying it by a power of two and rounding it to an integer are exact in float32.  None is a raised
    exception, or a value the conversion to uint32 is not defined for.  No proofs here. *)
From Coq Require Import ZArith List Bool.
From Verif Require Import Base.Word Ckks.Model_barrett Cggi.Model_decomposition.
Import ListNotations.
Local Open Scope Z_scope.

(** decomposition.py:270-321, gadget_matrix, with every entry multiplied by base^levels so that it is an integer: row r holds
    base^-1 .. base^-levels in the columns of block r (jnp.kron of the identity with the powers, transposed) *)
Definition gadget_matrix (log_base : Z) (levels vector_length : nat) (total : Z) : option (list (list Z)) :=
  let base := 2 ^ log_base in
  if negb (2 ^ total mod base ^ Z.of_nat levels =? 0) then None
  else Some (map (fun r => flat_map (fun c => map (fun i => if (r =? c)%nat then base ^ (Z.of_nat levels - 1 - Z.of_nat i) else 0) (seq 0 levels)) (seq 0 vector_length)) (seq 0 vector_length)).

(** decomposition.py:324-347, inverse_gadget; jnp.rint rounds ties to even *)
Definition scaled_rounded (x : Z * Z) (log_base : Z) (levels : nat) : Z := rne (fst x * (2 ^ log_base) ^ Z.of_nat levels) (2 ^ snd x).
Definition inverse_gadget (vector : list (Z * Z)) (log_base : Z) (levels : nat) (total : Z) : option (list Z) :=
  let scaled := map (fun x => scaled_rounded x log_base levels) vector in
  if forallb (fun v => (0 <=? v) && (v <? W32)) scaled then Some (flat_map (fun v => decompose v log_base levels total) scaled)
  else None.
