(** Model of the conversions of an RnsPolynomial to and from an array (jaxite/jaxite_ckks/rns.py). *)
From Coq Require Import ZArith List Bool.
From Verif Require Import Ckks.Model_rns.
Import ListNotations.
Local Open Scope Z_scope.

(** rns.py:193-195, to_jnp_array: a nested list becomes a uint64 array; rows of different lengths are a ValueError, an integer that
    does not fit an OverflowError.  The array is given by its rows. *)
Definition to_jnp_array (p : rns_poly) : option (list (list Z)) :=
  let rows := rp_coeffs p in
  if forallb (fun r => (length r =? length (hd [] rows))%nat && forallb (fun c => (0 <=? c) && (c <? 2 ^ 64)) r) rows then Some rows else None.
(** rns.py:197-199, __len__ *)
Definition rp_len (p : rns_poly) : nat := rp_degree p.
