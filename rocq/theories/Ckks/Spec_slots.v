(** Specification vocabulary for computing on the slots of an encoded polynomial. *)
From Coq Require Import Reals ZArith List.
From Verif Require Import Base.Cplx Ckks.Model_scheme Ckks.Model_fft Ckks.Spec_fft.
Import ListNotations.
Local Open Scope R_scope.

(** slot j of the polynomial with integer coefficients p *)
Definition int_slot (p : list Z) (j : nat) : cplx := real_slot (map IZR p) j.
(** the complex conjugate *)
Definition cconj (x : cplx) : cplx := (fst x, - snd x).
(** decrypting the ciphertext ct under sk and decoding its n slots at the given scale returns the vector x *)
Definition shows (n : nat) (sk : secret_key) (scale : R) (ct : ciphertext) (x : list cplx) : Prop :=
  exists p, decrypt sk ct = Some p /\ decode scale n (pt_data p) (pt_moduli p) false = Some x.
