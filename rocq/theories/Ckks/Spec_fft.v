(** Specification vocabulary for the canonical embedding. *)
From Coq Require Import Reals ZArith List.
From Verif Require Import Base.Cplx.
Import ListNotations.
Local Open Scope R_scope.

(** slot j of the polynomial with complex coefficients a_0, ..., a_(n-1): its value at e^(2 pi i 5^j / (4n)) *)
Definition slot (a : list cplx) (j : nat) : cplx :=
  csum (length a) (fun i => cmul (nth i a c0) (zeta (4 * length a) (5 ^ j * i))).
(** slot j of the polynomial of degree below 2n with real coefficients p: its value at the same point *)
Definition real_slot (p : list R) (j : nat) : cplx :=
  csum (length p) (fun i => cscale (nth i p 0) (zeta (2 * length p) (5 ^ j * i))).
(** the distance between two complex numbers *)
Definition cdist (x y : cplx) : R := cnorm (csub x y).
