(** Specification vocabulary for number theoretic transforms. *)
From Coq Require Import ZArith List Lia.
From Verif Require Import Base.ZSum Base.Modeq Base.Bitrev Base.Nega Base.Powm.
Import ListNotations.
Local Open Scope Z_scope.

(** the value of the polynomial with coefficient list [a] at [x] *)
Definition eval (a : list Z) (x : Z) : Z := zsum (length a) (fun i => nth i a 0 * x ^ Z.of_nat i).

(** psi is a root of X^n = -1 modulo q (for n a power of two and q odd: a primitive 2n-th root of unity) *)
Definition nega_root (n : nat) (q psi : Z) : Prop := psi ^ Z.of_nat n == -1 [mod q].

(** all entries reduced modulo q *)
Definition reduced (q : Z) (a : list Z) : Prop := Forall (fun x => 0 <= x < q) a.

(** the transform of [a]: its values at the odd powers of psi, entry j at psi^(2*rev(j)+1) where rev reverses the L bits of j *)
Definition transform (L : nat) (q psi : Z) (a : list Z) : list Z :=
  map (fun j => eval a (psi ^ Z.of_nat (2 * brev L j + 1)) mod q) (seq 0 (2 ^ L)).

(** product in Z_q[X]/(X^n+1), n = length of a *)
Definition nega_mul (q : Z) (a b : list Z) : list Z :=
  map (fun k => nega_coeff (length a) (fun i => nth i a 0) (fun i => nth i b 0) k mod q) (seq 0 (length a)).
Definition pointwise_mul (q : Z) (a b : list Z) : list Z :=
  map (fun i => (nth i a 0 * nth i b 0) mod q) (seq 0 (length a)).
