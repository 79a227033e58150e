(** Specification vocabulary for polynomial arithmetic in Z[X]/(X^N+1) with 32-bit coefficients.
    [nega_coeff] (Base/Nega.v) is the textbook coefficient formula. *)
From Coq Require Import ZArith List.
From Verif Require Import Base.ZSum Base.Nega.
Import ListNotations.
Local Open Scope Z_scope.

(** coefficient lists of length n *)
Definition coeff (p : list Z) (i : nat) : Z := nth i p 0.

(** product of two polynomials modulo X^N + 1 and 2^32 *)
Definition nega_product (N : nat) (a b : list Z) : list Z :=
  map (fun k => nega_coeff N (coeff a) (coeff b) k mod 2 ^ 32) (seq 0 N).

(** row vector times matrix: entry j is the sum over i of v_i * m_(i,j), modulo X^N+1 and 2^32 *)
Definition nega_vecmat (N m : nat) (v : list (list Z)) (mat : list (list (list Z))) : list (list Z) :=
  map (fun j => map (fun k =>
         zsum (length v) (fun i => nega_coeff N (coeff (nth i v [])) (coeff (nth j (nth i mat []) [])) k) mod 2 ^ 32)
       (seq 0 N)) (seq 0 m).

(** multiplication by X modulo X^N + 1: the top coefficient re-enters negated *)
Definition mulX (p : list Z) : list Z :=
  match p with [] => [] | _ => - last p 0 :: removelast p end.

(** all rows have the given length *)
Definition rect {A} (n m : nat) (x : list (list A)) : Prop := length x = n /\ Forall (fun r => length r = m) x.
Definition cube (n m k : nat) (x : list (list (list Z))) : Prop := length x = n /\ Forall (rect m k) x.

(** multiplication by X^d for any integer d; X has order 2N because X^N = -1 ([mulX_order] in Prop_poly.v) *)
Definition mulXpow (d : Z) (p : list Z) : list Z :=
  Nat.iter (Z.to_nat (d mod (2 * Z.of_nat (length p)))) mulX p.
Definition reduce_all (q : Z) (p : list Z) : list Z := map (fun c => c mod q) p.
(** X^d p - p *)
Definition mulXpow_minus_1 (d : Z) (p : list Z) : list Z :=
  map (fun i => coeff (mulXpow d p) i - coeff p i) (seq 0 (length p)).
