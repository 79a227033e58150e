(** Specification vocabulary: the ring Z[X]/(X^n + 1) on coefficient lists of length n. *)
From Coq Require Import ZArith List Lia.
From Verif Require Import Base.ZSum Base.Modeq Base.Nega.
Import ListNotations.
Local Open Scope Z_scope.

(** coefficient i of a list *)
Definition co (a : list Z) (i : nat) : Z := nth i a 0.
Definition poly_add (a b : list Z) : list Z := map (fun i => co a i + co b i) (seq 0 (length a)).
Definition poly_sub (a b : list Z) : list Z := map (fun i => co a i - co b i) (seq 0 (length a)).
Definition poly_neg (a : list Z) : list Z := map Z.opp a.
Definition poly_scale (c : Z) (a : list Z) : list Z := map (Z.mul c) a.
(** the negacyclic product: coefficient k is the sum of a_i*b_(k-i) over i <= k minus the sum of a_i*b_(n+k-i) over i > k *)
Definition poly_mul (a b : list Z) : list Z := map (nega_coeff (length a) (co a) (co b)) (seq 0 (length a)).
(** coefficientwise reduction and congruence *)
Definition poly_mod (q : Z) (a : list Z) : list Z := map (fun x => x mod q) a.
Definition poly_eqm (q : Z) (a b : list Z) : Prop := length a = length b /\ forall i, (i < length a)%nat -> co a i == co b i [mod q].
(** all coefficients at most B in absolute value *)
Definition poly_bound (B : Z) (a : list Z) : Prop := Forall (fun x => Z.abs x <= B) a.
(** a(X^g): X^(i*g) is X^r or -X^(r-n) where r = i*g mod 2n, as X^n = -1 *)
Definition poly_auto (g : Z) (a : list Z) : list Z :=
  let n := length a in
  map (fun k => zsum n (fun i =>
    let r := (Z.of_nat i * g) mod (2 * Z.of_nat n) in
    if r =? Z.of_nat k then co a i else if r =? Z.of_nat (k + n) then - co a i else 0)) (seq 0 n).
