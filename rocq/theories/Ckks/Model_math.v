(** Model of jaxite/jaxite_ckks/math.py.  [Zpow_mod b e q] is Python's pow(b, e, q) for e >= 0. *)
From Coq Require Import ZArith List Bool Zpow_facts.
From Verif Require Import Base.Egcd.
Import ListNotations.
Local Open Scope Z_scope.

(** math.py:10-12, 15-17: divide out all factors p, remembering whether one was found.  [fuel] bounds the number of
    divisions; Z.log2 n + 1 suffices for p >= 2. *)
Fixpoint divide_out (fuel : nat) (p n : Z) : Z :=
  match fuel with
  | O => n
  | S f => if n mod p =? 0 then divide_out f p (n / p) else n
  end.
Definition strip (p n : Z) : Z := divide_out (Z.to_nat (Z.log2 n + 1)) p n.

(** math.py:13-18: trial division by odd p while p*p <= n; [fuel] bounds the number of values of p *)
Fixpoint trial (fuel : nat) (p n : Z) (factors : list Z) : Z * list Z :=
  match fuel with
  | O => (n, factors)
  | S f =>
      if p * p <=? n
      then let n' := strip p n in trial f (p + 2) n' (if n mod p =? 0 then p :: factors else factors)
      else (n, factors)
  end.

(** math.py:7-21, prime_factors for n >= 1 (the code does not return for n = 0); the set is a list *)
Definition prime_factors (n : Z) : list Z :=
  let factors := if n mod 2 =? 0 then [2] else [] in
  let n := strip 2 n in
  let '(n, factors) := trial (Z.to_nat (Z.sqrt n)) 3 n factors in
  if 1 <? n then n :: factors else factors.

(** math.py:24-33, find_generator; the loop over range(2, q) *)
Fixpoint first_generator (fuel : nat) (g q phi : Z) (factors : list Z) : option Z :=
  match fuel with
  | O => None
  | S f => if forallb (fun p => negb (Zpow_mod g (phi / p) q =? 1)) factors then Some g
           else first_generator f (g + 1) q phi factors
  end.
Definition find_generator (q : Z) : option Z :=
  if q =? 2 then Some 1
  else let phi := q - 1 in first_generator (Z.to_nat (q - 2)) 2 q phi (prime_factors phi).

(** math.py:45-50: r, r*r2, r*r2^2, ...; range(1, m, 2) has m/2 elements for even m, one for m = 1... none: range(1,1,2) *)
Fixpoint power_chain (count : nat) (curr r2 q : Z) : list Z :=
  match count with O => [] | S c => curr :: power_chain c ((curr * r2) mod q) r2 q end.

(** Python's min of a list *)
Definition min_list (l : list Z) : option Z :=
  match l with [] => None | x :: rest => Some (fold_left Z.min rest x) end.

(** math.py:36-60, root_of_unity.  None is a ValueError (also m = 0 would be a ZeroDivisionError). *)
Definition root_of_unity (m q : Z) : option Z :=
  if negb ((q - 1) mod m =? 0) then None
  else match find_generator q with
  | None => None
  | Some g =>
      let r := Zpow_mod g ((q - 1) / m) q in
      let candidates :=
        if Z.land m (m - 1) =? 0
        then power_chain (Z.to_nat (m / 2)) r ((r * r) mod q) q
        else map (fun k => Zpow_mod r (Z.of_nat k) q)
                 (filter (fun k => Z.gcd (Z.of_nat k) m =? 1) (seq 1 (Z.to_nat (m - 1)))) in
      min_list candidates
  end.

(** math.py:68-75: powers of omega *)
Fixpoint powers_list (count : nat) (curr omega q : Z) : list Z :=
  match count with O => [] | S c => curr :: powers_list c ((curr * omega) mod q) omega q end.

(** math.py:63-82, gen_twiddle_matrix for rows, cols >= 1 *)
Definition gen_twiddle_matrix (rows cols : nat) (q omega : Z) : list (list Z) :=
  let powers := powers_list ((rows - 1) * (cols - 1) + 1) 1 omega q in
  map (fun r => map (fun c => nth (r * c) powers 0) (seq 0 cols)) (seq 0 rows).
(** math.py:85-90 *)
Definition gen_twiddle_matrix_inv (rows cols : nat) (q omega : Z) : option (list (list Z)) :=
  match inverse omega q with None => None | Some w => Some (gen_twiddle_matrix rows cols q w) end.

(** math.py:93-106, get_bit_reverse_perm *)
Fixpoint rev_loop (n : nat) (r temp : Z) : Z :=
  match n with O => r | S n' => rev_loop n' (Z.lor (Z.shiftl r 1) (Z.land temp 1)) (Z.shiftr temp 1) end.
Definition get_bit_reverse_perm (n : nat) : list Z :=
  map (fun i => rev_loop (Nat.log2 n) 0 (Z.of_nat i)) (seq 0 n).
