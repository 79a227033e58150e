(** Model of jaxite/jaxite_ckks/ntt_cpu.py (object arrays of Python integers).  The permutation cache (ntt_cpu.py:13,18,
    25-26) is a pure function of n and is not modelled.  None is an exception. *)
From Coq Require Import ZArith List Bool Zpow_facts.
From Verif Require Import Base.Lists Base.Word Base.Egcd Ckks.Model_rns_utils Ckks.Model_math.
Import ListNotations.
Local Open Scope Z_scope.

(** ntt_cpu.py:16-26, _get_bit_reversal_perm: the loop on the arrays (perm, indices), uint32 *)
Fixpoint perm_loop (n : nat) (perm indices : list Z) : list Z :=
  match n with
  | O => perm
  | S n' => perm_loop n' (map2 (fun p i => Z.lor ((Z.shiftl p 1) mod 2 ^ 32) (Z.land i 1)) perm indices) (map (fun i => Z.shiftr i 1) indices)
  end.
Definition get_bit_reversal_perm (n : nat) : list Z :=
  perm_loop (Nat.log2 n) (repeat 0 n) (map Z.of_nat (seq 0 n)).

(** fancy indexing a[perm] *)
Definition permute (perm : list Z) (a : list Z) : list Z := map (fun p => nth (Z.to_nat p) a 0) perm.

(** ntt_cpu.py:29-36, _get_powers *)
Definition get_powers (base : Z) (n : nat) (q : Z) : list Z := powers_list n 1 base q.

(** ntt_cpu.py:73-80, one row of a forward stage: [u | v*ws] -> [u + v | u - v] *)
Definition dit_row (q : Z) (ws : list Z) (half : nat) (row : list Z) : list Z :=
  let u := firstn half row in
  let v := map2 (fun x w => (x * w) mod q) (skipn half row) ws in
  map2 (fun x y => (x + y) mod q) u v ++ map2 (fun x y => (x - y) mod q) u v.
(** ntt_cpu.py:98-105, one row of an inverse stage *)
Definition dif_row (q : Z) (ws : list Z) (half : nat) (row : list Z) : list Z :=
  let u := firstn half row in
  let v := skipn half row in
  map2 (fun x y => (x + y) mod q) u v ++ map2 (fun d w => (d * w) mod q) (map2 Z.sub u v) ws.
(** reshape(-1, length), the row operation, ravel *)
Definition by_rows (f : list Z -> list Z) (len : nat) (a : list Z) : list Z := concat (map f (rows (length a / len) len a)).

(** ntt_cpu.py:58-83, ntt_cyclic_bit_reverse: length = 2, 4, ..., n; [pow(omega, n // length, q)] *)
Definition ntt_cyclic_bit_reverse (a : list Z) (q omega : Z) : list Z :=
  let n := length a in
  let a := permute (get_bit_reversal_perm n) a in
  fold_left (fun a t =>
    let half := (2 ^ t)%nat in
    let len := (2 * half)%nat in
    let w_m := Zpow_mod omega (Z.of_nat (n / len)) q in
    by_rows (dit_row q (get_powers w_m half q) half) len a) (seq 0 (Nat.log2 n)) a.

(** ntt_cpu.py:86-115, intt_cyclic_bit_reverse: length = n, n/2, ..., 2 *)
Definition intt_cyclic_bit_reverse (a : list Z) (q omega : Z) : option (list Z) :=
  let n := length a in
  match inverse omega q, inverse (Z.of_nat n) q with
  | Some inv_root, Some inv_n =>
      let a := fold_left (fun a t =>
        let half := (2 ^ t)%nat in
        let len := (2 * half)%nat in
        let w_m := Zpow_mod inv_root (Z.of_nat (n / len)) q in
        by_rows (dif_row q (get_powers w_m half q) half) len a) (rev (seq 0 (Nat.log2 n))) a in
      let a := permute (get_bit_reversal_perm n) a in
      Some (map (fun x => (x * inv_n) mod q) a)
  | _, _ => None
  end.

(** ntt_cpu.py:39-45 *)
Definition ntt_negacyclic_bit_reverse (a : list Z) (q psi : Z) : list Z :=
  let a_twisted := map2 (fun x w => (x * w) mod q) a (get_powers psi (length a) q) in
  ntt_cyclic_bit_reverse a_twisted q (Zpow_mod psi 2 q).
(** ntt_cpu.py:48-55 *)
Definition intt_negacyclic_bit_reverse (a : list Z) (q psi : Z) : option (list Z) :=
  match intt_cyclic_bit_reverse a q (Zpow_mod psi 2 q), inverse psi q with
  | Some a_inv, Some psi_inv => Some (map2 (fun x w => (x * w) mod q) a_inv (get_powers psi_inv (length a) q))
  | _, _ => None
  end.

(** ntt_cpu.py:118-129, ntt_negacyclic_poly, on one column (one modulus); the result is stored as uint64 *)
Definition ntt_negacyclic_column (coeffs : list Z) (q : Z) : option (list Z) :=
  let n := length coeffs in
  match root_of_unity (2 * Z.of_nat n) q with
  | None => None
  | Some psi => Some (map (fun x => (x mod q) mod 2 ^ 64) (permute (get_bit_reversal_perm n) (ntt_negacyclic_bit_reverse coeffs q psi)))
  end.
(** ntt_cpu.py:132-144, intt_negacyclic_poly, on one column *)
Definition intt_negacyclic_column (coeffs : list Z) (q : Z) : option (list Z) :=
  let n := length coeffs in
  match root_of_unity (2 * Z.of_nat n) q with
  | None => None
  | Some psi =>
      match intt_negacyclic_bit_reverse (permute (get_bit_reversal_perm n) coeffs) q psi with
      | None => None
      | Some r => Some (map (fun x => x mod 2 ^ 64) r)
      end
  end.

(** the (degree, moduli) arrays as lists of columns, one per modulus *)
Definition ntt_negacyclic_poly (columns : list (list Z)) (moduli : list Z) : option (list (list Z)) :=
  sequence_opt (map2 ntt_negacyclic_column columns moduli).
Definition intt_negacyclic_poly (columns : list (list Z)) (moduli : list Z) : option (list (list Z)) :=
  sequence_opt (map2 intt_negacyclic_column columns moduli).
