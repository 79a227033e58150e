(** Model of jaxite/jaxite_ckks/rns_utils.py (Python integers, no wrapping). *)
From Coq Require Import ZArith List Bool.
From Verif Require Import Base.Lists Base.Egcd Base.Word.
Import ListNotations.
Local Open Scope Z_scope.

(** rns_utils.py:6-8, inverse_mod: [pow(x, -1, q)], None when not invertible (ValueError) *)
Definition inverse_mod (x q : Z) : option Z := inverse x q.

(** rns_utils.py:11-13 *)
Definition is_power_of_two (x : Z) : bool := (0 <? x) && (Z.land x (x - 1) =? 0).

(** rns_utils.py:16-18, num_bits: bit_length() - 1, for x >= 1 *)
Definition num_bits (x : nat) : nat := Nat.log2 x.

(** rns_utils.py:21-28, bit_reversal: the loop on (result, x) *)
Fixpoint bit_reversal_loop (n : nat) (result x : Z) : Z :=
  match n with
  | O => result
  | S n' => bit_reversal_loop n' (Z.lor (Z.shiftl result 1) (Z.land x 1)) (Z.shiftr x 1)
  end.
Definition bit_reversal (x : Z) (nbits : nat) : Z := bit_reversal_loop nbits 0 x.

(** rns_utils.py:31-37, bit_reversal_array: in-place swaps in index order *)
Definition bit_reversal_array {A} (d : A) (xs : list A) : list A :=
  let n := num_bits (length xs) in
  fold_left (fun l i =>
    let j := Z.to_nat (bit_reversal (Z.of_nat i) n) in
    if (i <? j)%nat then upd j (nth i l d) (upd i (nth j l d) l) else l) (seq 0 (length xs)) xs.

(** the product of the moduli, rns_utils.py:49-51, 74-76, 106-108 *)
Definition product (moduli : list Z) : Z := fold_left Z.mul moduli 1.

(** a list comprehension, as in rns_utils.py:53-61: an exception in one element is an exception of the whole *)
Fixpoint sequence_opt {A} (l : list (option A)) : option (list A) :=
  match l with
  | [] => Some []
  | None :: _ => None
  | Some x :: rest => match sequence_opt rest with None => None | Some r => Some (x :: r) end
  end.

(** rns_utils.py:40-59 *)
Definition compute_q_hat_inv_mod_q (moduli : list Z) : option (list Z) :=
  let q := product moduli in
  sequence_opt (map (fun m => inverse_mod (q / m) m) moduli).

(** rns_utils.py:62-86 *)
Definition compute_q_hat_mod_p (original_moduli target_moduli : list Z) : list (list Z) :=
  let q := product original_moduli in
  map (fun m_i => map (fun m_j => (q / m_i) mod m_j) target_moduli) original_moduli.

(** rns_utils.py:89-120; [residues] has one row per modulus *)
Definition reconstruct_crt (residues : list (list Z)) (moduli : list Z) : option (list Z) :=
  let num_integers := length (nth 0 residues []) in
  if (length moduli =? 1)%nat then Some (map (fun r => r mod nth 0 moduli 0) (nth 0 residues []))
  else
    let q := product moduli in
    match compute_q_hat_inv_mod_q moduli with
    | None => None
    | Some inv =>
        let results :=
          fold_left (fun res i =>
            let q_i := nth i moduli 0 in
            let prefactor := nth i inv 0 * (q / q_i) in
            map2 (fun r x => r + x * prefactor) res (nth i residues []))
          (seq 0 (length moduli)) (repeat 0 num_integers) in
        Some (map (fun r => r mod q) results)
    end.
