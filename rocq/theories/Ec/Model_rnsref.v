(** Model of jaxite_ec/algorithm/rns_mod_reduce.py: the reference modular multiplication on residue vectors.  None is a raised
    exception.  Rows of unequal length, which numpy might broadcast, count as an exception.  find_moduli (25-52) and
    rns_icrt_factors_compute (94-101) are the same code as in jaxite_ec/util.py and are modelled in Model_util.  No proofs here. *)
From Coq Require Import ZArith List Bool.
From Verif Require Import Base.Word Ckks.Model_rns_utils Ec.Model_util Ec.Model_field.
Import ListNotations.
Local Open Scope Z_scope.

(** rns_mod_reduce.py:66-68, 70-72 and 74-76: one fold of a uint32 word; the uint16 offset is promoted to uint32 *)
Definition fold_once (x t : Z) : Z := u32 (u32 (Z.land (shr32 x 16) 65535 * t) + Z.land x 65535).
(** rns_mod_reduce.py:55-77, one word *)
Definition hardware_friendly_mod_reduce (x t : Z) : Z := fold_once (fold_once (fold_once x t) t) t mod 2 ^ 16.

(** rns_mod_reduce.py:80-81 *)
Definition to_rns (x : Z) (moduli : list Z) : list Z := map (fun m => x mod m) moduli.

(** rns_mod_reduce.py:84-91, one value: fewer factors than residues raise an IndexError *)
Definition rns_reconstruct (residues : list Z) (overall_moduli : Z) (icrt_factors : list Z) : option Z :=
  if (length icrt_factors <? length residues)%nat then None else Some (dotZ icrt_factors residues mod overall_moduli).

(** rns_mod_reduce.py:104-173.  One row of the stacked matrix: the low bytes of the residues and of the quotient estimate, then
    the high bytes.  jnp.array of an integer outside uint16 raises. *)
Definition stacked_row (moduli : list Z) (moduli_precision overall_modulus q chunk : Z) : option (list Z) :=
  match np_u16 (to_rns (chunk mod q) moduli), np_u16 [float_ceildiv (chunk * 2 ^ moduli_precision) overall_modulus] with
  | Some r, Some s => let words := r ++ s in Some (map (fun w => w mod 256) words ++ map (fun w => w / 256) words)
  | _, _ => None
  end.
Definition rns_coefficients_precompute (icrt_factors overall_moduli : list Z) (num_bytes : nat) (moduli_precision overall_modulus q : Z) : option (list (list Z) * list Z) :=
  if (q =? 0) || (overall_modulus =? 0) then None
  else
    let shifted := flat_map (fun factor => map (fun b => (Z.shiftl 1 (8 * Z.of_nat b) * factor) mod overall_modulus) (seq 0 num_bytes)) icrt_factors in
    match sequence_opt (map (stacked_row overall_moduli moduli_precision overall_modulus q) shifted), np_u16 (to_rns ((- overall_modulus) mod q) overall_moduli) with
    | Some mat, Some cor => Some (mat, cor)
    | _, _ => None
    end.

(** rns_mod_reduce.py:207-226, one row: the matrix product, the split in low and high bytes, the quotient estimate and the
    correction. *)
Definition corrected_row (moduli_precision : Z) (row : list Z) (mat : list (list Z)) (cor : list Z) (num_residues : nat) : option (list Z) :=
  let bytes := bytes_of_u16 row in
  if negb ((length bytes =? length mat)%nat && (length cor =? num_residues)%nat) then None
  else
    let product := vecmat32 bytes mat (length (hd [] mat)) in
    let low := firstn (num_residues + 1) product in
    let high := skipn (num_residues + 1) product in
    if negb (length low =? length high)%nat then None
    else
      let glued := map2 (fun l h => u32 (l + shl32 h 8)) low high in
      match skipn num_residues glued with
      | [qe] => Some (map2 (fun v c => u32 (v + u32 (shr32 qe moduli_precision * c))) (firstn num_residues glued) cor)
      | _ => None
      end.
(** rns_mod_reduce.py:176-232; [num_residues] is moduli.shape[0], the only use of the argument [moduli] *)
Definition rns_mod_reduce_row (moduli_precision : Z) (a b : list Z) (num_residues : nat) (moduli_t : list Z) (mat : list (list Z)) (cor icrt_factors : list Z) (overall_modulus : Z) : option Z :=
  if negb ((length a =? num_residues)%nat && (length b =? num_residues)%nat && (length moduli_t =? num_residues)%nat) then None
  else
    let mul_res := map2 (fun x y => u32 (x * y)) a b in
    let tower := map2 hardware_friendly_mod_reduce mul_res moduli_t in
    match corrected_row moduli_precision tower mat cor num_residues with
    | Some c => rns_reconstruct (map2 hardware_friendly_mod_reduce c moduli_t) overall_modulus icrt_factors
    | None => None
    end.
(** the whole batch; [moduli_precision] is a global variable of the script, assigned only under __main__ (line 241): None, a
    NameError, when the file is imported *)
Definition rns_mod_reduce (moduli_precision : option Z) (data_a data_b : list (list Z)) (num_residues : nat) (moduli_t : list Z) (mat : list (list Z)) (cor icrt_factors : list Z) (overall_modulus : Z) : option (list Z) :=
  match moduli_precision with
  | None => None
  | Some precision =>
      if negb (length data_a =? length data_b)%nat then None
      else sequence_opt (map (fun p => rns_mod_reduce_row precision (fst p) (snd p) num_residues moduli_t mat cor icrt_factors overall_modulus) (combine data_a data_b))
  end.
