(** Model of jaxite/jaxite_ckks/basis_conversion.py. *)
From Coq Require Import ZArith List.
From Verif Require Import Base.Lists Ckks.Model_rns_utils Ckks.Model_barrett Ckks.Model_scheme Ckks.Model_bat.
Import ListNotations.
Local Open Scope Z_scope.

(** basis_conversion.py:61-87, class BarrettBasisConversionConstants.  q_hat_mod_p_bat is kept as one list of transformed
    entries per target prime, in the order of the source primes: the (source, byte shift) axes that lines 134-136 merge are
    the axes [matmul_bat_entry] concatenates. *)
Record basis_constants := {
  bs_q_hat_inv_mod_q : list Z;
  bs_q_hat_mod_p_bat : list (list (list (list Z)));
  bs_origin_barrett : list barrett_constants;
  bs_target_barrett : list barrett_constants }.

(** basis_conversion.py:120-144, the constants of one conversion, for its source and target moduli *)
Definition basis_precompute (original_moduli target_moduli : list Z) : option basis_constants :=
  match compute_q_hat_inv_mod_q original_moduli with
  | None => None
  | Some inv =>
      let q_hat_mod_p := compute_q_hat_mod_p original_moduli target_moduli in
      Some {| bs_q_hat_inv_mod_q := inv;
              bs_q_hat_mod_p_bat := map (fun j => map (fun row => basis_aligned_entry (nth j row 0) (nth j target_moduli 0)) q_hat_mod_p) (seq 0 (length target_moduli));
              bs_origin_barrett := map precompute_barrett_constants original_moduli;
              bs_target_barrett := map precompute_barrett_constants target_moduli |}
  end.

(** modulus_chain[i] for i in idx (basis_conversion.py:120-121); an index outside the chain is an IndexError.  Negative
    indices, which Python would count from the end, are not modelled. *)
Definition select (chain : list Z) (idx : list nat) : option (list Z) := sequence_opt (map (fun i => nth_error chain i) idx).

(** basis_conversion.py:112-144, precompute_constants *)
Definition basis_precompute_constants (chain : list Z) (control_indices : list (list nat * list nat)) : option (list basis_constants) :=
  sequence_opt (map (fun c =>
    match select chain (fst c), select chain (snd c) with
    | Some o, Some t => basis_precompute o t
    | _, _ => None
    end) control_indices).

(** basis_conversion.py:146-174, basis_change, on a (degree, source primes) array given by its columns; the broadcast of
    line 157 is an error unless there is one column per source prime (a single column is broadcast by NumPy rules; that case
    is not modelled) *)
Definition basis_change_with (c : basis_constants) (in_tower : array) : option array :=
  let k := length (bs_q_hat_inv_mod_q c) in
  let n := degree_of in_tower in
  if negb (length in_tower =? k)%nat then None
  else
    let d0 := precompute_barrett_constants 1 in
    let cs := tab k n (fun i j => modular_reduction (Model_scheme.u64 (ent in_tower i j * nth i (bs_q_hat_inv_mod_q c) 0)) (nth i (bs_origin_barrett c) d0)) in
    Some (tab (length (bs_q_hat_mod_p_bat c)) n (fun p j =>
      let summed := matmul_bat_entry (map (fun i => ent cs i j) (seq 0 k)) (nth p (bs_q_hat_mod_p_bat c) []) in
      modular_reduction summed (nth p (bs_target_barrett c) d0))).
Definition basis_change (constants : list basis_constants) (in_tower : array) (control_index : nat) : option array :=
  match nth_error constants control_index with
  | None => None
  | Some c => basis_change_with c in_tower
  end.
