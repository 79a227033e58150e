(** CKKS: the column keys of the column method (key_gen.py:195-220).  No proofs here. *)
From Coq Require Import Reals ZArith List Bool.
From Verif Require Import Base.Cplx Ckks.Model_rns_utils Ckks.Model_ntt_cpu Ckks.Model_scheme Ckks.Model_fft.
Import ListNotations.

(** key_gen.py:195-220, gen_cm_keys.  [draws i j] are the three polynomials (v, e0, e1) that encrypting key (i, j) draws;
    the scale and the embedding are real numbers, as in Model_fft.  Only the number of indices is read, not their values. *)
Definition gen_cm_keys (indices : list Z) (pk : public_key) (scale : R) (draws : nat -> nat -> array * array * array) : option (list (list ciphertext)) :=
  let degree := degree_of (pk0 pk) in
  let num_slots := (degree / 2)%nat in
  match encode degree (pk_moduli pk) scale (repeat c0 num_slots), encode degree (pk_moduli pk) scale (repeat c1 num_slots) with
  | Some plain_0, Some plain_1 =>
      let n := length indices in
      sequence_opt (map (fun i => sequence_opt (map (fun j =>
        let '(v, e0, e1) := draws i j in
        encrypt pk {| pt_data := if (i =? j)%nat then plain_1 else plain_0; pt_moduli := pk_moduli pk |} v e0 e1) (seq 0 n))) (seq 0 n))
  | _, _ => None
  end.
