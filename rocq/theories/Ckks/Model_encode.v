(** Model of jaxite/jaxite_ckks/encode.py: the integer part of encoding and decoding. *)
From Coq Require Import ZArith List Bool.
From Verif Require Import Base.Lists Base.Word Ckks.Model_rns_utils.
Import ListNotations.
Local Open Scope Z_scope.

(** encode.py:184-190, one entry of modded_divided before the division by the scale *)
Definition centre (modulus c : Z) : Z := let half_modulus := modulus / 2 in if half_modulus <? c then c - modulus else c.
(** encode.py:183-190, the integer coefficients seen by Decode.decode; [poly_T] has one row per modulus *)
Definition decode_integers (poly_T : list (list Z)) (moduli : list Z) : option (list Z) :=
  match reconstruct_crt poly_T moduli with
  | None => None
  | Some combined => Some (map (centre (product moduli)) combined)
  end.

(** encode.py:152-154, the residues of the rounded scaled coefficients, one row per modulus.  [scaled_coeffs] are the
    rounded values, which are integers; NumPy computes [%] on them in binary64, exactly while they are below 2^53
    in magnitude (fmod is exact) *)
Definition encode_residues (scaled_coeffs : list Z) (moduli : list Z) : list (list Z) :=
  map (fun q => map (fun c => c mod q) scaled_coeffs) moduli.
