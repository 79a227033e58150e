(** Specification vocabulary: moduli for which Barrett reduction with the precomputed constants is exact on all products of
    residues.  C23_reduction_correct_moduli characterises them. *)
From Coq Require Import ZArith.
From Verif Require Import Ckks.Model_barrett.
Local Open Scope Z_scope.
Definition barrett_exact (m : Z) : Prop := forall z, 0 <= z < m * m -> modular_reduction z (precompute_barrett_constants m) = z mod m.
