(** Model of the object-level external product (jaxite/jaxite_cggi/bootstrap.py). *)
From Coq Require Import ZArith List.
From Verif Require Import Cggi.Model_decomposition Cggi.Model_bootstrap.
Local Open Scope Z_scope.

(** bootstrap.py:378-391, external_product: the arrays are multiplied, the labels are those of the RLWE ciphertext.
    The RGSW object (rgsw.py:38-53) is given by its array, the only field that is read. *)
Definition external_product (tpu : Z) (rgsw_ct : rgsw_data) (ct : rlwe_ct) (p : decomp_params) : option rlwe_ct :=
  match jit_external_product tpu rgsw_ct (rc_message ct) p false with
  | None => None
  | Some m => Some {| rc_log := rc_log ct; rc_degree := rc_degree ct; rc_message := m |}
  end.
(** bootstrap.py:609-611, sample_extract *)
Definition sample_extract (ct : rlwe_ct) : list Z := jit_sample_extract (rc_message ct) (rc_degree ct).
