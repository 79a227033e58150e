(** Specification vocabulary for batch_vmap: which arguments are batched, and the argument list of one pointwise call. *)
From Coq Require Import List.
From Verif Require Import Cggi.Model_batch.
Import ListNotations.

(** the slices of the batched arguments *)
Definition batched_args {A} (args : list (argument A)) : list (list A) :=
  flat_map (fun a => match a with Batched xs => [xs] | Shared _ => [] end) args.
(** the argument list of the j-th pointwise call *)
Definition slice_at {A} (j : nat) (args : list (argument A)) : list A :=
  flat_map (fun a => match a with Shared x => [x] | Batched xs => match nth_error xs j with Some x => [x] | None => [] end end) args.
