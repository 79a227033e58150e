(** Model of the point packing of jaxite_ec/util.py.  A point is the list of its integer coordinates; a packed batch is indexed
    coordinate, point, chunk.  No proofs here. *)
From Coq Require Import ZArith List Bool.
From Verif Require Import Ckks.Model_rns_utils Ec.Model_util.
Import ListNotations.
Local Open Scope Z_scope.

(** util.py:189-195 *)
Definition int_point_to_jax_point_pack (coordinates : list Z) (base : Z) (chunk_num : nat) : option (list (list Z)) :=
  sequence_opt (map (fun c => int_to_array c base 16 (Some chunk_num)) coordinates).
(** util.py:198-204: the base is always 16 *)
Definition jax_point_pack_to_int_point (point : list (list Z)) : list Z := map (fun c => array_to_int c 16) point.

(** jnp.transpose(a, (1, 0, 2)) of a list of equally long lists of rows (util.py:257, 261, 272, 276).  An empty list or empty
    members make an array of fewer than three axes, and lists of unequal lengths no array: both raise. *)
Definition transpose_102 (a : list (list (list Z))) : option (list (list (list Z))) :=
  match a with
  | [] => None
  | first :: _ => if (length first =? 0)%nat then None
                  else if forallb (fun p => (length p =? length first)%nat) a then Some (map (fun k => map (fun p => nth k p []) a) (seq 0 (length first)))
                  else None
  end.

(** util.py:251-257 and 260-265 *)
Definition int_point_batch_to_jax_point_pack (points : list (list Z)) (base : Z) (chunk_num : nat) : option (list (list (list Z))) :=
  match sequence_opt (map (fun p => int_point_to_jax_point_pack p base chunk_num) points) with
  | Some result => transpose_102 result
  | None => None
  end.
Definition jax_point_pack_to_int_point_batch (point_pack : list (list (list Z))) (base : Z) : option (list (list Z)) :=
  match transpose_102 point_pack with
  | Some points => Some (map (fun p => array_to_int_list p base) points)
  | None => None
  end.

(** util.py:217-222, 225-232 and 235-239, 242-248 (the same code twice); [moduli] is the global MODULI *)
Definition int_list_to_array_rns (moduli : list Z) (int_list : list Z) : list (list Z) := map (int_to_array_rns moduli) int_list.
Definition array_rns_to_int_list (moduli : list Z) (jax_array : list (list Z)) : option (list Z) := sequence_opt (map (array_rns_to_int moduli) jax_array).
(** util.py:268-272 and 275-280 *)
Definition int_point_batch_to_jax_rns_point_pack (moduli : list Z) (points : list (list Z)) : option (list (list (list Z))) :=
  transpose_102 (map (int_list_to_array_rns moduli) points).
Definition jax_rns_point_pack_to_int_point_batch (moduli : list Z) (point_pack : list (list (list Z))) : option (list (list Z)) :=
  match transpose_102 point_pack with
  | Some points => sequence_opt (map (array_rns_to_int_list moduli) points)
  | None => None
  end.
