(** Model of jaxite/jaxite_cggi/jax_helpers.py:33-95, batch_vmap.  Arrays are lists along their batched axis (the code
    moves [in_axis] to the front and the result axis back, which relabels axes only); every argument is either batched or,
    for in_axis None, shared.  [None] is a shape error (including ZeroDivisionError for batch_size 0). *)
From Coq Require Import ZArith List Bool.
Import ListNotations.
Local Open Scope Z_scope.

(** an argument with its in_axis, jax_helpers.py:62-76 *)
Inductive argument (A : Type) := Batched (xs : list A) | Shared (x : A).
Arguments Batched {A}. Arguments Shared {A}.

(** reshape of a list to (count, size, ...) *)
Fixpoint chunks {A} (count size : nat) (l : list A) : list (list A) :=
  match count with O => [] | S c => firstn size l :: chunks c size (skipn size l) end.

(** jax_helpers.py:42-48, preprocess: [//] is floor division; reshape rejects negative sizes *)
Definition preprocess {A} (batch_size : Z) (x : list A) : option (list (list A) * list A) :=
  if batch_size <=? 0 then None
  else
    let batch_count := Z.of_nat (length x) / batch_size in
    let loop_elements := Z.to_nat (batch_count * batch_size) in
    Some (chunks (Z.to_nat batch_count) (Z.to_nat batch_size) (firstn loop_elements x), skipn loop_elements x).

(** Python's list.insert *)
Definition insert_at {A} (i : nat) (v : A) (l : list A) : list A := firstn i l ++ v :: skipn i l.

(** jax_helpers.py:62-77: the unbatched arguments with their positions, the loop parts and the tail parts *)
Fixpoint split_args {A} (batch_size : Z) (i : nat) (args : list (argument A))
  : option (list (nat * A) * list (list (list A)) * list (list A)) :=
  match args with
  | [] => Some ([], [], [])
  | Shared x :: rest =>
      match split_args batch_size (S i) rest with
      | None => None
      | Some (u, lo, ta) => Some ((i, x) :: u, lo, ta)
      end
  | Batched xs :: rest =>
      match preprocess batch_size xs, split_args batch_size (S i) rest with
      | Some (l, t), Some (u, lo, ta) => Some (u, l :: lo, t :: ta)
      | _, _ => None
      end
  end.

(** jax_helpers.py:79-83, f2: reinsert the unbatched arguments *)
Definition f2 {A B} (f : list A -> B) (unbatched : list (nat * A)) (args : list A) : B :=
  f (fold_left (fun a p => insert_at (fst p) (snd p) a) unbatched args).

(** jax.vmap over the leading axis of several arrays: at least one array, all of the same length *)
Definition vmap {A B} (g : list A -> B) (arrays : list (list A)) : option (list B) :=
  match arrays with
  | [] => None
  | a0 :: rest =>
      if forallb (fun a => (length a =? length a0)%nat) rest
      then Some (map (fun j => g (flat_map (fun a => match nth_error a j with Some x => [x] | None => [] end) arrays)) (seq 0 (length a0)))
      else None
  end.

(** the results of the loop, jax_helpers.py:78-95; an exception in one is an exception of the whole *)
Fixpoint seq_opt {A} (l : list (option A)) : option (list A) :=
  match l with
  | [] => Some []
  | None :: _ => None
  | Some x :: rest => match seq_opt rest with None => None | Some r => Some (x :: r) end
  end.

(** jax_helpers.py:22-27, _lax_map: a scan over the leading axis *)
Definition lax_map {A B} (g : list (list A) -> option (list B)) (arrays : list (list (list A))) : option (list (list B)) :=
  match arrays with
  | [] => None
  | a0 :: rest =>
      if forallb (fun a => (length a =? length a0)%nat) rest
      then seq_opt (map (fun j => g (map (fun a => nth j a []) arrays)) (seq 0 (length a0)))
      else None
  end.

(** jax_helpers.py:56-93, g, with postprocess (50-54): flatten and append the tail *)
Definition batch_vmap {A B} (f : list A -> B) (batch_size : Z) (args : list (argument A)) : option (list B) :=
  match split_args batch_size 0 args with
  | None => None
  | Some (unbatched, loop_args, tail_args) =>
      match lax_map (vmap (f2 f unbatched)) loop_args, vmap (f2 f unbatched) tail_args with
      | Some loop_out, Some tail_out => Some (concat loop_out ++ tail_out)
      | _, _ => None
      end
  end.
