(** Positional representation: the meaning of a chunk vector. *)
From Coq Require Import ZArith List.
Import ListNotations.
Local Open Scope Z_scope.

(** the integer a list of base-2^base digits stands for, least significant digit first *)
Fixpoint chunk_value (base : Z) (l : list Z) : Z :=
  match l with [] => 0 | d :: rest => d + 2 ^ base * chunk_value base rest end.

(** n digits, each below 2^base *)
Definition digits (base : Z) (n : nat) (l : list Z) : Prop := length l = n /\ Forall (fun d => 0 <= d < 2 ^ base) l.

(** a batch of field elements: every row is n base-2^16 digits; [row a i] is the i-th integer of the batch *)
Definition chunked (n : nat) (a : list (list Z)) : Prop := a <> [] /\ Forall (digits 16 n) a.
Definition row (a : list (list Z)) (i : nat) : Z := chunk_value 16 (nth i a []).
