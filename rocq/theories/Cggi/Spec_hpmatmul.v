(** What the high-precision matrix products are for: the product of two integer matrices, given as lists of rows. *)
From Coq Require Import ZArith List.
From Verif Require Import Base.ZSum.
Import ListNotations.
Local Open Scope Z_scope.

(** an m-by-n matrix of 32-bit unsigned words *)
Definition words32 (m n : nat) (A : list (list Z)) : Prop := length A = m /\ Forall (fun row => length row = n /\ Forall (fun x => 0 <= x < 2 ^ 32) row) A.
(** entry (i, c) of the exact product, the inner dimension being n *)
Definition product_entry (n : nat) (A B : list (list Z)) (i c : nat) : Z := zsum n (fun k => nth k (nth i A []) 0 * nth c (nth k B []) 0).
(** M is the m-by-k matrix whose entry (i, c) is f i c *)
Definition is_matrix (m k : nat) (f : nat -> nat -> Z) (M : list (list Z)) : Prop :=
  length M = m /\ forall i, (i < m)%nat -> length (nth i M []) = k /\ forall c, (c < k)%nat -> nth c (nth i M []) 0 = f i c.
