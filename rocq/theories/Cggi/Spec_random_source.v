(** The stream of a generator: its n-th value and the state after n values. *)
From Coq Require Import ZArith List.
Import ListNotations.
Local Open Scope Z_scope.

Fixpoint state_after {S} (gen : S -> Z * S) (n : nat) (s : S) : S := match n with O => s | Datatypes.S n' => state_after gen n' (snd (gen s)) end.
Definition stream {S} (gen : S -> Z * S) (s : S) (n : nat) : Z := fst (gen (state_after gen n s)).
(** the number of elements of an array of this shape *)
Fixpoint size (shape : list Z) : Z := match shape with [] => 1 | d :: r => d * size r end.
Definition valid_shape (shape : list Z) : Prop := Forall (fun d => 0 <= d) shape.
