(** Specifications used by the LWE-level theorems.  Nothing here refers to the modelled functions except the three
    vector operators of the LWE language. *)
From Coq Require Import ZArith List.
From Verif Require Import Base.ZSum Base.Word.
Import ListNotations.
Local Open Scope Z_scope.

(** the exact integer phase of a ciphertext (a_1,...,a_n,b): b - (a_1 s_1 + ... + a_n s_n) *)
Definition phase (s : list Z) (ct : list Z) : Z := last ct 0 - dotZ (removelast ct) s.

Definition binary (s : list Z) : Prop := Forall (fun z => z = 0 \/ z = 1) s.

(** an n x m array *)
Definition shape2 (n m : nat) (x : list (list Z)) : Prop := length x = n /\ Forall (fun r => length r = m) x.

(** integer linear expressions over numbered ciphertexts, e.g. [Add (Scale 2 (Leaf 0)) (Leaf 1)] *)
Inductive lin := Leaf (i : nat) | Add (a b : lin) | Sub (a b : lin) | Scale (c : Z) (a : lin).
(** on ciphertexts: elementwise uint32 arithmetic *)
Fixpoint lin_ct (cts : list (list Z)) (e : lin) : list Z :=
  match e with
  | Leaf i => nth i cts []
  | Add a b => vadd32 (lin_ct cts a) (lin_ct cts b)
  | Sub a b => vsub32 (lin_ct cts a) (lin_ct cts b)
  | Scale c a => vscale32 c (lin_ct cts a)
  end.
(** on integers *)
Fixpoint lin_z (v : nat -> Z) (e : lin) : Z :=
  match e with
  | Leaf i => v i
  | Add a b => lin_z v a + lin_z v b
  | Sub a b => lin_z v a - lin_z v b
  | Scale c a => c * lin_z v a
  end.
(** bound on the value when the leaves are bounded *)
Fixpoint lin_abs (v : nat -> Z) (e : lin) : Z :=
  match e with
  | Leaf i => v i
  | Add a b => lin_abs v a + lin_abs v b
  | Sub a b => lin_abs v a + lin_abs v b
  | Scale c a => Z.abs c * lin_abs v a
  end.
Fixpoint lin_leaves (n : nat) (e : lin) : Prop :=
  match e with
  | Leaf i => (i < n)%nat
  | Add a b | Sub a b => lin_leaves n a /\ lin_leaves n b
  | Scale _ a => lin_leaves n a
  end.
