(** Arithmetic modulo p, as a relation between expressions over residues and their value. *)
From Coq Require Import ZArith.
Local Open Scope Z_scope.

Inductive expr :=
| Leaf (v : Z)
| Add (a b : expr)
| Sub (a b : expr)
| Mul (a b : expr)
| Div (a b : expr).

(** [value_of p e v]: e is built from canonical residues, divides by non-zero residues only, and has the canonical value v *)
Inductive value_of (p : Z) : expr -> Z -> Prop :=
| V_leaf v : 0 <= v < p -> value_of p (Leaf v) v
| V_add a b x y : value_of p a x -> value_of p b y -> value_of p (Add a b) ((x + y) mod p)
| V_sub a b x y : value_of p a x -> value_of p b y -> value_of p (Sub a b) ((x - y) mod p)
| V_mul a b x y : value_of p a x -> value_of p b y -> value_of p (Mul a b) ((x * y) mod p)
| V_div a b x y d : value_of p a x -> value_of p b y -> y <> 0 -> 0 <= d < p -> (d * y) mod p = x -> value_of p (Div a b) d.
