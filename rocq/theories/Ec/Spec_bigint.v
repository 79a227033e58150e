(** Specification for C64: expressions a user writes with big integer objects and plain ints, and their values as integers *)
From Coq Require Import ZArith Bool.
Local Open Scope Z_scope.

Inductive op := OAdd | OSub | OMul | ODiv | OMod | OPow | OShl | OShr | OAnd.
Inductive expr := Object (z : Z) | Int (z : Z) | Op (o : op) (a b : expr).
(** the integer an operator stands for; None where it has no meaning or the machine cannot represent the shift *)
Definition apply (o : op) (x y : Z) : option Z :=
  match o with
  | OAdd => Some (x + y)
  | OSub => Some (x - y)
  | OMul => Some (x * y)
  | ODiv => if y =? 0 then None else Some (x / y)
  | OMod => if y =? 0 then None else Some (x mod y)
  | OPow => if y <? 0 then None else Some (x ^ y)
  | OShl => if (y <? 0) || (2 ^ 64 <=? y) then None else Some (x * 2 ^ y)
  | OShr => if (y <? 0) || (2 ^ 64 <=? y) then None else Some (x / 2 ^ y)
  | OAnd => Some (Z.land x y)
  end.
Fixpoint value (e : expr) : option Z :=
  match e with
  | Object z | Int z => Some z
  | Op o a b => match value a, value b with Some x, Some y => apply o x y | _, _ => None end
  end.
(** every left operand is an object: int literals stand only to the right of an operator *)
Fixpoint object (e : expr) : Prop :=
  match e with
  | Object _ => True
  | Int _ => False
  | Op _ a b => object a /\ (object b \/ exists z, b = Int z)
  end.
