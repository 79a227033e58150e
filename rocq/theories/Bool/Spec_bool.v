(** Specification vocabulary for jaxite_bool: reading Boolean arguments as a binary number, most significant first, and
    the functions meant by the gate names. *)
From Coq Require Import ZArith List Bool String.
Import ListNotations.
Local Open Scope string_scope.

Fixpoint msb_first (bits : list bool) (acc : nat) : nat :=
  match bits with
  | [] => acc
  | b :: rest => msb_first rest (2 * acc + (if b then 1 else 0))
  end.
(** the row of a truth table belonging to arguments x_1, ..., x_n *)
Definition row (bits : list bool) : nat := msb_first bits 0.
(** entry number i of a truth table given as an integer *)
Definition table_entry (tb : Z) (i : nat) : bool := Z.testbit tb (Z.of_nat i).

(** the function a two-input gate name stands for: "n" and "y" say whether the corresponding operand is negated *)
Definition gate_function (name : string) : option (bool -> bool -> bool) :=
  if name =? "and" then Some (fun x y => andb x y)
  else if name =? "andny" then Some (fun x y => andb (negb x) y)
  else if name =? "andyn" then Some (fun x y => andb x (negb y))
  else if name =? "nand" then Some (fun x y => negb (andb x y))
  else if name =? "nor" then Some (fun x y => negb (orb x y))
  else if name =? "or" then Some (fun x y => orb x y)
  else if name =? "orny" then Some (fun x y => orb (negb x) y)
  else if name =? "oryn" then Some (fun x y => orb x (negb y))
  else if name =? "xnor" then Some (fun x y => negb (xorb x y))
  else if name =? "xor" then Some (fun x y => xorb x y)
  else None.
