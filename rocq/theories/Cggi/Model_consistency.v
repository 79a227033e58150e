(** Model of the consistency checker in jaxite/jaxite_cggi/test_utils.py. *)
From Coq Require Import List Bool String.
Import ListNotations.

(** test_utils.py:33-54, ConsistencyChecker.  A dict is a list of its entries; names are compared as strings.
    [V] is the type of the nested lists that arrays are turned into. *)
Record checker (V : Type) := { insertion_order : list string; records : list (string * list V) }.
Arguments insertion_order {V}. Arguments records {V}.

(** test_utils.py:36-38, __init__ *)
Definition new_checker {V} : checker V := {| insertion_order := []; records := [] |}.

(** dict lookup, and replacement of the value of a key that is present *)
Fixpoint lookup {V} (name : string) (d : list (string * list V)) : option (list V) :=
  match d with
  | [] => None
  | (k, v) :: d' => if String.eqb name k then Some v else lookup name d'
  end.
Fixpoint replace {V} (name : string) (v : list V) (d : list (string * list V)) : list (string * list V) :=
  match d with
  | [] => []
  | (k, w) :: d' => if String.eqb name k then (k, v) :: d' else (k, w) :: replace name v d'
  end.

(** test_utils.py:40-46, store *)
Definition store {V} (c : checker V) (name : string) (value : V) : checker V :=
  match lookup name (records c) with
  | Some vs => {| insertion_order := insertion_order c; records := replace name (vs ++ [value]) (records c) |}
  | None => {| insertion_order := insertion_order c ++ [name]; records := records c ++ [(name, [value])] |}
  end.

(** itertools.combinations(values, 2), in its order *)
Fixpoint combinations2 {V} (l : list V) : list (V * V) :=
  match l with
  | [] => []
  | x :: l' => map (fun y => (x, y)) l' ++ combinations2 l'
  end.

(** test_utils.py:48-54, check: [asserter x y] is false when it raises; the result is false when check raises.
    The printed lines are left out. *)
Definition check {V} (c : checker V) (asserter : option (V -> V -> bool)) : bool :=
  match asserter with
  | None => false
  | Some f => forallb (fun name => match lookup name (records c) with
                                   | None => false
                                   | Some values => forallb (fun xy => f (fst xy) (snd xy)) (combinations2 values)
                                   end) (insertion_order c)
  end.
