(** Circuits: straight-line programs over numbered wires.  Wires 0..i-1 are the inputs; every instruction appends one wire
    and may read any earlier one, so fan-out and depth are unlimited.  [eval_circuit] is the meaning on bits,
    [run_circuit] the program a user writes with the public gates. *)
From Coq Require Import ZArith List Bool String.
From Verif Require Import Bool.Model_bool Bool.Spec_bool.
Import ListNotations.

Inductive instr :=
| IConst (b : bool)
| INot (i : nat)
| IGate (name : string) (i j : nat)
| ILut1 (i : nat) (tb : Z)
| ILut2 (i j : nat) (tb : Z)
| ILut3 (i j k : nat) (tb : Z)
| ICmux (i j k : nat).
Definition circuit := list instr.

Definition wire1 {A B} (env : list A) (i : nat) (f : A -> option B) : option B :=
  match nth_error env i with Some x => f x | None => None end.

(** the value of one instruction; [None] for a wire that does not exist, an unknown gate name or a one-input table > 3 *)
Definition eval_instr (env : list bool) (c : instr) : option bool :=
  match c with
  | IConst b => Some b
  | INot i => wire1 env i (fun x => Some (negb x))
  | IGate name i j => wire1 env i (fun x => wire1 env j (fun y => match gate_function name with Some f => Some (f x y) | None => None end))
  | ILut1 i tb => wire1 env i (fun x => if (0 <=? tb)%Z && (tb <=? 3)%Z then Some (table_entry tb (row [x])) else None)
  | ILut2 i j tb => wire1 env i (fun x => wire1 env j (fun y => Some (table_entry tb (row [y; x]))))
  | ILut3 i j k tb => wire1 env i (fun x => wire1 env j (fun y => wire1 env k (fun z => Some (table_entry tb (row [z; y; x])))))
  | ICmux i j k => wire1 env i (fun x => wire1 env j (fun y => wire1 env k (fun z => Some (if z then x else y))))
  end.
Fixpoint eval_circuit (c : circuit) (env : list bool) : option (list bool) :=
  match c with
  | [] => Some env
  | i :: rest => match eval_instr env i with Some v => eval_circuit rest (env ++ [v]) | None => None end
  end.

(** the public function with the given name and an underscore *)
Definition public_gate (name : string) : option (Z -> list Z -> list Z -> server_key_set -> bool_params -> option (list Z)) :=
  if (name =? "and")%string then Some and_
  else if (name =? "andny")%string then Some andny_
  else if (name =? "andyn")%string then Some andyn_
  else if (name =? "nand")%string then Some nand_
  else if (name =? "nor")%string then Some nor_
  else if (name =? "or")%string then Some or_
  else if (name =? "orny")%string then Some orny_
  else if (name =? "oryn")%string then Some oryn_
  else if (name =? "xnor")%string then Some xnor_
  else if (name =? "xor")%string then Some xor_
  else None.
(** the same circuit on ciphertexts *)
Definition run_instr (tpu : Z) (sk : server_key_set) (pr : bool_params) (env : list (list Z)) (c : instr) : option (list Z) :=
  match c with
  | IConst b => bool_constant b pr
  | INot i => wire1 env i (fun x => not_ x pr)
  | IGate name i j => wire1 env i (fun x => wire1 env j (fun y => match public_gate name with Some g => g tpu x y sk pr | None => None end))
  | ILut1 i tb => wire1 env i (fun x => lut1 x tb pr)
  | ILut2 i j tb => wire1 env i (fun x => wire1 env j (fun y => lut2 tpu x y tb sk pr))
  | ILut3 i j k tb => wire1 env i (fun x => wire1 env j (fun y => wire1 env k (fun z => lut3 tpu x y z tb sk pr)))
  | ICmux i j k => wire1 env i (fun x => wire1 env j (fun y => wire1 env k (fun z => cmux_ tpu x y z sk pr)))
  end.
Fixpoint run_circuit (tpu : Z) (sk : server_key_set) (pr : bool_params) (c : circuit) (env : list (list Z)) : option (list (list Z)) :=
  match c with
  | [] => Some env
  | i :: rest => match run_instr tpu sk pr env i with Some v => run_circuit tpu sk pr rest (env ++ [v]) | None => None end
  end.
