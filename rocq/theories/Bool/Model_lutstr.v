(** Model of the printed form of a look-up table (jaxite/jaxite_bool/lut.py). *)
From Coq Require Import ZArith List String.
From Verif Require Import Cggi.Model_random_source Bool.Model_lut.
Import ListNotations.
Local Open Scope string_scope.
Local Open Scope Z_scope.

(** the decimal form of 0 and of 1; no other digit occurs in a printed table *)
Definition digit (d : Z) : string := if d =? 0 then "0" else "1".
Definition digits (l : list Z) : string := String.concat "" (map digit l).
(** str.rjust(n, '0') on a list of digits *)
Definition rjust0 (n : nat) (l : list Z) : list Z := repeat 0 (n - List.length l) ++ l.
(** lut.py:68-75, __str__; [bin] is Python's bin(...)[2:] *)
Definition lut_str (t : lookup_table) : string :=
  String.concat (String (Ascii.ascii_of_nat 10) "")
    (map (fun ib => (digits (rjust0 (num_inputs t) (bin (Z.of_nat (fst ib)))) ++ " -> " ++ digit (snd ib))%string)
         (combine (seq 0 (List.length (values_from_lsb_to_msb t))) (values_from_lsb_to_msb t))).
