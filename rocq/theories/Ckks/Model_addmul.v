(** Model of jaxite/jaxite_ckks/add.py on whole arrays and of mul.py:19-96 (plaintext-ciphertext multiplication).
    A (num_elements, degree, num_moduli) array is a list of (degree, num_moduli) arrays.  [bits] is the width of the
    dtype of the operands (uint32 or uint64). *)
From Coq Require Import ZArith List Bool.
From Verif Require Import Ckks.Model_barrett Ckks.Model_scheme.
Import ListNotations.
Local Open Scope Z_scope.

(** add.py:21-33, 43-64, 75-92: the three kernels with their constructor arguments; the arrays of constants are indexed by
    the modulus *)
Inductive add_kernel :=
| AddSimple
| AddModularBarrett (constants : option (list barrett_constants))
| AddModularSubtract (moduli : list Z).

(** the default for lists of barrett.py:14-22 constants, never read inside the bounds *)
Definition no_constants : barrett_constants := {| bc_m := 0; bc_moduli := 0; bc_w := 0; bc_s_w := 0 |}.
(** barrett.py:42-67 over a list of moduli *)
Definition precompute_constants (moduli : list Z) : list barrett_constants := map precompute_barrett_constants moduli.

(** entrywise combination of two arrays of the same shape; the entry of the modulus i uses the i-th constants *)
Definition zip_entries (f : nat -> Z -> Z -> Z) (A B : array) : array :=
  tab (length A) (degree_of A) (fun i j => f i (ent A i j) (ent B i j)).
Definition zip_arrays (f : nat -> Z -> Z -> Z) (A B : list array) : list array := map (fun p => zip_entries f (fst p) (snd p)) (combine A B).

(** add.py:32-33, 60-64, 86-92 *)
Definition add_arrays (K : add_kernel) (bits : Z) (A B : list array) : option (list array) :=
  match K with
  | AddSimple => Some (zip_arrays (fun _ a b => add_simple bits a b) A B)
  | AddModularBarrett None => None
  | AddModularBarrett (Some cs) => Some (zip_arrays (fun i a b => modular_reduction ((a + b) mod 2 ^ bits) (nth i cs no_constants)) A B)
  | AddModularSubtract ms => Some (zip_arrays (fun i a b => add_modular_subtract bits a b (nth i ms 0)) A B)
  end.

(** mul.py:37-42, MulPlaintextCiphertextSimple.mul: the raw product in the dtype of the data *)
Definition mul_plain_simple (bits : Z) (ct : ciphertext) (pt : plaintext) : option ciphertext :=
  if negb (list_eqb (ct_moduli ct) (pt_moduli pt)) then None
  else Some {| ct_data := map (fun A => zip_entries (fun _ a b => (a * b) mod 2 ^ bits) A (pt_data pt)) (ct_data ct); ct_moduli := ct_moduli ct |}.

(** mul.py:72-88, MulPlaintextCiphertextBarrett.mul *)
Definition mul_plain_barrett (constants : option (list barrett_constants)) (ct : ciphertext) (pt : plaintext) : option ciphertext :=
  match constants with
  | None => None
  | Some cs =>
      if negb (list_eqb (ct_moduli ct) (pt_moduli pt)) then None
      else Some {| ct_data := map (fun A => zip_entries (fun i a b => u32' (modular_reduction (Model_barrett.u64 (a * b)) (nth i cs no_constants))) A (pt_data pt)) (ct_data ct);
                   ct_moduli := ct_moduli ct |}
  end.
