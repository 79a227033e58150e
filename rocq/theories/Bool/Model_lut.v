(** Model of jaxite/jaxite_bool/bool_encoding.py and lut.py.  [None] is a ValueError. *)
From Coq Require Import ZArith List Bool String.
From Verif Require Import Base.Word Cggi.Model_encoding Cggi.Model_test_polynomial.
Import ListNotations.
Local Open Scope Z_scope.

(** bool_encoding.py:5-18 *)
Definition ENCODING_PARAMS : enc_params := {| total_bits := 32; message_bits := 3; padding_bits := 1 |}.
Definition CLEARTEXT_FALSE : Z := 0.
Definition CLEARTEXT_TRUE : Z := 1.
Definition CLEARTEXT_UNUSED : Z := 2.

(** lut.py:14-26, class LookUpTable; the truth table is a Python integer (negative ones behave as infinite two's
    complement, as in [Z]) *)
Record lookup_table := { num_inputs : nat; truth_table : Z }.

(** lut.py:28-33 *)
Definition values_from_lsb_to_msb (t : lookup_table) : list Z :=
  map (fun i => Z.shiftr (Z.land (truth_table t) (Z.shiftl 1 (Z.of_nat i))) (Z.of_nat i)) (seq 0 (2 ^ num_inputs t)).

(** lut.py:35-41 *)
Definition as_cleartext_list (t : lookup_table) : list Z :=
  map (fun bit => if bit =? 0 then CLEARTEXT_FALSE else CLEARTEXT_TRUE) (values_from_lsb_to_msb t).

(** lut.py:49-61, the padded coefficients *)
Definition padded_coefficients (t : lookup_table) : option (list Z) :=
  let padding_required := 2 ^ message_bits ENCODING_PARAMS - Z.of_nat (List.length (as_cleartext_list t)) in
  if padding_required <? 0 then None
  else Some (as_cleartext_list t ++ repeat CLEARTEXT_UNUSED (Z.to_nat padding_required)).

(** lut.py:43-66, as_rlwe_test_polynomial (uncached value) *)
Definition as_rlwe_test_polynomial (tpu : Z) (sp : scheme_params) (t : lookup_table) : option (list (list Z)) :=
  match padded_coefficients t with
  | None => None
  | Some coeffs => gen_and_encrypt tpu coeffs ENCODING_PARAMS sp
  end.

(** itertools.product([False, True], repeat=n): the last position varies fastest *)
Fixpoint product_bools (n : nat) : list (list bool) :=
  match n with
  | O => [[]]
  | S m => map (cons false) (product_bools m) ++ map (cons true) (product_bools m)
  end.

(** lut.py:89-101, from_callable; the callable takes its arguments as a list *)
Definition from_callable (n : nat) (fn : list bool -> bool) : lookup_table :=
  let step (acc : Z * Z) (input_bits : list bool) :=
    (Z.lor (fst acc) (Z.shiftl (Z.b2z (fn input_bits)) (snd acc)), snd acc + 1) in
  {| num_inputs := n; truth_table := fst (fold_left step (product_bools n) (0, 0)) |}.

(** an argument of the callable that lut.py:96 applies to the bits *)
Definition arg (l : list bool) (i : nat) : bool := nth i l false.
(** a lambda of two, of three arguments *)
Definition lambda2 (f : bool -> bool -> bool) (l : list bool) : bool := f (arg l 0) (arg l 1).
Definition lambda3 (f : bool -> bool -> bool -> bool) (l : list bool) : bool := f (arg l 0) (arg l 1) (arg l 2).

(** lut.py:104-116 *)
Definition FUNC_NAME_TO_LUT2 : list (string * lookup_table) :=
  [ ("and"%string, from_callable 2 (lambda2 (fun x y => x && y)));
    ("andny"%string, from_callable 2 (lambda2 (fun x y => negb x && y)));
    ("andyn"%string, from_callable 2 (lambda2 (fun x y => x && negb y)));
    ("nand"%string, from_callable 2 (lambda2 (fun x y => negb (x && y))));
    ("nor"%string, from_callable 2 (lambda2 (fun x y => negb (x || y))));
    ("or"%string, from_callable 2 (lambda2 (fun x y => x || y)));
    ("orny"%string, from_callable 2 (lambda2 (fun x y => negb x || y)));
    ("oryn"%string, from_callable 2 (lambda2 (fun x y => x || negb y)));
    ("xnor"%string, from_callable 2 (lambda2 (fun x y => Bool.eqb x y)));
    ("xor"%string, from_callable 2 (lambda2 (fun x y => negb (Bool.eqb x y))));
    ("cmux"%string, from_callable 3 (lambda3 (fun v1 v0 ctrl => if ctrl then v1 else v0))) ].

(** dictionary lookup *)
Fixpoint dict_get {V} (name : string) (d : list (string * V)) : option V :=
  match d with
  | [] => None
  | (k, v) :: rest => if String.eqb name k then Some v else dict_get name rest
  end.

(** ** The same functions without their caches (what a first call computes) *)
(** lut.py:133-140, lut_by_name: always declares two inputs *)
Definition lut_by_name (name : string) : option lookup_table :=
  match dict_get name FUNC_NAME_TO_LUT2 with
  | None => None
  | Some t => Some {| num_inputs := 2; truth_table := truth_table t |}
  end.
(** lut.py:142-145, lut_poly *)
Definition lut_poly (tpu : Z) (sp : scheme_params) (n : nat) (tb : Z) : option (list (list Z)) :=
  as_rlwe_test_polynomial tpu sp {| num_inputs := n; truth_table := tb |}.
(** lut.py:147-149, lut_poly_by_name *)
Definition lut_poly_by_name (tpu : Z) (sp : scheme_params) (name : string) : option (list (list Z)) :=
  match lut_by_name name with
  | None => None
  | Some t => as_rlwe_test_polynomial tpu sp t
  end.

(** ** LutCache as a state machine (lut.py:119-149).
    [lut] and [as_rlwe_test_polynomial] are memoised by functools.lru_cache (128 entries, least recently used entry
    evicted, exceptions not stored).  LookUpTable has a hash but no equality, so that the second cache is keyed by object
    identity: an object is its index in the append-only [heap].  lru_cache distinguishes positional from keyword calls
    ([kw]).  Both caches are class attributes, shared by every LutCache: the key contains the LutCache, here a number. *)
Definition LRU_MAXSIZE : nat := 128.
Section Lru.
  Context {K V : Type} (eqb : K -> K -> bool).
  Fixpoint lru_find (k : K) (c : list (K * V)) : option V :=
    match c with
    | [] => None
    | (k', v) :: rest => if eqb k k' then Some v else lru_find k rest
    end.
  Definition lru_remove (k : K) (c : list (K * V)) : list (K * V) := filter (fun e => negb (eqb k (fst e))) c.
  (** most recently used first *)
  Definition lru_touch (k : K) (v : V) (c : list (K * V)) : list (K * V) := firstn LRU_MAXSIZE ((k, v) :: lru_remove k c).
End Lru.

(** the key of the cache on LutCache.lut, lut.py:126-131: the arguments of the call, and whether they were keywords *)
Record lut_key := { lk_cache : nat; lk_kw : bool; lk_inputs : nat; lk_table : Z }.
Definition lut_key_eqb (a b : lut_key) : bool :=
  (lk_cache a =? lk_cache b)%nat && Bool.eqb (lk_kw a) (lk_kw b) && (lk_inputs a =? lk_inputs b)%nat && (lk_table a =? lk_table b).
(** frozen dataclass equality (parameters.py:7-43); the two logarithms are functions of the other fields *)
Definition sp_eqb (a b : scheme_params) : bool :=
  (lwe_dimension a =? lwe_dimension b)%nat && (plaintext_modulus a =? plaintext_modulus b) &&
  (rlwe_dimension a =? rlwe_dimension b)%nat && (modulus_degree a =? modulus_degree b)%nat.
Definition poly_key_eqb (a b : nat * scheme_params) : bool := (fst a =? fst b)%nat && sp_eqb (snd a) (snd b).

(** the class attributes and objects the requests share, lut.py:43-45, 119-131 *)
Record cache_state := {
  heap : list lookup_table;                                       (* every LookUpTable object created *)
  caches : list scheme_params;                                    (* every LutCache object created *)
  test_poly_cache : list (nat * Z * nat);                         (* per LutCache: table -> object; written, read back at once *)
  lut_lru : list (lut_key * nat);
  poly_lru : list ((nat * scheme_params) * list (list Z)) }.

(** the state after importing lut.py *)
Definition empty_cache : cache_state :=
  {| heap := []; caches := []; test_poly_cache := []; lut_lru := []; poly_lru := [] |}.

(** lut.py:126-131, lut: returns the object *)
Definition cached_lut (c : nat) (kw : bool) (n : nat) (tb : Z) (st : cache_state) : nat * cache_state :=
  let key := {| lk_cache := c; lk_kw := kw; lk_inputs := n; lk_table := tb |} in
  match lru_find lut_key_eqb key (lut_lru st) with
  | Some obj => (obj, {| heap := heap st; caches := caches st; test_poly_cache := test_poly_cache st;
                         lut_lru := lru_touch lut_key_eqb key obj (lut_lru st); poly_lru := poly_lru st |})
  | None =>
      let obj := List.length (heap st) in
      let d := ((c, tb, obj)) :: test_poly_cache st in            (* self.test_poly_cache[lut_as_int] = LookUpTable(...) *)
      let read_back := match find (fun e => (fst (fst e) =? c)%nat && (snd (fst e) =? tb)) d with Some e => snd e | None => obj end in
      (read_back, {| heap := heap st ++ [{| num_inputs := n; truth_table := tb |}]; caches := caches st; test_poly_cache := d;
                     lut_lru := lru_touch lut_key_eqb key read_back (lut_lru st); poly_lru := poly_lru st |})
  end.

(** lut.py:43-66 with its lru_cache *)
Definition cached_poly (tpu : Z) (obj : nat) (sp : scheme_params) (st : cache_state) : option (list (list Z)) * cache_state :=
  match lru_find poly_key_eqb (obj, sp) (poly_lru st) with
  | Some v => (Some v, {| heap := heap st; caches := caches st; test_poly_cache := test_poly_cache st; lut_lru := lut_lru st;
                          poly_lru := lru_touch poly_key_eqb (obj, sp) v (poly_lru st) |})
  | None =>
      match as_rlwe_test_polynomial tpu sp (nth obj (heap st) {| num_inputs := 0; truth_table := 0 |}) with
      | None => (None, st)
      | Some v => (Some v, {| heap := heap st; caches := caches st; test_poly_cache := test_poly_cache st; lut_lru := lut_lru st;
                              poly_lru := lru_touch poly_key_eqb (obj, sp) v (poly_lru st) |})
      end
  end.

(** the public requests; [c] is the number of the LutCache *)
Inductive request :=
| NewCache (sp : scheme_params)                                    (* lut.py:122-124 *)
| RLut (c : nat) (kw : bool) (n : nat) (tb : Z)                    (* lut.py:126-131 (bool_params.py:67-68 passes keywords) *)
| RLutByName (c : nat) (name : string)                             (* lut.py:133-140 *)
| RLutPoly (c : nat) (n : nat) (tb : Z)                            (* lut.py:142-145 *)
| RLutPolyByName (c : nat) (name : string).                        (* lut.py:147-149 *)
Inductive response := Unit | Table (t : lookup_table) | Poly (m : list (list Z)) | Raised.

(** reading a list, and turning a polynomial or an exception into a response; sp0 is the default for lists, never read in a valid request *)
Definition sp0 : scheme_params := {| lwe_dimension := 0; plaintext_modulus := 1; rlwe_dimension := 0; modulus_degree := 0 |}.
Definition table_of (st : cache_state) (obj : nat) : lookup_table := nth obj (heap st) {| num_inputs := 0; truth_table := 0 |}.
Definition poly_response (r : option (list (list Z)) * cache_state) : response * cache_state :=
  (match fst r with Some m => Poly m | None => Raised end, snd r).

(** one call of a method of LutCache, lut.py:122-149 *)
Definition serve (tpu : Z) (r : request) (st : cache_state) : response * cache_state :=
  match r with
  | NewCache sp => (Unit, {| heap := heap st; caches := caches st ++ [sp]; test_poly_cache := test_poly_cache st;
                             lut_lru := lut_lru st; poly_lru := poly_lru st |})
  | RLut c kw n tb => let (obj, st') := cached_lut c kw n tb st in (Table (table_of st' obj), st')
  | RLutByName c name =>
      match dict_get name FUNC_NAME_TO_LUT2 with
      | None => (Raised, st)
      | Some t => let (obj, st') := cached_lut c true 2 (truth_table t) st in (Table (table_of st' obj), st')
      end
  | RLutPoly c n tb =>
      let (obj, st') := cached_lut c false n tb st in poly_response (cached_poly tpu obj (nth c (caches st') sp0) st')
  | RLutPolyByName c name =>
      match dict_get name FUNC_NAME_TO_LUT2 with
      | None => (Raised, st)
      | Some t =>
          let (obj, st') := cached_lut c true 2 (truth_table t) st in
          poly_response (cached_poly tpu obj (nth c (caches st') sp0) st')
      end
  end.

(** a history of calls of those methods, lut.py:122-149, in order *)
Fixpoint serve_all (tpu : Z) (rs : list request) (st : cache_state) : list response * cache_state :=
  match rs with
  | [] => ([], st)
  | r :: rest =>
      let (a, st1) := serve tpu r st in
      let (l, st2) := serve_all tpu rest st1 in (a :: l, st2)
  end.
