(** Field arithmetic of jaxite_ec/finite_field.py on residue vectors (RNS form).
    A batch is a list of rows, a row lists one 16-bit word per modulus.  jnp arithmetic wraps at the width of its dtype; the
    widths written below are those of the operands (x64 is enabled, uint8 with uint16 gives uint16, uint8 or uint16 with
    uint32 gives uint32).  Batches of equal shape only: broadcasting of a one-dimensional constant is not modelled except in
    the callers that use it. *)
From Coq Require Import ZArith List Bool Lia.
From Verif Require Import Base.Word Base.Lists.
From Verif Require Import Ckks.Model_rns_utils Ec.Model_util Ec.Model_field.
Import ListNotations.
Local Open Scope Z_scope.

(** finite_field.py:657-665 for one element: (upper, lower) 16-bit halves *)
Definition split_view_32_to_16 (a : Z) : Z * Z := (a / 2 ^ 16, a mod 2 ^ 16).
(** finite_field.py:668-678 for one element: third byte and lower half; the fourth byte is dropped *)
Definition split_view_32_to_16_8 (a : Z) : Z * Z := ((a / 2 ^ 16) mod 2 ^ 8, a mod 2 ^ 16).

(** finite_field.py:687-713 for one uint32 element and its offset t *)
Definition rns_red_word (v t : Z) : Z :=
  let '(u1, l1) := split_view_32_to_16 v in
  let i1 := u32 (l1 + u32 (u1 * t)) in
  let '(u2, l2) := split_view_32_to_16_8 i1 in
  let i2 := u32 (l2 + (u2 * t) mod 2 ^ 16) in
  let '(u3, l3) := split_view_32_to_16_8 i2 in
  (l3 + (u3 * t) mod 2 ^ 8) mod 2 ^ 16.
(** jnp.array(moduli_t, dtype=jnp.uint8): None when an offset does not fit *)
Definition offsets_u8 (moduli_t : list Z) : option (list Z) := if forallb (fun t => (0 <=? t) && (t <? 256)) moduli_t then Some moduli_t else None.
Definition moduli_rns_red_internal_2u16 (vals : batch) (moduli_t : list Z) : option batch :=
  do ts <- offsets_u8 moduli_t; Some (map (fun r => map2 rns_red_word r ts) vals).

(** finite_field.py:722-764 for one row; rns_mat is (stacked byte matrix, correction row).  None when the shapes do not match. *)
Definition mod_red_rns_row (row : list Z) (rns_mat : list (list Z) * list Z) (num_moduli : nat) (precision : Z) : option (list Z) :=
  let '(mat, cor) := rns_mat in
  let bytes := bytes_of_u16 row in
  if negb ((length bytes =? length mat)%nat && (length cor =? num_moduli)%nat) then None
  else
    let c_target := vecmat32 bytes mat (length (hd [] mat)) in
    let glued := map (fun p => u32 (fst p + u32 (snd p * 2 ^ 8))) (pairs c_target) in
    let rns_reduce := firstn num_moduli glued in
    let k := map (fun v => (v / 2 ^ precision) mod 2 ^ 16) (skipn num_moduli glued) in
    match k with
    | [k0] => Some (map2 (fun v c => u32 (v + u32 (k0 * c))) rns_reduce cor)
    | _ => None
    end.
Definition RNS_PRECISION : Z := 16.
Definition mod_red_rns_2u16 (c : batch) (rns_mat : list (list Z) * list Z) (moduli_t : list Z) (num_moduli : nat) : option batch :=
  do r <- sequence_opt (map (fun row => mod_red_rns_row row rns_mat num_moduli RNS_PRECISION) c);
  moduli_rns_red_internal_2u16 r moduli_t.

(** finite_field.py:767-779 *)
Definition mul_unreduced_rns_2u16 (a b : batch) (moduli_t : list Z) : option batch :=
  moduli_rns_red_internal_2u16 (map2 (map2 (fun x y => u32 (x * y))) a b) moduli_t.
(** finite_field.py:782-806 *)
Definition mod_mul_rns_2u16 (a b : batch) (rns_mat : list (list Z) * list Z) (moduli_t : list Z) : option batch :=
  do ab <- mul_unreduced_rns_2u16 a b moduli_t; mod_red_rns_2u16 ab rns_mat moduli_t NUM_MODULI.
(** the default arguments (lines 792-793); None when the module's constants cannot be built *)
Definition mod_mul_rns_377 (a b : batch) : option batch := do m <- RNS_MAT; mod_mul_rns_2u16 a b m RNS_MODULI_T.

(** finite_field.py:857-887 for one word; the cast to uint16 comes first *)
Definition negate_word (a sub : Z) : Z := u32 ((- a) mod 2 ^ 16 + sub).
Definition negate_rns_for_var_add (a : batch) (moduli_sub : list Z) : batch := map (fun r => map2 negate_word r moduli_sub) a.
(** finite_field.py:890-928 for one word *)
Definition negate_word_zero_check (a sub : Z) : Z := u32 (u32 ((- a) mod 2 ^ 16 + sub) * (if a =? 0 then 0 else 1)).
Definition negate_rns_for_var_add_zero_check (a : batch) (moduli_sub : list Z) : batch := map (fun r => map2 negate_word_zero_check r moduli_sub) a.

(** finite_field.py:955-969 for one accumulated word *)
Definition add_sub_word (acc t : Z) : Z :=
  let '(u1, l1) := split_view_32_to_16_8 acc in
  let i1 := u32 ((u1 * t) mod 2 ^ 16 + l1) in
  let '(u2, l2) := split_view_32_to_16_8 i1 in
  ((u2 * t) mod 2 ^ 8 + l2) mod 2 ^ 16.
(** finite_field.py:931-969; both assertions *)
Definition add_sub_rns_var (values : list batch) (moduli_t : list Z) : option batch :=
  match values with
  | [] => None
  | v :: vs =>
      let acc := fold_left (fun acc v => map2 (map2 (fun x y => u32 (x + y))) v acc) vs v in
      if negb (length values <? 256)%nat then None
      else do ts <- offsets_u8 moduli_t; Some (map (fun r => map2 add_sub_word r ts) acc)
  end.
(** finite_field.py:809-830, 833-854 *)
Definition add_rns_2u16 (a b : batch) (moduli_t : list Z) : option batch := add_sub_rns_var [a; b] moduli_t.
Definition add_rns_3u16 (a b c : batch) (moduli_t : list Z) : option batch := add_sub_rns_var [a; b; c] moduli_t.
(** finite_field.py:972-976 *)
Definition rns_constant (c : Z) (num_moduli : nat) : option (list Z) := if (0 <=? c) && (c <? 2 ^ 14) then Some (repeat c num_moduli) else None.
