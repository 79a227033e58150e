(** Model of jaxite/jaxite_ckks/barrett.py and add.py (entrywise).  jax_enable_x64 is on in this package
    (bat_utils.py:7): products are uint64. *)
From Coq Require Import ZArith List Bool.
Import ListNotations.
Local Open Scope Z_scope.

(** uint64 and uint32 arithmetic, barrett.py:70-100 *)
Definition u64 (x : Z) : Z := x mod 2 ^ 64.
Definition u32' (x : Z) : Z := x mod 2 ^ 32.
(** logical right shift of a 64-bit word; XLA gives 0 for shift amounts of 64 and more *)
Definition shr64 (x k : Z) : Z := if k <? 64 then x / 2 ^ k else 0.
Definition shl64 (x k : Z) : Z := if k <? 64 then u64 (x * 2 ^ k) else 0.

(** round-half-even of the rational num/den *)
Definition rne (num den : Z) : Z :=
  let q := num / den in
  let r := num mod den in
  if 2 * r <? den then q else if den <? 2 * r then q + 1 else if Z.even q then q else q + 1.

(** Python's [math.floor(a / b)] for positive integers with a >= b: the quotient correctly rounded to binary64 (53
    significant bits, ties to even), then its floor.  [fl] is the exponent of the exact quotient.  Quotients of 2^53 and
    more (never met below: the quotients are at most 2^32) are integers after rounding. *)
Definition float_floordiv (a b : Z) : Z :=
  let e0 := Z.log2 a - Z.log2 b in
  let fl := if b * 2 ^ e0 <=? a then e0 else e0 - 1 in
  let e := 52 - fl in
  if 0 <=? e then rne (a * 2 ^ e) b / 2 ^ e else rne a (b * 2 ^ (- e)) * 2 ^ (- e).

(** barrett.py:10-39, class BarrettConstants, for one modulus *)
Record barrett_constants := { bc_m : Z; bc_moduli : Z; bc_w : Z; bc_s_w : Z }.

(** barrett.py:42-67, precompute_barrett_constants for one modulus.  [math.ceil(math.log2(m))] is the exact ceiling of the
    logarithm (binary64 separates log2 of neighbouring integers from integers well above 2^31).  The arrays are uint64,
    uint32, uint16, uint16. *)
Definition precompute_barrett_constants (m : Z) : barrett_constants :=
  let s := 2 * Z.log2_up m in
  let w := Z.min s 32 in
  {| bc_m := u64 (float_floordiv (2 ^ s) m); bc_moduli := u32' m; bc_w := w; bc_s_w := s - w |}.

(** barrett.py:70-95, modular_reduction; z is a uint64 word *)
Definition modular_reduction (z : Z) (c : barrett_constants) : Z :=
  let m := bc_m c in
  let moduli := bc_moduli c in
  let w := bc_w c in
  let z1 := Z.land z (2 ^ 32 - 1) in
  let z2 := shr64 z w in
  let t := u64 (shr64 (u64 (z1 * m)) w + u64 (z2 * m)) in
  let t := shr64 t (bc_s_w c) in
  let z := u64 (z - u64 (t * moduli)) in
  let z := if moduli <=? z then u64 (z - moduli) else z in
  u32' z.

(** add.py:21-33, AddSimple.add on words of [bits] bits *)
Definition add_simple (bits a b : Z) : Z := (a + b) mod 2 ^ bits.
(** add.py:60-64, AddModularBarrett.add, on words of [bits] bits *)
Definition add_modular_barrett (bits a b : Z) (c : option barrett_constants) : option Z :=
  match c with
  | None => None
  | Some c => Some (modular_reduction ((a + b) mod 2 ^ bits) c)
  end.
(** add.py:86-92, AddModularSubtract.add, on words of [bits] bits *)
Definition add_modular_subtract (bits a b m : Z) : Z :=
  let res := (a + b) mod 2 ^ bits in
  if u32' m <=? res then (res - u32' m) mod 2 ^ bits else res.
