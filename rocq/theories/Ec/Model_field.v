(** Model of jaxite_ec/finite_field.py: chunked and RNS arithmetic on batches of field elements.
    A (batch, chunks) array is a list of rows of chunks, a one-dimensional array is a single row.  Batches are non-empty
    and rectangular.  jax_enable_x64 is on (line 42).  None is an exception raised by jax (shape or overflow errors). *)
From Coq Require Import ZArith List Bool.
From Verif Require Import Base.ZSum Base.Word Base.Lists.
From Verif Require Import Ckks.Model_rns_utils Ec.Model_util.
Import ListNotations.
Local Open Scope Z_scope.

(** a (batch, chunks) array of finite_field.py, its uint8 and uint16 casts, and exceptions *)
Definition batch := list (list Z).
Definition u8 (x : Z) : Z := x mod 2 ^ 8.
Definition u16 (x : Z) : Z := x mod 2 ^ 16.
Definition bind {A B} (o : option A) (f : A -> option B) : option B := match o with None => None | Some x => f x end.
Notation "'do' x <- o ; f" := (bind o (fun x => f)) (at level 200, x name, o at level 100, f at level 200).

(** jax.lax.while_loop(cond, body, x), cut off after 2^k iterations (None); the theorems show the cut-off is never met *)
Fixpoint while_run {A} (k : nat) (cond : A -> bool) (body : A -> A) (x : A) : bool * A :=
  if cond x
  then match k with
       | O => (false, body x)
       | S k' => let '(stop, y) := while_run k' cond body x in if stop then (true, y) else while_run k' cond body y
       end
  else (true, x).
Definition while_loop {A} (k : nat) (cond : A -> bool) (body : A -> A) (x : A) : option A :=
  let '(stop, y) := while_run k cond body x in if stop then Some y else if cond y then None else Some y.

(** finite_field.py:80-98, over all rows of the batch *)
Definition check_any_chunk_with_carry (chunk_shift_bits : Z) (value_c : batch) : bool :=
  existsb (existsb (fun v => negb (v / 2 ^ chunk_shift_bits =? 0))) value_c.

(** finite_field.py:124-130, 133: multiplication by roll_mat moves every entry one place up and the last one to the front *)
Definition roll {A} (l : list A) (d : A) : list A := last l d :: removelast l.

(** finite_field.py:103-137 for one row of w-bit words; the carries are cast to uint16 (lines 132, 134) *)
Definition carry_row (w mask chunk_shift_bits : Z) (row : list Z) : list Z :=
  let low := map (fun v => Z.land v mask) row in
  let high := roll (map (fun v => u16 (v / 2 ^ chunk_shift_bits)) row) 0 in
  map2 (fun l h => (l + h) mod 2 ^ w) low high.
Definition carry_propagation (w mask chunk_shift_bits : Z) (value_c : batch) : batch := map (carry_row w mask chunk_shift_bits) value_c.

(** the loop of lines 236-238, 250-252, 286-288, 413-423, 473-481, 641-649.  roll_mat cannot be built for fewer than two
    chunks (reshape error). *)
Definition carry_loop (w mask chunk_shift_bits : Z) (value_c : batch) : option batch :=
  if (length (hd [] value_c) <? 2)%nat then None
  else while_loop (64 + length value_c + length (hd [] value_c)) (check_any_chunk_with_carry chunk_shift_bits) (carry_propagation w mask chunk_shift_bits) value_c.

(** finite_field.py:49-75: the fixed number of iterations variant (uncast carries), on one row of w-bit words *)
Definition carry_add (w : Z) (value_c : list Z) (iter_num : nat) (mask chunk_shift_bits : Z) : list Z :=
  Nat.iter iter_num (fun row => map2 (fun l h => (l + h) mod 2 ^ w) (map (fun v => Z.land v mask) row) (roll (map (fun v => v / 2 ^ chunk_shift_bits) row) 0)) value_c.

(** finite_field.py:223-240; the operands have the same shape *)
Definition add_2u16 (a b : batch) : option batch :=
  do c <- carry_loop 32 U16_MASK 16 (map2 (map2 (fun x y => (x + y) mod 2 ^ 32)) a b);
  Some (map (map u16) c).

(** finite_field.py:243-254 *)
Definition add_3u16 (a b d : batch) : option batch :=
  do c <- carry_loop 32 U16_MASK 16 (map2 (map2 (fun x y => (x + y) mod 2 ^ 32)) (map2 (map2 (fun x y => (x + y) mod 2 ^ 32)) a b) d);
  Some (map (map u16) c).

(** finite_field.py:197-220 for one row; the weights 2^i do not fit int32 from i = 31 on *)
Definition compare_u16 (a b : list Z) (chunk_num : nat) : option Z :=
  if negb ((length a =? chunk_num)%nat && (length b =? chunk_num)%nat && (chunk_num <=? 31)%nat) then None
  else Some (dotZ (map2 (fun x y => Z.sgn (x - y)) a b) (map (fun i => 2 ^ Z.of_nat i) (seq 0 chunk_num))).

(** finite_field.py:276-284 for one row *)
Definition sub_start (mask : Z) (chunk_num : nat) (a b : list Z) : list Z :=
  let borrow_high := [0] ++ repeat 1 (chunk_num - 2) ++ [0] in
  let borrow_low := repeat (mask + 1) (chunk_num - 1) ++ [0] in
  let a := map2 (fun x y => (x + y) mod 2 ^ 32) a borrow_low in
  let c := map2 (fun x y => (x - y) mod 2 ^ 32) a b in
  map2 (fun x y => (x - y) mod 2 ^ 32) c borrow_high.
(** finite_field.py:259-297; rows of another length do not broadcast against the constants *)
Definition sub_2u16 (a b : batch) (mask : Z) (chunk_num : nat) : option batch :=
  if negb ((length (hd [] a) =? chunk_num)%nat && (length (hd [] b) =? chunk_num)%nat) then None
  else
    do c <- carry_loop 32 U16_MASK 16 (map2 (sub_start mask chunk_num) a b);
    Some (map (fun row => map u16 (upd (chunk_num - 1) ((nth (chunk_num - 1) row 0 - 1) mod 2 ^ 32) row)) c).

(** a one-dimensional operand broadcast against a batch *)
Definition broadcast (a : batch) (row : list Z) : batch := map (fun _ => row) a.

(** finite_field.py:304-329 *)
Definition cond_sub_mod_u16 (a : batch) (modulus_chunk : list Z) (chunk_num : nat) : option batch :=
  do cond <- sequence_opt (map (fun r => compare_u16 r modulus_chunk chunk_num) a);
  do b <- sub_2u16 a (broadcast a modulus_chunk) U16_MASK chunk_num;
  Some (map2 (fun c rows => if 0 <=? c then snd rows else fst rows) cond (combine a b)).

(** finite_field.py:336-368 *)
Definition cond_sub_2u16 (a b : batch) (modulus_chunk : list Z) (chunk_num : nat) : option batch :=
  do cond <- sequence_opt (map2 (fun x y => compare_u16 x y chunk_num) a b);
  let a' := map2 (fun c r => if 0 <=? c then r else map2 (fun x y => (x + y) mod 2 ^ 32) r modulus_chunk) cond a in
  sub_2u16 a' b U16_MASK chunk_num.

(** finite_field.py:140-157: the bitcasts to bytes and the full convolution, accumulated in uint32 *)
Definition convolve (a b : list Z) : list Z :=
  map (fun k => u32 (zsum (length a) (fun i => if (i <=? k)%nat then nth i a 0 * nth (k - i) b 0 else 0))) (seq 0 (length a + length b - 1)).
Definition conv_1d_2u16xn (a b : list Z) : list Z := convolve (bytes_of_u16 a) (bytes_of_u16 b).

(** consecutive pairs; reshape(-1, 2) of an even-length row *)
Fixpoint pairs {A} (l : list A) : list (A * A) := match l with x :: y :: r => (x, y) :: pairs r | _ => [] end.

(** finite_field.py:162-192 for one row of uint32 words: the left shift by 8 stays in uint32, the sums are uint64.  The
    numbers of pairs must match the lengths of the shift arrays (they do in every call). *)
Definition rechunkify (row : list Z) (chunk_num_u16 chunk_num_u32 : nat) : option (list Z) :=
  if negb ((length row =? 2 * chunk_num_u16)%nat && (chunk_num_u16 =? 2 * chunk_num_u32)%nat) then None
  else
    let c16 := map (fun p => (fst p + u32 (snd p * 2 ^ 8)) mod 2 ^ 64) (pairs row) in
    Some (map (fun p => (fst p + (snd p * 2 ^ 16) mod 2 ^ 64) mod 2 ^ 64) (pairs c16)).

(** bitcasts of uint32 words to uint16 and uint8, little endian *)
Definition u16_of_u32 (l : list Z) : list Z := flat_map (fun x => [x mod 2 ^ 16; x / 2 ^ 16]) l.
Definition u8_of_u32 (l : list Z) : list Z := bytes_of_u16 (u16_of_u32 l).
Definition u16_of_u8 (l : list Z) : list Z := map (fun p => fst p + 256 * snd p) (pairs l).

(** finite_field.py:408-423: product before the final bitcast, 32-bit chunks *)
Definition mul_u32 (a b : batch) (chunk_num_u16 : nat) : option batch :=
  do c <- sequence_opt (map2 (fun x y => rechunkify (conv_1d_2u16xn x y ++ [0]) (2 * chunk_num_u16) chunk_num_u16) a b);
  do c <- carry_loop 64 U32_MASK 32 c;
  Some (map (map u32) c).
(** finite_field.py:382-428 with output_dtype uint16 and uint8 *)
Definition mul_2u16 (a b : batch) (chunk_num_u16 : nat) : option batch :=
  do c <- mul_u32 a b chunk_num_u16; Some (map (fun r => firstn (2 * chunk_num_u16) (u16_of_u32 r)) c).
Definition mul_2u16_u8 (a b : batch) (chunk_num_u16 : nat) : option batch :=
  do c <- mul_u32 a b chunk_num_u16; Some (map (fun r => firstn (4 * chunk_num_u16) (u8_of_u32 r)) c).

(** finite_field.py:441-489 *)
Definition mul_shift_2u16x2x1 (a : batch) (b : list Z) (barrett_shift_u8 chunk_num_u16 chunk_num_u32 : nat) : option batch :=
  do c <- sequence_opt (map (fun x => rechunkify (conv_1d_2u16xn x b ++ [0]) (chunk_num_u16 * 3) (chunk_num_u32 * 3)) a);
  do c <- carry_loop 64 U32_MASK 32 c;
  Some (map (fun r => firstn chunk_num_u16 (u16_of_u8 (skipn barrett_shift_u8 (u8_of_u32 (map u32 r)) ++ [0]))) c).

(** finite_field.py:552-581 *)
Definition barrett_reduction_u16x2 (x : batch) : option batch :=
  do d <- mul_shift_2u16x2x1 x MU_377_INT_CHUNK BARRETT_SHIFT_U8 U16_CHUNK_NUM U32_CHUNK_NUM;
  do e <- mul_2u16 d (broadcast d MODULUS_377_INT_CHUNK) U16_CHUNK_NUM;
  do t <- sub_2u16 x e U16_MASK (U16_CHUNK_NUM * 2);
  cond_sub_mod_u16 (map (firstn U16_CHUNK_NUM) t) MODULUS_377_INT_CHUNK U16_CHUNK_NUM.
(** finite_field.py:503-538 *)
Definition mod_mul_barrett_2u16 (a b : batch) : option batch :=
  do x <- mul_2u16 a b U16_CHUNK_NUM;
  do d <- mul_shift_2u16x2x1 x MU_377_INT_CHUNK BARRETT_SHIFT_U8 U16_CHUNK_NUM U32_CHUNK_NUM;
  do e <- mul_2u16 d (broadcast d MODULUS_377_INT_CHUNK) U16_CHUNK_NUM;
  do t <- sub_2u16 x e U16_MASK (U16_CHUNK_NUM * 2);
  cond_sub_mod_u16 (map (firstn U16_CHUNK_NUM) t) MODULUS_377_INT_CHUNK U16_CHUNK_NUM.

(** finite_field.py:628-632: the row times the matrix, accumulated in uint32 *)
Definition vecmat32 (v : list Z) (mat : list (list Z)) (ncols : nat) : list Z :=
  map (fun j => u32 (dotZ v (map (fun r => nth j r 0) mat))) (seq 0 ncols).
(** finite_field.py:594-654 *)
Definition mod_mul_lazy_2u16 (a b : batch) (modulus_lazy_mat : list (list Z)) (chunk_num_u8 : nat) : option batch :=
  do c <- mul_2u16_u8 a b U16_EXT_CHUNK_NUM;
  do r <- sequence_opt (map (fun row =>
      let low := firstn chunk_num_u8 row in
      let high := skipn chunk_num_u8 row in
      if negb ((length high =? length modulus_lazy_mat)%nat) then None
      else
        do q <- rechunkify (map2 (fun x y => (x + y) mod 2 ^ 32) low (vecmat32 high modulus_lazy_mat chunk_num_u8)) (chunk_num_u8 / 2) (chunk_num_u8 / 4);
        Some (q ++ [0])) c);
  do r <- carry_loop 64 U32_MASK 32 r;
  Some (map (fun row => firstn U16_EXT_CHUNK_NUM (u16_of_u32 (map u32 row))) r).
(** with the default matrix (line 597) *)
Definition mod_mul_lazy_377 (a b : batch) : option batch :=
  do m <- MODULUS_377_LAZY_MAT; mod_mul_lazy_2u16 a b m U8_CHUNK_NUM.
