(** Model of the polynomial arithmetic of jaxite/jaxite_cggi/matrix_utils.py and of polymul_kernel.py.
    A polynomial is its coefficient list (lowest degree first); arrays of polynomials are nested lists.
    Words are integers; int32 and uint32 views of the same bits are identified by reading them through [u32]. *)
From Coq Require Import ZArith List Bool.
From Verif Require Import Base.ZSum Base.Word.
Import ListNotations.
Local Open Scope Z_scope.

(** jnp.roll(l, k) for a 1-dimensional array: entry i moves to (i + k) mod n, for any integer k *)
Definition roll (k : Z) (l : list Z) : list Z :=
  let n := length l in
  map (fun i => nth (Z.to_nat ((Z.of_nat i - k) mod Z.of_nat n)) l 0) (seq 0 n).

(** matrix_utils.py:44-64, x_power_n_minus_1 (int32 output, kept as plain integers; the second [.at[0]] subtraction is
    entrywise) *)
Definition x_power_n_minus_1 (e : Z) (n : nat) : list Z :=
  let d := e mod (2 * Z.of_nat n) in
  let flip := d / Z.of_nat n in
  let r := d mod Z.of_nat n in
  map (fun i => (if Z.of_nat i =? r then (-1) ^ flip else 0) - (if Nat.eqb i 0 then 1 else 0)) (seq 0 n).

(** matrix_utils.py:67-70, int32_to_int8_arr: little-endian byte [p] of a word *)
Definition byte_of (x : Z) (p : nat) : Z := (u32 x / 256 ^ Z.of_nat p) mod 256.

(** matrix_utils.py:91-99, the shift table *)
Definition shift_factors : list (list Z) :=
  [[0; 8; 16; 24]; [8; 16; 24; 32]; [16; 24; 32; 40]; [24; 32; 40; 48]].

(** matrix_utils.py:73-100, i32_as_u8_matmul: (n,) times (n,k).  The einsum accumulates in uint32; shifting by 32 or
    more gives 0 ([shl32]); the final sum is a 32-bit sum.  The rank check (76-80) is a typing matter here. *)
Definition i32_as_u8_matmul (lhs : list Z) (rhs : list (list Z)) : list Z :=
  let k := length (nth 0 rhs []) in
  map (fun c =>
         u32 (lsum (map (fun p =>
           lsum (map (fun q =>
             shl32 (u32 (lsum (map2 (fun x row => byte_of x p * byte_of (nth c row 0) q) lhs rhs)))
                   (nth q (nth p shift_factors []) 0))
             (seq 0 4)))
           (seq 0 4))))
      (seq 0 k).

(** matrix_utils.py:649-653, _generate_sign_matrix: entry (i,j) *)
Definition sign_entry (i j : nat) : Z := if (j <=? i)%nat then 1 else -1.

(** matrix_utils.py:656-682, toeplitz.  [cols] is the list of columns built so far; the recursion doubles it until it
    has at least n columns, keeps the first n and transposes, so the columns become the rows of the result.  [fuel] is
    only a termination measure: the number of columns doubles at each step. *)
Fixpoint toeplitz_go (fuel n : nat) (cols : list (list Z)) : list (list Z) :=
  match fuel with
  | O => cols
  | S f =>
      if (n <=? length cols)%nat then firstn n cols
      else toeplitz_go f n (cols ++ map (roll (Z.of_nat (length cols))) cols)
  end.
Definition toeplitz (x : list Z) : list (list Z) := toeplitz_go (S (length x)) (length x) [x].

(** matrix_utils.py:721-730 (and polymul_kernel.py:183-192, 301-310): the loop over blocks of 128 rows.  [chunk] holds
    128 copies of the input rolled by their row number; [row0] is the offset added to the row indices. *)
Fixpoint toeplitz_chunks (blocks : nat) (row0 : nat) (chunk : list (list Z)) : list (list Z) :=
  match blocks with
  | O => []
  | S b =>
      map2 (fun r row => map2 (fun c v => if (c <? row0 + r)%nat then u32 (- v) else v) (seq 0 (length row)) row)
           (seq 0 128) chunk
      ++ toeplitz_chunks b (row0 + 128) (map (roll 128) chunk)
  end.
Definition toeplitz_signed (x : list Z) : list (list Z) :=
  toeplitz_chunks (length x / 128) 0 (map (fun r => roll (Z.of_nat r) x) (seq 0 128)).

(** matrix_utils.py:685-735, toeplitz_kernelized: a size that is not a multiple of 128 is a ValueError *)
Definition toeplitz_kernelized (x : list Z) : option (list (list Z)) :=
  if (length x mod 128 =? 0)%nat then Some (toeplitz_signed x) else None.

(** matrix_utils.py:738-751, toeplitz_poly_mul.  [tpu] is jax_helpers.get_tpu_version(). *)
Definition toeplitz_poly_mul (tpu : Z) (a b : list Z) : list Z :=
  let n := length a in
  if ((n mod 128 =? 0)%nat && (5 <=? tpu))%bool
  then match toeplitz_kernelized a with Some t => i32_as_u8_matmul b t | None => [] end
  else i32_as_u8_matmul b
         (map2 (fun i row => map2 (fun j v => u32 (sign_entry j i * v)) (seq 0 n) row) (seq 0 n) (toeplitz a)).

(** matrix_utils.py:754-758, poly_mul *)
Definition poly_mul := toeplitz_poly_mul.

(** matrix_utils.py:812-813, 876-877: the optional final reduction *)
Definition reduce_log (log_modulus x : Z) : Z :=
  if ((0 <? log_modulus) && (log_modulus <? 32))%bool then x mod 2 ^ log_modulus else x.

(** matrix_utils.py:761-815, monomial_mul *)
Definition monomial_mul (poly : list Z) (degree log_modulus : Z) : list Z :=
  let n := Z.of_nat (length poly) in
  let degree := degree mod (2 * n) in
  let shift := degree mod n in
  let flip := ((degree / n) mod 2 =? 1) in
  let rolled := roll degree poly in
  let rolled := map (fun v => if flip then u32 (- v) else v) rolled in
  map2 (fun i v => reduce_log log_modulus (if Z.of_nat i <? shift then u32 (- v) else v))
       (seq 0 (length poly)) rolled.

(** matrix_utils.py:818, monomial_mul_list *)
Definition monomial_mul_list (polys : list (list Z)) (degree log_modulus : Z) : list (list Z) :=
  map (fun p => monomial_mul p degree log_modulus) polys.

(** jnp.sum over the first axis of a list of length-n word vectors *)
Definition vsum (n : nat) (l : list (list Z)) : list Z := fold_left vadd32 l (repeat 0 n).

(** matrix_utils.py:840-844, poly_dot_product ([poly_mul_list] maps poly_mul over rows, 820-822) *)
Definition poly_dot_product (tpu : Z) (n : nat) (v1 v2 : list (list Z)) : list Z :=
  vsum n (map2 (poly_mul tpu) v1 v2).

(** matrix_utils.py:847-879, scale_by_x_power_n_minus_1, on one polynomial and on a 3-dimensional array *)
Definition scale_row (power : Z) (row : list Z) (log_modulus : Z) : list Z :=
  let n := Z.of_nat (length row) in
  let power := power mod (2 * n) in
  let shift := power mod n in
  let flip := ((power / n) mod 2 =? 1) in
  let rolled := map (fun v => if flip then u32 (- v) else v) (roll shift row) in
  let part := map2 (fun i v => if Z.of_nat i <? shift then u32 (- v) else v) (seq 0 (length row)) rolled in
  map2 (fun x v => reduce_log log_modulus (sub32 x v)) part row.
Definition scale_by_x_power_n_minus_1 (power : Z) (matrix : list (list (list Z))) (log_modulus : Z)
  : list (list (list Z)) := map (map (fun row => scale_row power row log_modulus)) matrix.
