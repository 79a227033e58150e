(** Model of jaxite/jaxite_cggi/polymul_kernel.py: vector-matrix products of polynomials, with the reference path, the
    TPU kernel for decomposed vectors and the byte-Toeplitz ("BAT") path. *)
From Coq Require Import ZArith List Bool.
From Verif Require Import Base.ZSum Base.Word Cggi.Model_matrix_utils.
Import ListNotations.
Local Open Scope Z_scope.

(** polymul_kernel.py:17-19, fallback_vector_matrix_polymul: poly_dot_product with every column *)
Definition fallback_vector_matrix_polymul (tpu : Z) (n : nat) (vec : list (list Z)) (mat : list (list (list Z)))
  : list (list Z) :=
  map (fun j => poly_dot_product tpu n vec (map (fun row => nth j row []) mat)) (seq 0 (length (nth 0 mat []))).

(** Rounding of an integer to [p] significant bits, nearest with ties to even: the value of an integer after a cast to
    a binary float with a p-bit significand (p = 8 for bfloat16, p = 24 for float32; exponent range not exceeded). *)
Definition round_even (x d : Z) : Z :=
  let q := x / d in
  let r := x mod d in
  if 2 * r <? d then q * d
  else if d <? 2 * r then (q + 1) * d
  else if Z.even q then q * d else (q + 1) * d.
Definition fround (p x : Z) : Z :=
  let b := Z.log2 (Z.abs x) + 1 in
  if b <=? p then x else Z.sgn x * round_even (Z.abs x) (2 ^ (b - p)).

(** polymul_kernel.py:123-127: a dot product of bfloat16 operands accumulated in float32 (products of two 8-bit
    significands are exact in float32), then cast to int32.  The accumulation order is fixed to index order. *)
Definition bf16_dot (a b : list Z) : Z :=
  fold_left (fun acc xy => fround 24 (acc + fround 8 (fst xy) * fround 8 (snd xy))) (combine a b) 0.

(** polymul_kernel.py:85-137, _i32_matmul_unreduced_cggi.  [lhs] has m rows (m = 8 in the caller); bytes 0 and 2 come
    from the first m/2 rows, bytes 1 and 3 from the last.  [rhs] entries are int32 ([s32]) before the bfloat16 cast.
    The four partial products are shifted as int32 and added. *)
Definition i32_matmul_unreduced_cggi (lhs : list (list Z)) (rhs : list (list Z)) : list (list Z) :=
  let h := (length lhs / 2)%nat in
  let n := length (nth 0 rhs []) in
  let lhs_i8 :=
    map (map (fun x => byte_of x 0)) (firstn h lhs) ++ map (map (fun x => byte_of x 1)) (skipn h lhs) ++
    map (map (fun x => byte_of x 2)) (firstn h lhs) ++ map (map (fun x => byte_of x 3)) (skipn h lhs) in
  let raw := map (fun row => map (fun c => bf16_dot row (map (fun r => s32 (nth c r 0)) rhs)) (seq 0 n)) lhs_i8 in
  map (fun r => map (fun c =>
      u32 (lsum (map (fun g => shl32 (nth c (nth (g * h + r) raw []) 0) (8 * Z.of_nat g)) (seq 0 4)))) (seq 0 n))
      (seq 0 h).

(** polymul_kernel.py:140-214, _decomposed_vector_matrix_polymul.  [b == b2] and the degree match are asserts; padding
    by a negative amount (more than 4 columns) and a degree that is not a multiple of 128 are errors. *)
Definition decomposed_vector_matrix_polymul (vec : list (list Z)) (mat : list (list (list Z)))
  : option (list (list Z)) :=
  let n := length (nth 0 vec []) in
  let real_m := length (nth 0 mat []) in
  if negb (length vec =? length mat)%nat then None
  else if negb (n =? length (nth 0 (nth 0 mat []) []))%nat then None
  else if (4 <? real_m)%nat then None
  else if negb (n mod 128 =? 0)%nat then None
  else
    let padded := map (fun rows => let r := rows ++ repeat (repeat 0 n) (4 - real_m) in r ++ r) mat in
    let outs := map2 (fun v rows => i32_matmul_unreduced_cggi rows (toeplitz_signed v)) vec padded in
    Some (firstn real_m (map (fun r => vsum n (map (fun o => nth r o []) outs)) (seq 0 4))).

(** polymul_kernel.py:217-247, negacyclic_vector_matrix_polymul *)
Definition negacyclic_vector_matrix_polymul (tpu : Z) (vec : list (list Z)) (mat : list (list (list Z)))
    (decomposition_log_base : Z) : option (list (list Z)) :=
  let n_vec := length (nth 0 vec []) in
  let n_mat := length (nth 0 (nth 0 mat []) []) in
  if negb (n_mat =? n_vec)%nat then None
  else if ((n_vec mod 128 =? 0)%nat && (5 <=? tpu) && (decomposition_log_base <? 8))%bool
  then decomposed_vector_matrix_polymul vec mat
  else Some (fallback_vector_matrix_polymul tpu n_vec vec mat).

(** bootstrap.py:197-217, bat_offline_compile_cggi on one word: the 4x4 byte matrix, rows [p], columns [q];
    column q is the byte vector rolled by q, and jnp.tril keeps p >= q. *)
Definition bat_compile_word (x : Z) : list (list Z) :=
  map (fun p => map (fun q => if (q <=? p)%nat then byte_of x ((p + 4 - q) mod 4) else 0) (seq 0 4)) (seq 0 4).
Definition bat_offline_compile_cggi (mat : list (list (list Z))) : list (list (list (list (list Z)))) :=
  map (map (map bat_compile_word)) mat.

(** polymul_kernel.py:62-82, bat_matmul: u8(c,m,n,4,4) times u32(c,n,k); uint32 accumulation *)
Definition bat_matmul (lhs : list (list (list (list (list Z))))) (y : list (list (list Z))) (m k : nat) : list (list Z) :=
  map (fun mi => map (fun ki =>
    u32 (lsum (map2 (fun lc yc =>
      lsum (map (fun p =>
        shl32 (u32 (lsum (map2 (fun e yrow =>
                 lsum (map (fun q => nth q (nth p e []) 0 * byte_of (nth ki yrow 0) q) (seq 0 4)))
               (nth mi lc []) yc)))
              (8 * Z.of_nat p))
        (seq 0 4)))
      lhs y))) (seq 0 k)) (seq 0 m).

(** polymul_kernel.py:250-334, negacyclic_vector_matrix_polymul_bat.  The Pallas grid is the literal 18: block b of the
    Toeplitz stack is written only for b < 18, and a block index outside the arrays is undefined, so the kernel path is
    modelled as defined exactly when the vector has 18 entries.  The other path reads the original words back from
    column 0 of each byte matrix (331-333). *)
Definition word_of_bytes (bs : list Z) : Z := lsum (map2 (fun b p => b * 256 ^ Z.of_nat p) bs (seq 0 (length bs))).
Definition negacyclic_vector_matrix_polymul_bat (tpu : Z) (vec : list (list Z))
    (mat : list (list (list (list (list Z))))) : option (list (list Z)) :=
  let n_vec := length (nth 0 vec []) in
  let n_mat := length (nth 0 (nth 0 mat []) []) in
  if negb (n_mat =? n_vec)%nat then None
  else if ((n_vec mod 128 =? 0)%nat && (5 <=? tpu))%bool
  then
    if negb (length vec =? length mat)%nat then None
    else if negb (length vec =? 18)%nat then None
    else Some (bat_matmul mat (map toeplitz_signed vec) (length (nth 0 mat [])) n_vec)
  else
    let original := map (map (map (fun e => word_of_bytes (map (fun r => nth 0 r 0) e)))) mat in
    Some (fallback_vector_matrix_polymul tpu n_vec vec original).

(** polymul_kernel.py:32-59 and 337-352, i32_matmul: all four bytes of both operands; the rows of the result are
    grouped by byte of the left operand and summed by the caller. *)
Definition i32_matmul (lhs rhs : list (list Z)) : list (list Z) :=
  let m := length lhs in
  let n := length (nth 0 rhs []) in
  let lhs_i8 := flat_map (fun p => map (map (fun x => byte_of x p)) lhs) (seq 0 4) in
  let acc := map2 (fun ri row => map (fun c =>
      lsum (map (fun q =>
        shl32 (bf16_dot row (map (fun r => byte_of (nth c r 0) q) rhs)) (8 * Z.of_nat (ri / m) + 8 * Z.of_nat q))
        (seq 0 4))) (seq 0 n)) (seq 0 (length lhs_i8)) lhs_i8 in
  map (fun r => map (fun c => u32 (lsum (map (fun p => nth c (nth (p * m + r) acc []) 0) (seq 0 4)))) (seq 0 n)) (seq 0 m).
