(** Model of the high-precision matrix products of jaxite/jaxite_cggi/matrix_utils.py (lines 103-641).  A matrix is a list of rows.
    [w] is the width of what jnp.uint64 means: 64 when jax_enable_x64 is on, 32 when it is off (JAX then truncates the type).
    None is an exception or a loop that does not end. *)
From Coq Require Import ZArith List Bool.
From Verif Require Import Base.ZSum Base.Lists Base.Word Ckks.Model_rns_utils Cggi.Model_matrix_utils Ec.Model_field.
Import ListNotations.
Local Open Scope Z_scope.

(** x << k on words of w bits: XLA gives 0 for a shift of w or more *)
Definition shl_w (w x k : Z) : Z := if k <? w then (x * 2 ^ k) mod 2 ^ w else 0.

(** matrix_utils.py:103-134, hpmatmul_conv_adapt_outer_product, one entry: row of the left matrix, column c of the right one; the
    einsum accumulates in uint32 *)
Definition outer_product_entry (w : Z) (row : list Z) (B : list (list Z)) (c : nat) : Z :=
  lsum (map (fun p =>
    lsum (map (fun q =>
      shl_w w (u32 (lsum (map2 (fun x brow => byte_of x p * byte_of (nth c brow 0) q) row B))) (nth q (nth p shift_factors []) 0))
      (seq 0 4))) (seq 0 4)) mod 2 ^ w.
Definition hpmatmul_conv_adapt_outer_product (w : Z) (A B : list (list Z)) : list (list Z) :=
  map (fun row => map (outer_product_entry w row B) (seq 0 (length (nth 0 B [])))) A.

(** matrix_utils.py:137-201, hpmatmul_conv_adapt_conv, one entry.  The one-dimensional convolution with padding (3, 3) and the reversed
    kernel has seven outputs; output t is the sum over all input channels and over the positions r of the kernel of
    lhs_padded[t + r] * rhs_reversed[r], with lhs_padded[u] = lhs[u - 3] and rhs_reversed[r] = rhs[3 - r] *)
Definition conv_shift_factors : list Z := [0; 8; 16; 24; 32; 40; 48].
Definition padded_byte (x : Z) (u : nat) : Z := if ((3 <=? u) && (u <? 7))%nat then byte_of x (u - 3) else 0.
Definition conv_entry (w : Z) (row : list Z) (B : list (list Z)) (c : nat) : Z :=
  lsum (map (fun t =>
    shl_w w (u32 (lsum (map2 (fun x brow => lsum (map (fun r => padded_byte x (t + r) * byte_of (nth c brow 0) (3 - r)) (seq 0 4))) row B)))
          (nth t conv_shift_factors 0)) (seq 0 7)) mod 2 ^ w.
Definition hpmatmul_conv_adapt_conv (w : Z) (A B : list (list Z)) : list (list Z) :=
  map (fun row => map (conv_entry w row B) (seq 0 (length (nth 0 B [])))) A.

(** matrix_utils.py:204-230, chunk_decomposition: while x > 0; the number of chunks is at most the bit length *)
Fixpoint chunks_loop (fuel : nat) (x chunkwidth : Z) : list Z :=
  match fuel with
  | O => []
  | S f => if 0 <? x then Z.land x (2 ^ chunkwidth - 1) :: chunks_loop f (Z.shiftr x chunkwidth) chunkwidth else []
  end.
Definition chunk_decomposition (x chunkwidth : Z) : list Z := chunks_loop (S (Z.to_nat (Z.log2 x))) x chunkwidth.

(** matrix_utils.py:233-345, rechunkify_after_chunkwise_add with chunkwidth 8 on a one-dimensional array of uint16 *)
Definition rechunk_step (b : list Z) : list Z := map2 (fun l h => u16 (l + h)) (map (fun v => Z.land v 255) b) (Model_field.roll (map (fun v => Z.shiftr v 8) b) 0).
Definition over_mask (b : list Z) : bool := negb (forallb (fun v => v <=? 255) b).
Definition rechunkify_after_chunkwise_add (a : list Z) : option (list Z) :=
  let b := map2 (fun l h => u16 (l + h)) (map (fun v => Z.land v 255) a ++ [0]) (0 :: map (fun v => Z.shiftr v 8) a) in
  match while_loop 64 over_mask rechunk_step b with
  | None => None
  | Some b => Some (removelast b ++ [Z.land (last b 0) 255; Z.shiftr (last b 0) 8])
  end.

(** x_dense.at[: len(r), col].set(jnp.add(r, x_dense[: len(r), col])): a uint16 addition on a prefix; [col] is one column *)
Definition add_prefix (r col : list Z) : list Z := map2 (fun x y => u16 (x + y)) r (firstn (length r) col) ++ skipn (length r) col.

(** the loops "for i in range(n - 1): for j in range(n - 1 - i)" *)
Definition bat_pairs (n : nat) : list (nat * nat) := flat_map (fun i => map (fun j => (i, j)) (seq 0 (n - 1 - i))) (seq 0 (n - 1)).

(** matrix_utils.py:348-463, smul_as_dense_gemv_bat with total_in_precision 32 and chunkwidth 8, for a 32-bit x.  x_dense is kept as its
    four columns of seven entries. *)
Definition bat_initial (x_dtype : list Z) : list (list Z) :=
  map (fun j => let upper_idx := Nat.min 4 (length x_dtype + j) in let set := firstn (upper_idx - j) x_dtype in
                repeat 0 j ++ set ++ repeat 0 (7 - j - length set)) (seq 0 4).
(** lines 418-428 *)
Definition bat_project (q : Z) (x_dtype : list Z) (cols : list (list Z)) : list (list Z) :=
  fold_left (fun cols ij => let '(i, j) := ij in
    let basis := Z.of_nat ((4 + i) * 8) in
    let projected_data := Z.shiftl (nth (i + j + 1) x_dtype 0) basis mod q in
    let c := (4 - 1 - j)%nat in
    upd c (add_prefix (chunk_decomposition projected_data 8) (nth c cols [])) cols) (bat_pairs (length x_dtype)) cols.
(** lines 430-432 *)
Definition bat_unfinished (cols : list (list Z)) : bool :=
  negb (forallb (forallb (fun v => v <=? 255)) cols) || negb (forallb (fun col => forallb (fun v => v =? 0) (skipn 4 col)) cols).
(** lines 433-441 *)
Fixpoint bat_rechunk (js : list nat) (cols : list (list Z)) : option (list (list Z)) :=
  match js with
  | [] => Some cols
  | j :: js' =>
      let c := (4 - 1 - j)%nat in
      if negb (forallb (fun v => v <=? 255) (nth c cols [])) then
        match rechunkify_after_chunkwise_add (nth c cols []) with
        | None => None
        | Some a => bat_rechunk js' (upd c (firstn 7 a) cols)
        end
      else bat_rechunk js' cols
  end.
(** lines 447-462 *)
Definition bat_reproject (q : Z) (n : nat) (cols : list (list Z)) : list (list Z) :=
  fold_left (fun cols ij => let '(i, j) := ij in
    let c := (4 - 1 - j)%nat in
    let data := nth (4 + i) (nth c cols []) 0 in
    if 0 <? data then
      let basis := Z.of_nat ((4 + i) * 8) in
      let projected_data := Z.shiftl data basis mod q in
      let col := add_prefix (chunk_decomposition projected_data 8) (nth c cols []) in
      upd c (upd (4 + i) 0 col) cols
    else cols) (bat_pairs n) cols.
Fixpoint bat_loop (fuel : nat) (q : Z) (n : nat) (cols : list (list Z)) : option (list (list Z)) :=
  if bat_unfinished cols then
    match fuel with
    | O => None
    | S f => match bat_rechunk [0; 1; 2]%nat cols with None => None | Some cols => bat_loop f q n (bat_reproject q n cols) end
    end
  else Some cols.
(** the result as its four columns of four bytes; [fuel] 64 bounds the outer loop (the theorems show it is not met); q = 0 raises when a
    remainder is taken *)
Definition smul_as_dense_gemv_bat (x q : Z) : option (list (list Z)) :=
  let x_dtype := chunk_decomposition x 8 in
  match bat_loop 64 q (length x_dtype) (bat_project q x_dtype (bat_initial x_dtype)) with
  | None => None
  | Some cols => Some (map (fun col => map (fun v => v mod 256) (firstn 4 col)) cols)
  end.

(** matrix_utils.py:466-569, smul_as_dense_gemv_bat_jax, with jax_enable_x64 on (off, the byte arrays do not match and it raises).  The
    bytes of a 64-bit word; the first seven are added to the whole column *)
Definition bytes7 (x : Z) : list Z := map (fun p => (x / 256 ^ Z.of_nat p) mod 256) (seq 0 7).
Definition bat_jax_initial (x : Z) : list (list Z) :=
  let b := byte_of x in
  [[b 0%nat; b 1%nat; b 2%nat; b 3%nat; 0; 0; 0]; [0; b 0%nat; b 1%nat; b 2%nat; b 3%nat; 0; 0]; [0; 0; b 0%nat; b 1%nat; b 2%nat; b 3%nat; 0]; [0; 0; 0; b 0%nat; b 1%nat; b 2%nat; b 3%nat]].
Definition bat_jax_project (q : Z) (x : Z) (cols : list (list Z)) : list (list Z) :=
  fold_left (fun cols ij => let '(i, j) := ij in
    let basis := Z.of_nat ((4 + i) * 8) in
    let projected_data := shl_w 64 (byte_of x (i + j + 1)) basis mod q in
    let c := (4 - 1 - j)%nat in
    upd c (add_prefix (bytes7 projected_data) (nth c cols [])) cols) (bat_pairs 4) cols.
Definition bat_jax_reproject (q : Z) (cols : list (list Z)) : list (list Z) :=
  fold_left (fun cols ij => let '(i, j) := ij in
    let c := (4 - 1 - j)%nat in
    let data := nth (4 + i) (nth c cols []) 0 in
    if 0 <? data then
      let projected_data := shl_w 64 data (Z.of_nat ((4 + i) * 8)) mod q in
      upd c (upd (4 + i) 0 (add_prefix (bytes7 projected_data) (nth c cols []))) cols
    else cols) (bat_pairs 4) cols.
Fixpoint bat_jax_loop (fuel : nat) (q : Z) (cols : list (list Z)) : option (list (list Z)) :=
  if bat_unfinished cols then
    match fuel with
    | O => None
    | S f => match bat_rechunk [0; 1; 2]%nat cols with None => None | Some cols => bat_jax_loop f q (bat_jax_reproject q cols) end
    end
  else Some cols.
Definition smul_as_dense_gemv_bat_jax (x q : Z) : option (list (list Z)) :=
  match bat_jax_loop 64 q (bat_jax_project q x (bat_jax_initial x)) with
  | None => None
  | Some cols => Some (map (fun col => map (fun v => v mod 256) (firstn 4 col)) cols)
  end.

(** matrix_utils.py:572-612, hpmatmul_offline_compile_bat: the futures are collected in submission order, so the threads do not matter *)
Definition hpmatmul_offline_compile_bat (A : list (list Z)) (q : Z) : option (list (list (list (list Z)))) :=
  sequence_opt (map (fun row => sequence_opt (map (fun x => smul_as_dense_gemv_bat x q) row)) A).

(** matrix_utils.py:615-627, hpmatmul_bat_adapt: "mnpq,nkq->mkp" accumulated in int32, read back as a w-bit unsigned word *)
Definition bat_adapt_entry (w : Z) (row : list (list (list Z))) (B : list (list Z)) (c : nat) : Z :=
  lsum (map (fun p =>
    shl_w w (s32 (lsum (map2 (fun m brow => lsum (map (fun q => nth p (nth q m []) 0 * byte_of (nth c brow 0) q) (seq 0 4))) row B)) mod 2 ^ w) (Z.of_nat (8 * p)))
    (seq 0 4)) mod 2 ^ w.
Definition hpmatmul_bat_adapt (w : Z) (lhs : list (list (list (list Z)))) (B : list (list Z)) : list (list Z) :=
  map (fun row => map (bat_adapt_entry w row B) (seq 0 (length (nth 0 B [])))) lhs.

(** matrix_utils.py:630-641, hpmatmul_golden: unbounded integers *)
Definition hpmatmul_golden (A B : list (list Z)) (q : Z) : list (list Z) :=
  map (fun row => map (fun c => lsum (map2 (fun x brow => x * nth c brow 0) row B) mod q) (seq 0 (length (nth 0 B [])))) A.
