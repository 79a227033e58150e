(** Model of jaxite_ec/util.py: constants, chunk and RNS conversions, offline tables.
    Conventions: a Python or jax integer array is a [list Z] (a row of chunks, least significant first); None is a raised
    exception (AssertionError, ValueError, OverflowError, shape error) or a loop that does not end. *)
From Coq Require Import ZArith List Bool.
From Verif Require Import Base.ZSum Base.Word Base.Egcd.
From Verif Require Import Ckks.Model_barrett Ckks.Model_rns_utils.
Import ListNotations.
Local Open Scope Z_scope.

(** util.py:26-28 *)
Definition MODULUS_377_INT : Z := 0x01AE3A4617C510EAC63B05C06CA1493B1A22D9F300F5138F1EF3622FBA094800170B5D44300000008508C00000000001.
Definition MU_377_INT : Z := 0x98542343310183A5DB0F28160BBD3DCEEEB43799DDAC681ABCB52236169B40B43B5A1DE2710A9647E7F56317936BFF32.
Definition TWIST_D_INT : Z := 122268283598675559488486339158635529096981886914877139579534153582033676785385790730042363341236035746924960903179.
(** util.py:35-56 *)
Definition U16_MASK : Z := 65535.
Definition U32_MASK : Z := 4294967295.
Definition U8_CHUNK_NUM : nat := 48.
Definition U16_CHUNK_NUM : nat := 24.
Definition U32_CHUNK_NUM : nat := 12.
Definition U16_EXT_CHUNK_NUM : nat := 25.
Definition BARRETT_SHIFT_U8 : nat := 95.
Definition MODULUS_377_S16_INT : Z := Z.shiftl MODULUS_377_INT 16.

(** util.py:142-149 *)
Definition array_to_int (arr : list Z) (base : Z) : Z :=
  fold_left (fun acc e => Z.lor acc (Z.shiftl (snd e) (Z.of_nat (fst e) * base))) (combine (seq 0 (length arr)) arr) 0.

(** the loop util.py:159-161 (and 333-335); one iteration per [fuel], which is the bit length of the integer: enough
    for every base of at least 1 *)
Fixpoint int_elements (fuel : nat) (base x : Z) : list Z :=
  if x <=? 0 then []
  else match fuel with
       | O => []
       | S f => Z.land x (Z.shiftl 1 base - 1) :: int_elements f base (Z.shiftr x base)
       end.

(** util.py:152-168 int_to_array and 326-342 int_to_precomputed_array (same code, returning a tuple).  [width] is the bit
    width of the dtype; jnp.array and np.array raise OverflowError for a larger element.  A base of 0 loops forever and a
    negative one raises: None (for x <= 0 the loop body never runs; that case is not distinguished). *)
Definition int_to_array (x base width : Z) (array_size : option nat) : option (list Z) :=
  if base <? 1 then None else
  let elements := int_elements (Z.to_nat (Z.log2 x + 1)) base x in
  match (match array_size with
         | None => Some elements
         | Some n => if (length elements <=? n)%nat then Some (firstn n elements ++ repeat 0 (n - length elements)) else None
         end) with
  | None => None
  | Some l => if forallb (fun e => e <? 2 ^ width) l then Some l else None
  end.

(** util.py:171-178, 181-186: batches of integers *)
Definition array_to_int_list (arrs : list (list Z)) (base : Z) : list Z := map (fun a => array_to_int a base) arrs.
Definition int_list_to_array (xs : list Z) (base : Z) (array_size : nat) : option (list (list Z)) :=
  sequence_opt (map (fun x => int_to_array x base 16 (Some array_size)) xs).

(** util.py:284-288 *)
Definition total_modulus (moduli : list Z) : Z := fold_left Z.mul moduli 1.

(** util.py:291-299 rns_precompute; 483-490 rns_icrt_factors_compute is the same with the product passed in *)
Definition rns_icrt_factors_compute (modulus : Z) (moduli : list Z) : option (list Z) :=
  sequence_opt (map (fun m => let rest := modulus / m in
                              match inverse (rest mod m) m with
                              | None => None
                              | Some inv => Some ((rest * inv) mod modulus)
                              end) moduli).
Definition rns_precompute (moduli : list Z) : option (list Z) := rns_icrt_factors_compute (total_modulus moduli) moduli.

(** util.py:302-308 *)
Definition rns_reconstruct (residues moduli precomputed : list Z) : option Z :=
  if negb ((length residues =? length moduli)%nat && (length moduli =? length precomputed)%nat) then None
  else Some (dotZ precomputed residues mod total_modulus moduli).

(** util.py:311-313 *)
Definition to_rns (x : Z) (moduli : list Z) : option (list Z) :=
  if x <? total_modulus moduli then Some (map (fun m => x mod m) moduli) else None.

(** util.py:208-214 (the argument MODULI is the global of that name) *)
Definition int_to_array_rns (moduli : list Z) (x : Z) : list Z := map (fun m => x mod m) moduli.
Definition array_rns_to_int (moduli residues : list Z) : option Z :=
  match rns_precompute moduli with None => None | Some pre => rns_reconstruct residues moduli pre end.

(** util.py:413-432 *)
Definition construct_lazy_matrix (p chunk_precision : Z) (chunk_num_u8 : nat) : option (list (list Z)) :=
  sequence_opt (map (fun i => int_to_array (256 ^ (Z.of_nat (chunk_num_u8 + i)) mod p) chunk_precision 16 (Some chunk_num_u8)) (seq 0 (chunk_num_u8 + 4))).
(** util.py:435 *)
Definition MODULUS_377_LAZY_MAT : option (list (list Z)) := construct_lazy_matrix MODULUS_377_INT 8 U8_CHUNK_NUM.

(** util.py:459-466 and 471-478: one pass over the candidates; the accumulator holds the moduli found (in reverse), their
    offsets, their product and whether the function has returned *)
Definition find_pass (total initial shift : Z) (candidates : list Z) (st : list Z * list Z * Z * bool) : list Z * list Z * Z * bool :=
  fold_left (fun (st : list Z * list Z * Z * bool) i =>
    let '(ms, os, prod, stop) := st in
    if stop then st
    else let cur := initial - i in
         if Z.gcd cur prod =? 1
         then let prod' := prod * cur in (cur :: ms, Z.shiftl i shift :: os, prod', total <? prod')
         else st) candidates st.
(** util.py:443-480 *)
Definition find_moduli (total precision : Z) : list Z * list Z :=
  let candidates := map Z.of_nat (seq 0 (Z.to_nat (2 ^ (Z.shiftr precision 1) - 1))) in
  let '(ms, os, prod, stop) := find_pass total (2 ^ precision) 0 candidates ([], [], 1, false) in
  let '(ms, os, prod, stop) :=
    if stop then (ms, os, prod, stop)
    else if prod <? total then find_pass total (2 ^ (precision - 1)) 1 candidates (ms, os, prod, false)
    else (ms, os, prod, stop) in
  (rev ms, rev os).

(** math.ceil(a / b) for Python integers, 0 <= a and 0 < b, a/b below 2^52: the quotient rounded to binary64, then its
    ceiling (util.py:545) *)
Definition float_ceildiv (a b : Z) : Z :=
  if a <=? 0 then 0 else
  let e0 := Z.log2 a - Z.log2 b in
  let fl := if (if 0 <=? e0 then b * 2 ^ e0 <=? a else b <=? a * 2 ^ (- e0)) then e0 else e0 - 1 in
  let e := 52 - fl in
  - ((- rne (a * 2 ^ e) b) / 2 ^ e).

(** little-endian bytes of 16-bit words: the .view(uint8) of util.py:565 and finite_field.py *)
Definition bytes_of_u16 (l : list Z) : list Z := flat_map (fun x => [x mod 256; x / 256]) l.

(** np.array(..., dtype=np.uint16) *)
Definition np_u16 (l : list Z) : option (list Z) := if forallb (fun x => (0 <=? x) && (x <? 65536)) l then Some l else None.

(** util.py:493-567 *)
Definition rns_coefficients_precompute (icrt_factors overall_moduli : list Z) (num_bytes : nat) (moduli_precision overall_modulus q : Z) : option (list (list Z) * list Z) :=
  let shifted := flat_map (fun factor => map (fun b => (Z.shiftl 1 (8 * Z.of_nat b) * factor) mod overall_modulus) (seq 0 num_bytes)) icrt_factors in
  let rows := map (fun chunk =>
    match to_rns (chunk mod q) overall_moduli with
    | None => None
    | Some r => match np_u16 r, np_u16 [float_ceildiv (chunk * 2 ^ moduli_precision) overall_modulus] with
                | Some r, Some s => Some (bytes_of_u16 r ++ bytes_of_u16 s)
                | _, _ => None
                end
    end) shifted in
  match sequence_opt rows, to_rns ((- overall_modulus) mod q) overall_moduli with
  | Some mat, Some cor => match np_u16 cor with Some cor => Some (mat, cor) | None => None end
  | _, _ => None
  end.

(** util.py:576-582, 614-615 *)
Definition RNS_TARGET : Z := MODULUS_377_INT * MODULUS_377_INT * 256 * 256 * 50 * 50 * 4 * 2.
Definition MODULI : list Z := fst (find_moduli RNS_TARGET 16).
Definition RNS_MODULI_T : list Z := snd (find_moduli RNS_TARGET 16).
(** util.py:583-600, 603-606, 616: None also when the assertion of lines 587-589 fails *)
Definition construct_rns_matrix (q : Z) : option (list (list Z) * list Z) :=
  let M := total_modulus MODULI in
  if negb (Z.of_nat (length MODULI) =? (Z.log2 M + 1 + 16 - 1) / 16) then None
  else match rns_icrt_factors_compute M MODULI with
       | None => None
       | Some icrt => rns_coefficients_precompute icrt MODULI 2 16 M q
       end.
Definition RNS_MAT : option (list (list Z) * list Z) := construct_rns_matrix MODULUS_377_INT.

(** util.py:60-111 and 113-116: the literal list the constants below are computed from *)
Definition RNS_MODULI_T_LITERAL : list Z :=
  [0; 1; 3; 5; 9; 15; 17; 27; 33; 39; 45; 47; 57; 59; 63; 77; 87; 89; 99; 105; 113; 117; 123; 125; 129; 143; 153; 155; 165; 167;
   173; 179; 183; 189; 197; 209; 213; 215; 225; 227; 243; 249; 14; 38; 50; 54; 98; 102; 110; 122].
Definition MODULI_LITERAL : list Z :=
  map (fun i => if i =? 0 then 2 ^ 16 else if i mod 2 =? 1 then 2 ^ 16 - i else 2 ^ 15 - i / 2) RNS_MODULI_T_LITERAL.
(** util.py:120-129 *)
Definition NUM_MODULI : nat := length RNS_MODULI_T_LITERAL.
Definition ADDITION_BOUND : Z := 4.
Definition MODULI_SUB : list Z :=
  map (fun m => (512 * Z.of_nat NUM_MODULI * MODULUS_377_INT * ADDITION_BOUND - 2 ^ 16) mod m) MODULI_LITERAL.
Definition TWIST_D_RNS : list Z := map (fun m => TWIST_D_INT mod m) MODULI_LITERAL.

(** util.py:617-628 *)
Definition chunks_or_nil (x : Z) (n : nat) : list Z := match int_to_array x 16 16 (Some n) with Some l => l | None => [] end.
Definition MODULUS_377_INT_CHUNK : list Z := chunks_or_nil MODULUS_377_INT U16_CHUNK_NUM.
Definition MU_377_INT_CHUNK : list Z := chunks_or_nil MU_377_INT U16_CHUNK_NUM.
Definition TWIST_D_INT_CHUNK : list Z := chunks_or_nil TWIST_D_INT U16_EXT_CHUNK_NUM.
Definition MODULUS_377_S16_INT_CHUNK : list Z := chunks_or_nil MODULUS_377_S16_INT U16_EXT_CHUNK_NUM.
