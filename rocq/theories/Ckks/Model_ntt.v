(** Model of jaxite/jaxite_ckks/ntt.py, class NTTBarrett, for one modulus: every operation of the class is elementwise in the
    moduli axis.  An (R, C) array is the list of its R*C entries in row-major order.  None is an exception. *)
From Coq Require Import ZArith List Bool Zpow_facts.
From Verif Require Import Base.Lists Base.Word Base.Egcd Ckks.Model_rns_utils Ckks.Model_math Ckks.Model_ntt_cpu Ckks.Model_barrett Ckks.Model_scheme Ckks.Model_bat.
Import ListNotations.
Local Open Scope Z_scope.

(** a NumPy matrix as built in ntt.py:142-221 *)
Definition matrix := list (list Z).
(** an (rows, cols) matrix given by its entries (NumPy elementwise arithmetic) *)
Definition mat (rows cols : nat) (f : nat -> nat -> Z) : matrix := map (fun i => map (fun j => f i j) (seq 0 cols)) (seq 0 rows).
(** M[perm, :] and M[:, perm] *)
Definition permute_rows (perm : list Z) (M : matrix) : matrix := map (fun p => nth (Z.to_nat p) M []) perm.
Definition permute_cols (perm : list Z) (M : matrix) : matrix := map (permute perm) M.
(** ntt.py:223-229, to_bat: the transformed entries, indexed by row and column *)
Definition to_bat (M : matrix) (q : Z) : list (list (list (list Z))) := map (map (fun x => basis_aligned_entry x q)) M.

(** ntt.py:53-103, class NTTBarrettConstants *)
Record ntt_constants := {
  nc_ntt1 : list (list (list (list Z))); nc_ntt2 : matrix; nc_ntt3 : list (list (list (list Z)));
  nc_intt1 : list (list (list (list Z))); nc_intt2 : matrix; nc_intt3 : list (list (list (list Z)));
  nc_barrett : barrett_constants; nc_r : nat; nc_c : nat }.

(** Python's pow(x, e, q) for e >= 0, and uint64 elementwise "(x * factor) % modulus" *)
Definition powmod (x : Z) (e : nat) (q : Z) : Z := Zpow_mod x (Z.of_nat e) q.
Definition mulmod (x f q : Z) : Z := Model_scheme.u64 (x * f) mod q.

(** ntt.py:128-242, precompute_constants; r and c at least 1 *)
Definition ntt_precompute (q : Z) (r c : nat) : option ntt_constants :=
  match root_of_unity (2 * Z.of_nat (r * c)) q with
  | None => None
  | Some psi =>
      let omega := powmod psi 2 q in
      let perm_r := get_bit_reverse_perm r in
      let perm_c := get_bit_reverse_perm c in
      let omega_col := powmod omega c q in
      let omega_row := powmod omega r q in
      (* 152-164 *)
      let tf1 := gen_twiddle_matrix r r q omega_col in
      let tf2 := gen_twiddle_matrix r c q omega in
      let tf3 := gen_twiddle_matrix c c q omega_row in
      let tf1 := mat r r (fun i j => mulmod (ent tf1 i j) (powmod psi (c * j) q) q) in
      let tf2 := mat r c (fun i j => mulmod (ent tf2 i j) (powmod psi j q) q) in
      (* 168-170 *)
      let tf1 := permute_rows perm_r tf1 in
      let tf2 := permute_rows perm_r tf2 in
      let tf3 := permute_cols perm_c tf3 in
      (* 186-191 *)
      match inverse omega_col q, inverse omega_row q, gen_twiddle_matrix_inv r c q omega, inverse psi q, inverse (Z.of_nat c) q, inverse (Z.of_nat r) q with
      | Some inv_omega_col, Some inv_omega_row, Some itf2, Some inv_psi, Some col_inv, Some row_inv =>
          let itf1 := gen_twiddle_matrix c c q inv_omega_row in
          let itf3 := gen_twiddle_matrix r r q inv_omega_col in
          (* 195-201 *)
          let itf2 := mat r c (fun i j => mulmod (ent itf2 i j) (powmod inv_psi j q) q) in
          let itf3 := mat r r (fun i j => mulmod (ent itf3 i j) (powmod inv_psi (c * i) q) q) in
          (* 205-207 *)
          let itf1 := permute_rows perm_c itf1 in
          let itf2 := permute_rows perm_r itf2 in
          let itf3 := permute_cols perm_r itf3 in
          (* 212-213 *)
          let itf2 := mat r c (fun i j => mulmod (ent itf2 i j) col_inv q) in
          let itf3 := mat r r (fun i j => mulmod (ent itf3 i j) row_inv q) in
          Some {| nc_ntt1 := to_bat tf1 q; nc_ntt2 := tf2; nc_ntt3 := to_bat tf3 q;
                  nc_intt1 := to_bat itf1 q; nc_intt2 := itf2; nc_intt3 := to_bat itf3 q;
                  nc_barrett := precompute_barrett_constants q; nc_r := r; nc_c := c |}
      | _, _, _, _, _, _ => None
      end
  end.

(** sum over the columns of an (r, c) array against a transformed (c, t) matrix: "...rcmq,cqnpm->...rnmp" (ntt.py:264-266,
    275-277), then modular_reduction *)
Definition over_columns (M : list (list (list (list Z)))) (bc : barrett_constants) (r c t : nat) (v : nat -> nat -> Z) : nat -> nat -> Z :=
  let res := mat r t (fun i n => modular_reduction (matmul_bat_entry (map (fun j => v i j) (seq 0 c)) (map (fun j => nth n (nth j M []) []) (seq 0 c))) bc) in
  ent res.
(** sum over the rows against a transformed (t, r) matrix: "...rcmq,zqrpm->...zcmp" (ntt.py:250-252, 287-289) *)
Definition over_rows (M : list (list (list (list Z)))) (bc : barrett_constants) (r c t : nat) (v : nat -> nat -> Z) : nat -> nat -> Z :=
  let res := mat t c (fun z j => modular_reduction (matmul_bat_entry (map (fun i => v i j) (seq 0 r)) (nth z M [])) bc) in
  ent res.
(** the elementwise product with the second twiddle matrix (ntt.py:255-256, 280-281) *)
Definition twist (M : matrix) (bc : barrett_constants) (r c : nat) (v : nat -> nat -> Z) : nat -> nat -> Z :=
  let res := mat r c (fun i j => modular_reduction (Model_scheme.u64 (v i j * ent M i j)) bc) in
  ent res.
Definition unflatten (c : nat) (v : list Z) (i j : nat) : Z := nth (i * c + j) v 0.
Definition flatten (r c : nat) (v : nat -> nat -> Z) : list Z := concat (mat r c v).

(** ntt.py:244-267 *)
Definition ntt_accel (k : ntt_constants) (v : list Z) : list Z :=
  let r := nc_r k in
  let c := nc_c k in
  let res1 := over_rows (nc_ntt1 k) (nc_barrett k) r c r (unflatten c v) in
  let res2 := twist (nc_ntt2 k) (nc_barrett k) r c res1 in
  flatten r c (over_columns (nc_ntt3 k) (nc_barrett k) r c c res2).
(** ntt.py:269-290 *)
Definition intt_accel (k : ntt_constants) (v : list Z) : list Z :=
  let r := nc_r k in
  let c := nc_c k in
  let res1 := over_columns (nc_intt1 k) (nc_barrett k) r c c (unflatten c v) in
  let res2 := twist (nc_intt2 k) (nc_barrett k) r c res1 in
  flatten r c (over_rows (nc_intt3 k) (nc_barrett k) r c r res2).

(** all moduli (ntt.py:137-139, 147, 182): constants for every modulus, and the transforms of every column; [slice_moduli]
    (ntt.py:91-103) keeps a prefix of the constants *)
Definition ntt_precompute_constants (moduli : list Z) (r c : nat) : option (list ntt_constants) :=
  sequence_opt (map (fun q => ntt_precompute q r c) moduli).
Definition ntt_accel_poly (ks : list ntt_constants) (columns : list (list Z)) : list (list Z) := map2 ntt_accel ks columns.
Definition intt_accel_poly (ks : list ntt_constants) (columns : list (list Z)) : list (list Z) := map2 intt_accel ks columns.
Definition slice_moduli (ks : list ntt_constants) (n : nat) : list ntt_constants := firstn n ks.
