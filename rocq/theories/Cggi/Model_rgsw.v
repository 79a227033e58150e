(** Model of jaxite/jaxite_cggi/rgsw.py.  An RGSW ciphertext is a list of levels*(k+1) RLWE ciphertexts (rows). *)
From Coq Require Import ZArith List Bool.
From Verif Require Import Base.Word Cggi.Model_encoding Cggi.Model_decomposition Cggi.Model_matrix_utils Cggi.Model_rlwe.
Import ListNotations.
Local Open Scope Z_scope.

(** the functional update [x.at[i].set(v)]; an out-of-range index is dropped *)
Fixpoint set_nth {A} (i : nat) (v : A) (l : list A) : list A :=
  match l, i with
  | [], _ => []
  | _ :: t, O => v :: t
  | h :: t, S j => h :: set_nth j v t
  end.

(** rgsw.py:216-242, encrypt_and_modify_one_row.  The encrypted zero is the length-1 array [0], broadcast to all
    coefficients; the error sample is one scalar, also broadcast to all coefficients. *)
Definition encrypt_and_modify_one_row (tpu : Z) (n : nat) (rlwe_sk : list (list Z)) (p : decomp_params) (log_q : Z)
    (ai_samples : list (list Z)) (error_sample : Z) (level block : nat) (plaintext : Z) : list (list Z) :=
  let decomposed_pt := shl32 plaintext (log_q - log_base p * Z.of_nat level) in
  let rlwe_zero := rlwe_jit_encrypt tpu n (repeat 0 n) rlwe_sk ai_samples (repeat error_sample n) log_q in
  let modified_poly := nth block rlwe_zero [] in
  let modified_poly := set_nth 0 (add32 (nth 0 modified_poly 0) decomposed_pt) modified_poly in
  set_nth block modified_poly rlwe_zero.

(** rgsw.py:244-249, encrypt_block: vmap over levels 1..L *)
Definition encrypt_block (tpu : Z) (n : nat) (rlwe_sk : list (list Z)) (p : decomp_params) (log_q : Z)
    (ai_samples : list (list (list Z))) (error_samples : list Z) (block : nat) (plaintext : Z) : list (list (list Z)) :=
  map (fun l => encrypt_and_modify_one_row tpu n rlwe_sk p log_q (nth l ai_samples []) (nth l error_samples 0)
                  (S l) block plaintext) (seq 0 (level_count p)).

(** rgsw.py:153-264, jit_encrypt: batch_vmap (batch size 1, see Model_batch.v) over the k+1 blocks, then the reshape that
    joins the first two axes *)
Definition rgsw_jit_encrypt (tpu : Z) (n : nat) (plaintext : Z) (rlwe_sk : list (list Z))
    (ai_samples : list (list (list (list Z)))) (error_samples : list (list Z)) (p : decomp_params) (num_blocks : nat)
    (log_q : Z) : list (list (list Z)) :=
  concat (map (fun blk => encrypt_block tpu n rlwe_sk p log_q (nth blk ai_samples []) (nth blk error_samples []) blk plaintext)
              (seq 0 (S num_blocks))).

(** rgsw.py:109-150, encrypt *)
Definition rgsw_encrypt (tpu : Z) (plaintext : Z) (sk : rlwe_key) (p : decomp_params)
    (ai_samples : list (list (list (list Z)))) (error_samples : list (list Z)) : list (list (list Z)) :=
  rgsw_jit_encrypt tpu (rk_degree sk) plaintext (rk_data sk) ai_samples error_samples p (length (rk_data sk)) (rk_log sk).

(** rgsw.py:304-310: the first key polynomial with constant coefficient 1; [None] is the ValueError *)
Fixpoint first_unit (data : list (list Z)) (i : nat) : option nat :=
  match data with
  | [] => None
  | s :: rest => if nth 0 s 0 =? 1 then Some i else first_unit rest (S i)
  end.

(** rgsw.py:267-344, decrypt *)
Definition rgsw_decrypt (tpu : Z) (ct : list (list (list Z))) (p : decomp_params) (sk : rlwe_key) : option Z :=
  let k := length (rk_data sk) in
  match first_unit (rk_data sk) 0 with
  | None => None
  | Some sk_index =>
      let row := nth (level_count p * sk_index) ct [] in
      let b := nth k row [] in
      let inner_product := vsum (rk_degree sk) (map2 (poly_mul tpu) (firstn k row) (rk_data sk)) in
      let decomposed := vsub32 inner_product b in
      let shift_length := rk_log sk - log_base p in
      let pt := map (fun c => shr32 (round_to_power_of_2 c shift_length) shift_length) decomposed in
      Some (nth 0 pt 0 mod 2 ^ log_base p)
  end.
