(** Model of jaxite/jaxite_cggi/key_switch.py. *)
From Coq Require Import ZArith List Bool.
From Verif Require Import Base.ZSum Base.Word Cggi.Model_lwe Cggi.Model_decomposition.
Import ListNotations.
Local Open Scope Z_scope.

(** key_switch.py:79-92, decompose_and_encrypt for one bit of the input key; recomposition_summands is called with its
    default total_bit_length 32; [ai], [es] are the samples of that bit, one per level. *)
Definition decompose_and_encrypt (p : decomp_params) (out_key : lwe_key) (in_key_bit : Z) (ai : list (list Z)) (es : list Z)
  : list (list Z) :=
  map2 (fun pt ae => jit_encrypt pt (key_data out_key) (fst ae) (snd ae) (log_modulus out_key))
       (recomposition_summands in_key_bit (log_base p) (level_count p) 32)
       (combine ai es).

(** key_switch.py:43-107, gen_key: the key data, shape (n, num_levels, lwe_size). *)
Definition ksk_gen (p : decomp_params) (in_key out_key : lwe_key) (ai : list (list (list Z))) (es : list (list Z))
  : list (list (list Z)) :=
  map2 (fun bit ae => decompose_and_encrypt p out_key bit (fst ae) (snd ae)) (key_data in_key) (combine ai es).

(** jnp.dot of a vector of digits with a matrix of rows, in uint32 *)
Definition vecmat32 (width : nat) (v : list Z) (rows : list (list Z)) : list Z :=
  map (fun j => dot32 v (map (fun r => nth j r 0) rows)) (seq 0 width).

(** key_switch.py:124-145, jit_switch_key *)
Definition jit_switch_key (ksk : list (list (list Z))) (inp : list Z) (num_levels : nat) (base_log : Z) : list Z :=
  let width := length (nth 0 (nth 0 ksk []) []) in
  let output_data := repeat 0 (width - 1) ++ [last inp 0] in
  let decomp_dot ksk_i inp_i := vecmat32 width (signed_decomposition inp_i base_log num_levels 32) ksk_i in
  let rows := map2 decomp_dot ksk (removelast inp) in
  let sum_data := map (fun j => u32 (lsum (map (fun r => nth j r 0) rows))) (seq 0 width) in
  vsub32 output_data sum_data.

(** key_switch.py:110-119 *)
Definition switch_key (p : decomp_params) (ksk : list (list (list Z))) (inp : list Z) : list Z :=
  jit_switch_key ksk inp (level_count p) (log_base p).
