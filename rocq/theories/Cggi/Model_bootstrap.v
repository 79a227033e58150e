(** Model of jaxite/jaxite_cggi/bootstrap.py.  [None] stands for a ValueError (or a shape error raised by a kernel). *)
From Coq Require Import ZArith List Bool.
From Verif Require Import Base.Word Cggi.Model_encoding Cggi.Model_lwe Cggi.Model_decomposition Cggi.Model_key_switch.
From Verif Require Import Cggi.Model_matrix_utils Cggi.Model_polymul Cggi.Model_rlwe Cggi.Model_rgsw Cggi.Model_test_polynomial.
Import ListNotations.
Local Open Scope Z_scope.

(** one RGSW ciphertext as held in a bootstrapping key: plain words, or the byte layout of bat_offline_compile_cggi *)
Inductive rgsw_data :=
| Plain (m : list (list (list Z)))
| Bat (m : list (list (list (list (list Z))))).

(** bootstrap.py:29-35, class BootstrappingKey *)
Record bootstrapping_key := { bsk_bits : list rgsw_data; bsk_use_bmmp : bool; bsk_use_bat : bool }.

(** bootstrap.py:20 *)
Definition GEN_BSK_NUM_BATCHES : nat := 20.

(** bootstrap.py:102-127, the encrypted values; the three strided [.at[..].set] of the BMMP case interleave into triples.
    [1 - s] is uint32 arithmetic. *)
Fixpoint bmmp_inputs (s : list Z) : list Z :=
  match s with
  | a :: b :: rest => mul32 a b :: mul32 a (sub32 1 b) :: mul32 (sub32 1 a) b :: bmmp_inputs rest
  | _ => []
  end.
Definition bsk_inputs (use_bmmp : bool) (s : list Z) : list Z := if use_bmmp then bmmp_inputs s else s.

(** entries [i*size, (i+1)*size) of the first axis: reshape((num_batches, batch_size) + ...)[i] *)
Definition batch {A} (size i : nat) (l : list A) : list A := firstn size (skipn (i * size) l).

(** bootstrap.py:38-229, gen_bootstrapping_key.  [ai], [es] are the draws, first axis of length 20*batch_size. *)
Definition gen_bootstrapping_key (tpu : Z) (lwe_sk : list Z) (rgsw_sk : rlwe_key) (p : decomp_params)
    (ai : list (list (list (list (list Z))))) (es : list (list (list Z))) (use_bmmp use_bat : bool)
  : option bootstrapping_key :=
  let num_blocks := length (rk_data rgsw_sk) in
  let dim := length lwe_sk in
  if negb (Nat.even dim) then None
  else
    let num := if use_bmmp then (dim + dim / 2)%nat else dim in
    let num_batches := GEN_BSK_NUM_BATCHES in
    let batch_size := ((num + num_batches - 1) / num_batches)%nat in
    let padded := (batch_size * num_batches)%nat in
    let inputs := bsk_inputs use_bmmp lwe_sk ++ repeat 0 (padded - num) in
    let process_one_batch i :=
      map2 (fun m ae => rgsw_jit_encrypt tpu (rk_degree rgsw_sk) m (rk_data rgsw_sk) (fst ae) (snd ae) p num_blocks (rk_log rgsw_sk))
           (batch batch_size i inputs) (combine (batch batch_size i ai) (batch batch_size i es)) in
    let all := concat (map process_one_batch (seq 0 num_batches)) in
    let bits := firstn num all in
    Some (if use_bmmp then {| bsk_bits := map Plain bits; bsk_use_bmmp := true; bsk_use_bat := false |}
          else if use_bat
          then {| bsk_bits := map (fun m => Bat (bat_offline_compile_cggi m)) bits; bsk_use_bmmp := false; bsk_use_bat := true |}
          else {| bsk_bits := map Plain bits; bsk_use_bmmp := false; bsk_use_bat := false |}).

(** bootstrap.py:394-412, jit_external_product *)
Definition jit_external_product (tpu : Z) (rgsw_ct : rgsw_data) (rlwe_ct : list (list Z)) (p : decomp_params) (use_bat : bool)
  : option (list (list Z)) :=
  let decomposed_rlwe := decompose_rlwe_ciphertext rlwe_ct p in
  match use_bat, rgsw_ct with
  | true, Bat m => negacyclic_vector_matrix_polymul_bat tpu decomposed_rlwe m
  | false, Plain m => negacyclic_vector_matrix_polymul tpu decomposed_rlwe m (log_base p)
  | _, _ => None
  end.

(** elementwise uint32 sum and difference of equally shaped arrays *)
Definition madd32 := map2 vadd32.
Definition msub32 := map2 vsub32.

(** bootstrap.py:467-485, jit_cmux *)
Definition jit_cmux (tpu : Z) (control : rgsw_data) (eq_zero neq_zero : list (list Z)) (p : decomp_params) (use_bat : bool)
  : option (list (list Z)) :=
  match jit_external_product tpu control (msub32 neq_zero eq_zero) p use_bat with
  | None => None
  | Some x => Some (madd32 eq_zero x)
  end.

(** an RlweCiphertext object (rlwe.py:47-60) *)
Record rlwe_ct := { rc_log : Z; rc_degree : nat; rc_message : list (list Z) }.

(** rlwe.py:62-64: coefficient_modulus, [2 ** jnp.uint32(log)], a uint32 power (0 for log = 32) *)
Definition coefficient_modulus (c : rlwe_ct) : Z := u32 (2 ^ rc_log c).

(** bootstrap.py:415-464, cmux *)
Definition cmux (tpu : Z) (control : rgsw_data) (eq_zero neq_zero : rlwe_ct) (p : decomp_params) (use_bat : bool) : option rlwe_ct :=
  if negb (coefficient_modulus eq_zero =? coefficient_modulus neq_zero) then None
  else if negb (rc_degree eq_zero =? rc_degree neq_zero)%nat then None
  else match jit_cmux tpu control (rc_message eq_zero) (rc_message neq_zero) p use_bat with
       | None => None
       | Some m => Some {| rc_log := rc_log eq_zero; rc_degree := rc_degree eq_zero; rc_message := m |}
       end.

(** bootstrap.py:560-573: the combined factor of one BMMP step *)
Definition madd3 (a b : list (list (list Z))) := map2 madd32 a b.
Definition bmmp_factor (coefficient_index : list Z) (bsk : list (list (list (list Z)))) (log_q : Z) (j : nat)
  : list (list (list Z)) :=
  let power1 := add32 (nth (2 * j) coefficient_index 0) (nth (2 * j + 1) coefficient_index 0) in
  let power2 := nth (2 * j) coefficient_index 0 in
  let power3 := nth (2 * j + 1) coefficient_index 0 in
  madd3 (madd3 (scale_by_x_power_n_minus_1 power1 (nth (3 * j) bsk []) log_q)
               (scale_by_x_power_n_minus_1 power2 (nth (3 * j + 1) bsk []) log_q))
        (scale_by_x_power_n_minus_1 power3 (nth (3 * j + 2) bsk []) log_q).

(** the key array of the form without byte expansion, as bootstrap.py:556-597 indexes it *)
Definition plain_of (d : rgsw_data) : list (list (list Z)) := match d with Plain m => m | Bat _ => [] end.

(** bootstrap.py:556-597, one_external_product *)
Definition one_external_product (tpu : Z) (coefficient_index : list Z) (bsk : list rgsw_data) (log_q : Z) (p : decomp_params)
    (use_bmmp use_bat : bool) (j : nat) (acc : list (list Z)) : option (list (list Z)) :=
  if use_bmmp then
    match jit_external_product tpu (Plain (bmmp_factor coefficient_index (map plain_of bsk) log_q j)) acc p false with
    | None => None
    | Some x => Some (madd32 acc x)
    end
  else
    jit_cmux tpu (nth j bsk (Plain [])) acc (monomial_mul_list acc (nth j coefficient_index 0) log_q) p use_bat.

(** jax.lax.fori_loop(0, n, body, init) *)
Fixpoint fori (n : nat) (body : nat -> list (list Z) -> option (list (list Z))) (init : list (list Z)) : option (list (list Z)) :=
  match n with
  | O => Some init
  | S m => match fori m body init with None => None | Some a => body m a end
  end.

(** bootstrap.py:528-606, jit_blind_rotate; the unroll factor does not affect the value *)
Definition jit_blind_rotate (tpu : Z) (rot_polynomial : list (list Z)) (coefficient_index : list Z) (bsk : list rgsw_data)
    (log_q : Z) (p : decomp_params) (use_bmmp use_bat : bool) : option (list (list Z)) :=
  let b_tilde := nth (length coefficient_index - 1) coefficient_index 0 in
  let c_prime := monomial_mul_list rot_polynomial (u32 (- b_tilde)) log_q in
  let num_loop_terms := if use_bmmp then ((length coefficient_index - 1) / 2)%nat else (length coefficient_index - 1)%nat in
  fori num_loop_terms (one_external_product tpu coefficient_index bsk log_q p use_bmmp use_bat) c_prime.

(** bootstrap.py:488-525, blind_rotate *)
Definition blind_rotate (tpu : Z) (rot_polynomial : rlwe_ct) (coefficient_index : list Z) (bsk : bootstrapping_key) (p : decomp_params)
  : option rlwe_ct :=
  match jit_blind_rotate tpu (rc_message rot_polynomial) coefficient_index (bsk_bits bsk) (rc_log rot_polynomial) p
          (bsk_use_bmmp bsk) (bsk_use_bat bsk) with
  | None => None
  | Some m => Some {| rc_log := rc_log rot_polynomial; rc_degree := rc_degree rot_polynomial; rc_message := m |}
  end.

(** bootstrap.py:614-650, jit_sample_extract: roll by -1, flip, sign, flatten, append.  The int32 sign times the uint32
    word is a 32-bit product. *)
Definition jit_sample_extract (ct : list (list Z)) (poly_deg : nat) : list Z :=
  let signed_ones := map (fun i => if (0 <? i)%nat then -1 else 1) (seq 0 poly_deg) in
  let extract row := map2 (fun c v => u32 (c * v)) signed_ones (rev (roll (-1) row)) in
  concat (map extract (removelast ct)) ++ [nth 0 (last ct []) 0].

(** bootstrap.py:300-375 (and the jitted twin, 232-297), bootstrap.  The optional callback only observes. *)
Definition bootstrap (tpu : Z) (ciphertext : list Z) (test_poly : list (list Z)) (bsk : bootstrapping_key) (ksk : list (list (list Z)))
    (ks_p bs_p : decomp_params) (sp : scheme_params) : option (list Z) :=
  let approx_ciphertext := switch_modulus ciphertext (log_plaintext_modulus sp) (log_mod_degree sp + 1) in
  match jit_blind_rotate tpu test_poly approx_ciphertext (bsk_bits bsk) (log_plaintext_modulus sp) bs_p
          (bsk_use_bmmp bsk) (bsk_use_bat bsk) with
  | None => None
  | Some rotated =>
      let extracted := jit_sample_extract rotated (modulus_degree sp) in
      Some (jit_switch_key ksk extracted (level_count ks_p) (log_base ks_p))
  end.
