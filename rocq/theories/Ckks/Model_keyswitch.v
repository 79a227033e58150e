(** Model of the key-switching part of jaxite/jaxite_ckks/key_gen.py and of key_switching.py and conjugate.py.
    A (degree, num_moduli) array is the list of its columns; arrays with a leading axis are lists of such arrays.  None is an
    exception.  A part or component with an unexpected number of columns or coefficients is taken to be an error (NumPy would
    broadcast a single column; that is not modelled). *)
From Coq Require Import ZArith List Bool.
From Verif Require Import Base.Lists Base.Egcd Ckks.Model_rns_utils Ckks.Model_barrett Ckks.Model_scheme Ckks.Model_ntt Ckks.Model_auto Ckks.Model_addmul Ckks.Model_basis Ckks.Model_rescale Ckks.Model_plan.
Import ListNotations.
Local Open Scope Z_scope.

Local Notation u64 := Model_scheme.u64.
Local Notation u32 := Model_scheme.u32.

(** types.py:55-61 (and mul.py:99-115), class EvaluationKeys: one array per part *)
Record evaluation_keys := { ek_a : list array; ek_b : list array; ek_moduli : list Z }.

(** jax array[i] for a static index i: an index beyond the end is clamped *)
Definition static_index {A} (l : list A) (i : nat) (d : A) : A := nth (Nat.min i (length l - 1)) l d.

(** key_gen.py:77-108, compute_scaled_source_key_partition; [indices] is range(start_idx, end_idx) *)
Definition compute_scaled_source_key_partition (source : array) (q_limbs : list Z) (p_val : Z) (all_len : nat) (indices : list nat) : array :=
  tab all_len (degree_of source) (fun i j =>
    if existsb (Nat.eqb i) indices then let q := nth i q_limbs 0 in u64 (ent source i j * (p_val mod q)) mod q else 0).

(** key_gen.py:139-157, one part: the drawn a (coefficients, as an array) and e, the extended destination key and the target
    added to the second component *)
Definition key_part (all_moduli : list Z) (dest_ext : array) (a_coeffs e_coeffs target : array) : option (array * array) :=
  match Model_ntt_cpu.ntt_negacyclic_poly a_coeffs all_moduli, Model_ntt_cpu.ntt_negacyclic_poly e_coeffs all_moduli with
  | Some a_slots, Some e_slots =>
      let k := length all_moduli in
      let n := degree_of dest_ext in
      let prod := tab k n (fun i j => u64 (ent a_slots i j * ent dest_ext i j) mod nth i all_moduli 0) in
      Some (a_slots, tab k n (fun i j => u64 (u64 (u64 (ent e_slots i j + ent target i j) + nth i all_moduli 0) - ent prod i j) mod nth i all_moduli 0))
  | _, _ => None
  end.

(** key_gen.py:111-166, gen_key_switching_key; draws part is the pair of arrays drawn for a part (uniform, gaussian).  The
    source key must have a column for every modulus of q_limbs. *)
Definition gen_key_switching_key (source dest : secret_key) (q_limbs p_limbs : list Z) (dnum : nat) (draws : nat -> array * array) (dest_key_ext : option secret_key) : option evaluation_keys :=
  let all_moduli := q_limbs ++ p_limbs in
  match (match dest_key_ext with None => extend_secret_key dest all_moduli | Some e => Some e end) with
  | None => None
  | Some ext =>
      if (dnum =? 0)%nat || (length (sk_data source) <? length q_limbs)%nat then None
      else
        let p_val := product p_limbs in
        match sequence_opt (map (fun part =>
            let scaled := compute_scaled_source_key_partition (sk_data source) q_limbs p_val (length all_moduli) (part_indices (length q_limbs) dnum part) in
            key_part all_moduli (sk_data ext) (fst (draws part)) (snd (draws part)) scaled) (seq 0 dnum)) with
        | None => None
        | Some parts => Some {| ek_a := map fst parts; ek_b := map snd parts; ek_moduli := all_moduli |}
        end
  end.

(** key_gen.py:169-192, gen_evaluation_key *)
Definition gen_evaluation_key (sk : secret_key) (q_towers p_towers : list Z) (dnum : nat) (draws : nat -> array * array) : option evaluation_keys :=
  if negb (length (sk_data sk) =? length q_towers)%nat then None
  else
    let s2 := tab (length q_towers) (degree_of (sk_data sk)) (fun i j => u64 (ent (sk_data sk) i j * ent (sk_data sk) i j) mod nth i q_towers 0) in
    gen_key_switching_key {| sk_data := s2; sk_moduli := sk_moduli sk |} sk q_towers p_towers dnum draws None.

(** key_gen.py:223-242, gen_conjugate_key *)
Definition gen_conjugate_key (sk : secret_key) (q_limbs p_limbs : list Z) (dnum : nat) (draws : nat -> array * array) : option evaluation_keys :=
  gen_key_switching_key {| sk_data := flip (sk_data sk); sk_moduli := sk_moduli sk |} sk q_limbs p_limbs dnum draws None.

(** an NTT kernel for a list of moduli: jnp.array of an empty list of twiddle tables cannot be transposed (ntt.py:223-242),
    so that no kernel can be built without moduli *)
Definition ntt_kernel (moduli : list Z) (r c : nat) : option (list ntt_constants) :=
  match moduli with [] => None | _ => ntt_precompute_constants moduli r c end.

(** key_switching.py:27-66, class KeySwitcher and its precompute_constants.  r and c are those of the kernels. *)
Record key_switcher := { sw_q : list (list ntt_constants); sw_out : list (list ntt_constants); sw_r : nat; sw_c : nat }.
Definition pick {A} (d : A) (l : list A) (idx : list nat) : list A := map (fun i => nth i l d) idx.
Definition key_switcher_precompute (q_limbs p_limbs : list Z) (dnum r c : nat) : option key_switcher :=
  let all_moduli := q_limbs ++ p_limbs in
  if (dnum =? 0)%nat then None
  else
    let ins i := part_indices (length q_limbs) dnum i in
    match sequence_opt (map (fun i => ntt_kernel (pick 0 all_moduli (ins i)) r c) (seq 0 dnum)),
          sequence_opt (map (fun i => ntt_kernel (pick 0 all_moduli (not_in (length all_moduli) (ins i))) r c) (seq 0 dnum)) with
    | Some kq, Some ko => Some {| sw_q := kq; sw_out := ko; sw_r := r; sw_c := c |}
    | _, _ => None
    end.

(** x.at[:, idx].set(cols) *)
Definition set_columns (idx : list nat) (cols A : array) : array := fold_left (fun A p => upd (fst p) (snd p) A) (combine idx cols) A.
Definition cast32 (A : array) : array := map (map u32) A.
Definition shaped_as (k n : nat) (A : array) : bool := (length A =? k)%nat && forallb (fun col => (length col =? n)%nat) A.

(** key_switching.py:106-152: the part of c1 on the moduli [ins], extended to all moduli *)
Definition extend_part (num_qp degree : nat) (kq ko : list ntt_constants) (bc_kernel : list basis_constants) (control : nat) (c1 : array) (ins outs : list nat) : option array :=
  let c1_part := pick [] c1 ins in
  if negb (length kq =? length ins)%nat then None
  else
    match basis_change bc_kernel (intt_accel_poly kq (cast32 c1_part)) control with
    | None => None
    | Some conv =>
        if negb (length conv =? length outs)%nat || negb (length ko =? length outs)%nat then None
        else
          let c1_part_out := ntt_accel_poly ko (cast32 conv) in
          Some (set_columns outs c1_part_out (set_columns ins (cast32 c1_part) (tab num_qp degree (fun _ _ => 0))))
    end.

(** key_switching.py:158-169: the product with a part of the key, added to the accumulator *)
Definition accumulate (all_moduli : list Z) (mul_kernel : option (list barrett_constants)) (key_part acc c1_part_qp : array) : option array :=
  match mul_plain_barrett mul_kernel {| ct_data := [key_part]; ct_moduli := all_moduli |} {| pt_data := c1_part_qp; pt_moduli := all_moduli |} with
  | None => None
  | Some prod => Some (tab (length all_moduli) (degree_of acc) (fun i j => u64 (ent acc i j + ent (nth 0 (ct_data prod) []) i j) mod nth i all_moduli 0))
  end.

(** key_switching.py:81-194, key_switch *)
Definition key_switch (sw : key_switcher) (ct : ciphertext) (ksk : evaluation_keys) (p_limbs : list Z) (bc_kernel : list basis_constants) (mul_kernel : option (list barrett_constants)) (start_control_index : nat) : option ciphertext :=
  let c0 := static_index (ct_data ct) 0 [] in
  let c1 := static_index (ct_data ct) 1 [] in
  let q_limbs := ct_moduli ct in
  let num_q := length q_limbs in
  let degree := degree_of c1 in
  let dnum := length (sw_q sw) in
  let all_moduli := q_limbs ++ p_limbs in
  let num_qp := length all_moduli in
  if (dnum =? 0)%nat || negb (shaped_as num_q degree c0) || negb (shaped_as num_q degree c1) || negb (degree =? sw_r sw * sw_c sw)%nat
     || negb (forallb (shaped_as num_qp degree) (ek_a ksk)) || negb (forallb (shaped_as num_qp degree) (ek_b ksk)) || (length (ek_a ksk) =? 0)%nat || (length (ek_b ksk) =? 0)%nat then None
  else
    let zero := tab num_qp degree (fun _ _ => 0) in
    match fold_left (fun acc i =>
        match acc with
        | None => None
        | Some (c0_ks, c1_ks) =>
            let ins := part_indices num_q dnum i in
            let outs := not_in num_qp ins in
            match extend_part num_qp degree (nth i (sw_q sw) []) (nth i (sw_out sw) []) bc_kernel (start_control_index + i) c1 ins outs with
            | None => None
            | Some c1_part_qp =>
                match accumulate all_moduli mul_kernel (static_index (ek_b ksk) i []) c0_ks c1_part_qp,
                      accumulate all_moduli mul_kernel (static_index (ek_a ksk) i []) c1_ks c1_part_qp with
                | Some c0_ks', Some c1_ks' => Some (c0_ks', c1_ks')
                | _, _ => None
                end
            end
        end) (seq 0 dnum) (Some (zero, zero)) with
    | None => None
    | Some (c0_ks, c1_ks) =>
        let p_mod_q i := let q := nth i q_limbs 0 in fold_left (fun acc p => u64 (acc * (p mod q)) mod q) p_limbs 1 in
        let c0_scaled i j := if (i <? num_q)%nat then u32 (u64 (ent c0 i j * p_mod_q i) mod nth i q_limbs 0) else 0 in
        let c0_prime := tab num_qp degree (fun i j => u32 (u64 (c0_scaled i j + ent c0_ks i j) mod nth i all_moduli 0)) in
        let c1_prime := tab num_qp degree (fun i j => u32 (ent c1_ks i j)) in
        Some {| ct_data := [c0_prime; c1_prime]; ct_moduli := all_moduli |}
    end.

(** conjugate.py:55-84, Conjugation.conjugate *)
Definition conjugate (sw : key_switcher) (ct : ciphertext) (conj_key : evaluation_keys) (p_limbs : list Z) (bc_kernel : list basis_constants) (mul_kernel : option (list barrett_constants)) (rk : option rescale_kernel) (start_control_index : nat) : option ciphertext :=
  match key_switch sw {| ct_data := map flip (ct_data ct); ct_moduli := ct_moduli ct |} conj_key p_limbs bc_kernel mul_kernel start_control_index with
  | None => None
  | Some ct_prime => rescale rk ct_prime
  end.
