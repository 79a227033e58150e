(** Model of jaxite/jaxite_ckks/rescale.py.  None is an exception. *)
From Coq Require Import ZArith List Bool.
From Verif Require Import Base.Lists Base.Word Base.Egcd Ckks.Model_rns_utils Ckks.Model_scheme Ckks.Model_barrett Ckks.Model_ntt.
Import ListNotations.
Local Open Scope Z_scope.

(** rescale.py:13-55, _gamma_beta_calculation: the gammas and the betas *)
Definition gamma_beta_calculation (moduli_list : list Z) : option (list Z * list Z) :=
  if negb (1 <? length moduli_list)%nat then None
  else
    let q_l := last moduli_list 0 in
    let rest := removelast moduli_list in
    let q_prod := product rest in
    match inverse_mod q_prod q_l, sequence_opt (map (fun mod_i => inverse_mod q_l mod_i) rest) with
    | Some q_inv_mod_ql, Some betas =>
        let gamma_common := (q_prod * q_inv_mod_ql - 1) / q_l in
        Some (map (fun mod_i => gamma_common mod mod_i) rest, betas)
    | _, _ => None
    end.

(** the constants of one iteration (rescale.py:117-145): the padded gammas and betas, the threshold and the two slices of
    the NTT constants *)
Record rescale_constants := { rc_gammas : list Z; rc_betas : list Z; rc_threshold : Z; rc_ntt_last : list ntt_constants; rc_ntt_remaining : list ntt_constants }.
Record rescale_kernel := { rk_moduli : list Z; rk_num : nat; rk_r : nat; rk_c : nat; rk_iterations : list rescale_constants }.

(** jnp.zeros(n).at[: len(l)].set(l), rescale.py:121-127 *)
Definition pad (n : nat) (l : list Z) : list Z := l ++ repeat 0 (n - length l).

(** rescale.py:116-145; [total] is len(self.moduli) *)
Fixpoint rescale_iterations (k total : nat) (full : list ntt_constants) (current : list Z) : option (list rescale_constants) :=
  match k with
  | O => Some []
  | S k' =>
      let n := length current in
      match gamma_beta_calculation current, rescale_iterations k' total full (removelast current) with
      | Some (gammas, betas), Some rest =>
          Some ({| rc_gammas := pad (total - 1) gammas; rc_betas := pad (total - 1) betas;
                   rc_threshold := (last current 0 + 1) / 2;
                   rc_ntt_last := firstn 1 (skipn (n - 1) full); rc_ntt_remaining := firstn (n - 1) full |} :: rest)
      | _, _ => None
      end
  end.
(** rescale.py:96-149; jnp.stack of an empty list is an error (line 147) *)
Definition rescale_precompute (moduli : list Z) (num_rescales r c : nat) : option rescale_kernel :=
  if (num_rescales =? 0)%nat then None
  else match ntt_precompute_constants moduli r c with
  | None => None
  | Some full =>
      match rescale_iterations num_rescales (length moduli) full moduli with
      | None => None
      | Some its => Some {| rk_moduli := moduli; rk_num := num_rescales; rk_r := r; rk_c := c; rk_iterations := its |}
      end
  end.

(** rescale.py:162-221, one iteration on one element of the ciphertext, an array with one column per current modulus.
    switched is an int64 (line 184-190), converted to uint64 in line 193. *)
Definition rescale_limbs (it : rescale_constants) (current : list Z) (data : array) : array :=
  let n := length current in
  let last_idx := (n - 1)%nat in
  let gammas := firstn last_idx (rc_gammas it) in
  let betas := firstn last_idx (rc_betas it) in
  let last_modulus := last current 0 in
  let remaining_moduli := removelast current in
  let last_limb := last data [] in
  let coeffs := match rc_ntt_last it with k :: _ => intt_accel k (map u32 last_limb) | [] => [] end in
  let switched i j := let c := nth j coeffs 0 in if c <? rc_threshold it then c else nth i remaining_moduli 0 - last_modulus + c in
  let reduced_twisted := tab last_idx (length last_limb) (fun i j => u32 (Model_scheme.u64 (Model_scheme.u64 (switched i j) * nth i gammas 0) mod nth i remaining_moduli 0)) in
  let ntt_result := ntt_accel_poly (rc_ntt_remaining it) reduced_twisted in
  tab last_idx (length last_limb) (fun i j =>
    let scaled := Model_scheme.u64 (ent data i j * nth i betas 0) in
    u32 (Model_scheme.u64 (scaled + ent ntt_result i j) mod nth i remaining_moduli 0)).
(** rescale.py:160-225.  An element whose number of columns differs from the number of moduli of the kernel is taken to be
    an error (the shapes do not broadcast, unless one of them has a single column). *)
Fixpoint rescale_loop (its : list rescale_constants) (current : list Z) (data : list array) : list Z * list array :=
  match its with
  | [] => (current, data)
  | it :: rest => rescale_loop rest (removelast current) (map (rescale_limbs it current) data)
  end.
(** rescale.py:151-225; the kernel is None before precompute_constants (line 153); the result is the updated ciphertext *)
Definition rescale (kernel : option rescale_kernel) (ct : ciphertext) : option ciphertext :=
  match kernel with
  | None => None
  | Some k =>
      if negb (forallb (fun A => (degree_of A =? rk_r k * rk_c k)%nat && (length A =? length (rk_moduli k))%nat) (ct_data ct)) then None
      else let '(moduli, data) := rescale_loop (rk_iterations k) (rk_moduli k) (ct_data ct) in
           Some {| ct_data := data; ct_moduli := moduli |}
  end.
