(** Model of jaxite/jaxite_ckks/mul.py:118-572, class Mul (ciphertext multiplication and relinearisation), without injected
    kernels and without leading batch axes.  None is an exception. *)
From Coq Require Import ZArith List Bool.
From Verif Require Import Base.Lists Base.Egcd Ckks.Model_rns_utils Ckks.Model_barrett Ckks.Model_scheme Ckks.Model_ntt Ckks.Model_addmul Ckks.Model_basis Ckks.Model_plan Ckks.Model_keyswitch.
Import ListNotations.
Local Open Scope Z_scope.

Local Notation u64 := Model_scheme.u64.
Local Notation u32 := Model_scheme.u32.

(** the state after precompute_constants *)
Record mul_kernel := {
  mk_drop_last : list Z; mk_extend : list Z; mk_r : nat; mk_c : nat;
  mk_parts : list (list nat * list nat);       (* ks_select_... and ks_non_select_tower_index_overall *)
  mk_restore : list (list nat);                (* ks_restore_indices *)
  mk_bconv : list basis_constants;
  mk_ntt_current : list ntt_constants; mk_ntt_extend : list ntt_constants; mk_ntt_parts : list (list ntt_constants);
  mk_p_inv : list Z;                           (* PInvModq *)
  mk_full_barrett : list barrett_constants }.

(** mul.py:198-359, precompute_constants; composite_degree 0 leaves no modulus (original_moduli[:-0]), so that line 166
    divides by zero; a negative one is not modelled *)
Definition mul_precompute (original_moduli extend_moduli : list Z) (dnum r c composite_degree : nat) : option mul_kernel :=
  let drop_last := if (composite_degree =? 0)%nat then [] else firstn (length original_moduli - composite_degree) original_moduli in
  if negb (forallb (fun m => m <? 2 ^ 31) drop_last && forallb (fun m => m <? 2 ^ 31) extend_moduli) then None
  else
    let all_moduli := drop_last ++ extend_moduli in
    match compute_control_indices (length drop_last) (length extend_moduli) dnum with
    | None => None
    | Some control_indices =>
        let parts := tl control_indices in
        let p_prod := product extend_moduli in
        match basis_precompute_constants all_moduli control_indices, ntt_kernel all_moduli r c, sequence_opt (map (fun q => Egcd.inverse p_prod q) drop_last) with
        | Some bconv, Some full_ntt, Some p_inv =>
            Some {| mk_drop_last := drop_last; mk_extend := extend_moduli; mk_r := r; mk_c := c;
                    mk_parts := parts; mk_restore := map (fun p => restore_index (fst p ++ snd p)) parts;
                    mk_bconv := bconv;
                    mk_ntt_current := firstn (length drop_last) full_ntt;
                    mk_ntt_extend := firstn (length extend_moduli) (skipn (length drop_last) full_ntt);
                    mk_ntt_parts := map (fun p => flat_map (fun i => match nth_error full_ntt i with Some k => [k] | None => [] end) (snd p)) parts;
                    mk_p_inv := p_inv;
                    mk_full_barrett := precompute_constants all_moduli |}
        | _, _, _ => None
        end
    end.

(** mul.py:361-378, tensor_multiply; the kernel is None before precompute_constants *)
Definition tensor_multiply (K : option mul_kernel) (ct1 ct2 : ciphertext) : option ciphertext :=
  match K with
  | None => None
  | Some _ =>
      let a0 := static_index (ct_data ct1) 0 [] in
      let a1 := static_index (ct_data ct1) 1 [] in
      let b0 := static_index (ct_data ct2) 0 [] in
      let b1 := static_index (ct_data ct2) 1 [] in
      let moduli := ct_moduli ct1 in
      let k := length moduli in
      let n := degree_of a0 in
      if negb (forallb (shaped_as k n) [a0; a1; b0; b1]) then None
      else Some {| ct_data := [tab k n (fun i j => u32 (u64 (ent a0 i j * ent b0 i j) mod nth i moduli 0));
                               tab k n (fun i j => u32 (u64 (u64 (ent a0 i j * ent b1 i j) + u64 (ent a1 i j * ent b0 i j)) mod nth i moduli 0));
                               tab k n (fun i j => u32 (u64 (ent a1 i j * ent b1 i j) mod nth i moduli 0))];
                   ct_moduli := moduli |}
  end.

(** mul.py:452-486, one part of the third element, on all moduli *)
Definition mul_extend_part (K : mul_kernel) (last_coeffs last_ele : array) (part : nat) : option array :=
  let '(select, non_select) := nth part (mk_parts K) ([], []) in
  match basis_change (mk_bconv K) (pick [] last_coeffs select) (part + 1) with
  | None => None
  | Some conv =>
      let compl := ntt_accel_poly (nth part (mk_ntt_parts K) []) (cast32 conv) in
      Some (pick [] (pick [] last_ele select ++ compl) (nth part (mk_restore K) []))
  end.

(** mul.py:489-508, product with a part of the key, unreduced accumulation in uint64 *)
Definition mul_accumulate (K : mul_kernel) (num n : nat) (ext key_part : array) (acc : option array) : array :=
  let prod i j := modular_reduction (u64 (ent ext i j * ent key_part i j)) (nth i (mk_full_barrett K) no_constants) in
  match acc with
  | None => tab num n prod
  | Some acc => tab num n (fun i j => u64 (ent acc i j + prod i j))
  end.

(** mul.py:449-512 *)
Definition mul_key_switch (K : mul_kernel) (evk : evaluation_keys) (num n : nat) (last_coeffs last_ele : array) : option (array * array) :=
  match fold_left (fun acc part =>
      match acc with
      | None => None
      | Some (r0, r1) =>
          match mul_extend_part K last_coeffs last_ele part with
          | None => None
          | Some ext => Some (Some (mul_accumulate K num n ext (static_index (ek_b evk) part []) r0), Some (mul_accumulate K num n ext (static_index (ek_a evk) part []) r1))
          end
      end) (seq 0 (length (mk_parts K))) (Some (None, None)) with
  | Some (Some r0, Some r1) =>
      let red A := tab num n (fun i j => modular_reduction (ent A i j) (nth i (mk_full_barrett K) no_constants)) in
      Some (red r0, red r1)
  | _ => None
  end.

(** mul.py:519-566, the approximate modulus reduction of one element of the key switch result *)
Definition approx_mod_down (K : mul_kernel) (n : nat) (res : array) : option array :=
  let nq := length (mk_drop_last K) in
  let np := length (mk_extend K) in
  let p_part := firstn np (skipn nq res) in
  match basis_change (mk_bconv K) (intt_accel_poly (mk_ntt_extend K) (cast32 p_part)) 0 with
  | None => None
  | Some conv =>
      let new_basis := ntt_accel_poly (mk_ntt_current K) (cast32 conv) in
      Some (tab nq n (fun i j =>
        let m := nth i (mk_drop_last K) 0 in
        let q := ent res i j in
        let b := ent new_basis i j in
        let sub := if q <? b then u32 (u32 (q + m) - b) else u32 (q - b) in
        u64 (sub * nth i (mk_p_inv K) 0) mod m))
  end.

(** mul.py:380-572, relinearize; fewer than three elements are taken to be an error *)
Definition relinearize (K : option mul_kernel) (ct : ciphertext) (evk : evaluation_keys) : option ciphertext :=
  match K with
  | None => None
  | Some K =>
      let nq := length (mk_drop_last K) in
      let num := (nq + length (mk_extend K))%nat in
      let n := (mk_r K * mk_c K)%nat in
      match ct_data ct with
      | c0 :: c1 :: last_ele :: _ =>
          if negb (forallb (shaped_as nq n) [c0; c1; last_ele]) || negb (forallb (shaped_as num n) (ek_a evk)) || negb (forallb (shaped_as num n) (ek_b evk))
             || (length (ek_a evk) =? 0)%nat || (length (ek_b evk) =? 0)%nat then None
          else
            let last_coeffs := intt_accel_poly (mk_ntt_current K) (cast32 last_ele) in
            match mul_key_switch K evk num n last_coeffs last_ele with
            | None => None
            | Some (r0, r1) =>
                match approx_mod_down K n r0, approx_mod_down K n r1 with
                | Some d0, Some d1 =>
                    let add C D := tab nq n (fun i j =>
                      let m := nth i (mk_drop_last K) 0 in
                      let result := u32 (ent C i j + u32 (ent D i j)) in
                      if m <=? result then u32 (result - m) else result) in
                    Some {| ct_data := [add c0 d0; add c1 d1]; ct_moduli := ct_moduli ct |}
                | _, _ => None
                end
            end
      | _ => None
      end
  end.
