(** Model of jaxite/jaxite_ckks/blind_rotate.py, of the key generation of key_gen.py:245-379 and of
    blind_rotate_utils.py:44-97.  None is an exception. *)
From Coq Require Import ZArith List Bool Zpow_facts.
From Verif Require Import Base.Lists Base.Egcd Ckks.Model_rns_utils Ckks.Model_barrett Ckks.Model_scheme Ckks.Model_ntt Ckks.Model_auto Ckks.Model_addmul Ckks.Model_basis Ckks.Model_rescale Ckks.Model_plan Ckks.Model_keyswitch.
Import ListNotations.
Local Open Scope Z_scope.

Local Notation u64 := Model_scheme.u64.
Local Notation u32 := Model_scheme.u32.

(** pow(5, -j, 2 * degree) (key_gen.py:288, blind_rotate.py:114): Python inverts 5 for a negative exponent *)
Definition rotation_exponent (j : Z) (degree : nat) : option Z :=
  let m := 2 * Z.of_nat degree in
  if 0 <? j then match Egcd.inverse 5 m with Some v => Some (Zpow_mod v j m) | None => None end
  else Some (Zpow_mod 5 (- j) m).

(** types.py:65-104 *)
Record hmuxrot_key := { hk_key0 : ciphertext; hk_key1 : ciphertext }.

(** key_gen.py:245-326, gen_hmuxrot_key; the draws of key0 and of key1 (uniform, gaussian).  Line 285 takes p_val * beta
    modulo a uint64 array: NumPy 2 raises OverflowError when the Python integer does not fit. *)
Definition gen_hmuxrot_key (sk : secret_key) (beta j : Z) (q_limbs p_limbs : list Z) (draws : array * array) (draws1 : array * array) (sk_ext : option secret_key) : option hmuxrot_key :=
  let degree := degree_of (sk_data sk) in
  let all_moduli := q_limbs ++ p_limbs in
  match (match sk_ext with None => extend_secret_key sk all_moduli | Some e => Some e end) with
  | None => None
  | Some ext =>
      let p_val := product p_limbs in
      if negb ((0 <=? p_val * beta) && (p_val * beta <? 2 ^ 64)) then None
      else
        match rotation_exponent j degree with
        | None => None
        | Some g =>
            match apply_automorphism_ntt (sk_data sk) g with
            | None => None
            | Some rot =>
                if negb (length rot =? length q_limbs)%nat then None
                else
                  let rot_beta := tab (length q_limbs) degree (fun i j => u64 (ent rot i j * beta) mod nth i q_limbs 0) in
                  match gen_key_switching_key {| sk_data := rot_beta; sk_moduli := sk_moduli sk |} sk q_limbs p_limbs 1 (fun _ => draws) (Some ext) with
                  | None => None
                  | Some ksk =>
                      let target1 := tab (length all_moduli) degree (fun i j => (p_val * beta) mod nth i all_moduli 0) in
                      match key_part all_moduli (sk_data ext) (fst draws1) (snd draws1) target1 with
                      | None => None
                      | Some (a1, b1) =>
                          Some {| hk_key0 := {| ct_data := [nth 0 (ek_b ksk) []; nth 0 (ek_a ksk) []]; ct_moduli := ek_moduli ksk |};
                                  hk_key1 := {| ct_data := [cast32 b1; cast32 a1]; ct_moduli := all_moduli |} |}
                      end
                  end
            end
        end
  end.

(** key_gen.py:329-379, gen_mux_rotation_key: the pair of keys of every bit; draws k b are the draws for bit k and the first
    (b = 0) or second (b = 1) key *)
Definition gen_mux_rotation_key (sk : secret_key) (secret_bits : list Z) (q_limbs p_limbs : list Z) (stride : Z) (draws : nat -> nat -> (array * array) * (array * array)) : option (list (hmuxrot_key * hmuxrot_key)) :=
  match extend_secret_key sk (q_limbs ++ p_limbs) with
  | None => None
  | Some ext =>
      sequence_opt (map (fun kb =>
        let '(k, bit) := kb in
        match gen_hmuxrot_key sk bit (2 ^ Z.of_nat k * stride) q_limbs p_limbs (fst (draws k 0%nat)) (snd (draws k 0%nat)) (Some ext),
              gen_hmuxrot_key sk (1 - bit) 0 q_limbs p_limbs (fst (draws k 1%nat)) (snd (draws k 1%nat)) (Some ext) with
        | Some h0, Some h1 => Some (h0, h1)
        | _, _ => None
        end) (combine (seq 0 (length secret_bits)) secret_bits))
  end.

(** blind_rotate.py:31-103, class BlindRotation and its precompute_constants *)
Record blind_rotation := { br_switcher : key_switcher; br_bc : list basis_constants; br_mul : option (list barrett_constants); br_rescale : option rescale_kernel;
                           br_ntt_q : list ntt_constants; br_ntt_p : list ntt_constants }.
Definition blind_rotation_precompute (q_limbs p_limbs : list Z) (dnum r c num_rescales : nat) : option blind_rotation :=
  let all_moduli := q_limbs ++ p_limbs in
  match ntt_kernel q_limbs r c, ntt_kernel p_limbs r c, key_switcher_precompute q_limbs p_limbs dnum r c,
        basis_precompute_constants all_moduli (switch_plans (length q_limbs) (length p_limbs) dnum), rescale_precompute all_moduli num_rescales r c with
  | Some nq, Some np, Some sw, Some bc, Some rk =>
      Some {| br_switcher := sw; br_bc := bc; br_mul := Some (precompute_constants all_moduli); br_rescale := Some rk; br_ntt_q := nq; br_ntt_p := np |}
  | _, _, _, _, _ => None
  end.

(** blind_rotate.py:105-170, hmuxrot *)
Definition hmuxrot (K : blind_rotation) (ct : ciphertext) (key : hmuxrot_key) (j : Z) (p_limbs : list Z) (control_index : nat) : option ciphertext :=
  let c0 := static_index (ct_data ct) 0 [] in
  let c1 := static_index (ct_data ct) 1 [] in
  match rotation_exponent j (degree_of c0) with
  | None => None
  | Some g =>
      match apply_automorphism_ntt c1 g, apply_automorphism_ntt c0 g with
      | Some alpha_rot, Some beta_rot =>
          let zeros := tab (length alpha_rot) (degree_of alpha_rot) (fun _ _ => 0) in
          let part k := {| ek_a := firstn 1 (skipn 1 (ct_data k)); ek_b := firstn 1 (ct_data k); ek_moduli := ct_moduli k |} in
          match key_switch (br_switcher K) {| ct_data := [zeros; alpha_rot]; ct_moduli := ct_moduli ct |} (part (hk_key0 key)) p_limbs (br_bc K) (br_mul K) control_index,
                key_switch (br_switcher K) {| ct_data := [zeros; beta_rot]; ct_moduli := ct_moduli ct |} (part (hk_key1 key)) p_limbs (br_bc K) (br_mul K) control_index with
          | Some prod0, Some prod1 =>
              let all_moduli := ct_moduli prod0 in
              let sum A B := tab (length all_moduli) (degree_of A) (fun i j => u32 (u64 (ent A i j + ent B i j) mod nth i all_moduli 0)) in
              rescale (br_rescale K) {| ct_data := map (fun p => sum (fst p) (snd p)) (combine (ct_data prod0) (ct_data prod1)); ct_moduli := all_moduli |}
          | _, _ => None
          end
      | _, _ => None
      end
  end.

(** blind_rotate.py:172-232, brot_mux *)
Definition brot_mux (K : blind_rotation) (ct_in : ciphertext) (keys : list (hmuxrot_key * hmuxrot_key)) (p_limbs : list Z) (control_index : nat) (stride : Z) : option ciphertext :=
  fold_left (fun acc kp =>
    match acc with
    | None => None
    | Some ct_out =>
        let '(k, (h0, h1)) := kp in
        match hmuxrot K ct_out h0 (2 ^ Z.of_nat k * stride) p_limbs control_index, hmuxrot K ct_out h1 0 p_limbs control_index with
        | Some ct0, Some ct1 =>
            let moduli := ct_moduli ct0 in
            let add A B := tab (length moduli) (degree_of A) (fun i j => let s := u64 (ent A i j + ent B i j) in let m := nth i moduli 0 in u32 (if m <=? s then u64 (s - m) else s)) in
            Some {| ct_data := map (fun p => add (fst p) (snd p)) (combine (ct_data ct0) (ct_data ct1)); ct_moduli := moduli |}
        | _, _ => None
        end
    end) (combine (seq 0 (length keys)) keys) (Some ct_in).

(** blind_rotate.py:234-279, brot_cm.  jnp.stack requires equal shapes; the moduli of the first ciphertext and of the first
    plaintext are compared by shape here and by value in mul.  The sum over the batch is in uint64. *)
Definition brot_cm (K : blind_rotation) (cmkey : list ciphertext) (pts : list plaintext) : option ciphertext :=
  if negb (length cmkey =? length pts)%nat then None
  else match cmkey, pts with
  | key0 :: _, pt0 :: _ =>
      if negb (length (ct_moduli key0) =? length (pt_moduli pt0))%nat then None
      else
        let elements := length (ct_data key0) in
        let k := length (ct_moduli key0) in
        let n := degree_of (nth 0 (ct_data key0) []) in
        if negb (forallb (fun ct => (length (ct_data ct) =? elements)%nat && forallb (shaped_as k n) (ct_data ct)) cmkey) || negb (forallb (fun pt => shaped_as k n (pt_data pt)) pts) then None
        else match br_mul K with
        | None => None
        | Some cs =>
            if negb (list_eqb (ct_moduli key0) (pt_moduli pt0)) then None
            else
              let prod ct pt := map (fun A => zip_entries (fun i a b => u32' (modular_reduction (Model_barrett.u64 (a * b)) (nth i cs no_constants))) A (pt_data pt)) (ct_data ct) in
              let prods := map (fun p => prod (fst p) (snd p)) (combine cmkey pts) in
              let sum e i j := fold_left (fun acc P => u64 (acc + ent (nth e P []) i j)) prods 0 in
              rescale (br_rescale K) {| ct_data := map (fun e => tab k n (fun i j => u32 (modular_reduction (sum e i j) (nth i cs no_constants)))) (seq 0 elements); ct_moduli := ct_moduli key0 |}
        end
  | _, _ => None
  end.

(** blind_rotate_utils.py:44-97, lift_ciphertext *)
Definition lift_ciphertext (ct : ciphertext) (bc_kernel : list basis_constants) (control_index : nat) (p_limbs : list Z) (ntt_q ntt_p : list ntt_constants) (r c : nat) : option ciphertext :=
  if negb (forallb (shaped_as (length ntt_q) (r * c)) (ct_data ct)) then None
  else
    match sequence_opt (map (fun A =>
        match basis_change bc_kernel (intt_accel_poly ntt_q A) control_index with
        | None => None
        | Some conv => if negb (length conv =? length p_limbs)%nat || negb (length ntt_p =? length p_limbs)%nat then None else Some (A ++ ntt_accel_poly ntt_p conv)
        end) (ct_data ct)) with
    | None => None
    | Some data => Some {| ct_data := data; ct_moduli := map u32 (ct_moduli ct ++ p_limbs) |}
    end.
