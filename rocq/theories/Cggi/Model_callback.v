(** Model of the observation of a bootstrap: the callback of bootstrap.py and the class MidBootstrapDecrypter of test_utils.py
    (both in jaxite/jaxite_cggi). *)
From Coq Require Import ZArith List Bool.
From Verif Require Import Base.Word Cggi.Model_encoding Cggi.Model_lwe Cggi.Model_decomposition Cggi.Model_key_switch.
From Verif Require Import Cggi.Model_rlwe Cggi.Model_test_polynomial Cggi.Model_bootstrap.
Import ListNotations.
Local Open Scope Z_scope.

(** a call of the callback: the name of the stage and its value (bootstrap.py:333-374) *)
Inductive event :=
| Initial (ct : list Z)
| ApproxCiphertext (ct : list Z)
| Rotated (ct : list (list Z))
| Extracted (ct : list Z)
| KeySwitched (ct : list Z).

(** [if callback: callback(...)]; a callback acts on a state and may raise ([None]) *)
Definition notify {W} (callback : option (event -> W -> option W)) (e : event) (w : W) : option W :=
  match callback with None => Some w | Some f => f e w end.

(** bootstrap.py:300-375, bootstrap, with its callback: the result ([None] when an exception was raised) and the state *)
Definition bootstrap_observed {W} (tpu : Z) (ciphertext : list Z) (test_poly : list (list Z)) (bsk : bootstrapping_key)
    (ksk : list (list (list Z))) (ks_p bs_p : decomp_params) (sp : scheme_params)
    (callback : option (event -> W -> option W)) (w : W) : option (list Z) * W :=
  match notify callback (Initial ciphertext) w with None => (None, w) | Some w1 =>
  let approx_ciphertext := switch_modulus ciphertext (log_plaintext_modulus sp) (log_mod_degree sp + 1) in
  match notify callback (ApproxCiphertext approx_ciphertext) w1 with None => (None, w1) | Some w2 =>
  match jit_blind_rotate tpu test_poly approx_ciphertext (bsk_bits bsk) (log_plaintext_modulus sp) bs_p
          (bsk_use_bmmp bsk) (bsk_use_bat bsk) with
  | None => (None, w2)
  | Some rotated =>
  match notify callback (Rotated rotated) w2 with None => (None, w2) | Some w3 =>
  let extracted := jit_sample_extract rotated (modulus_degree sp) in
  match notify callback (Extracted extracted) w3 with None => (None, w3) | Some w4 =>
  let key_switched := jit_switch_key ksk extracted (level_count ks_p) (log_base ks_p) in
  match notify callback (KeySwitched key_switched) w4 with None => (None, w4) | Some w5 =>
  (Some key_switched, w5) end end end end end end.

(** test_utils.py:93-111, MidBootstrapDecrypter: the keys and parameters it is given *)
Record decrypter := { md_sp : scheme_params; md_enc : enc_params; md_lwe : lwe_key; md_rlwe : rlwe_key }.
(** what it keeps and prints: starting_cleartext, and the lines DECRYPTION_FAILURE as (expected, got) with None for Python's None, oldest first.
    Simplification: the other lines it prints are left out. *)
Record report := { starting : option Z; failures : list (option Z * Z) }.

(** [callback_lut[starting_cleartext]]: an empty table or none at all stands for the identity; an index past the end, or None
    as an index, raises.  The cleartext is never negative. *)
Definition expected (lut : list Z) (start : option Z) : option (option Z) :=
  match lut, start with
  | [], _ => Some start
  | _, None => None
  | _, Some m => match nth_error lut (Z.to_nat m) with Some v => Some (Some v) | None => None end
  end.
(** [if expected != got: print("DECRYPTION_FAILURE ...")] *)
Definition compare (r : report) (want : option Z) (got : Z) : report :=
  if match want with Some v => v =? got | None => false end then r
  else {| starting := starting r; failures := failures r ++ [(want, got)] |}.

(** test_utils.py:119-259, decrypt *)
Definition mid_decrypt (d : decrypter) (lut : list Z) (e : event) (r : report) : option report :=
  match e with
  | Initial ct => Some {| starting := Some (decode (lwe_decrypt ct (md_lwe d) (md_enc d)) (md_enc d)); failures := failures r |}
  | ApproxCiphertext ct =>
      let log_output_modulus := log_mod_degree (md_sp d) + 1 in
      match mk_enc_params log_output_modulus (message_bits (md_enc d)) (padding_bits (md_enc d)) with
      | Some p =>
          Some (compare r (starting r) (decode (decrypt_without_denoising ct {| log_modulus := log_output_modulus; key_data := key_data (md_lwe d) |}) p))
      | None => None
      end
  | Rotated _ => Some r
  | Extracted ct =>
      match expected lut (starting r) with
      | None => None
      | Some want => Some (compare r want (decode (decrypt_without_denoising ct (flatten_key (md_rlwe d))) (md_enc d)))
      end
  | KeySwitched ct =>
      match expected lut (starting r) with
      | None => None
      | Some want => Some (compare r want (decode (decrypt_without_denoising ct (md_lwe d)) (md_enc d)))
      end
  end.
