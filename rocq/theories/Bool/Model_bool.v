(** Model of jaxite/jaxite_bool/bool_params.py and jaxite_bool.py.  [None] is an exception; [tpu] is the platform.
    Keys are built from explicit randomness.  Look-up tables are taken from their uncached definition; that the cache is
    transparent is property C19. *)
From Coq Require Import ZArith List Bool String.
From Verif Require Import Base.Word Cggi.Model_encoding Cggi.Model_lwe Cggi.Model_decomposition Cggi.Model_key_switch.
From Verif Require Import Cggi.Model_rlwe Cggi.Model_test_polynomial Cggi.Model_bootstrap Bool.Model_lut.
Import ListNotations.
Local Open Scope Z_scope.

(** bool_params.py:17-41, class Parameters *)
Record bool_params := { scheme : scheme_params; ks_decomp : decomp_params; bs_decomp : decomp_params }.

(** decomposition.py: DecompositionParameters(log_base, level_count), total 32 bits by default *)
Definition mk_decomp (b : Z) (L : nat) : decomp_params := {| log_base := b; level_count := L; decomp_total := 32 |}.

(** bool_params.py:74-80,108-124 *)
Definition params_128 : bool_params :=
  {| scheme := {| lwe_dimension := 800; plaintext_modulus := 4294967296; rlwe_dimension := 2; modulus_degree := 512 |};
     ks_decomp := mk_decomp 4 5; bs_decomp := mk_decomp 4 6 |}.
(** bool_params.py:127-131,142-153 *)
Definition params_test : bool_params :=
  {| scheme := {| lwe_dimension := 4; plaintext_modulus := 2 ^ 32; rlwe_dimension := 1; modulus_degree := 512 |};
     ks_decomp := mk_decomp 4 8; bs_decomp := mk_decomp 4 8 |}.

(** bool_params.py:43-57, _noiseless_embedding, noiseless_true, noiseless_false *)
Definition noiseless (pr : bool_params) (cleartext : Z) : option (list Z) :=
  match encode cleartext ENCODING_PARAMS false with
  | None => None
  | Some pt => Some (noiseless_embedding pt (lwe_dimension (scheme pr)))
  end.
Definition noiseless_true (pr : bool_params) := noiseless pr CLEARTEXT_TRUE.
Definition noiseless_false (pr : bool_params) := noiseless pr CLEARTEXT_FALSE.

(** jaxite_bool.py:26-44, class ClientKeySet; the keys produced by lwe.gen_key (lwe.py:37-45) and rlwe.gen_key carry the
    scheme's plaintext modulus *)
Record client_key_set := { lwe_sk : lwe_key; rlwe_sk : rlwe_key }.
Definition client_keys (pr : bool_params) (ls : list Z) (rs : list (list Z)) : client_key_set :=
  {| lwe_sk := {| log_modulus := log_plaintext_modulus (scheme pr); key_data := ls |};
     rlwe_sk := {| rk_log := log_plaintext_modulus (scheme pr); rk_degree := modulus_degree (scheme pr); rk_data := rs |} |}.

(** jaxite_bool.py:47-81, class ServerKeySet *)
Record server_key_set := { sk_bsk : bootstrapping_key; sk_ksk : list (list (list Z)) }.
Definition server_keys (tpu : Z) (ck : client_key_set) (pr : bool_params)
    (bai : list (list (list (list (list Z))))) (bes : list (list (list Z))) (kai : list (list (list Z))) (kes : list (list Z))
  : option server_key_set :=
  match gen_bootstrapping_key tpu (key_data (lwe_sk ck)) (rlwe_sk ck) (bs_decomp pr) bai bes true false with
  | None => None
  | Some bsk => Some {| sk_bsk := bsk; sk_ksk := ksk_gen (ks_decomp pr) (flatten_key (rlwe_sk ck)) (lwe_sk ck) kai kes |}
  end.

(** jaxite_bool.py:84-90 *)
Definition bool_encrypt (value : bool) (ck : client_key_set) (ai : list Z) (e : Z) : option (list Z) :=
  match encode (if value then CLEARTEXT_TRUE else CLEARTEXT_FALSE) ENCODING_PARAMS false with
  | None => None
  | Some pt => Some (lwe_encrypt pt (lwe_sk ck) ai e)
  end.

(** jaxite_bool.py:93-100; the assertion failure is [None] *)
Definition bool_decrypt (ct : list Z) (ck : client_key_set) : option bool :=
  let cleartext := decode (lwe_decrypt ct (lwe_sk ck) ENCODING_PARAMS) ENCODING_PARAMS in
  if cleartext =? CLEARTEXT_UNUSED then None else Some (negb (cleartext =? 0)).

(** jaxite_bool.py:103-104 *)
Definition bool_constant (value : bool) (pr : bool_params) : option (list Z) := if value then noiseless_true pr else noiseless_false pr.

(** jaxite_bool.py:107-111 *)
Definition not_ (ct : list Z) (pr : bool_params) : option (list Z) :=
  match noiseless_true pr with None => None | Some t => Some (vsub32 t ct) end.

(** the call of bootstrap.bootstrap shared by all gates, e.g. jaxite_bool.py:121-131; the callback only observes *)
Definition run_bootstrap (tpu : Z) (ct : list Z) (test_poly : option (list (list Z))) (sk : server_key_set) (pr : bool_params)
  : option (list Z) :=
  match test_poly with
  | None => None
  | Some tp => bootstrap tpu ct tp (sk_bsk sk) (sk_ksk sk) (ks_decomp pr) (bs_decomp pr) (scheme pr)
  end.

(** 2 * x + y and 4 * x + 2 * y + z on uint32 arrays *)
Definition comb2 (x y : list Z) : list Z := vadd32 (vscale32 2 x) y.
Definition comb3 (x y z : list Z) : list Z := vadd32 (vadd32 (vscale32 4 x) (vscale32 2 y)) z.

(** jaxite_bool.py:114-311: and_ 114, andny_ 134, andyn_ 154, or_ 174, orny_ 194, oryn_ 214, nand_ 234, nor_ 254, xor_ 274,
    xnor_ 294; the ten functions differ in the table name only *)
Definition gate2 (name : string) (tpu : Z) (lhs rhs : list Z) (sk : server_key_set) (pr : bool_params) : option (list Z) :=
  run_bootstrap tpu (comb2 lhs rhs) (lut_poly_by_name tpu (scheme pr) name) sk pr.
Definition and_ := gate2 "and".
Definition andny_ := gate2 "andny".
Definition andyn_ := gate2 "andyn".
Definition or_ := gate2 "or".
Definition orny_ := gate2 "orny".
Definition oryn_ := gate2 "oryn".
Definition nor_ := gate2 "nor".
Definition nand_ := gate2 "nand".
Definition xor_ := gate2 "xor".
Definition xnor_ := gate2 "xnor".

(** jaxite_bool.py:314-329 *)
Definition lut1 (a : list Z) (tb : Z) (pr : bool_params) : option (list Z) :=
  if (tb =? 0) || (tb =? 3) then bool_constant (negb (tb =? 0)) pr
  else if tb =? 1 then not_ a pr
  else if tb =? 2 then Some a
  else None.

(** jaxite_bool.py:332-371 *)
Definition lut2 (tpu : Z) (a b : list Z) (tb : Z) (sk : server_key_set) (pr : bool_params) : option (list Z) :=
  run_bootstrap tpu (comb2 b a) (lut_poly tpu (scheme pr) 2 tb) sk pr.

(** jaxite_bool.py:374-415 *)
Definition lut3 (tpu : Z) (a b c : list Z) (tb : Z) (sk : server_key_set) (pr : bool_params) : option (list Z) :=
  run_bootstrap tpu (comb3 c b a) (lut_poly tpu (scheme pr) 3 tb) sk pr.

(** jaxite_bool.py:418-426 *)
Definition cmux_ (tpu : Z) (v1 v0 ctrl : list Z) (sk : server_key_set) (pr : bool_params) : option (list Z) :=
  match lut_by_name "cmux" with
  | None => None
  | Some t => lut3 tpu ctrl v0 v1 (truth_table t) sk pr
  end.

(** bootstrap.py:232-297, jit_bootstrap with the default flags used by the pmapped functions (bmmp, no BAT) *)
Definition jit_bootstrap (tpu : Z) (ct : list Z) (tp : list (list Z)) (bits : list rgsw_data) (ksk : list (list (list Z)))
    (ks_p bs_p : decomp_params) (sp : scheme_params) : option (list Z) :=
  bootstrap tpu ct tp {| bsk_bits := bits; bsk_use_bmmp := true; bsk_use_bat := false |} ksk ks_p bs_p sp.

(** all or nothing: a Python exception in one element aborts the whole call *)
Fixpoint sequence {A} (l : list (option A)) : option (list A) :=
  match l with
  | [] => Some []
  | None :: _ => None
  | Some x :: rest => match sequence rest with None => None | Some r => Some (x :: r) end
  end.

(** jax.pmap over a leading axis: between one element and one per device *)
Definition pmap {A B} (devices : nat) (f : A -> option B) (l : list A) : option (list B) :=
  if ((List.length l =? 0)%nat || (devices <? List.length l)%nat)%bool then None else sequence (map f l).

(** jaxite_bool.py:429-488, pmap_lut3_impl and pmap_lut3 *)
Definition pmap_lut3 (tpu : Z) (devices : nat) (inputs : list (list Z * list Z * list Z * Z)) (sk : server_key_set) (pr : bool_params)
  : option (list (list Z)) :=
  match sequence (map (fun v => lut_poly tpu (scheme pr) 3 (snd v)) inputs) with
  | None => None
  | Some polys =>
      pmap devices (fun vp : (list Z * list Z * list Z * Z) * list (list Z) =>
        match vp with (((a, b, c), _), tp) =>
          jit_bootstrap tpu (comb3 c b a) tp (bsk_bits (sk_bsk sk)) (sk_ksk sk) (ks_decomp pr) (bs_decomp pr) (scheme pr)
        end) (combine inputs polys)
  end.
(** jaxite_bool.py:491-547, pmap_lut2_impl and pmap_lut2 *)
Definition pmap_lut2 (tpu : Z) (devices : nat) (inputs : list (list Z * list Z * Z)) (sk : server_key_set) (pr : bool_params)
  : option (list (list Z)) :=
  match sequence (map (fun v => lut_poly tpu (scheme pr) 2 (snd v)) inputs) with
  | None => None
  | Some polys =>
      pmap devices (fun vp : (list Z * list Z * Z) * list (list Z) =>
        match vp with (((a, b), _), tp) =>
          jit_bootstrap tpu (comb2 b a) tp (bsk_bits (sk_bsk sk)) (sk_ksk sk) (ks_decomp pr) (bs_decomp pr) (scheme pr)
        end) (combine inputs polys)
  end.
